(** Model of the dimensionless numbers of ns3d and ns3d.strat (fluidsim/solvers/ns3d/output/spatial_means.py 332-408 and
    443-450, fluidsim/solvers/ns3d/strat/output/spatial_means.py 382-408) and of the ratio of the frequencies of ns2d.strat
    (fluidsim/solvers/ns2d/strat/output/__init__.py 137-186).

    Simplifications: exact real numbers; the arrays are the lists of their values; the dictionaries are functions from the
    keys or association lists in the order of the insertions; a mean of nothing (nan) is None. *)
From Coq Require Import String Reals List Bool Arith.
Import ListNotations.
Local Open Scope R_scope.

(** ** Numbers and arrays *)

(** x ** y for x >= 0 and y > 0 *)
Definition power (x y : R) : R := if Rlt_dec 0 x then Rpower x y else 0.

(** elementwise operations of arrays of same length *)
Definition zip (f : R -> R -> R) (a b : list R) : list R := map (fun p => f (fst p) (snd p)) (combine a b).
Definition add := zip Rplus.
Definition sub := zip Rminus.
Definition mul := zip Rmult.
Definition div := zip Rdiv.

(** bool(x) of a number *)
Definition truth (x : R) : bool := if Req_EM_T x 0 then false else true.

(** ** The parameters *)
Record params := mkParams { nu_2 : R; nu_4 : R; nu_8 : R; p_N : R; Lz : R; nz : nat; coef_dealiasing : R }.

(** 358-360 and 402-406 *)
Definition k_max (p : params) : R :=
  let delta_kz := 2 * PI / Lz p in coef_dealiasing p * delta_kz * INR (nz p) / 2.

(** ** versus time, ns3d *)

(** the results of load *)
Definition data := string -> option (list R).
(** None: KeyError *)
Definition bind {A B} (o : option A) (f : A -> option B) : option B := match o with None => None | Some a => f a end.
Notation "'do' x <- o ; e" := (bind o (fun x => e)) (at level 200, x name, o at level 100, e at level 200).

Record numbers := mkNumbers { times : list R; dimless : list (string * list R); dimensional : list (string * list R) }.

(** 338-347: (EKh, EKz) *)
Definition energies (d : data) : option (list R * list R) :=
  match d "Ex"%string, d "Ey"%string, d "Ez"%string with
  | Some ex, Some ey, Some ez => Some (add ex ey, ez)
  | _, _, _ =>
      do hr <- d "EKhr"%string; do hd <- d "EKhd"%string; do hs <- d "EKhs"%string; do z <- d "EKz"%string;
      Some (add (add hr hd) hs, z)
  end.

(** 350, 363-366: [x] is added to epsK_hyper if the viscosity is not zero *)
Definition add_if (nu : R) (d : data) (key : string) (acc : list R) : option (list R) :=
  if truth nu then do x <- d key; Some (add acc x) else Some acc.

Definition eta (p : params) (epsK : list R) : list R := map (fun e => power (nu_2 p ^ 3 / e) (1 / 4)) epsK.

Definition versus_time (p : params) (d : data) : option numbers :=
  do t <- d "t"%string;
  do e <- energies d;
  let EKh := fst e in let Uh2 := fst e in let EKz := snd e in
  do epsK <- d "epsK"%string;
  do h4 <- add_if (nu_4 p) d "epsK4"%string (map (fun _ => 0) epsK);
  do hyper <- add_if (nu_8 p) d "epsK8"%string h4;
  let ratio := if truth (nu_4 p) || truth (nu_8 p) then div (sub epsK hyper) epsK else map (fun _ => 1) epsK in
  Some (mkNumbers t
    (if truth (nu_2 p) then [("k_max*eta"%string, map (Rmult (k_max p)) (eta p epsK)); ("epsK2/epsK"%string, ratio)] else [])
    ([("Uh2"%string, Uh2); ("epsK"%string, epsK); ("EKh"%string, EKh); ("EKz"%string, EKz)]
       ++ if truth (nu_2 p) then [("eta"%string, eta p epsK)] else [])).

(** ** versus time, ns3d.strat 382-408 *)
Definition when (b : bool) {A} (l : list A) : list A := if b then l else [].

Definition versus_time_strat (p : params) (d : data) : option numbers :=
  do r <- versus_time p d;
  do epsA <- d "epsA"%string;
  do EA <- d "EA"%string;
  do epsK <- d "epsK"%string;
  do e <- energies d;
  let Uh2 := fst e in
  let N := p_N p in
  Some (mkNumbers (times r)
    (dimless r
       ++ [("Fh"%string, div epsK (map (fun u => u * N) Uh2))]
       ++ when (truth (nu_2 p)) [("R2"%string, map (fun e => e / (nu_2 p * N ^ 2)) epsK)]
       ++ when (truth (nu_4 p)) [("R4"%string, map (fun x => x / (nu_4 p * N ^ 4)) (mul epsK Uh2))]
       ++ when (truth (nu_8 p)) [("R8"%string, map (fun x => x / (nu_8 p * N ^ 8)) (mul epsK (map (fun u => u ^ 3) Uh2)))]
       ++ [("Gamma"%string, div epsA epsK)])
    (dimensional r ++ [("epsA"%string, epsA); ("EA"%string, EA)])).

(** ** averaged *)

(** abs(times - t).argmin(): the first of the nearest ones *)
Fixpoint argmin_from (best : R) (ibest i : nat) (l : list R) : nat :=
  match l with
  | [] => ibest
  | x :: l => if Rlt_dec x best then argmin_from x i (S i) l else argmin_from best ibest (S i) l
  end.
Definition argmin (l : list R) : nat := match l with [] => 0%nat | x :: l => argmin_from x 0 1 l end.
Definition nearest (ts : list R) (t : R) : nat := argmin (map (fun x => Rabs (x - t)) ts).

(** 443-450 *)
Definition indices (ts : list R) (tmin : R) (tmax : option R) : nat * nat :=
  (nearest ts tmin, match tmax with None => (length ts - 1)%nat | Some t => nearest ts t end).

(** q[start:stop] *)
Definition slice (start stop : nat) (q : list R) : list R := firstn (stop - start) (skipn start q).
Fixpoint sum (l : list R) : R := match l with [] => 0 | x :: l => x + sum l end.
Definition mean (l : list R) : option R := match l with [] => None | _ => Some (sum l / INR (length l)) end.

(** 385-408 *)
Definition averaged (p : params) (r : numbers) (tmin : R) (tmax : option R) : list (string * option R) * list (string * option R) :=
  let '(itmin, itmax) := indices (times r) tmin tmax in
  let stop := S itmax in
  let av := map (fun kq : string * list R => (fst kq, mean (slice itmin stop (snd kq)))) in
  (av (dimless r), av (dimensional r) ++ [("k_max"%string, Some (k_max p))]).

(** result[key] *)
Definition lookup {A} (key : string) (l : list (string * A)) : option A :=
  option_map snd (find (fun kv => String.eqb (fst kv) key) l).

(** ** ns2d.strat: the ratio of the frequencies *)

(** 137-149: a number in radians, or a string of degrees *)
Inductive angle := Radians (x : R) | Degrees (x : R) | OtherString.
Definition froude_number (a : angle) : option R :=
  match a with Radians x => Some (sin x) | Degrees x => Some (sin (x * (PI / 180))) | OtherString => None end.

Record forcing := mkForcing { forcing_rate : R; nkmin : R; nkmax : R; key_forced : option string; constant_rate_of : option string }.

(** 151-186, None: ValueError; a rate is positive *)
Definition omega_af (f : forcing) (Lx Ly : R) : option R :=
  let deltak := Rmax (2 * PI / Lx) (2 * PI / Ly) in
  let k_f := (nkmax f + nkmin f) / 2 * deltak in
  let l_f := 2 * PI / k_f in
  match constant_rate_of f with
  | None =>
      match key_forced f with
      | None => Some (Rpower (forcing_rate f) (1 / 3))
      | Some k =>
          if String.eqb k "rot_fft" then Some (Rpower (forcing_rate f) (1 / 3))
          else if String.eqb k "ap_fft" then Some (Rpower (forcing_rate f) (1 / 7) * Rpower l_f (- (2 / 7)))
          else None
      end
  | Some c =>
      if String.eqb c "energy" || String.eqb c "energyK" then Some (Rpower (forcing_rate f) (1 / 3) * Rpower l_f (- (2 / 3)))
      else None
  end.
Definition ratio_omegas (N froude : R) (f : forcing) (Lx Ly : R) : option R :=
  match omega_af f Lx Ly with None => None | Some w => Some (N * froude / (2 * PI) / w) end.
