(** * Forcing: model of fluidsim/base/forcing/base.py and specific.py

    Numbers are exact reals.  The coarse arrays are lists of modes with the weight given to the mode
    by sum_wavenumbers (fluidfft), the forced variable and the forcing at this mode. *)

From Coq Require Import Reals List Bool.
From Coquelicot Require Import Complex.
Import ListNotations.
Local Open Scope R_scope.

Definition ltb (a b : R) : bool := if Rlt_dec a b then true else false.
Definition leb (a b : R) : bool := if Rle_dec a b then true else false.
Definition eqb (a b : R) : bool := if Req_EM_T a b then true else false.

(** ** ForcingBase.compute, base/forcing/base.py 134 and 143-147 *)

Section Compute.
Variable S : Type.
(** forcing_maker.compute() at a time *)
Variable maker : R -> S -> S.

(** [last]: _t_last_computed, None is minus infinity *)
Record forcing := mkForcing { last : option R; maker_state : S }.

Definition compute (time : R) (f : forcing) : forcing :=
  if match last f with None => true | Some a => ltb a time end
  then mkForcing (Some time) (maker time (maker_state f)) else f.
End Compute.

(** ** NormalizedForcing, base/forcing/specific.py 428-725 *)

Record mode := mkMode { w : R; u : C; f : C }.

(** oper.sum_wavenumbers of a real array *)
Definition sum_wavenumbers (l : list mode) (g : mode -> R) : R :=
  fold_right (fun m s => w m * g m + s) 0 l.

Definition abs2 (z : C) : R := fst z * fst z + snd z * snd z.
(** real part of conj(a) * b *)
Definition dotc (a b : C) : R := fst a * fst b + snd a * snd b.

Inductive root := MinAbs | First | Second | Positive.

(** numpy.roots of [a, b, c] with [a] different from 0: the two roots, in an order which is not
    documented; complex roots are not modelled (None) *)
Definition np_roots (order : R -> R -> R -> bool) (a b c : R) : option (R * R) :=
  let disc := b * b - 4 * a * c in
  if ltb disc 0 then None
  else
    let plus := (- b + sqrt disc) / (2 * a) in
    let minus := (- b - sqrt disc) / (2 * a) in
    Some (if order a b c then (plus, minus) else (minus, plus)).

(** 679-725; with a = 0 numpy.roots returns fewer than two numbers: ValueError, 0.0 *)
Definition coef_normalization_from_abc (order : R -> R -> R -> bool) (which_root : root) (a b c : R)
  : option R :=
  if eqb a 0 then Some 0
  else
    match np_roots order a b c with
    | None => None
    | Some (alpha1, alpha2) =>
        Some match which_root with
             | MinAbs => if ltb (Rabs alpha2) (Rabs alpha1) then alpha2 else alpha1
             | First => alpha1
             | Second => alpha2
             | Positive => if ltb 0 alpha2 then alpha2 else alpha1
             end
    end.

(** 653-677 (constant_rate_of is None); the list of modes may also hold the components of the
    velocity (and of the buoyancy with weights divided by N2) for compute_coef_ab_normalize of
    solvers/ns2d/forcing.py 32-53 and solvers/ns2d/strat/forcing.py 19-63 *)
Definition coef_a (deltat : R) (l : list mode) : R :=
  deltat / 2 * sum_wavenumbers l (fun m => abs2 (f m)).
Definition coef_b (l : list mode) : R := sum_wavenumbers l (fun m => dotc (u m) (f m)).

Definition normalize_2nd_degree_eq (order : R -> R -> R -> bool) (which_root : root)
  (forcing_rate deltat : R) (l : list mode) : option (list mode) :=
  match coef_normalization_from_abc order which_root (coef_a deltat l) (coef_b l) (- forcing_rate) with
  | None => None
  | Some r => Some (map (fun m => mkMode (w m) (u m) (Cmult (RtoC r) (f m))) l)
  end.

Inductive norm_type := SecondDegree | ParticularK | OtherType.

(** 511-521: the exception is created but not raised *)
Definition normalize_forcingc (t : norm_type) (second part_k : list mode -> option (list mode))
  (l : list mode) : option (list mode) :=
  match t with
  | SecondDegree => second l
  | ParticularK => part_k l
  | OtherType => Some l
  end.

(** ** Proportional, 407-425; [forced] is the negation of COND_NO_F *)

Definition proportional_alpha (forcing_rate deltat : R) (modes : list (bool * (R * C))) : R :=
  let Z := fold_right (fun (m : bool * (R * C)) s => let '(forced, (wm, v)) := m in
             (if forced : bool then wm * (abs2 v / 2) else 0) + s) 0 modes in
  (sqrt (1 + deltat * forcing_rate / Z) - 1) / deltat.

Definition proportional (forcing_rate deltat : R) (modes : list (bool * (R * C))) : list mode :=
  map (fun m : bool * (R * C) => let '(forced, (wm, v)) := m in
         mkMode wm v (if forced : bool then Cmult (RtoC (proportional_alpha forcing_rate deltat modes)) v
                      else RtoC 0)) modes.

(** ** TimeCorrelatedRandomPseudoSpectral, 768-868 *)

Section TcRandom.
(** state of the global random generator of numpy *)
Variable rng : Type.
Variable seeded : nat -> rng.
Variable randint : rng -> nat * rng.
(** arrays; compute_forcingc_raw *)
Variable A : Type.
Variable raw : rng -> A * rng.
Variable period : R.

Record tc := mkTc {
  t_last_change : R; seed0 : nat; seed1 : nat; forcing0 : A; forcing1 : A;
  generator : rng;
  (* the last line of _forcing_state.txt *)
  state_file : option (R * nat * nat)
}.

(** 803-812: common end of the initialisation *)
Definition finish_init (t : R) (s0 s1 : nat) (file : option (R * nat * nat)) : tc :=
  let (f0, _) := raw (seeded s0) in
  let (f1, g) := raw (seeded s1) in
  mkTc t s0 s1 f0 f1 g file.

(** 788-812; [has_to_save] for _save_state 845-853 *)
Definition tc_init (has_to_save : bool) (t : R) (g : rng) (file : option (R * nat * nat)) : tc :=
  match file with
  | Some (tl, s0, s1) => finish_init tl s0 s1 file
  | None =>
      let (s0, g1) := randint g in
      let (s1, _) := randint g1 in
      finish_init t s0 s1 (if has_to_save then Some (t, s0, s1) else None)
  end.

(** 832-842 *)
Definition tc_change (has_to_save : bool) (tsim : R) (s : tc) : tc :=
  if leb period (tsim - t_last_change s) then
    let (s1, _) := randint (generator s) in
    let (f1, g) := raw (seeded s1) in
    mkTc tsim (seed1 s) s1 (forcing1 s) f1 g
      (if has_to_save then Some (tsim, seed1 s, s1) else state_file s)
  else s.

End TcRandom.

(** 855-868, one coefficient (real or imaginary part) *)
Definition forcingc_from_f0f1 (period t_last_change forcing0 forcing1 tsim : R) : R :=
  let omega := PI / period in
  let deltaf := forcing1 - forcing0 in
  forcing1 - / 2 * (cos ((tsim - t_last_change) * omega) + 1) * deltaf.
