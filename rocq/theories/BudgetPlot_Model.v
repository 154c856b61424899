(** Model of the curves plotted to check the budgets: plot_dt_energy and plot_dt_enstrophy of ns2d
    (fluidsim/solvers/ns2d/output/spatial_means.py 201-265), plot_dt_energy of ns2d.strat
    (fluidsim/solvers/ns2d/strat/output/spatial_means.py 312-357), plot_dt_E of ns3d
    (fluidsim/solvers/ns3d/output/spatial_means.py 298-330), plot3d_cumul_diss (ns3d/output/spectra.py 428-470) and
    plot_kzkh_cumul_diss (ns3d/strat/output/spectra.py 172-238).

    Simplifications: exact real numbers; a curve is the list of its points; the file of the spatial means is a list of
    records (one per time); 0 / 0 is not modelled. *)
From Coq Require Import Reals List Bool.
Import ListNotations.
Local Open Scope R_scope.

Notation point := (R * R)%type.

(** ** np.gradient(f, t) of numpy (nonuniform spacing, edge_order = 1), for the points (t, f) *)
Definition slope (p q : point) : R := (snd q - snd p) / (fst q - fst p).
Definition second_order (p q r : point) : R :=
  let dx1 := fst q - fst p in
  let dx2 := fst r - fst q in
  - dx2 / (dx1 * (dx1 + dx2)) * snd p + (dx2 - dx1) / (dx1 * dx2) * snd q + dx1 / (dx2 * (dx1 + dx2)) * snd r.
Fixpoint gradient_from (l : list point) : list R :=
  match l with
  | p :: l' =>
      match l' with
      | q :: l'' => match l'' with r :: _ => second_order p q r :: gradient_from l' | [] => [slope p q] end
      | [] => []
      end
  | [] => []
  end.
(** None: ValueError for less than two points *)
Definition gradient (l : list point) : option (list R) :=
  match l with p :: q :: _ => Some (slope p q :: gradient_from l) | _ => None end.

(** ** The records of the files *)
Record means := mkMeans { m_t : R; m_E : R; m_Z : R; m_epsK : R; m_epsA : R; m_epsZ : R; m_PK : R; m_PA : R; m_PZ : R; m_PZ1 : R; m_PZ2 : R }.

Inductive result (A : Type) := Ok (a : A) | ValueError | NameError.
Arguments Ok {A} a.
Arguments ValueError {A}.
Arguments NameError {A}.

(** *** ns2d, 201-229: the two curves *)
Definition plot_dt_energy (forcing : bool) (l : list means) : result (list point * list point) :=
  let model := map (fun m => if forcing then m_PK m - m_epsK m else - m_epsK m) l in
  match gradient (map (fun m => (m_t m, m_E m)) l) with
  | None => ValueError
  | Some dtE => Ok (combine (map m_t l) dtE, combine (map m_t l) model)
  end.

(** 231-265: the two curves of the first axes, and those of the second one *)
Definition plot_dt_enstrophy (forcing : bool) (l : list means) : result (list point * list point * list (list point)) :=
  let model := map (fun m => if forcing then m_PZ m - m_epsZ m else - m_epsZ m) l in
  match gradient (map (fun m => (m_t m, m_Z m)) l) with
  | None => ValueError
  | Some dtZ =>
      let ts := map m_t l in
      (* 258: PZ_tot is defined only with a forcing *)
      if forcing then
        Ok (combine ts dtZ, combine ts model,
            [combine ts (map m_epsZ l); combine ts (map m_PZ l); combine ts (map m_PZ1 l); combine ts (map m_PZ2 l)])
      else NameError
  end.

(** *** ns3d, 298-330, [strat]: PA_tot and eps_tot of ns3d.strat: dE/dt, forcing, viscosity, sum *)
Definition plot_dt_E (forcing strat : bool) (l : list means) : result (list point * list point * list point * list point) :=
  let eps m := if strat then m_epsK m + m_epsA m else m_epsK m in
  let P m := if strat then m_PK m + m_PA m else m_PK m in
  let ts := map m_t l in
  match gradient (map (fun m => (m_t m, m_E m)) l) with
  | None => ValueError
  | Some dtE =>
      Ok (combine ts dtE,
          if forcing then combine ts (map P l) else [],
          combine ts (map (fun m => - eps m) l),
          combine ts (map (fun m => if forcing then - eps m + P m else - eps m) l))
  end.

(** *** ns2d.strat, 312-357: the curves of the first axes *)
Fixpoint diff_points (l : list point) : list point :=
  match l with
  | p :: l' => match l' with q :: _ => ((fst q + fst p) / 2, slope p q) :: diff_points l' | [] => [] end
  | [] => []
  end.
(** 341: times[:-1] += np.diff(times) / 2 *)
Fixpoint shifted (ts : list R) : list R :=
  match ts with
  | t :: r => match r with t' :: _ => (t + (t' - t) / 2) :: shifted r | [] => [t] end
  | [] => []
  end.
Definition plot_dt_energy_strat (forcing : bool) (l : list means) : list point * list point :=
  let model := map (fun m => if forcing then m_PK m + m_PA m - (m_epsK m + m_epsA m) else - (m_epsK m + m_epsA m)) l in
  (diff_points (map (fun m => (m_t m, m_E m)) l), combine (tl (shifted (map m_t l))) (tl model)).

(** ** The cumulative dissipation *)
Fixpoint cumsum_from (acc : R) (l : list R) : list R := match l with [] => [] | x :: r => (acc + x) :: cumsum_from (acc + x) r end.
Definition cumsum := cumsum_from 0.

(** 428-457: k, spectra_K; the curves of nu_2 and nu_4 *)
Definition flux (nu : R) (n : nat) (deltak : R) (ks : list (R * R)) : list R :=
  map (Rmult deltak) (cumsum (map (fun ke => nu * fst ke ^ n * snd ke) ks)).
Definition plot3d_cumul_diss (nu_2 nu_4 nu_8 : R) (ks : list (R * R)) : list R * list R :=
  let deltak := fst (nth 1 ks (0, 0)) in
  let f2 := flux nu_2 2 deltak ks in
  let f4 := flux nu_4 4 deltak ks in
  let eps_tot := last f2 0 + last f4 0 in
  (map (fun x => x / eps_tot) f2, map (fun x => x / eps_tot) f4).

(** 172-222: [kh], [kz], spectra_K[iz, ih] *)
Fixpoint sum (l : list R) : R := match l with [] => 0 | x :: r => x + sum r end.
Definition diss_kzkh (nu : R) (n : nat) (spec : R -> R -> R) (kz kh : R) : R := nu * (kh ^ 2 + kz ^ 2) ^ n * spec kz kh.
Definition hflux (nu : R) (n : nat) (spec : R -> R -> R) (kzs khs : list R) : list R :=
  map (Rmult (nth 1 khs 0)) (cumsum (map (fun kh => nth 1 kzs 0 * sum (map (fun kz => diss_kzkh nu n spec kz kh) kzs)) khs)).
Definition zflux (nu : R) (n : nat) (spec : R -> R -> R) (kzs khs : list R) : list R :=
  map (Rmult (nth 1 kzs 0)) (cumsum (map (fun kz => nth 1 khs 0 * sum (map (fun kh => diss_kzkh nu n spec kz kh) khs)) kzs)).
(** K4 = K2 ** 2 *)
Definition plot_kzkh_cumul_diss (nu_2 nu_4 : R) (spec : R -> R -> R) (kzs khs : list R) : (list R * list R) * (list R * list R) :=
  let h2 := hflux nu_2 1 spec kzs khs in
  let h4 := hflux nu_4 2 spec kzs khs in
  let eps_tot := last h2 0 + last h4 0 in
  let norm := map (fun x => x / eps_tot) in
  ((norm h2, norm h4), (norm (zflux nu_2 1 spec kzs khs), norm (zflux nu_4 2 spec kzs khs))).
