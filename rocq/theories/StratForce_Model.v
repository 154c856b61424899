(** The normalisation of the forcing of ns2d.strat with params.forcing.normalized.constant_rate_of.
    Sources: solvers/ns2d/strat/forcing.py l.19-63 (compute_coef_ab_normalize),
    solvers/ns2d/strat/state.py l.80-96 (ap_fft) and 209-231 (compute_rotbfft_from_apfft),
    solvers/ns2d/strat/solver.py (compute_dispersion_relation),
    base/forcing/specific.py l.660-684 and 499-507 (the forcing is multiplied by the root and put in the state of the forcing),
    operators/operators2d.py (vecfft_from_rotfft, rotfft_from_vecfft).
    Simplifications: exact numbers; the sums are over the list of the modes of the grid of the forcing, with the weights of
    sum_wavenumbers; the modes of the forcing are not removed by the dealiasing. *)
From Coq Require Import String List Reals.
From Coquelicot Require Import Complex.
Import ListNotations.
Local Open Scope R_scope.

(** a mode of the coarse grid: wavenumbers, weight in the sums and K_not0 *)
Record mode := { KX : R; KY : R; weight : R; K_not0 : R }.
Definition field := mode -> C.
Definition sum_k (l : list mode) (f : mode -> R) : R := fold_right Rplus 0 (map (fun m => weight m * f m) l).
Definition abs2 (z : C) : R := fst z ^ 2 + snd z ^ 2.
(** (v.conj() * f).real *)
Definition dotc (v f : C) : R := fst (Cmult (Cconj v) f).

(** operators2d.py *)
Definition vecfft_from_rotfft (rot : field) : field * field :=
  (fun m => Cmult (Cmult Ci (RtoC (KY m / K_not0 m ^ 2))) (rot m),
   fun m => Cmult (Cmult (Copp Ci) (RtoC (KX m / K_not0 m ^ 2))) (rot m)).
Definition rotfft_from_vecfft (ux uy : field) : field :=
  fun m => Cmult Ci (Cminus (Cmult (RtoC (KX m)) (uy m)) (Cmult (RtoC (KY m)) (ux m))).

Section Strat.
Variable N : R.
Definition omega (m : mode) : R := N * KX m / K_not0 m.
(** strat/state.py l.80-90 *)
Definition apfft (rot b : field) : field :=
  let uy := snd (vecfft_from_rotfft rot) in
  fun m => Cplus (Cmult (RtoC (N ^ 2)) (uy m)) (Cmult (Cmult Ci (RtoC (omega m))) (b m)).
(** strat/state.py l.209-231 *)
Definition rotbfft_from_apfft (ap : field) : field * field :=
  let uy := fun m => Cmult (RtoC (1 / (2 * N ^ 2))) (ap m) in
  let division := fun m => if Req_EM_T (KX m) 0 then 0 else KY m / KX m in
  let ux := fun m => Cmult (RtoC (- 1 * division m)) (uy m) in
  (rotfft_from_vecfft ux uy,
   fun m => if Req_EM_T (KX m) 0 then RtoC 0 else Cmult (Cdiv (RtoC 1) (Cmult (Cmult (RtoC 2) Ci) (RtoC (omega m)))) (ap m)).

(** strat/forcing.py l.19-63; None: ValueError *)
Definition compute_coef_ab (l : list mode) (constant_rate_of key_forced : string) (f_fft var_fft : field) (deltat : R) : option (R * R) :=
  if (String.eqb constant_rate_of "energy" || String.eqb constant_rate_of "energyK")%bool then
    if String.eqb key_forced "rot_fft" then
      let (vx, vy) := vecfft_from_rotfft var_fft in
      let (fx, fy) := vecfft_from_rotfft f_fft in
      Some (deltat / 2 * sum_k l (fun m => abs2 (fx m) + abs2 (fy m)), sum_k l (fun m => dotc (vx m) (fx m) + dotc (vy m) (fy m)))
    else if String.eqb key_forced "ap_fft" then
      let (rot, b) := rotbfft_from_apfft var_fft in
      let (frot, fb) := rotbfft_from_apfft f_fft in
      let (vx, vy) := vecfft_from_rotfft rot in
      let (fx, fy) := vecfft_from_rotfft frot in
      let a := deltat / 2 * sum_k l (fun m => abs2 (fx m) + abs2 (fy m)) in
      let c := sum_k l (fun m => dotc (vx m) (fx m) + dotc (vy m) (fy m)) in
      if String.eqb constant_rate_of "energyK" then Some (a, c)
      else Some (a + deltat / 2 * sum_k l (fun m => abs2 (fb m)) / N ^ 2, c + sum_k l (fun m => dotc (b m) (fb m)) / N ^ 2)
    else None
  else None.

(** base/forcing/specific.py l.499-507 with strat/state.py init_statespect_from: the forcing of rot_fft and b_fft *)
Definition forcing_arrays (key_forced : string) (coef : R) (f_fft : field) : option (field * field) :=
  let f := fun m => Cmult (RtoC coef) (f_fft m) in
  if String.eqb key_forced "rot_fft" then Some (f, fun _ => RtoC 0)
  else if String.eqb key_forced "ap_fft" then Some (rotbfft_from_apfft f)
  else None.
(** the variable of the state which is forced *)
Definition forced_var (key_forced : string) (rot b : field) : field := if String.eqb key_forced "rot_fft" then rot else apfft rot b.
End Strat.
