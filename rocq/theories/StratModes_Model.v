(** The linear modes ap_fft and am_fft of ns2d.strat.
    Sources: solvers/ns2d/strat/state.py l.87-111 (ap_fft and am_fft), 175-231 (init_from_apfft, init_from_amfft and the
    conversions), solvers/ns2d/strat/solver.py l.22-27 and 138-159 (terms of the tendencies which are linear in the state).
    ap_fft and compute_rotbfft_from_apfft are those of StratForce_Model. Same simplifications; the dealiasing is not modelled. *)
From Coq Require Import Reals.
From Coquelicot Require Import Complex.
From Verif Require Import StratForce_Model.
Local Open Scope R_scope.

Section Modes.
Variable N : R.

(** state.py l.97-110 *)
Definition amfft (rot b : field) : field :=
  let uy := snd (vecfft_from_rotfft rot) in
  fun m => Cminus (Cmult (RtoC (N ^ 2)) (uy m)) (Cmult (Cmult Ci (RtoC (omega N m))) (b m)).

(** state.py l.185-207 *)
Definition rotbfft_from_amfft (am : field) : field * field :=
  let uy := fun m => Cmult (RtoC (1 / (2 * N ^ 2))) (am m) in
  let division := fun m => if Req_EM_T (KX m) 0 then 0 else KY m / KX m in
  let ux := fun m => Cmult (RtoC (- 1 * division m)) (uy m) in
  (rotfft_from_vecfft ux uy,
   fun m => if Req_EM_T (KX m) 0 then RtoC 0 else Cmult (Cdiv (RtoC 1) (Cmult (Cmult (RtoC 2) Ci) (RtoC (omega N m)))) (Copp (am m))).

(** solver.py l.25-26, 138-159: f_rot_fft += px_b_fft and - N**2 * uy; the products of two fields are not written *)
Definition tendencies_lin (s : field * field) : field * field :=
  let (rot, b) := s in
  let uy := snd (vecfft_from_rotfft rot) in
  (fun m => Cmult (Cmult Ci (RtoC (KX m))) (b m), fun m => Copp (Cmult (RtoC (N ^ 2)) (uy m))).
End Modes.
