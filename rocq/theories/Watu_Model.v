(** Model of fluidsim/util/frequency_modulation.py and of fluidsim/solvers/ns3d/forcing/watu.py.

    Simplifications: exact numbers; a complex number is a pair; the number of points is even, 2 m (line 8); the Fourier
    coefficients of the noise are given; the forward transform of an inverse transform gives the coefficients back, the
    imaginary parts of the first and of the last one being lost; nan is None. *)
From Coq Require Import Reals List ZArith Bool.
Import ListNotations.
Local Open Scope R_scope.

Fixpoint rsum (n : nat) (f : nat -> R) : R := match n with O => 0 | S n => rsum n f + f n end.
Definition cplx : Type := R * R.

(** ** The signal (FrequencyModulatedSignalMaker) *)
Section Signal.
Variables (m : nat) (total_time : R).
Definition nb_points : nat := (2 * m)%nat.
(** 8-18 *)
Definition dt : R := total_time / INR nb_points.
Definition times (j : nat) : R := dt * INR j.
Definition domega : R := 2 * PI / total_time.
Definition omegas (k : nat) : R := domega * INR k.
Definition omegas_nozero (k : nat) : R := match k with O => / 10 ^ 14 | _ => omegas k end.

(** the real part of c exp(i x) *)
Definition wave (c : cplx) (x : R) : R := fst c * cos x - snd c * sin x.
(** the inverse transform of c_0 ... c_m, at the time t *)
Definition trig (c : nat -> cplx) (t : R) : R :=
  fst (c O) + rsum (m - 1) (fun k => 2 * wave (c (S k)) (omegas (S k) * t)) + fst (c m) * cos (omegas m * t).
Definition ifft (c : nat -> cplx) (j : nat) : R := trig c (times j).
(** fft(ifft(c)) *)
Definition fft_ifft (c : nat -> cplx) (k : nat) : cplx := if (Nat.eqb k 0 || Nat.eqb k m)%bool then (fst (c k), 0) else c k.

(** np.std *)
Definition mean (x : nat -> R) : R := rsum nb_points x / INR nb_points.
Definition std (x : nat -> R) : R := sqrt (mean (fun j => (x j - mean x) ^ 2)).

(** 34-35: rectangular filtering *)
Definition rectangular (omega_min omega_max : R) (w : nat -> cplx) (k : nat) : cplx :=
  if Rle_dec omega_min (omegas k) then if Rle_dec (omegas k) omega_max then w k else (0, 0) else (0, 0).
(** 41: c / (1j * omega) *)
Definition integrate (c : nat -> cplx) (k : nat) : cplx := (snd (c k) / omegas_nozero k, - fst (c k) / omegas_nozero k).
Definition scale (s : R) (c : nat -> cplx) (k : nat) : cplx := (s * fst (c k), s * snd (c k)).

Record signal := mkSignal { omegaf_vs_time : nat -> R; phase_vs_omega : nat -> cplx; phase_vs_time : nat -> R; forcing_vs_time : nat -> R }.
(** 20-48: the Fourier coefficients w of the noise *)
Definition create_frequency_modulated_signal (omega_f delta_omega_f amplitude : R) (omega_min omega_max : option R) (w : nat -> cplx) : option signal :=
  let omega_min := match omega_min with None => omega_f / 10 | Some x => x end in
  let omega_max := match omega_max with None => omega_f | Some x => x end in
  let c := rectangular omega_min omega_max w in
  let x := ifft c in
  if Req_EM_T (std x) 0 then None
  else
    let s := delta_omega_f / std x in
    let y j := s * x j in
    let p := integrate (fft_ifft (scale s c)) in
    let ph0 := ifft p in
    let ph j := ph0 j + (omega_f * times j - ph0 O) in
    Some (mkSignal y p ph (fun j => amplitude * (y j + omega_f) * sin (ph j))).
End Signal.

(** ** The parameter approximate_dt (None by default) *)
Inductive error := TypeError.
(** 8: int(total_time / approximate_dt) *)
Definition nb_points_asked (total_time : R) (approximate_dt : option R) : Z + error :=
  match approximate_dt with None => inr TypeError | Some d => inl (Int_part (total_time / d)) end.
Definition default_approximate_dt : option R := None.

(** ** The interpolation (watu.py 93-106, 162-164) *)
Section Interp.
Variables (n : nat) (period : R) (v : nat -> R).
(** one point is added at the end *)
Definition sample (j : nat) : R := if Nat.eqb j n then v O else v j.
Definition step : R := period / INR n.
(** interp1d between 0 and period *)
Definition interpolate (t : R) : R :=
  let j := Nat.min (Z.to_nat (Int_part (t / step))) (n - 1) in
  sample j + (t - step * INR j) / step * (sample (S j) - sample j).
(** t % period *)
Definition modulo (t : R) : R := t - period * IZR (Int_part (t / period)).
Definition coef_forcing_time (t : R) : R := interpolate (modulo t).
End Interp.

(** ** The masks (108-143) *)
Section Masks.
Variables (amplitude lx ly dx : R).
Definition width : R := Rmax (4 * dx) (amplitude / 5).
Definition step_func (x : R) : R := 1 / 2 * (tanh (x / width) + 1).
Definition amplitude_side : R := amplitude + 15 / 100.
Definition maskx (X Y : R) : R :=
  (step_func (- (X - amplitude)) + step_func (X - (lx - amplitude))) * step_func (Y - amplitude_side) * step_func (- (Y - (ly - amplitude_side))).
Definition masky (X Y : R) : R :=
  (step_func (- (Y - amplitude)) + step_func (Y - (ly - amplitude))) * step_func (X - amplitude_side) * step_func (- (X - (lx - amplitude_side))).
End Masks.
(** 139-141 *)
Definition target (lz Z : R) : R := sin (2 * PI * Z / lz).
(** 151-155 *)
Definition gamma : R := 2.
Definition n_dt : R := 4.
Definition coef_sigma : R := gamma / n_dt.
Definition sigma (deltat_max : R) : R := coef_sigma / deltat_max.
(** 184-194 *)
Definition forcing_component (sigma mask coef target velocity : R) : R := sigma * mask * (coef * target - velocity).
