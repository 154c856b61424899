(** * Shallow water: conversion, skewness and kurtosis, forcing of the velocity

    fluidsim/solvers/sw1l/output/spatial_means.py. Same conventions as Means_Model and SW_Model: coefficients on all the
    modes [ms], exact numbers, one process. *)

From Coq Require Import Reals ZArith String List Bool.
From Coquelicot Require Import Complex.
From Verif Require Import CExp DFT Alias_Model Oper_Model Budget_Model Means_Model SW_Model.
Import ListNotations.
Local Open Scope R_scope.

Section Conv.
Variable o : oper.
Variable ms : list mode.

(** oper.mean_global, np.mean: sum over the points of the grid divided by their number *)
Definition grid_mean (g : gfield) : R :=
  fst (RtoC (/ (INR (nx o) * INR (ny o) * INR (nz o))) * nsum (nx o) (fun jx => nsum (ny o) (fun jy => nsum (nz o) (fun jz => g jx jy jz))))%C.
Definition gpow (g : gfield) (n : nat) : gfield := fun jx jy jz => Nat.iter n (Cmult (g jx jy jz)) (RtoC 1).

(** 130-150 (treat_conversion); the variable div: state.py 73-78 *)
Definition treat_conversion (c2 : R) (s : vfield) : list (string * R) :=
  let '(ux_fft, uy_fft, eta_fft) := s in
  let eta := ifft o ms eta_fft in
  let div := ifft o ms (divfft_from_vecfft o ux_fft uy_fft) in
  let h := gadd eta (gconst 1) in
  [("Conv"%string, c2 / 2 * grid_mean (gmul (gpow h 2) div));
   ("c2eta1d"%string, c2 * grid_mean (gmul eta div));
   ("c2eta2d"%string, c2 * grid_mean (gmul (gpow eta 2) div));
   ("c2eta3d"%string, c2 * grid_mean (gmul (gpow eta 3) div))].

(** 68-74, 87-98: skewness and kurtosis; x ** 1.5 for x > 0 *)
Definition skew_kurt (a : gfield) (meana2 : R) : R * R :=
  if Req_EM_T meana2 0 then (0, 0)
  else (grid_mean (gpow a 3) / Rpower meana2 (3 / 2), grid_mean (gpow a 4) / meana2 ^ 2).

(** 66-111; the physical fields ux, uy, eta are given by the modes [ms] *)
Definition treat_skew_kurt (c2 : R) (s : vfield) : list (string * R) :=
  let '(ux, uy, eta) := s in
  let energyA := sum_wavenumbers ms (energyA_sw1l c2 eta) in
  let ux_fft := fft o (ifft o ms ux) in
  let uy_fft := fft o (ifft o ms uy) in
  let rot_fft := rot_from_vec o ux_fft uy_fft in
  let div_fft := divfft_from_vecfft o ux_fft uy_fft in
  let '(skew_eta, kurt_eta) := skew_kurt (ifft o ms eta) (2 / c2 * energyA) in
  let '(skew_rot, kurt_rot) := skew_kurt (ifft o ms rot_fft) (sum_wavenumbers ms (fun m => abs2 (rot_fft m))) in
  let '(skew_div, kurt_div) := skew_kurt (ifft o ms div_fft) (sum_wavenumbers ms (fun m => abs2 (div_fft m))) in
  [("skew_eta"%string, skew_eta); ("kurt_eta"%string, kurt_eta); ("skew_rot"%string, skew_rot); ("kurt_rot"%string, kurt_rot);
   ("skew_div"%string, skew_div); ("kurt_div"%string, kurt_div)].

(** ** 198-224 (get_FxFyFetafft) *)

(** the variables of the state of the solver (sw1l, sw1l.modified; exactlin; onlywaves; rot, div, eta: no solver) *)
Inductive forcing_of_state : Type :=
| F_uxuyeta (fx fy feta : field)
| F_qapam (fq fap fam : field)
| F_apam (fap fam : field)
| F_rotdiveta (frot fdiv feta : field).

Definition get_FxFyFetafft (f c2 : R) (F : forcing_of_state) : vfield :=
  match F with
  | F_uxuyeta fx fy feta => (fx, fy, feta)
  | F_qapam fq fap fam => uxuyetafft_from_qapamfft o f c2 (fq, fap, fam)
  | F_apam fap fam => uxuyetafft_from_afft o f c2 (fadd fap fam)
  | F_rotdiveta frot fdiv feta =>
      (fadd (ux_from_rot o frot) (ux_from_div o fdiv), fadd (uy_from_rot o frot) (uy_from_div o fdiv), feta)
  end.

(** the state of the solvers: exactlin/state.py 126-143, onlywaves/state.py 156-171 (statephys_from_statespect) *)
Definition velocity_of_state (f c2 : R) (F : forcing_of_state) : vfield :=
  match F with
  | F_uxuyeta ux uy eta => (ux, uy, eta)
  | F_qapam q ap am => uxuyetafft_from_qapamfft o f c2 (q, ap, am)
  | F_apam ap am => uxuyetafft_from_qapamfft o f c2 (azero, ap, am)
  | F_rotdiveta rot div eta => (fadd (ux_from_rot o rot) (ux_from_div o div), fadd (uy_from_rot o rot) (uy_from_div o div), eta)
  end.
End Conv.
