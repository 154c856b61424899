(** * Smagorinsky subgrid model: fluidsim/base/turb_model/smagorinsky.py, stress_tensor.py

    Physical arrays are functions of the grid point, spectral arrays functions of the
    mode; [fft] and [ifft] are external.  Exact real arithmetic. *)

From Coq Require Import Reals.
From Coquelicot Require Import Complex.
Open Scope R_scope.

Section Smagorinsky.

Variable P M : Type.
Variable fft : (P -> R) -> (M -> C).
Variable ifft : (M -> C) -> (P -> R).
Variable Kx Ky Kz : M -> R.

(** oper.grad_fft_from_arr_fft followed by ifft: stress_tensor.py 21-26 *)
Definition dx (a : M -> C) : P -> R := ifft (fun m => (Ci * RtoC (Kx m) * a m)%C).
Definition dy (a : M -> C) : P -> R := ifft (fun m => (Ci * RtoC (Ky m) * a m)%C).
Definition dz (a : M -> C) : P -> R := ifft (fun m => (Ci * RtoC (Kz m) * a m)%C).

(** Sxx, Syy, Szz, Syx, Szx, Szy *)
Record tensor := mkT {
  Sxx : P -> R; Syy : P -> R; Szz : P -> R;
  Syx : P -> R; Szx : P -> R; Szy : P -> R }.

(** stress_tensor.py 28-40: compute_stress_tensor *)
Definition compute_stress_tensor (ux uy uz : M -> C) : tensor :=
  {| Sxx := dx ux;
     Syy := dy uy;
     Szz := dz uz;
     Syx := fun p => (1/2) * (dy ux p + dx uy p);
     Szx := fun p => (1/2) * (dz ux p + dx uz p);
     Szy := fun p => (1/2) * (dz uy p + dy uz p) |}.

(** stress_tensor.py 42-43: compute_norm *)
Definition compute_norm (t : tensor) (p : P) : R :=
  sqrt (Sxx t p ^ 2 + Syy t p ^ 2 + Szz t p ^ 2
        + 2 * (Syx t p ^ 2 + Szx t p ^ 2 + Szy t p ^ 2)).

(** smagorinsky.py 46-53: C_nu_T *)
Definition C_nu_T (Cs Lx : R) (nx : R) : R :=
  let delta := Lx / nx in Cs * delta ^ 2 * sqrt 2.

(** smagorinsky.py 55-107: get_forcing; the result is (fx_fft, fy_fft, fz_fft) *)
Definition get_forcing (Cs Lx nx : R) (ux uy uz : M -> C) : (M -> C) * (M -> C) * (M -> C) :=
  let t := compute_stress_tensor ux uy uz in
  let nu_T_2 := fun p => 2 * C_nu_T Cs Lx nx * compute_norm t p in
  let xx := fft (fun p => nu_T_2 p * Sxx t p) in
  let yy := fft (fun p => nu_T_2 p * Syy t p) in
  let zz := fft (fun p => nu_T_2 p * Szz t p) in
  let yx := fft (fun p => nu_T_2 p * Syx t p) in
  let zx := fft (fun p => nu_T_2 p * Szx t p) in
  let zy := fft (fun p => nu_T_2 p * Szy t p) in
  let xy := yx in
  let xz := zx in
  let yz := zy in
  (fun m => (RtoC 2 * Ci * (RtoC (Kx m) * xx m + RtoC (Ky m) * xy m + RtoC (Kz m) * xz m))%C,
   fun m => (RtoC 2 * Ci * (RtoC (Kx m) * yx m + RtoC (Ky m) * yy m + RtoC (Kz m) * yz m))%C,
   fun m => (RtoC 2 * Ci * (RtoC (Kx m) * zx m + RtoC (Ky m) * zy m + RtoC (Kz m) * zz m))%C).

End Smagorinsky.
