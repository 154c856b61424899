(** * Shallow water: operators, tendencies of sw1l, sw1l.modified, sw1l.exactlin, sw1l.exactlin.modified, sw1l.onlywaves,
    balanced initial state, forcing waves

    fluidsim/solvers/sw1l/. Same conventions as Budget_Model: coefficients on all the modes [ms], exact numbers, one
    process, no forcing in the tendencies, beta = 0. [first m] is the element [0, 0] of the arrays of rank 0. A state is a
    triple of fields: (ux, uy, eta) or (q, ap, am). *)

From Coq Require Import Reals ZArith List Bool.
From Coquelicot Require Import Complex.
From Verif Require Import CExp DFT Alias_Model Oper_Model Budget_Model.
Local Open Scope R_scope.

Section SW.
Variable o : oper.
Variable ms : list mode.
Variable where_dealiased : mode -> bool.
Variables f c2 : R.          (* params.f, params.c2 *)

Notation ifft := (ifft o ms).
Notation fft := (fft o).
Notation dealiasing := (dealiasing where_dealiased).
Notation ux_from_rot := (ux_from_rot o).
Notation uy_from_rot := (uy_from_rot o).
Notation rot_from_vec := (rot_from_vec o).
Notation px_fft := (px_fft o).
Notation py_fft := (py_fft o).

Definition first (m : mode) : bool := ((mx m =? 0) && (my m =? 0))%Z.
Definition azero : field := fun _ => RtoC 0.
Definition fadd (a b : field) : field := fun m => (a m + b m)%C.
Definition fsub (a b : field) : field := fun m => (a m - b m)%C.
Definition fscal (x : R) (a : field) : field := fun m => (RtoC x * a m)%C.
Definition fopp (a : field) : field := fun m => (- a m)%C.

(** sw1l/solver.py 148: params.kd2 *)
Definition kd2 : R := f ^ 2 / c2.

(** ** sw1l/operators.py; fluidfft *)

Definition divfft_from_vecfft (ux uy : field) : field := fun m => (Ci * (RtoC (Kx o m) * ux m + RtoC (Ky o m) * uy m))%C.
Definition ux_from_div (d : field) : field := fun m => (- Ci * RtoC (Kx o m / K2_not0 o m) * d m)%C.
Definition uy_from_div (d : field) : field := fun m => (- Ci * RtoC (Ky o m / K2_not0 o m) * d m)%C.

(** operators2d.py 48-59 *)
Definition laplacian_fft (a : field) (Kn : mode -> R) : field := fun m => (a m * RtoC (Kn m))%C.
Definition invlaplacian_fft (a : field) (Kn_not0 : mode -> R) : field := fun m => if first m then RtoC 0 else (a m / RtoC (Kn_not0 m))%C.

(** 117-124 *)
Definition Kappa2_not0 (m : mode) : R := K2_not0 o m + kd2.
Definition Kappa_over_ic (m : mode) : C := (- Ci * RtoC (sqrt ((K2_2d o m + kd2) / c2)))%C.

(** 29-109, 126-155: qapamfft_from_uxuyetafft *)
Definition qapamfft_from_uxuyetafft (s : vfield) : vfield :=
  let '(ux, uy, eta) := s in
  let rot m := (Ci * (RtoC (Kx o m) * uy m - RtoC (Ky o m) * ux m))%C in
  let Deltaa_over2 m := (RtoC (1 / 2) * Ci * Kappa_over_ic m * (RtoC (Kx o m) * ux m + RtoC (Ky o m) * uy m))%C in
  let a_over2 m :=
    if Req_EM_T f 0 then (RtoC (1 / 2) * RtoC (K2_2d o m) * eta m)%C
    else (RtoC (1 / 2) * (RtoC (K2_2d o m) * eta m + RtoC (f / c2) * rot m))%C in
  let q m := if Req_EM_T f 0 then rot m else (rot m - RtoC f * eta m)%C in
  (fun m => if first m then RtoC 0 else q m,
   fun m => if first m then (ux m + Ci * uy m)%C else (a_over2 m + Deltaa_over2 m)%C,
   fun m => if first m then (ux m - Ci * uy m)%C else (a_over2 m - Deltaa_over2 m)%C).

(** 267-276 *)
Definition etafft_from_afft (a : field) : field := invlaplacian_fft a Kappa2_not0.

(** 201-214 *)
Definition uxuyetafft_from_afft (a : field) : vfield :=
  let eta := etafft_from_afft a in
  let rot := if Req_EM_T f 0 then azero else fscal f eta in
  (ux_from_rot rot, uy_from_rot rot, eta).

(** 183-199 *)
Definition uxuyetafft_from_qfft (q : field) : vfield :=
  let ilq := invlaplacian_fft q Kappa2_not0 in
  let rot := laplacian_fft ilq (K2_2d o) in
  let eta := if Req_EM_T f 0 then azero else (fun m => RtoC (- f) * ilq m / RtoC c2)%C in
  (ux_from_rot rot, uy_from_rot rot, eta).

(** 216-239 *)
Definition rotfft_from_qfft (q : field) : field := laplacian_fft (invlaplacian_fft q Kappa2_not0) (K2_2d o).
Definition rotfft_from_afft (a : field) : field := if Req_EM_T f 0 then azero else fscal f (etafft_from_afft a).

(** 241-249 *)
Definition afft_from_uxuyetafft (s : vfield) : field :=
  let '(ux, uy, eta) := s in
  let a := laplacian_fft eta (K2_2d o) in
  if Req_EM_T f 0 then a else fadd a (fscal (f / c2) (rot_from_vec ux uy)).

(** 251-265 *)
Definition etafft_from_qfft (q : field) : field :=
  if Req_EM_T f 0 then azero else fscal (- f / c2) (invlaplacian_fft q Kappa2_not0).

(** 278-292 *)
Definition etafft_from_aqfft (a q : field) : field :=
  if Req_EM_T f 0 then invlaplacian_fft a (K2_not0 o)
  else invlaplacian_fft (fsub a (fscal (f / c2) q)) Kappa2_not0.

(** 294-303 *)
Definition qdafft_from_uxuyetafft (s : vfield) : vfield :=
  let '(ux, uy, eta) := s in
  let rot := rot_from_vec ux uy in
  (fsub rot (fscal f eta), divfft_from_vecfft ux uy, fadd (fscal (f / c2) rot) (laplacian_fft eta (K2_2d o))).

(** 305-310 *)
Definition apamfft_from_adfft (a d : field) : field * field :=
  let Delta m := (Kappa_over_ic m * d m)%C in
  (fun m => RtoC (1 / 2) * (a m + Delta m), fun m => RtoC (1 / 2) * (a m - Delta m))%C.

(** 313-329 *)
Definition divfft_from_apamfft (ap am : field) : field :=
  fun m => if first m then RtoC 0 else ((ap m - am m) / Kappa_over_ic m)%C.

(** 331-339 *)
Definition qapamfft_from_etafft (eta : field) : vfield :=
  (fscal (- f) eta, fscal (1 / 2) (laplacian_fft eta (K2_2d o)), fscal (1 / 2) (laplacian_fft eta (K2_2d o))).

(** 157-172 *)
Definition uxuyetafft_from_qapamfft (s : vfield) : vfield :=
  let '(q, ap, am) := s in
  let a m := if first m then RtoC 0 else (ap m + am m)%C in
  let d := divfft_from_apamfft ap am in
  let '(uxa, uya, etaa) := uxuyetafft_from_afft a in
  let '(uxq, uyq, etaq) := uxuyetafft_from_qfft q in
  (fun m => if first m then (RtoC (1 / 2) * (ap m + am m))%C else (uxa m + uxq m + ux_from_div d m)%C,
   fun m => if first m then (RtoC (1 / 2) * Ci * (am m - ap m))%C else (uya m + uyq m + uy_from_div d m)%C,
   fadd etaa etaq).

(** ** Tendencies *)

Definition gconst (x : R) : gfield := fun _ _ _ => RtoC x.

(** sw1l/solver.py 32-44 (compute_Frot), 46-48 (compute_pressure) *)
Definition sw_compute_Frot (rot ux uy : gfield) : gfield * gfield :=
  let rot_abs := if Req_EM_T f 0 then rot else gadd rot (gconst f) in
  (gmul rot_abs uy, gmul (gopp rot_abs) ux).
Definition compute_pressure (eta ux uy : gfield) : gfield := gadd (rsc c2 eta) (rsc (1 / 2) (gadd (gmul ux ux) (gmul uy uy))).

(** sw1l/solver.py 162-250; the fields of state.py 135-157 *)
Definition sw1l (s : vfield) : vfield :=
  let '(ux_fft, uy_fft, eta_fft) := s in
  let ux := ifft ux_fft in
  let uy := ifft uy_fft in
  let eta := ifft eta_fft in
  let rot := ifft (rot_from_vec ux_fft uy_fft) in
  let '(F1x, F1y) := sw_compute_Frot rot ux uy in
  let p := fft (compute_pressure eta ux uy) in
  let gradx := dealiasing (px_fft p) in
  let grady := dealiasing (py_fft p) in
  let h := gadd eta (gconst 1) in
  (dealiasing (fsub (fft F1x) gradx), dealiasing (fsub (fft F1y) grady),
   dealiasing (fopp (divfft_from_vecfft (fft (gmul h ux)) (fft (gmul h uy))))).

(** sw1l/modified/solver.py 45-117 *)
Definition sw1l_modified (s : vfield) : vfield :=
  let '(ux_fft, uy_fft, eta_fft) := s in
  let ux := ifft ux_fft in
  let uy := ifft uy_fft in
  let rot_fft := rot_from_vec ux_fft uy_fft in
  let ux_rot := ifft (ux_from_rot rot_fft) in
  let uy_rot := ifft (uy_from_rot rot_fft) in
  let FNL a := gsub (gmul (gopp ux_rot) (ifft (px_fft a))) (gmul uy_rot (ifft (py_fft a))) in
  let Fx := fsub (fft (gadd (rsc f uy) (FNL ux_fft))) (px_fft (fscal c2 eta_fft)) in
  let Fy := fsub (fft (gadd (rsc (- f) ux) (FNL uy_fft))) (py_fft (fscal c2 eta_fft)) in
  let Feta := fsub (fopp (fft (gadd (gmul ux_rot (ifft (px_fft eta_fft))) (gmul uy_rot (ifft (py_fft eta_fft))))))
                   (divfft_from_vecfft ux_fft uy_fft) in
  (dealiasing Fx, dealiasing Fy, dealiasing Feta).

(** sw1l/exactlin/state.py 162-183 (return_statephys_from_statespect): ux, uy, eta, rot *)
Definition rot_of_q (q eta : field) : field := fadd q (fscal f eta).

(** sw1l/exactlin/solver.py 52-108 *)
Definition exactlin (s : vfield) : vfield :=
  let '(q, ap, am) := s in
  let '(ux_fft, uy_fft, eta_fft) := uxuyetafft_from_qapamfft s in
  let ux := ifft ux_fft in
  let uy := ifft uy_fft in
  let eta := ifft eta_fft in
  let rot := ifft (rot_of_q q eta_fft) in
  let u2 := fscal (1 / 2) (fft (gadd (gmul ux ux) (gmul uy uy))) in
  let Nx := fsub (fft (gmul rot uy)) (px_fft u2) in
  let Ny := fsub (fft (gmul (gopp rot) ux)) (py_fft u2) in
  let Neta := fopp (divfft_from_vecfft (fft (gmul eta ux)) (fft (gmul eta uy))) in
  let '(Nq, Np, Nm) := qapamfft_from_uxuyetafft (Nx, Ny, Neta) in
  (dealiasing Nq, dealiasing Np, dealiasing Nm).

(** sw1l/exactlin/solver.py 110-118 (compute_freq_complex); base/time_stepping/pseudo_spect.py 179-188: the linear terms
    - freq_lin s are integrated exactly (area Schemes). Here without dissipation *)
Definition freq_complex (m : mode) : C * C * C :=
  let omega := sqrt (f ^ 2 + c2 * K2_2d o m) in
  (RtoC 0, (Ci * RtoC omega)%C, (- Ci * RtoC omega)%C).
Definition with_lin (N s : vfield) : vfield :=
  (fun m => fst (fst N) m - fst (fst (freq_complex m)) * fst (fst s) m,
   fun m => snd (fst N) m - snd (fst (freq_complex m)) * snd (fst s) m,
   fun m => snd N m - snd (freq_complex m) * snd s m)%C.

(** sw1l/exactlin/modified/solver.py 43-98, for the state of the simulation (for another state, see C59) *)
Definition exactlin_modified (s : vfield) : vfield :=
  let '(q, ap, am) := s in
  let '(ux_fft, uy_fft, eta_fft) := uxuyetafft_from_qapamfft s in
  let ux := ifft ux_fft in
  let uy := ifft uy_fft in
  let eta := ifft eta_fft in
  let rot_fft := fadd (rotfft_from_qfft q) (rotfft_from_afft (fadd ap am)) in
  let ux_rot := ifft (ux_from_rot rot_fft) in
  let uy_rot := ifft (uy_from_rot rot_fft) in
  let N a := fopp (divfft_from_vecfft (fft (gmul ux_rot a)) (fft (gmul uy_rot a))) in
  let '(Nq, Np, Nm) := qapamfft_from_uxuyetafft (N ux, N uy, N eta) in
  (dealiasing Nq, dealiasing Np, dealiasing Nm).

(** sw1l/onlywaves/solver.py 46-106, for the state of the simulation (for another state, see C59); state.py 52-66 for rot *)
Definition onlywaves (s : field * field) : field * field :=
  let '(ap, am) := s in
  let '(ux_fft, uy_fft, eta_fft) := uxuyetafft_from_qapamfft (azero, ap, am) in
  let ux := ifft ux_fft in
  let uy := ifft uy_fft in
  let eta := ifft eta_fft in
  let u2 := fscal (1 / 2) (fft (gadd (gmul ux ux) (gmul uy uy))) in
  let Nx := fopp (px_fft u2) in
  let Ny := fopp (py_fft u2) in
  let rot := ifft (rotfft_from_afft (fadd ap am)) in
  let Nx := if Rlt_dec 0 f then fadd Nx (fft (gmul rot uy)) else Nx in
  let Ny := if Rlt_dec 0 f then fadd Ny (fft (gmul (gopp rot) ux)) else Ny in
  let Neta := fopp (divfft_from_vecfft (fft (gmul eta ux)) (fft (gmul eta uy))) in
  let '(Nq, Np, Nm) := qapamfft_from_uxuyetafft (Nx, Ny, Neta) in
  (dealiasing Np, dealiasing Nm).

(** ** State *)

(** sw1l/exactlin/state.py 44-124 (compute): ux_fft, uy_fft *)
Definition computed_uxuy (s : vfield) : field * field :=
  let '(q, ap, am) := s in
  let rot := fadd (rotfft_from_qfft q) (rotfft_from_afft (fadd ap am)) in
  let d := divfft_from_apamfft ap am in
  (fun m => if first m then ap m else (ux_from_rot rot m + ux_from_div d m)%C,
   fun m => if first m then am m else (uy_from_rot rot m + uy_from_div d m)%C).

(** sw1l/state.py 271-290 (_etafft_no_div) *)
Definition etafft_no_div (ux uy rot : gfield) : field :=
  let rot_abs := gadd rot (gconst f) in
  let tempx := fopp (fft (gmul rot_abs uy)) in
  let tempy := fft (gmul rot_abs ux) in
  let uu2 := fft (gadd (gmul ux ux) (gmul uy uy)) in
  dealiasing (fun m =>
    if first m then RtoC 0
    else ((Ci * RtoC (Kx o m) * tempx m / RtoC (K2_not0 o m) + Ci * RtoC (Ky o m) * tempy m / RtoC (K2_not0 o m)
           - uu2 m / RtoC 2) / RtoC c2)%C).

(** sw1l/state.py 240-269 (init_from_uxuyfft); projection_perp (fluidfft): u - k (k.u) / k^2 *)
Definition projection_perp (ux uy : field) : field * field :=
  let t m := ((RtoC (Kx o m) * ux m + RtoC (Ky o m) * uy m) / RtoC (K2_not0 o m))%C in
  (fun m => ux m - RtoC (Kx o m) * t m, fun m => uy m - RtoC (Ky o m) * t m)%C.
Definition init_from_uxuyfft (ux_fft uy_fft : field) : vfield :=
  let '(px, py) := projection_perp ux_fft uy_fft in
  let ux_fft := dealiasing px in
  let uy_fft := dealiasing py in
  let ux := ifft ux_fft in
  let uy := ifft uy_fft in
  let rot := ifft (rot_from_vec ux_fft uy_fft) in
  (ux_fft, uy_fft, etafft_no_div ux uy rot).

(** ** Energies *)

Definition cabs2 (z : C) : R := fst z ^ 2 + snd z ^ 2.      (* np.abs(z) ** 2 *)

(** sw1l/output/base.py 189-221 (compute_lin_energies_fft) *)
Definition compute_lin_energies_fft (s : vfield) : (mode -> R) * (mode -> R) * (mode -> R) :=
  let '(q, d, a) := qdafft_from_uxuyetafft s in
  let quad (v : vfield) := fun m => 1 / 2 * (cabs2 (fst (fst v) m) + cabs2 (snd (fst v) m) + c2 * cabs2 (snd v m)) in
  (quad (uxuyetafft_from_qfft q),
   fun m => 1 / 2 * (cabs2 (ux_from_div d m) + cabs2 (uy_from_div d m)),
   quad (uxuyetafft_from_afft a)).

(** ** Forcing: sw1l/forcing.py *)

Definition re_prod (a b : C) : R := fst a * fst b + snd a * snd b.      (* (a.conj() * b).real *)
Definition sum_wn (g : mode -> R) : R := fst (lsum ms (fun m => RtoC (g m))).

(** 66-91, 136-162: the coefficients of the equation for the coefficient of normalisation, for the fields of the forcing
    [F] and of the state [v]; [deltat] *)
Definition abc_quadratic (deltat rate : R) (F v : vfield) : R * R * R :=
  let '(Fx, Fy, Fe) := F in
  let '(vx, vy, ve) := v in
  let a := deltat / 2 * sum_wn (fun m => cabs2 (Fx m)) + deltat / 2 * sum_wn (fun m => cabs2 (Fy m))
           + c2 * deltat / 2 * sum_wn (fun m => cabs2 (Fe m)) in
  let b := sum_wn (fun m => re_prod (vx m) (Fx m)) + sum_wn (fun m => re_prod (vy m) (Fy m))
           + c2 * sum_wn (fun m => re_prod (ve m) (Fe m)) in
  (a, b, - rate).

(** base/forcing/specific.py (coef_normalization_from_abc) is in the area Forcing: here any coefficient [alpha]; 66-91:
    the normalised forcing of Waves, and what the coarse state gives for it (sw1l/state.py 224-227) *)
Definition waves_abc (deltat rate : R) (Fa a : field) : R * R * R :=
  abc_quadratic deltat rate (uxuyetafft_from_afft Fa) (uxuyetafft_from_afft a).
Definition waves_forcing (alpha : R) (Fa : field) : vfield := uxuyetafft_from_afft (fscal alpha Fa).

(** 136-168: WavesVortices; sw1l/state.py 229-238 (init_from_qafft, with the x component of the velocity used twice) *)
Definition vortices_abc (deltat rate : R) (Fq q : field) : R * R * R :=
  abc_quadratic deltat rate (uxuyetafft_from_qfft Fq) (uxuyetafft_from_qfft q).
Definition init_from_qafft (q a : field) : vfield :=
  let rot := rotfft_from_qfft q in
  let '(uxa, uya, etaa) := uxuyetafft_from_afft a in
  (fadd (ux_from_rot rot) uxa, fadd (uy_from_rot rot) uxa, fadd (etafft_from_qfft q) etaa).

(** 175-199: Potential; sw1l/state.py 188-196 (init_from_etafft) *)
Definition potential_abc (deltat rate : R) (Fe eta : field) : R * R * R :=
  (c2 * deltat / 2 * sum_wn (fun m => cabs2 (Fe m)), c2 * sum_wn (fun m => re_prod (eta m) (Fe m)), - rate).
Definition init_from_etafft (eta : field) : vfield := (azero, azero, eta).

End SW.
