(** * Charney potential enstrophy of sw1l and its dissipation

    fluidsim/solvers/sw1l/output/base.py 126-160 (compute_enstrophy_fft, compute_PV_fft for Charney, compute_PE_fft,
    compute_CharneyPE_fft) and output/spatial_means.py 47-59 and 147-194 (the keys CPE, epsCPE, epsCPE_hypo and epsCPE_tot;
    for sw1l 425-461). The conventions are those of Means_Model.v. rot_fft is the vorticity of ux_fft and uy_fft
    (solvers/sw1l/state.py), eta_fft is given by the state. *)

From Coq Require Import Reals ZArith String List Bool.
From Coquelicot Require Import Complex.
From Verif Require Import CExp DFT Alias_Model Oper_Model Budget_Model Means_Model.
Import ListNotations.
Local Open Scope R_scope.

Section PV.
Variable o : oper.
Variable ms : list mode.
Variable f_d f_d_hypo : mode -> R.
(** params.f *)
Variable f : R.

(** 126-129 *)
Definition enstrophy_fft (rot_fft : field) (m : mode) : R := abs2 (rot_fft m) / 2.
Definition compute_enstrophy (rot_fft : field) : R := sum_wavenumbers ms (enstrophy_fft rot_fft).

(** 143-145 *)
Definition charney_pv_fft (rot_fft eta_fft : field) (m : mode) : C := (rot_fft m - RtoC f * eta_fft m)%C.
(** 153-158 *)
Definition charney_pe_fft (rot_fft eta_fft : field) (m : mode) : R := abs2 (charney_pv_fft rot_fft eta_fft m) / 2.

(** what is written for the potential enstrophy *)
Definition charney_means (s : field * field * field) : list (string * R) :=
  let '(ux, uy, eta) := s in
  let rot := rot_from_vec o ux uy in
  let pe := charney_pe_fft rot eta in
  [("CPE"%string, sum_wavenumbers ms pe)] ++ dissipation ms f_d f_d_hypo "epsCPE" "epsCPE_hypo" "epsCPE_tot" pe.
End PV.
