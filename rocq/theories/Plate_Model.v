(** * The solver plate2d (Foppl-von Karman equations)

    fluidsim/solvers/plate2d/{solver,operators,state}.py, output/__init__.py and output/spatial_means.py (the values which are
    written; the lines of the file are in SpatialMeans_Model.v, the shared arrays in InPlace_Model.v).

    As in Budget_Model.v: exact numbers, the fields are given by their coefficients on the modes [ms] (all the modes of the
    grid; the modes n/2 of the even sizes, which have no opposite, are not in [ms]), one process. A state is (w, z). *)

From Coq Require Import Reals ZArith String List Bool.
From Coquelicot Require Import Complex.
From Verif Require Import CExp DFT Alias_Model Oper_Model Budget_Model Means_Model.
Import ListNotations.
Local Open Scope R_scope.

Section Plate.
Variable o : oper.
Variable ms : list mode.
Variable where_dealiased : mode -> bool.

(** operators.py 22-30 (monge_ampere_step0), for one of the two fields *)
Definition pxx_fft (a : field) : field := fun m => (- a m * RtoC (Kx o m ^ 2))%C.
Definition pyy_fft (a : field) : field := fun m => (- a m * RtoC (Ky o m ^ 2))%C.
Definition pxy_fft (a : field) : field := fun m => (- a m * RtoC (Kx o m * Ky o m))%C.

(** operators.py 33-37 (monge_ampere_step1) *)
Definition monge_ampere_step1 (pxx_a pyy_a pxy_a pxx_b pyy_b pxy_b : gfield) : gfield :=
  gsub (gadd (gmul pxx_a pyy_b) (gmul pyy_a pxx_b)) (gmul (rsc 2 pxy_a) pxy_b).

(** operators.py 60-90 (monge_ampere_from_fft) *)
Definition monge_ampere_from_fft (a b : field) : gfield :=
  monge_ampere_step1 (ifft o ms (pxx_fft a)) (ifft o ms (pyy_fft a)) (ifft o ms (pxy_fft a))
    (ifft o ms (pxx_fft b)) (ifft o ms (pyy_fft b)) (ifft o ms (pxy_fft b)).

Definition first_mode (m : mode) : bool := ((mx m =? 0) && (my m =? 0))%Z.
Definition K4 (m : mode) : R := K2_2d o m ^ 2.

(** operators2d.py 469-525 with order = 4, for all the modes *)
Definition laplacian_fft (negative : bool) (a : field) : field := fun m => laplacian (K2_2d o m) 2 negative (a m).
Definition invlaplacian_fft (negative : bool) (a : field) : field :=
  fun m => invlaplacian (K2_2d o m) (K2_not0 o m) (first_mode m) 2 negative (a m).

(** solver.py 184-185: chi in tendencies_nonlin; it is not truncated *)
Definition chi_solver (z : field) : field :=
  fun m => (- invlaplacian_fft false (fft o (monge_ampere_from_fft z z)) m)%C.

(** solver.py 164-200 (tendencies_nonlin) without the forcing *)
Definition tendencies (s : field * field) : field * field :=
  let (w, z) := s in
  let chi := chi_solver z in
  let Nw := fft o (monge_ampere_from_fft z chi) in
  let lap2z := laplacian_fft false z in
  (dealiasing where_dealiased (fun m => - lap2z m + Nw m)%C, dealiasing where_dealiased w).

(** state.py 44-60 (compute): chi_fft, Nw_fft, lapz_fft *)
Definition chi_state (z : field) : field := invlaplacian_fft true (fft o (monge_ampere_from_fft z z)).
Definition Nw_state (z : field) : field := fft o (monge_ampere_from_fft z (chi_state z)).
Definition lapz_state (z : field) : field := laplacian_fft false z.

(** solver.py 202-210 (compute_freq_diss): the frequencies of w and of z *)
Definition freq_diss (f_d_w : mode -> R) : (mode -> R) * (mode -> R) := (f_d_w, fun _ => 0).

(** solver.py 212-277 (test_tendencies_nonlin) with its arguments: the tendencies (F_w, F_z), w, z, chi *)
Definition energy_tendency (F : field * field) (w z chi : field) (m : mode) : R :=
  let dt_E_K := fst (fst F m * Cconj (w m))%C in
  let dt_E_L := K4 m * fst (snd F m * Cconj (z m))%C in
  let dt_E_NQ := - fst (fft o (monge_ampere_from_fft (snd F) z) m * Cconj (chi m))%C in
  dt_E_K + dt_E_L + dt_E_NQ.
Definition test_tendencies (F : field * field) (w z chi : field) : R :=
  let T := energy_tendency F w z chi in
  let norm := sum_wavenumbers ms (fun m => Rabs (T m)) in
  if Rlt_dec norm (/ 10 ^ 15) then 0 else sum_wavenumbers ms (fun m => T m / norm).

(** without arguments: those of the state of the simulation *)
Definition test_tendencies_nonlin (s : field * field) : R :=
  test_tendencies (tendencies s) (fst s) (snd s) (chi_state (snd s)).

(** output/__init__.py 84-113 (compute_energies_conversion_fft); abs of what is not negative *)
Definition Ek_fft (w : field) (m : mode) : R := 1 / 2 * abs2 (w m).
Definition El_fft (z : field) (m : mode) : R := Rabs (1 / 2 * K4 m * abs2 (z m)).
Definition Ee_fft (chi : field) (m : mode) : R := Cmod (RtoC (1 / 4) * laplacian_fft false (fun m => RtoC (abs2 (chi m))) m)%C.
Definition conversion_k_to_l_fft (w z : field) (m : mode) : R := fst (RtoC (K4 m) * w m * Cconj (z m))%C.
Definition conversion_l_to_e_fft (w z chi : field) (m : mode) : R :=
  - fst (fft o (monge_ampere_from_fft w z) m * Cconj (chi m))%C.

(** output/__init__.py 115-126 (compute_energies_fft), 128-134 *)
Definition El_fft' (z : field) (m : mode) : R := Cmod (RtoC (1 / 2) * laplacian_fft false (fun m => RtoC (abs2 (z m))) m)%C.
Definition compute_energy (s : field * field) : R :=
  let (w, z) := s in
  sum_wavenumbers ms (fun m => Ek_fft w m + El_fft' z m + Ee_fft (chi_state z) m).

(** output/spatial_means.py 56-115 (_save_one_time); [fs]: the dissipation frequencies of w, [F]: the forcing of w (that of z
    is zero: assertion) *)
Definition plate2d_means (f_d f_d_hypo : mode -> R) (deltat : R) (F : option field) (s : field * field) : list (string * R) :=
  let (w, z) := s in
  let chi := chi_state z in
  let energy_k := sum_wavenumbers ms (Ek_fft w) in
  let energy_l := sum_wavenumbers ms (El_fft z) in
  let energy_e := sum_wavenumbers ms (Ee_fft chi) in
  [("E"%string, energy_k + energy_l + energy_e); ("E_k"%string, energy_k); ("E_l"%string, energy_l); ("E_e"%string, energy_e)]
  ++ dissipation ms (fst (freq_diss f_d)) (fst (freq_diss f_d_hypo)) "epsK" "epsK_hypo" "epsK_tot" (Ek_fft w)
  ++ [("conv_k_to_l"%string, sum_wavenumbers ms (conversion_k_to_l_fft w z));
      ("conv_l_to_e"%string, sum_wavenumbers ms (conversion_l_to_e_fft w z chi))]
  ++ match F with
     | None => []
     | Some Fw =>
       injection "P1" "P2" "P_tot" (sum_wavenumbers ms (fun m => fst (Cconj (w m) * Fw m)%C))
         (sum_wavenumbers ms (fun m => abs2 (Fw m) * deltat / 2))
     end.

End Plate.
