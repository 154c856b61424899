(** * Spectral energy budgets

    The methods compute of the classes SpectralEnergyBudget*: fluidsim/solvers/{ns2d,ns2d/strat,ns3d,ns3d/strat}/output/
    spect_energy_budget.py and fluidsim/solvers/sw1l/output/spect_energy_budget.py (sw1l.modified).

    What is saved are spectra: sums over the modes of a shell (spectrum2D_from_fft, spectra1D_from_fft of fluidfft,
    compute_spectrum_kzkh and compute_1dspectra) of one density for each name. The functions return the densities, as a
    list of (name, value at each mode); several names of the code for the same density (suffixes _kx, _ky, _kz, _2d) are
    one name here. Exact numbers, all the modes [ms] (as in Budget_Model.v), one process. The arrays of the physical
    state are the ifft of those of the spectral state. *)

From Coq Require Import Reals ZArith String List Bool.
From Coquelicot Require Import Complex.
From Verif Require Import CExp DFT Alias_Model Oper_Model Budget_Model Means_Model SW_Model.
Import ListNotations.
Local Open Scope R_scope.

Definition densities := list (string * (mode -> R)).

(** np.real(a.conj() * b + a * b.conj()) / 2.0 *)
Definition sym_prod (a b : C) : R := fst (Cconj a * b + a * Cconj b)%C / 2.

Section Seb2.
Variable o : oper.
Variable ms : list mode.
Variable dea : mode -> bool.

(** base/output/spect_energy_budget.py 99-119 (fnonlinfft_from_uxuy_funcfft); the same lines are repeated in the methods
    compute of ns2d and ns2d.strat *)
Definition fnonlin (ux uy : gfield) (f : field) : field :=
  let px_f := ifft o ms (px_fft o f) in
  let py_f := ifft o ms (py_fft o f) in
  dealiasing dea (fft o (gsub (gmul (gopp ux) px_f) (gmul uy py_f))).

(** solvers/ns2d/output/spect_energy_budget.py 23-85 *)
Definition ns2d_budget (beta : R) (rot : field) : densities :=
  let ux_fft := ux_from_rot o rot in let uy_fft := uy_from_rot o rot in
  let ux := ifft o ms ux_fft in let uy := ifft o ms uy_fft in
  let px_rot := ifft o ms (px_fft o rot) in let py_rot := ifft o ms (py_fft o rot) in
  let Frot := dealiasing dea (fft o (gsub (gmul (gopp ux) px_rot) (gmul uy (fun jx jy jz => py_rot jx jy jz + RtoC beta)%C))) in
  let Fx := fnonlin ux uy ux_fft in
  let Fy := fnonlin ux uy uy_fft in
  [("transfer2D_E"%string, fun m => fst (Cconj (ux_fft m) * Fx m + ux_fft m * Cconj (Fx m) + Cconj (uy_fft m) * Fy m + uy_fft m * Cconj (Fy m))%C / 2);
   ("transfer2D_Z"%string, fun m => sym_prod (rot m) (Frot m))].

(** solvers/ns2d/strat/output/spect_energy_budget.py 24-176; (f_d, f_d_hypo) are given by compute_freq_diss; epsilon_kx and
    epsilon_ky (141-143) are sums of dissEKu, dissEKv and dissEA: see [epsilon] *)
Definition ns2d_strat_budget (f_d f_d_hypo : mode -> R) (N beta : R) (s : field * field) : densities :=
  let (rot, b) := s in
  let ux_fft := ux_from_rot o rot in let uy_fft := uy_from_rot o rot in
  let ux := ifft o ms ux_fft in let uy := ifft o ms uy_fft in
  let Fb := fnonlin ux uy b in
  let px_rot := ifft o ms (px_fft o rot) in let py_rot := ifft o ms (py_fft o rot) in
  let Frot := dealiasing dea (fft o (gsub (gmul (gopp ux) px_rot) (gmul uy (fun jx jy jz => py_rot jx jy jz + RtoC beta)%C))) in
  let Fx := fnonlin ux uy ux_fft in
  let Fy := fnonlin ux uy uy_fft in
  let freq_diss_EK := fun m => f_d m + f_d_hypo m in
  [("transferZ"%string, fun m => sym_prod (rot m) (Frot m));
   ("transferEKu"%string, fun m => fst (Cconj (ux_fft m) * Fx m)%C);
   ("transferEKv"%string, fun m => fst (Cconj (uy_fft m) * Fy m)%C);
   ("B"%string, fun m => fst (Cconj (uy_fft m) * b m)%C);
   ("transferEA"%string, fun m => if Req_EM_T N 0 then 0 else 1 / N ^ 2 * fst (Cconj (b m) * Fb m)%C);
   ("dissEKu"%string, fun m => fst (RtoC (freq_diss_EK m) * (Cconj (ux_fft m) * ux_fft m))%C);
   ("dissEKv"%string, fun m => fst (RtoC (freq_diss_EK m) * (Cconj (uy_fft m) * uy_fft m))%C);
   ("dissEK"%string, fun m => fst (RtoC (freq_diss_EK m)
      * (Cconj (ux_fft m) * ux_fft m + ux_fft m * Cconj (ux_fft m) + Cconj (uy_fft m) * uy_fft m + uy_fft m * Cconj (uy_fft m)) / RtoC 2)%C);
   ("dissEA"%string, fun m => if Req_EM_T N 0 then 0 else 1 / N ^ 2 * fst (RtoC (freq_diss_EK m) * (Cconj (b m) * b m))%C);
   ("transferEK"%string, fun m =>
      fst (Cconj (ux_fft m) * Fx m + ux_fft m * Cconj (Fx m) + Cconj (uy_fft m) * Fy m + uy_fft m * Cconj (Fy m))%C / 2)].

(** solvers/ns2d/strat/output/spect_energy_budget.py 141-143 (epsilon_kx, epsilon_ky); the sums of the spectra over the
    shells are the sums over the modes *)
Definition find_density (l : densities) (s : string) : mode -> R :=
  match find (fun p => String.eqb (fst p) s) l with Some p => snd p | None => fun _ => 0 end.
Definition epsilon (f_d f_d_hypo : mode -> R) (N beta : R) (s : field * field) : R :=
  let d := find_density (ns2d_strat_budget f_d f_d_hypo N beta s) in
  rsum ms (d "dissEKu"%string) + rsum ms (d "dissEKv"%string) + rsum ms (d "dissEA"%string).

(** 178-185: the names for which a warning is printed; small_value = 3e-10 (as the sums of the names with different
    suffixes are the same, one for each density) *)
Definition warned (f_d f_d_hypo : mode -> R) (N beta : R) (s : field * field) : list string :=
  map fst (filter (fun p => String.prefix "transfer" (fst p) && (if Rlt_dec (3 / 10 ^ 10) (Rabs (rsum ms (snd p))) then true else false))
    (ns2d_strat_budget f_d f_d_hypo N beta s)).

(** solvers/sw1l/output/spect_energy_budget.py 39-173 (SpectralEnergyBudgetMSW1L, for sw1l.modified); the results of 67-69 are
    not used *)
Definition inner_prod (a b : C) : R := fst (Cconj a * b)%C.
Definition sw1l_modified_budget (f c2 : R) (s : vfield) : densities :=
  let '(ux_fft, uy_fft, eta_fft) := s in
  let rot_fft := rot_from_vec o ux_fft uy_fft in
  let urx_fft := ux_from_rot o rot_fft in
  let ury_fft := uy_from_rot o rot_fft in
  let urx := ifft o ms urx_fft in
  let ury := ifft o ms ury_fft in
  let '(q_fft, div_fft, a_fft) := qdafft_from_uxuyetafft o f c2 s in
  let udx_fft := ux_from_div o div_fft in
  let udy_fft := uy_from_div o div_fft in
  let Fq_fft := fnonlin urx ury q_fft in
  let Feta_fft := fnonlin urx ury eta_fft in
  let Fxrr_fft := fnonlin urx ury urx_fft in
  let Fyrr_fft := fnonlin urx ury ury_fft in
  let Fxrd_fft := fnonlin urx ury udx_fft in
  let Fyrd_fft := fnonlin urx ury udy_fft in
  let transferErrr := fun m => inner_prod (urx_fft m) (Fxrr_fft m) + inner_prod (ury_fft m) (Fyrr_fft m) in
  let transferEdrd := fun m => inner_prod (udx_fft m) (Fxrd_fft m) + inner_prod (udy_fft m) (Fyrd_fft m) in
  let Clfromqq := fun m => inner_prod (udx_fft m) (Fxrr_fft m) + inner_prod (udy_fft m) (Fyrr_fft m) in
  let transferEdrr_rrd := fun m => Clfromqq m + inner_prod (urx_fft m) (Fxrd_fft m) + inner_prod (ury_fft m) (Fyrd_fft m) in
  [("transfer2D_EK"%string, fun m => transferErrr m + transferEdrd m + transferEdrr_rrd m);
   ("transfer2D_Errr"%string, transferErrr);
   ("transfer2D_Edrd"%string, transferEdrd);
   ("Clfromqq"%string, Clfromqq);
   ("transfer2D_Edrr_rrd"%string, transferEdrr_rrd);
   ("transfer2D_EA"%string, fun m => c2 * inner_prod (eta_fft m) (Feta_fft m));
   ("convA2D"%string, fun m => c2 * inner_prod (eta_fft m) (div_fft m));
   ("transfer2D_CPE"%string, fun m => inner_prod (q_fft m) (Fq_fft m))].
End Seb2.

(** ** Three dimensions *)

Section Seb3.
Variable o : oper.
Variable ms : list mode.
Variable f_d : mode -> R.

(** solvers/ns3d/output/spect_energy_budget.py 111-194; [f_d]: the first result of compute_freq_diss (the second one is
    deleted); [None]: AssertionError (192; the sum of the spectrum is the sum over the modes divided by deltakz deltakh,
    here deltakz = deltakh = 1) *)
Definition ns3d_budget (pr : projection) (v : vfield) : option densities :=
  let om := curl o v in
  let g := vfft o (vector_product (vifft o ms v) (vifft o ms om)) in
  let f := on_modes (projector o pr) g in
  let urx := fun m => fst (ur (Kx o m) (Ky o m) (vxf v m) (vyf v m)) in
  let ury := fun m => snd (ur (Kx o m) (Ky o m) (vxf v m) (vyf v m)) in
  let transfer_Kh := fun m => fst (Cconj (vxf v m) * vxf f m)%C + fst (Cconj (vyf v m) * vyf f m)%C in
  let transfer_Kz := fun m => fst (Cconj (vzf v m) * vzf f m)%C in
  let results :=
    [("transfer_Kh"%string, transfer_Kh);
     ("transfer_Kz"%string, transfer_Kz);
     ("transfer_Khr"%string, fun m => fst (Cconj (urx m) * vxf f m)%C + fst (Cconj (ury m) * vyf f m)%C);
     ("diss_Kh"%string, fun m => f_d m * (abs2 (vxf v m) + abs2 (vyf v m)));
     ("diss_Kz"%string, fun m => f_d m * abs2 (vzf v m))] in
  if Rlt_dec (rsum ms (fun m => transfer_Kh m + transfer_Kz m)) (/ 10 ^ 14) then Some results else None.

(** solvers/ns3d/strat/output/spect_energy_budget.py 69-118; [None]: the error of ns3d or ZeroDivisionError; the second
    result: the warning is given *)
Definition ns3d_strat_budget (pr : projection) (N : R) (s : vfield * field) : option (densities * bool) :=
  let (v, b) := s in
  match ns3d_budget pr v with
  | None => None
  | Some results =>
    if Req_EM_T N 0 then None
    else
      let fb := fun m => (RtoC (-1 / N ^ 2) * div_vb_fft o (vifft o ms v) (ifft o ms b) m)%C in
      let transfer_A := fun m => fst (Cconj (b m) * fb m)%C in
      Some (results ++
        [("diss_A"%string, fun m => 1 / N ^ 2 * f_d m * abs2 (b m));
         ("conv_K2A"%string, fun m => - fst (Cconj (vzf v m) * b m)%C);
         ("transfer_A"%string, transfer_A)],
        if Rlt_dec (/ 10 ^ 12) (rsum ms transfer_A) then true else false)
  end.
End Seb3.
