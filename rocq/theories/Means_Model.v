(** * Dissipation frequencies and spatial means saved by the solvers

    fluidsim/base/solvers/pseudo_spect.py (compute_freq_diss), base/time_stepping/pseudo_spect.py (_init_freq_lin) and the
    methods _save_one_time of solvers/{ns2d,ns2d/strat,ns3d,ns3d/strat,plate2d,sw1l}/output/spatial_means.py with the
    functions compute_energies_fft, ... of solvers/*/output/__init__.py (sw1l: output/base.py).

    What is written in the file is a list of (name, value); the numbers are exact (no rounding by the formats). As in
    Budget_Model.v, a field is given by its coefficients on the modes [ms] (all the modes), and sum_wavenumbers is the sum
    over all of them. One process. The quantities which are not about energies (skewness, kurtosis, conversions and
    Charney potential enstrophy of sw1l) are left out. *)

From Coq Require Import Reals ZArith String List Bool.
From Coquelicot Require Import Complex.
From Verif Require Import CExp DFT Alias_Model Oper_Model Budget_Model.
Import ListNotations.
Local Open Scope R_scope.

(** ** compute_freq_diss *)

Record viscosities := { nu_2 : R; nu_4 : R; nu_8 : R; nu_m4 : R }.

Definition is_mode0 (m : mode) : bool := ((mx m =? 0) && (my m =? 0) && (mz m =? 0))%Z.

(** K2 of the operators of each dimension; K4 = K2^2, K8 = K4^2 *)
Definition K2_dim (dim : nat) (o : oper) (m : mode) : R :=
  match dim with 1%nat => Kx o m ^ 2 | 2%nat => K2_2d o m | _ => K2_3d o m end.

(** K2_not0: operators3d.py 290-295 and fluidfft; [tiny] is 1e-14 or 1e-15; the operators in one dimension (operators1d.py)
    do not have this attribute: AttributeError *)
Definition K2_not0_dim (dim : nat) (tiny : R) (o : oper) : option (mode -> R) :=
  match dim with
  | 1%nat => None
  | _ => Some (fun m => if is_mode0 m then tiny else K2_dim dim o m)
  end.

(** base/solvers/pseudo_spect.py 134-191; [next] is the mode of index [0, 1] or [0, 0, 1] of the array; [None]: AttributeError *)
Definition compute_freq_diss (dim : nat) (tiny : R) (o : oper) (next : mode) (nu : viscosities) : option ((mode -> R) * (mode -> R)) :=
  let K2 := K2_dim dim o in
  let f_d := if Rlt_dec 0 (nu_2 nu) then fun m => nu_2 nu * K2 m else fun _ => 0 in
  let f_d := if Rlt_dec 0 (nu_4 nu) then fun m => f_d m + nu_4 nu * K2 m ^ 2 else f_d in
  let f_d := if Rlt_dec 0 (nu_8 nu) then fun m => f_d m + nu_8 nu * (K2 m ^ 2) ^ 2 else f_d in
  if Req_EM_T (nu_m4 nu) 0 then Some (f_d, fun _ => 0)
  else
    match K2_not0_dim dim tiny o with
    | None => None
    | Some K2_not0 =>
      let hypo := fun m => nu_m4 nu / K2_not0 m ^ 2 in
      Some (f_d, fun m => if is_mode0 m then hypo next else hypo m)
    end.

(** base/time_stepping/pseudo_spect.py 179-189 (_init_freq_lin) without compute_freq_complex *)
Definition freq_lin (fs : (mode -> R) * (mode -> R)) (m : mode) : R := fst fs m + snd fs m.

(** ** Spatial means *)

(** np.abs(a)**2; base/output/spatial_means.py 32-33 (inner_prod) *)
Definition abs2 (z : C) : R := Cmod z ^ 2.
Definition inner_prod (a b : C) : R := fst (Cconj a * b)%C.

Section Means.
Variable o : oper.
Variable ms : list mode.
Variable f_d f_d_hypo : mode -> R.
Variable deltat : R.

Definition sum_wavenumbers (f : mode -> R) : R := rsum ms f.
Definition eps (e : mode -> R) : R := sum_wavenumbers (fun m => f_d m * 2 * e m).
Definition eps_hypo (e : mode -> R) : R := sum_wavenumbers (fun m => f_d_hypo m * 2 * e m).

Definition dissipation (s s_hypo s_tot : string) (e : mode -> R) : list (string * R) :=
  [(s, eps e); (s_hypo, eps_hypo e); (s_tot, eps e + eps_hypo e)].
Definition injection (s1 s2 s_tot : string) (P1 P2 : R) : list (string * R) := [(s1, P1); (s2, P2); (s_tot, P1 + P2)].

(** solvers/ns2d/output/__init__.py 110-119 *)
Definition energy_fft_2d (rot : field) (m : mode) : R := (abs2 (ux_from_rot o rot m) + abs2 (uy_from_rot o rot m)) / 2.
Definition enstrophy_fft (rot : field) (m : mode) : R := abs2 (rot m) / 2.

(** solvers/ns2d/output/spatial_means.py 23-84; [F]: the forcing if it is enabled *)
Definition ns2d_means (F : option field) (rot : field) : list (string * R) :=
  [("E"%string, sum_wavenumbers (energy_fft_2d rot)); ("Z"%string, sum_wavenumbers (enstrophy_fft rot))]
  ++ dissipation "epsK" "epsK_hypo" "epsK_tot" (energy_fft_2d rot)
  ++ dissipation "epsZ" "epsZ_hypo" "epsZ_tot" (enstrophy_fft rot)
  ++ match F with
     | None => []
     | Some Frot =>
       let ux := ux_from_rot o rot in let uy := uy_from_rot o rot in
       let Fx := ux_from_rot o Frot in let Fy := uy_from_rot o Frot in
       let PZ1 := sum_wavenumbers (fun m => fst (Cconj (rot m) * Frot m)%C) in
       let PZ2 := deltat / 2 * sum_wavenumbers (fun m => abs2 (Frot m)) in
       let PK1 := sum_wavenumbers (fun m =>
         fst (Cconj (ux m) * Fx m + ux m * Cconj (Fx m) + Cconj (uy m) * Fy m + uy m * Cconj (Fy m))%C / 2) in
       let PK2 := sum_wavenumbers (fun m => (abs2 (Fx m) + abs2 (Fy m)) * deltat / 2) in
       injection "PK1" "PK2" "PK_tot" PK1 PK2 ++ injection "PZ1" "PZ2" "PZ_tot" PZ1 PZ2
     end.

(** solvers/ns2d/strat/output/__init__.py 85-96 *)
Definition energyA_fft (N : R) (b : field) (m : mode) : R :=
  if Req_EM_T N 0 then 0 else (Cmod (b m) / N) ^ 2 / 2.

(** solvers/ns2d/strat/output/spatial_means.py 24-110; the modes of zero kx are stored once each (the kx are not negative
    in the array), so the sum over the stored ones is the sum over all of them; N is not zero when the forcing is
    enabled (divisions by N**2) *)
Definition ns2d_strat_means (N : R) (F : option (field * field)) (s : field * field) : list (string * R) :=
  let (rot, b) := s in
  let energyK := energy_fft_2d rot in
  let energyA := energyA_fft N b in
  let energy := fun m => energyK m + energyA m in
  [("Z"%string, sum_wavenumbers (enstrophy_fft rot)); ("E"%string, sum_wavenumbers energy); ("EK"%string, sum_wavenumbers energyK);
   ("EA"%string, sum_wavenumbers energyA)]
  ++ dissipation "epsA" "epsA_hypo" "epsA_tot" energyA
  ++ dissipation "epsK" "epsK_hypo" "epsK_tot" energyK
  ++ dissipation "epsZ" "epsZ_hypo" "epsZ_tot" (enstrophy_fft rot)
  ++ [("E_shear"%string, sum_wavenumbers (fun m => if (mx m =? 0)%Z then energy m else 0))]
  ++ match F with
     | None => []
     | Some (Frot, Fb) =>
       let ux := ux_from_rot o rot in let uy := uy_from_rot o rot in
       let Fx := ux_from_rot o Frot in let Fy := uy_from_rot o Frot in
       let PZ1 := sum_wavenumbers (fun m => fst (Cconj (rot m) * Frot m)%C) in
       let PZ2 := deltat / 2 * sum_wavenumbers (fun m => abs2 (Frot m)) in
       let PK1 := sum_wavenumbers (fun m => fst (Cconj (ux m) * Fx m + Cconj (uy m) * Fy m)%C) in
       let PK2 := deltat / 2 * sum_wavenumbers (fun m => abs2 (Fx m) + abs2 (Fy m)) in
       let PA1 := sum_wavenumbers (fun m => fst (Cconj (b m) * Fb m)%C) / N ^ 2 in
       let PA2 := deltat / 2 / N ^ 2 * sum_wavenumbers (fun m => abs2 (Fb m)) in
       injection "PK1" "PK2" "PK_tot" PK1 PK2
       ++ [("PA1"%string, PA1); ("PA2"%string, PA1); ("PA_tot"%string, PA1 + PA2)]
       ++ injection "PZ1" "PZ2" "PZ_tot" PZ1 PZ2
     end.

(** operators3d.py 83-101 *)
Definition energy_1field (a : field) (m : mode) : R := 1 / 2 * abs2 (a m).
Definition energy_1field_coef (a : field) (coef : R) (m : mode) : R := 1 / 2 * coef * abs2 (a m).
Definition energy_2fields (a b : field) (m : mode) : R := 1 / 2 * (abs2 (a m) + abs2 (b m)).

(** the lines epsK4 and epsK8 of ns3d and ns3d.strat *)
Definition eps_n (nu : R) (Kn : mode -> R) (s : string) (e : mode -> R) : list (string * R) :=
  if Rlt_dec 0 nu then [(s, sum_wavenumbers (fun m => nu * Kn m * 2 * e m))] else [].

(** solvers/ns3d/output/spatial_means.py 24-96 *)
Definition ns3d_means (nu : viscosities) (F : option vfield) (v : vfield) : list (string * R) :=
  let ex := energy_1field (vxf v) in let ey := energy_1field (vyf v) in let ez := energy_1field (vzf v) in
  let energy := fun m => ex m + ey m + ez m in
  [("E"%string, sum_wavenumbers ex + sum_wavenumbers ey + sum_wavenumbers ez); ("Ex"%string, sum_wavenumbers ex);
   ("Ey"%string, sum_wavenumbers ey); ("Ez"%string, sum_wavenumbers ez)]
  ++ dissipation "epsK" "epsK_hypo" "epsK_tot" energy
  ++ eps_n (nu_4 nu) (fun m => K2_3d o m ^ 2) "epsK4" energy
  ++ eps_n (nu_8 nu) (fun m => (K2_3d o m ^ 2) ^ 2) "epsK8" energy
  ++ match F with
     | None => []
     | Some f =>
       let PK1 := sum_wavenumbers (fun m => fst (Cconj (vxf v m) * vxf f m + Cconj (vyf v m) * vyf f m + Cconj (vzf v m) * vzf f m)%C) in
       let PK2 := sum_wavenumbers (fun m => (abs2 (vxf f m) + abs2 (vyf f m) + abs2 (vzf f m)) * deltat / 2) in
       injection "PK1" "PK2" "PK_tot" PK1 PK2
     end.

(** solvers/ns3d/strat/output/__init__.py 57-76 (compute_energies_fft) and spatial_means.py 26-131; [None]: N is zero
    (ZeroDivisionError) *)
Definition ns3d_strat_means (nu : viscosities) (N : R) (F : option (vfield * field)) (s : vfield * field) : option (list (string * R)) :=
  if Req_EM_T N 0 then None
  else
    let (v, b) := s in
    let urx := fun m => fst (ur (Kx o m) (Ky o m) (vxf v m) (vyf v m)) in
    let ury := fun m => snd (ur (Kx o m) (Ky o m) (vxf v m) (vyf v m)) in
    let udx := fun m => fst (ud (Kx o m) (Ky o m) (vxf v m) (vyf v m)) in
    let udy := fun m => snd (ud (Kx o m) (Ky o m) (vxf v m) (vyf v m)) in
    let nrj_A := energy_1field_coef b (1 / N ^ 2) in
    let nrj_Kz := energy_1field (vzf v) in
    let nrj_Khr := energy_2fields urx ury in
    let nrj_Khd := energy_2fields udx udy in
    let energyK := fun m => nrj_Kz m + nrj_Khr m + nrj_Khd m in
    let shear := fun m => if Req_EM_T (Kx o m ^ 2 + Ky o m ^ 2) 0 then 1 else 0 in
    let A := sum_wavenumbers nrj_A in
    let As := sum_wavenumbers (fun m => nrj_A m * shear m) in
    let Kz_ := sum_wavenumbers nrj_Kz in
    let Khs := sum_wavenumbers (fun m => nrj_Khr m * shear m) in
    let Khr := sum_wavenumbers nrj_Khr - Khs in
    let Khd := sum_wavenumbers nrj_Khd in
    let epsK := eps energyK in let epsK_hypo := eps_hypo energyK in
    let epsA := eps nrj_A in let epsA_hypo := eps_hypo nrj_A in
    Some (
      [("E"%string, A + Kz_ + Khr + Khd + Khs); ("EA"%string, A); ("EKz"%string, Kz_); ("EKhr"%string, Khr); ("EKhd"%string, Khd);
       ("EKhs"%string, Khs); ("EAs"%string, As);
       ("epsK"%string, epsK); ("epsK_hypo"%string, epsK_hypo); ("epsA"%string, epsA); ("epsA_hypo"%string, epsA_hypo);
       ("eps_tot"%string, epsK + epsK_hypo + epsA + epsA_hypo)]
      ++ eps_n (nu_4 nu) (fun m => K2_3d o m ^ 2) "epsK4" energyK ++ eps_n (nu_4 nu) (fun m => K2_3d o m ^ 2) "epsA4" nrj_A
      ++ eps_n (nu_8 nu) (fun m => (K2_3d o m ^ 2) ^ 2) "epsK8" energyK ++ eps_n (nu_8 nu) (fun m => (K2_3d o m ^ 2) ^ 2) "epsA8" nrj_A
      ++ match F with
         | None => []
         | Some (f, fb) =>
           let PK1 := sum_wavenumbers (fun m => fst (Cconj (vxf v m) * vxf f m + Cconj (vyf v m) * vyf f m + Cconj (vzf v m) * vzf f m)%C) in
           let PK2 := sum_wavenumbers (fun m => abs2 (vxf f m) + abs2 (vyf f m) + abs2 (vzf f m)) * deltat / 2 in
           let PA1 := sum_wavenumbers (fun m => fst (Cconj (b m) * fb m)%C) * (1 / N ^ 2) in
           let PA2 := sum_wavenumbers (fun m => abs2 (fb m)) * deltat / 2 * (1 / N ^ 2) in
           injection "PK1" "PK2" "PK_tot" PK1 PK2 ++ injection "PA1" "PA2" "PA_tot" PA1 PA2
         end).

(** ** sw1l: the products are computed on the grid *)

(** solvers/sw1l/state.py 50-65 *)
Definition height (eta : field) : gfield := fun jx jy jz => (RtoC 1 + ifft o ms eta jx jy jz)%C.
Definition J_fft (u eta : field) : field := fft o (gmul (height eta) (ifft o ms u)).

(** output/base.py 217-244 (OutputSW1L.compute_energies_fft) *)
Definition energyK_sw1l (u : field * field) (eta : field) (m : mode) : R :=
  fst (Cconj (J_fft (fst u) eta m) * fst u m + Cconj (J_fft (snd u) eta m) * snd u m)%C / 2.
Definition energyA_sw1l (c2 : R) (eta : field) (m : mode) : R := c2 * abs2 (eta m) / 2.

(** output/spatial_means.py 30-59, 147-194, 425-461 (SpatialMeansSW1L: _save_one_time, treat_dissipation_rates,
    compute_dissipation_rates, compute_epsK) and 463-535 (treat_forcing) *)
Definition sw1l_means (c2 : R) (F : option (field * field * field)) (s : field * field * field) : list (string * R) :=
  let '(ux, uy, eta) := s in
  let energyK := energyK_sw1l (ux, uy) eta in
  let energyA := energyA_sw1l c2 eta in
  let EKquad_fft := fft o (rsc (1 / 2) (gadd (gmul (ifft o ms ux) (ifft o ms ux)) (gmul (ifft o ms uy) (ifft o ms uy)))) in
  let epsKsup := sum_wavenumbers (fun m => f_d m * inner_prod (EKquad_fft m) (eta m)) in
  let epsKsup_hypo := sum_wavenumbers (fun m => f_d_hypo m * inner_prod (EKquad_fft m) (eta m)) in
  let epsK := eps energyK + epsKsup in
  let epsK_hypo := eps_hypo energyK + epsKsup_hypo in
  [("E"%string, sum_wavenumbers energyK + sum_wavenumbers energyA); ("EK"%string, sum_wavenumbers energyK);
   ("EA"%string, sum_wavenumbers energyA);
   ("epsK"%string, epsK); ("epsK_hypo"%string, epsK_hypo); ("epsKsup"%string, epsKsup); ("epsKsup_hypo"%string, epsKsup_hypo);
   ("epsK_tot"%string, epsK + epsK_hypo)]
  ++ dissipation "epsA" "epsA_hypo" "epsA_tot" energyA
  ++ match F with
     | None => []
     | Some (Fx_fft, Fy_fft, Feta_fft) =>
       let PA1 := sum_wavenumbers (fun m => c2 * inner_prod (eta m) (Feta_fft m)) in
       let PA2 := sum_wavenumbers (fun m => deltat / 2 * c2 * abs2 (Feta_fft m)) in
       let Fx := ifft o ms Fx_fft in let Fy := ifft o ms Fy_fft in let Feta := ifft o ms Feta_fft in
       let h := height eta in
       let FetaFx_fft := fft o (gmul Feta Fx) in let FetaFy_fft := fft o (gmul Feta Fy) in
       let Jx_fft := J_fft ux eta in let Jy_fft := J_fft uy eta in
       let FJx_fft := fft o (gadd (gmul h Fx) (gmul Feta (ifft o ms ux))) in
       let FJy_fft := fft o (gadd (gmul h Fy) (gmul Feta (ifft o ms uy))) in
       let PK1 := sum_wavenumbers (fun m => 1 / 2 * (inner_prod (Jx_fft m) (Fx_fft m) + inner_prod (Jy_fft m) (Fy_fft m)
         + inner_prod (ux m) (FJx_fft m) + inner_prod (uy m) (FJy_fft m))) in
       let PK2 := sum_wavenumbers (fun m => deltat / 2 * (1 / 2 * (inner_prod (Fx_fft m) (FJx_fft m) + inner_prod (Fy_fft m) (FJy_fft m))
         + inner_prod (ux m) (FetaFx_fft m) + inner_prod (uy m) (FetaFy_fft m))) in
       injection "PK1" "PK2" "PK_tot" PK1 PK2 ++ injection "PA1" "PA2" "PA_tot" PA1 PA2
     end.

(** sw1l.modified: modified/output.py 25-43 (quadratic energies) and spatial_means.py 30-59, 178-194, 231-266 (SpatialMeansMSW1L) *)
Definition sw1l_modified_means (c2 : R) (F : option (field * field * field)) (s : field * field * field) : list (string * R) :=
  let '(ux, uy, eta) := s in
  let energyK := fun m => abs2 (ux m) / 2 + abs2 (uy m) / 2 in
  let energyA := energyA_sw1l c2 eta in
  [("E"%string, sum_wavenumbers energyK + sum_wavenumbers energyA); ("EK"%string, sum_wavenumbers energyK);
   ("EA"%string, sum_wavenumbers energyA)]
  ++ dissipation "epsK" "epsK_hypo" "epsK_tot" energyK
  ++ dissipation "epsA" "epsA_hypo" "epsA_tot" energyA
  ++ match F with
     | None => []
     | Some (Fx, Fy, Feta) =>
       let PK1 := sum_wavenumbers (fun m => inner_prod (ux m) (Fx m) + inner_prod (uy m) (Fy m)) in
       let PK2 := sum_wavenumbers (fun m => deltat / 2 * (abs2 (Fx m) + abs2 (Fy m))) in
       let PA1 := sum_wavenumbers (fun m => c2 * inner_prod (eta m) (Feta m)) in
       let PA2 := sum_wavenumbers (fun m => deltat / 2 * c2 * abs2 (Feta m)) in
       injection "PK1" "PK2" "PK_tot" PK1 PK2 ++ injection "PA1" "PA2" "PA_tot" PA1 PA2
     end.

End Means.
