(** * Injection rates over a step, totals and energies saved: C97, C98, C99, C100 *)

From Coq Require Import Reals Lra ZArith Lia String List Bool FunctionalExtensionality.
From Coquelicot Require Import Coquelicot.
From Verif Require Import CExp DFT Alias_Model Alias_Proofs Oper_Model Oper_Proofs OperVec_Proofs Budget_Model Budget_Spec Budget_Proofs Budget2D_Proofs
  Budget2D_Props Budget3D_Proofs Budget3D_Props Means_Model Means_Spec Means_Proofs Means_Props Means3D_Props.
Import ListNotations.
Local Open Scope R_scope.

Section Injection.
Variable o : oper.
Hypothesis Ho : oper_pos o.
Variable ms : list mode.
Variable f_d f_h : mode -> R.
Variable dt : R.

Lemma after_square F a : square ms (after dt F a) - square ms a = dt * (rate ms one a F + dt / 2 * total ms (fun m => 1 * norm2 (F m))).
Proof. rewrite !square_1. exact (after_total ms one dt F a). Qed.

Lemma after_energy F a : energy_2d o ms (after dt F a) - energy_2d o ms a = dt * (rate ms (cK o) a F + dt / 2 * total ms (fun m => cK o m * norm2 (F m))).
Proof. rewrite !energy_2d_cK by exact Ho. exact (after_total ms (cK o) dt F a). Qed.

Lemma sum_abs2 F : sum_wavenumbers ms (fun m => abs2 (F m)) = total ms (fun m => 1 * norm2 (F m)).
Proof. unfold sum_wavenumbers. rewrite rsum_total. apply total_ext. intros m _. rewrite abs2_norm2. ring. Qed.

Lemma sum_vel F : sum_wavenumbers ms (fun m => abs2 (ux_from_rot o F m) + abs2 (uy_from_rot o F m)) = total ms (fun m => cK o m * norm2 (F m)).
Proof. unfold sum_wavenumbers. rewrite rsum_total. apply total_ext. intros m _. rewrite !abs2_norm2. apply vel_norm2. exact Ho. Qed.

(** ** C98: during a step of duration dt with the forcing alone, the energy increases by dt (PK1 + PK2), exactly *)

Theorem c98_ns2d F rot : let w := written (ns2d_means o ms f_d f_h dt (Some F) rot) in
  energy_2d o ms (after dt F rot) - energy_2d o ms rot = dt * (w "PK1"%string + w "PK2"%string)
  /\ square ms (after dt F rot) - square ms rot = dt * (w "PZ1"%string + w "PZ2"%string).
Proof.
  intros w. unfold w. rewrite (written_PK1 o ms Ho), (written_PZ1 o ms). rewrite after_energy, after_square. cbn [forcing_of]. split; f_equal; f_equal.
  - transitivity (sum_wavenumbers ms (fun m => (abs2 (ux_from_rot o F m) + abs2 (uy_from_rot o F m)) * dt / 2)); [|reflexivity].
    rewrite <- sum_vel. unfold sum_wavenumbers. rewrite !rsum_total, <- total_scal. apply total_ext. intros m _. field.
  - rewrite <- sum_abs2. reflexivity.
Qed.

(** in ns2d.strat the second part PA2 of the injection of potential energy is not what is written with this name: it is PA_tot - PA1 *)
Theorem c98_ns2d_strat N F Fb rot b : N <> 0 -> let w := written (ns2d_strat_means o ms f_d f_h dt N (Some (F, Fb)) (rot, b)) in
  energy_2d o ms (after dt F rot) - energy_2d o ms rot = dt * (w "PK1"%string + w "PK2"%string)
  /\ square ms (after dt F rot) - square ms rot = dt * (w "PZ1"%string + w "PZ2"%string)
  /\ square ms (after dt Fb b) / N ^ 2 - square ms b / N ^ 2 = dt * w "PA_tot"%string.
Proof.
  intros HN w. unfold w. rewrite (written_strat_PK1 o ms Ho), (written_strat_PZ1 o ms). cbn [forcings_of fst].
  rewrite after_energy, after_square. split; [|split]; [f_equal; f_equal | f_equal; f_equal |].
  - rewrite <- sum_vel. reflexivity.
  - rewrite <- sum_abs2. reflexivity.
  - transitivity ((square ms (after dt Fb b) - square ms b) / N ^ 2); [field; exact HN|]. rewrite after_square.
    transitivity (dt * (sum_wavenumbers ms (fun m => fst (Cconj (b m) * Fb m)%C) / N ^ 2 + dt / 2 / N ^ 2 * sum_wavenumbers ms (fun m => abs2 (Fb m)))); [|reflexivity].
    rewrite PZ1_rate, sum_abs2. unfold one. field. exact HN.
Qed.

Lemma v_after F v : energy_3d ms (vafter dt F v) - energy_3d ms v
  = dt * (vrate ms v F + dt / 2 * sum_wavenumbers ms (fun m => abs2 (vxf F m) + abs2 (vyf F m) + abs2 (vzf F m))).
Proof.
  unfold energy_3d, vafter, cx, cy, cz. cbn [fst snd].
  transitivity ((square ms (after dt (fst (fst F)) (fst (fst v))) - square ms (fst (fst v))) + (square ms (after dt (snd (fst F)) (snd (fst v))) - square ms (snd (fst v)))
    + (square ms (after dt (snd F) (snd v)) - square ms (snd v))); [ring|]. rewrite !after_square.
  replace (sum_wavenumbers ms (fun m => abs2 (vxf F m) + abs2 (vyf F m) + abs2 (vzf F m)))
    with (total ms (fun m => 1 * norm2 (fst (fst F) m)) + total ms (fun m => 1 * norm2 (snd (fst F) m)) + total ms (fun m => 1 * norm2 (snd F m))).
  2:{ unfold sum_wavenumbers. rewrite rsum_total, <- !total_plus. apply total_ext. intros m _. rewrite !abs2_norm2. unfold vxf, vyf, vzf. ring. }
  unfold vrate, vxf, vyf, vzf. ring.
Qed.

Theorem c98_ns3d nu F v : let w := written (ns3d_means o ms f_d f_h dt nu (Some F) v) in
  energy_3d ms (vafter dt F v) - energy_3d ms v = dt * (w "PK1"%string + w "PK2"%string).
Proof.
  intros w. unfold w. rewrite ns3d_PK1, v_after. cbn [vforcing_of]. f_equal. f_equal.
  transitivity (sum_wavenumbers ms (fun m => (abs2 (vxf F m) + abs2 (vyf F m) + abs2 (vzf F m)) * dt / 2)).
  - unfold sum_wavenumbers. rewrite !rsum_total, <- total_scal. apply total_ext. intros m _. field.
  - unfold ns3d_means, eps_n. destruct (Rlt_dec 0 (nu_4 nu)), (Rlt_dec 0 (nu_8 nu)); reflexivity.
Qed.

Ltac open3 N nu := unfold ns3d_strat_means, eps_n; destruct (Req_EM_T N 0) as [E0|_]; [contradiction E0|];
  destruct (Rlt_dec 0 (nu_4 nu)), (Rlt_dec 0 (nu_8 nu)).

Theorem c98_ns3d_strat nu N F Fb v b : N <> 0 ->
  exists l, ns3d_strat_means o ms f_d f_h dt nu N (Some (F, Fb)) (v, b) = Some l
  /\ energy_3d ms (vafter dt F v) - energy_3d ms v = dt * (written l "PK1" + written l "PK2")
  /\ square ms (after dt Fb b) / N ^ 2 - square ms b / N ^ 2 = dt * (written l "PA1" + written l "PA2").
Proof.
  intros HN. destruct (strat_some o ms f_d f_h dt N HN nu (Some (F, Fb)) (v, b)) as [l E]. exists l. split; [exact E|].
  assert (W : written l = w3 o ms f_d f_h dt N nu (Some (F, Fb)) (v, b)) by (unfold w3; rewrite E; reflexivity). rewrite W.
  rewrite w3_PK1, w3_PA1 by exact HN. cbn [sforcing_of fst snd]. split.
  - rewrite v_after. f_equal. f_equal.
    transitivity (sum_wavenumbers ms (fun m => abs2 (vxf F m) + abs2 (vyf F m) + abs2 (vzf F m)) * dt / 2); [field|].
    unfold w3. open3 N nu; reflexivity.
  - transitivity ((square ms (after dt Fb b) - square ms b) / N ^ 2); [field; exact HN|]. rewrite after_square.
    replace (w3 o ms f_d f_h dt N nu (Some (F, Fb)) (v, b) "PA2"%string) with (sum_wavenumbers ms (fun m => abs2 (Fb m)) * dt / 2 * (1 / N ^ 2))
      by (unfold w3; open3 N nu; reflexivity).
    rewrite sum_abs2. field. exact HN.
Qed.

(** sw1l.modified *)
Lemma inner_rate a b : sum_wavenumbers ms (fun m => inner_prod (a m) (b m)) = rate ms one a b.
Proof. unfold sum_wavenumbers. rewrite rsum_total. apply total_ext. intros m _. unfold inner_prod, one. cbn. ring. Qed.

Theorem c98_sw1l_modified c2 Fx Fy Feta ux uy eta : let w := written (sw1l_modified_means ms f_d f_h dt c2 (Some (Fx, Fy, Feta)) (ux, uy, eta)) in
  square ms (after dt Fx ux) + square ms (after dt Fy uy) - (square ms ux + square ms uy) = dt * (w "PK1"%string + w "PK2"%string)
  /\ c2 * square ms (after dt Feta eta) - c2 * square ms eta = dt * (w "PA1"%string + w "PA2"%string).
Proof.
  intros w. unfold w. split.
  - transitivity ((square ms (after dt Fx ux) - square ms ux) + (square ms (after dt Fy uy) - square ms uy)); [ring|]. rewrite !after_square, <- !inner_rate, <- !sum_abs2.
    transitivity (dt * (sum_wavenumbers ms (fun m => inner_prod (ux m) (Fx m) + inner_prod (uy m) (Fy m)) + sum_wavenumbers ms (fun m => dt / 2 * (abs2 (Fx m) + abs2 (Fy m))))); [|reflexivity].
    unfold sum_wavenumbers. rewrite !rsum_total, total_scal, !total_plus. ring.
  - transitivity (c2 * (square ms (after dt Feta eta) - square ms eta)); [ring|]. rewrite after_square, <- inner_rate, <- sum_abs2.
    transitivity (dt * (sum_wavenumbers ms (fun m => c2 * inner_prod (eta m) (Feta m)) + sum_wavenumbers ms (fun m => dt / 2 * c2 * abs2 (Feta m)))); [|reflexivity].
    unfold sum_wavenumbers. rewrite !rsum_total, !total_scal. ring.
Qed.

(** sw1l: potential energy *)
Theorem c98_sw1l_A c2 Fx Fy Feta ux uy eta : let w := written (sw1l_means o ms f_d f_h dt c2 (Some (Fx, Fy, Feta)) (ux, uy, eta)) in
  c2 * square ms (after dt Feta eta) - c2 * square ms eta = dt * (w "PA1"%string + w "PA2"%string).
Proof.
  intros w. unfold w. transitivity (c2 * (square ms (after dt Feta eta) - square ms eta)); [ring|]. rewrite after_square, <- inner_rate, <- sum_abs2.
  transitivity (dt * (sum_wavenumbers ms (fun m => c2 * inner_prod (eta m) (Feta m)) + sum_wavenumbers ms (fun m => dt / 2 * c2 * abs2 (Feta m)))); [|reflexivity].
  unfold sum_wavenumbers. rewrite !rsum_total, !total_scal. ring.
Qed.

(** ** C99: the totals written are the sums of the parts written *)

Theorem c99_totals_partial c2 nu N F Fb Fv Fsw rot b v s :
  (let w := written (ns2d_means o ms f_d f_h dt (Some F) rot) in
   w "PK_tot"%string = w "PK1"%string + w "PK2"%string /\ w "PZ_tot"%string = w "PZ1"%string + w "PZ2"%string)
  /\ (let w := written (ns2d_strat_means o ms f_d f_h dt N (Some (F, Fb)) (rot, b)) in
   w "PK_tot"%string = w "PK1"%string + w "PK2"%string /\ w "PZ_tot"%string = w "PZ1"%string + w "PZ2"%string)
  /\ (let w := written (ns3d_means o ms f_d f_h dt nu (Some Fv) v) in w "PK_tot"%string = w "PK1"%string + w "PK2"%string)
  /\ (forall l, ns3d_strat_means o ms f_d f_h dt nu N (Some (Fv, Fb)) (v, b) = Some l ->
      written l "PK_tot" = written l "PK1" + written l "PK2" /\ written l "PA_tot" = written l "PA1" + written l "PA2")
  /\ (let w := written (sw1l_means o ms f_d f_h dt c2 (Some Fsw) s) in
   w "PK_tot"%string = w "PK1"%string + w "PK2"%string /\ w "PA_tot"%string = w "PA1"%string + w "PA2"%string)
  /\ (let w := written (sw1l_modified_means ms f_d f_h dt c2 (Some Fsw) s) in
   w "PK_tot"%string = w "PK1"%string + w "PK2"%string /\ w "PA_tot"%string = w "PA1"%string + w "PA2"%string).
Proof.
  split; [split; reflexivity|]. split; [split; reflexivity|].
  split; [unfold ns3d_means, eps_n; destruct (Rlt_dec 0 (nu_4 nu)), (Rlt_dec 0 (nu_8 nu)); reflexivity|].
  split. { intros l. unfold ns3d_strat_means, eps_n. destruct (Req_EM_T N 0); [discriminate|].
    destruct (Rlt_dec 0 (nu_4 nu)), (Rlt_dec 0 (nu_8 nu)); intros E; injection E as <-; split; reflexivity. }
  destruct Fsw as [[Fx Fy] Feta], s as [[ux uy] eta]. split; split; reflexivity.
Qed.

(** ** C100: the energies written *)

Theorem c100_ns2d F rot : let w := written (ns2d_means o ms f_d f_h dt F rot) in w "E"%string = energy_2d o ms rot /\ w "Z"%string = square ms rot.
Proof.
  intros w. unfold w. split.
  - transitivity (sum_wavenumbers ms (energy_fft_2d o rot)); [reflexivity|]. unfold sum_wavenumbers. rewrite rsum_total, energy_2d_cK by exact Ho.
    apply total_ext. intros m _. apply energy_fft_norm2. exact Ho.
  - transitivity (sum_wavenumbers ms (enstrophy_fft rot)); [reflexivity|]. unfold sum_wavenumbers. rewrite rsum_total.
    apply total_ext. intros m _. unfold enstrophy_fft. rewrite abs2_norm2. reflexivity.
Qed.

(** ns2d.strat; E_shear is the energy of the modes with kx = 0 *)
Theorem c100_ns2d_strat N F rot b : N <> 0 -> let w := written (ns2d_strat_means o ms f_d f_h dt N F (rot, b)) in
  w "EK"%string = energy_2d o ms rot /\ w "EA"%string = square ms b / N ^ 2 /\ w "E"%string = w "EK"%string + w "EA"%string /\ w "Z"%string = square ms rot
  /\ w "E_shear"%string = energy_2d o (filter (fun m => (mx m =? 0)%Z) ms) rot + square (filter (fun m => (mx m =? 0)%Z) ms) b / N ^ 2.
Proof.
  intros HN w. assert (K : forall m, energy_fft_2d o rot m = (if (mx m =? 0)%Z && (my m =? 0)%Z then 0 else norm2 (rot m) / (2 * (wx o m ^ 2 + wy o m ^ 2)))).
  { intros m. rewrite energy_fft_norm2 by exact Ho. pose proof (energy_2d_cK o Ho [m] rot) as E. unfold energy_2d, total in E. cbn [fold_right] in E. lra. }
  assert (EK : sum_wavenumbers ms (energy_fft_2d o rot) = energy_2d o ms rot).
  { unfold sum_wavenumbers. rewrite rsum_total. apply total_ext. intros m _. apply K. }
  assert (EA : sum_wavenumbers ms (energyA_fft N b) = square ms b / N ^ 2).
  { unfold sum_wavenumbers, square. rewrite rsum_total. unfold Rdiv. rewrite (Rmult_comm (total _ _) (/ _)), <- total_scal. apply total_ext. intros m _. rewrite energyA_norm2 by exact HN. field. exact HN. }
  unfold w. split; [exact EK|]. split; [exact EA|]. split; [|split].
  - transitivity (sum_wavenumbers ms (fun m => energy_fft_2d o rot m + energyA_fft N b m)); [reflexivity|].
    transitivity (sum_wavenumbers ms (energy_fft_2d o rot) + sum_wavenumbers ms (energyA_fft N b)); [|reflexivity].
    unfold sum_wavenumbers. rewrite !rsum_total. apply total_plus.
  - transitivity (sum_wavenumbers ms (enstrophy_fft rot)); [reflexivity|]. unfold sum_wavenumbers. rewrite rsum_total.
    apply total_ext. intros m _. unfold enstrophy_fft. rewrite abs2_norm2. reflexivity.
  - transitivity (sum_wavenumbers ms (fun m => if (mx m =? 0)%Z then energy_fft_2d o rot m + energyA_fft N b m else 0)); [reflexivity|].
    unfold sum_wavenumbers. rewrite rsum_total. clear EK EA. unfold total, energy_2d, square, total. induction ms as [|m l IH]; cbn [fold_right filter]; [unfold Rdiv; ring|].
    rewrite IH. destruct (mx m =? 0)%Z eqn:E; [|ring]. cbn [fold_right]. rewrite K, energyA_norm2 by exact HN. rewrite E. field. exact HN.
Qed.

Theorem c100_ns3d nu F v : let w := written (ns3d_means o ms f_d f_h dt nu F v) in
  w "Ex"%string = square ms (cx v) /\ w "Ey"%string = square ms (cy v) /\ w "Ez"%string = square ms (cz v) /\ w "E"%string = energy_3d ms v.
Proof.
  intros w. assert (S : forall a, sum_wavenumbers ms (energy_1field a) = square ms a).
  { intros a. unfold sum_wavenumbers. rewrite rsum_total. apply total_ext. intros m _. unfold energy_1field. rewrite abs2_norm2. field. }
  unfold w. split; [exact (S (vxf v))|]. split; [exact (S (vyf v))|]. split; [exact (S (vzf v))|].
  unfold energy_3d. rewrite <- !S. reflexivity.
Qed.

Lemma shear_K m : Kx o m ^ 2 + Ky o m ^ 2 = 0 <-> ((mx m =? 0)%Z && (my m =? 0)%Z) = true.
Proof.
  rewrite andb_true_iff, !Z.eqb_eq, <- (Kx0 o Ho), <- (Ky0 o Ho). split.
  - intros H. pose proof (pow2_ge_0 (Kx o m)). pose proof (pow2_ge_0 (Ky o m)).
    destruct (Req_dec (Kx o m) 0) as [A|A]; [|pose proof (pow2_gt_0 _ A); lra]. destruct (Req_dec (Ky o m) 0) as [B|B]; [|pose proof (pow2_gt_0 _ B); lra]. auto.
  - intros [-> ->]. ring.
Qed.

(** ns3d.strat: total energy and its parts *)
Theorem c100_ns3d_strat nu N F v b : N <> 0 -> exists l, ns3d_strat_means o ms f_d f_h dt nu N F (v, b) = Some l
  /\ written l "E" = energy_3d ms v + square ms b / N ^ 2
  /\ written l "EA" = square ms b / N ^ 2 /\ written l "EKz" = square ms (cz v)
  /\ written l "EKhr" = over_kh2 o ms (vertical_vorticity o v) /\ written l "EKhd" = over_kh2 o ms (horizontal_divergence o v)
  /\ written l "EKhs" = shear_energy ms (cx v) + shear_energy ms (cy v) /\ written l "EAs" = shear_energy ms b / N ^ 2.
Proof.
  intros HN. destruct (strat_some o ms f_d f_h dt N HN nu F (v, b)) as [l E]. exists l. split; [exact E|].
  set (urx := fun m => fst (ur (Kx o m) (Ky o m) (vxf v m) (vyf v m))). set (ury := fun m => snd (ur (Kx o m) (Ky o m) (vxf v m) (vyf v m))).
  set (udx := fun m => fst (ud (Kx o m) (Ky o m) (vxf v m) (vyf v m))). set (udy := fun m => snd (ud (Kx o m) (Ky o m) (vxf v m) (vyf v m))).
  set (sh := fun m => if Req_EM_T (Kx o m ^ 2 + Ky o m ^ 2) 0 then 1 else 0).
  set (A := sum_wavenumbers ms (energy_1field_coef b (1 / N ^ 2))). set (As := sum_wavenumbers ms (fun m => energy_1field_coef b (1 / N ^ 2) m * sh m)).
  set (Z := sum_wavenumbers ms (energy_1field (vzf v))). set (Khs := sum_wavenumbers ms (fun m => energy_2fields urx ury m * sh m)).
  set (Khr := sum_wavenumbers ms (energy_2fields urx ury) - Khs). set (Khd := sum_wavenumbers ms (energy_2fields udx udy)).
  assert (W : written l "E" = A + Z + Khr + Khd + Khs /\ written l "EA" = A /\ written l "EKz" = Z /\ written l "EKhr" = Khr /\ written l "EKhd" = Khd
     /\ written l "EKhs" = Khs /\ written l "EAs" = As).
  { unfold ns3d_strat_means in E. destruct (Req_EM_T N 0); [contradiction|]. injection E as <-. repeat split; reflexivity. }
  destruct W as (-> & -> & -> & -> & -> & -> & ->).
  assert (wK : forall m, wx o m = Kx o m /\ wy o m = Ky o m) by (intros m; split; [apply w3x | apply w3y]; exact Ho).
  assert (SH : forall m, (mx m =? 0)%Z && (my m =? 0)%Z = true -> Kx o m = 0 /\ Ky o m = 0).
  { intros m. rewrite andb_true_iff, !Z.eqb_eq, <- (Kx0 o Ho), <- (Ky0 o Ho). auto. }
  assert (NS : forall m, (mx m =? 0)%Z && (my m =? 0)%Z = false -> Kx o m <> 0 \/ Ky o m <> 0).
  { intros m. rewrite andb_false_iff, !Z.eqb_neq, <- (Kx0 o Ho), <- (Ky0 o Ho). auto. }
  assert (SHv : forall m, sh m = if (mx m =? 0)%Z && (my m =? 0)%Z then 1 else 0).
  { intros m. unfold sh. pose proof (shear_K m) as K. destruct (Req_EM_T _ 0), ((mx m =? 0)%Z && (my m =? 0)%Z); try reflexivity; [apply K in e; discriminate | exfalso; apply n; apply K; reflexivity]. }
  assert (EA : A = square ms b / N ^ 2).
  { transitivity (/ N ^ 2 * square ms b); [|unfold Rdiv; apply Rmult_comm]. unfold A, sum_wavenumbers, square. rewrite rsum_total, <- total_scal. apply total_ext. intros m _. rewrite strat_A by exact HN. field. exact HN. }
  assert (EAs : As = shear_energy ms b / N ^ 2).
  { transitivity (/ N ^ 2 * shear_energy ms b); [|unfold Rdiv; apply Rmult_comm]. unfold As, sum_wavenumbers, shear_energy. rewrite rsum_total, <- total_scal. apply total_ext. intros m _. rewrite strat_A, SHv by exact HN.
    destruct ((mx m =? 0)%Z && (my m =? 0)%Z); field; exact HN. }
  assert (EZ : Z = square ms (cz v)).
  { unfold Z, sum_wavenumbers, square. rewrite rsum_total. apply total_ext. intros m _. unfold energy_1field. rewrite abs2_norm2. unfold vzf, cz. field. }
  assert (ES : Khs = shear_energy ms (cx v) + shear_energy ms (cy v)).
  { unfold Khs, sum_wavenumbers, shear_energy. rewrite rsum_total, <- total_plus. apply total_ext. intros m _. rewrite SHv. unfold energy_2fields, urx, ury.
    destruct ((mx m =? 0)%Z && (my m =? 0)%Z) eqn:D; [|ring]. destruct (SH m D) as [-> ->]. rewrite ur_0, !abs2_norm2. cbn [fst snd]. unfold vxf, vyf, cx, cy. field. }
  assert (ER : Khr = over_kh2 o ms (vertical_vorticity o v)).
  { unfold Khr, Khs, sum_wavenumbers, over_kh2. rewrite !rsum_total. unfold Rminus. rewrite <- total_opp, <- total_plus. apply total_ext. intros m _. rewrite SHv.
    destruct ((mx m =? 0)%Z && (my m =? 0)%Z) eqn:D; [ring|]. pose proof (NS m D) as Hk. unfold energy_2fields, urx, ury. rewrite !abs2_norm2, (ur_norm2 _ _ _ _ Hk).
    unfold vertical_vorticity. destruct (wK m) as [-> ->]. unfold vxf, vyf, cx, cy. field.
    pose proof (pow2_ge_0 (Kx o m)). pose proof (pow2_ge_0 (Ky o m)). destruct Hk as [Hk|Hk]; pose proof (pow2_gt_0 _ Hk); lra. }
  assert (ED : Khd = over_kh2 o ms (horizontal_divergence o v)).
  { unfold Khd, sum_wavenumbers, over_kh2. rewrite !rsum_total. apply total_ext. intros m _.
    destruct ((mx m =? 0)%Z && (my m =? 0)%Z) eqn:D.
    - unfold energy_2fields, udx, udy. destruct (SH m D) as [-> ->]. rewrite ud_0, !abs2_norm2. cbn [fst snd]. rewrite norm2_0. field.
    - pose proof (NS m D) as Hk. unfold energy_2fields, udx, udy. rewrite !abs2_norm2, (ud_norm2 _ _ _ _ Hk).
      unfold horizontal_divergence. destruct (wK m) as [-> ->]. unfold vxf, vyf, cx, cy. field.
      pose proof (pow2_ge_0 (Kx o m)). pose proof (pow2_ge_0 (Ky o m)). destruct Hk as [Hk|Hk]; pose proof (pow2_gt_0 _ Hk); lra. }
  split; [|repeat split; assumption].
  rewrite <- EA. replace (energy_3d ms v) with (Z + (Khr + Khs) + Khd); [ring|].
  unfold Khr. replace (sum_wavenumbers ms (energy_2fields urx ury) - Khs + Khs) with (sum_wavenumbers ms (energy_2fields urx ury)) by ring.
  unfold Z, Khd, sum_wavenumbers. rewrite !rsum_total, <- !total_plus, energy_3d_e3. apply total_ext. intros m _. apply strat_K.
Qed.

(** sw1l.modified *)
Theorem c100_sw1l_modified c2 F ux uy eta : let w := written (sw1l_modified_means ms f_d f_h dt c2 F (ux, uy, eta)) in
  w "EK"%string = square ms ux + square ms uy /\ w "EA"%string = c2 * square ms eta /\ w "E"%string = w "EK"%string + w "EA"%string.
Proof.
  intros w. unfold w. split; [|split; [|reflexivity]].
  - transitivity (sum_wavenumbers ms (fun m => abs2 (ux m) / 2 + abs2 (uy m) / 2)); [reflexivity|]. unfold sum_wavenumbers, square. rewrite rsum_total, <- total_plus.
    apply total_ext. intros m _. rewrite !abs2_norm2. reflexivity.
  - transitivity (sum_wavenumbers ms (energyA_sw1l c2 eta)); [reflexivity|]. unfold sum_wavenumbers, square. rewrite rsum_total, <- total_scal.
    apply total_ext. intros m _. unfold energyA_sw1l. rewrite abs2_norm2. field.
Qed.

End Injection.

(** *** the file of ns2d.strat: the total is not the sum of the two parts written *)
Theorem c99_strat_refuted : exists o ms f_d f_h dt N F s, oper_pos o /\ symmetric_modes ms /\ 0 < dt /\ N <> 0 /\
  let w := written (ns2d_strat_means o ms f_d f_h dt N (Some F) s) in w "PA_tot"%string <> w "PA1"%string + w "PA2"%string.
Proof.
  exists {| nx := 4; ny := 4; nz := 1; Lx := 1; Ly := 1; Lz := 1 |}, [(0, 0, 0)%Z], (fun _ => 0), (fun _ => 0), 1, 1,
    (fun _ => RtoC 0, fun _ => RtoC 1), (fun _ => RtoC 0, fun _ => RtoC 0).
  split; [repeat split; simpl; lia || lra|].
  split; [split; [repeat constructor; simpl; tauto | intros m [<-|[]]; left; reflexivity]|]. split; [lra|]. split; [lra|].
  intros w. unfold w.
  set (P1 := sum_wavenumbers [(0, 0, 0)%Z] (fun m => fst (Cconj ((fun _ : mode => RtoC 0) m) * (fun _ : mode => RtoC 1) m)%C) / 1 ^ 2).
  set (P2 := 1 / 2 / 1 ^ 2 * sum_wavenumbers [(0, 0, 0)%Z] (fun m => abs2 ((fun _ : mode => RtoC 1) m))).
  change (P1 + P2 <> P1 + P1). assert (E1 : P1 = 0) by (unfold P1, sum_wavenumbers, rsum; cbn; lra).
  assert (E2 : P2 = 1 / 2) by (unfold P2, sum_wavenumbers; rewrite rsum_total; unfold total; cbn [fold_right]; rewrite abs2_norm2; unfold norm2; cbn; lra).
  rewrite E1, E2. lra.
Qed.

(** ** C97: the dissipation of ns3d by each of the terms *)
Theorem c97_parts tiny o next nu fs ms dt F v : oper_pos o -> compute_freq_diss 3 tiny o next nu = Some fs ->
  let w := written (ns3d_means o ms (fst fs) (snd fs) dt nu F v) in
  w "epsK"%string = total ms (fun m => enabled (nu_2 nu) * k2 3 o m * (norm2 (cx v m) + norm2 (cy v m) + norm2 (cz v m))) + w "epsK4"%string + w "epsK8"%string.
Proof.
  intros Ho E w. unfold w. pose proof (f_d_value 3 tiny o next nu fs Ho E) as D.
  set (en := fun m => energy_1field (vxf v) m + energy_1field (vyf v) m + energy_1field (vzf v) m).
  assert (E0 : forall G, written (ns3d_means o ms (fst fs) (snd fs) dt nu G v) "epsK" = sum_wavenumbers ms (fun m => fst fs m * 2 * en m)) by reflexivity.
  rewrite E0.
  assert (E4 : written (ns3d_means o ms (fst fs) (snd fs) dt nu F v) "epsK4" = sum_wavenumbers ms (fun m => enabled (nu_4 nu) * K2_3d o m ^ 2 * 2 * en m)).
  { unfold ns3d_means, eps_n, enabled. destruct (Rlt_dec 0 (nu_4 nu)) as [P|P].
    - rewrite Rmax_right by lra. reflexivity.
    - rewrite Rmax_left by lra. transitivity 0.
      + destruct (Rlt_dec 0 (nu_8 nu)), F; reflexivity.
      + unfold sum_wavenumbers. rewrite rsum_total, (total_ext ms _ (fun _ => 0 * 0)) by (intros; ring). rewrite total_scal. ring. }
  assert (E8 : written (ns3d_means o ms (fst fs) (snd fs) dt nu F v) "epsK8" = sum_wavenumbers ms (fun m => enabled (nu_8 nu) * (K2_3d o m ^ 2) ^ 2 * 2 * en m)).
  { unfold ns3d_means, eps_n, enabled. destruct (Rlt_dec 0 (nu_8 nu)) as [P|P].
    - rewrite (Rmax_right 0 (nu_8 nu)) by lra. destruct (Rlt_dec 0 (nu_4 nu)); reflexivity.
    - rewrite (Rmax_left 0 (nu_8 nu)) by lra. transitivity 0.
      + destruct (Rlt_dec 0 (nu_4 nu)), F; reflexivity.
      + unfold sum_wavenumbers. rewrite rsum_total, (total_ext ms _ (fun _ => 0 * 0)) by (intros; ring). rewrite total_scal. ring. }
  rewrite E4, E8. unfold sum_wavenumbers. rewrite !rsum_total, <- !total_plus. apply total_ext. intros m _.
  rewrite D. unfold en. rewrite e3_components. unfold e3. pose proof (K2_dim_k2 3 o m Ho) as K. change (K2_dim 3 o m) with (K2_3d o m) in K. rewrite K.
  unfold vxf, vyf, vzf, cx, cy, cz. field.
Qed.

(** ** Example: the mode (1, 0) alone, forced *)

Example c98_example : let o := {| nx := 4; ny := 4; nz := 1; Lx := 2 * PI; Ly := 2 * PI; Lz := 1 |} in let ms := [(1, 0, 0)%Z] in
  let w := written (ns2d_means o ms (fun _ => 0) (fun _ => 0) 1 (Some (fun _ => RtoC 2)) (fun _ => RtoC 1)) in
  oper_pos o /\ w "E"%string = 1 / 2 /\ w "Z"%string = 1 / 2 /\ square ms (after 1 (fun _ => RtoC 2) (fun _ => RtoC 1)) = 9 / 2
  /\ w "PZ1"%string + w "PZ2"%string = 4.
Proof.
  intros o ms w. pose proof PI_RGT_0 as HP. assert (Ho : oper_pos o) by (repeat split; simpl; lia || lra). split; [exact Ho|].
  destruct (c100_ns2d o Ho ms (fun _ => 0) (fun _ => 0) 1 (Some (fun _ => RtoC 2)) (fun _ => RtoC 1)) as [E Z].
  destruct (c98_ns2d o Ho ms (fun _ => 0) (fun _ => 0) 1 (fun _ => RtoC 2) (fun _ => RtoC 1)) as [_ P]. fold w in E, Z, P.
  assert (S1 : square ms (fun _ => RtoC 1) = 1 / 2) by (unfold square, total, norm2; cbn; field).
  assert (S3 : square ms (after 1 (fun _ => RtoC 2) (fun _ => RtoC 1)) = 9 / 2) by (unfold square, total, norm2, after; cbn; field).
  split; [|split; [|split]].
  - rewrite E. unfold energy_2d, total, norm2, wx, wy, mx, my, o, ms. cbn. field. lra.
  - rewrite Z. exact S1.
  - exact S3.
  - rewrite S1, S3 in P. lra.
Qed.

Print Assumptions c98_ns2d.
Print Assumptions c98_ns2d_strat.
Print Assumptions c98_ns3d.
Print Assumptions c98_ns3d_strat.
Print Assumptions c98_sw1l_modified.
Print Assumptions c98_sw1l_A.
Print Assumptions c99_totals_partial.
Print Assumptions c99_strat_refuted.
Print Assumptions c100_ns2d.
Print Assumptions c100_ns2d_strat.
Print Assumptions c100_ns3d.
Print Assumptions c100_ns3d_strat.
Print Assumptions c100_sw1l_modified.
Print Assumptions c97_parts.
