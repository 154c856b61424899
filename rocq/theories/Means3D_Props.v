(** * Spatial means of the three dimensional solvers: C97, C98, C99, C100 *)

From Coq Require Import Reals Lra ZArith Lia String List Bool FunctionalExtensionality.
From Coquelicot Require Import Coquelicot.
From Verif Require Import CExp DFT Alias_Model Alias_Proofs Oper_Model Oper_Proofs OperVec_Proofs Budget_Model Budget_Spec Budget_Proofs Budget2D_Proofs
  Budget2D_Props Budget3D_Proofs Budget3D_Props Means_Model Means_Spec Means_Proofs Means_Props.
Import ListNotations.
Local Open Scope R_scope.

Definition vzero : vfield := (fun _ => RtoC 0, fun _ => RtoC 0, fun _ => RtoC 0).
Definition vforcing_of (F : option vfield) : vfield := match F with None => vzero | Some f => f end.
Definition sforcing_of (F : option (vfield * field)) : vfield * field := match F with None => (vzero, fun _ => RtoC 0) | Some f => f end.

Section Means3.
Variable o : oper.
Hypothesis Ho : oper_pos o.
Variable ms : list mode.
Variable f_d f_h : mode -> R.
Variable dt : R.

Definition one : mode -> R := fun _ => 1.
Definition vrate (v F : vfield) : R := rate ms one (vxf v) (vxf F) + rate ms one (vyf v) (vyf F) + rate ms one (vzf v) (vzf F).
Definition vline (t : R) (v F : vfield) : R -> vfield := fun s => (line t (vxf v) (vxf F) s, line t (vyf v) (vyf F) s, line t (vzf v) (vzf F) s).

Lemma vline_at t v F : vline t v F t = v.
Proof. unfold vline. rewrite !line_at. destruct v as [[a b] d]. reflexivity. Qed.
Lemma vline_moves t v F : vmoves ms (vline t v F) t F.
Proof. destruct F as [[a b] d]. split; [|split]; apply line_moves. Qed.

Lemma derive_v v t F : vmoves ms v t F -> is_derive (fun s => energy_3d ms (v s)) t (vrate (v t) F).
Proof.
  intros (A & B & D). unfold energy_3d, vrate.
  exact (derive_add _ _ t _ _ (derive_add _ _ t _ _ (derive_1 ms _ t _ A) (derive_1 ms _ t _ B)) (derive_1 ms _ t _ D)).
Qed.

Lemma vrate_is v F r : (forall t, is_derive (fun s => energy_3d ms (vline t v F s)) t r) -> vrate v F = r.
Proof.
  intros H. pose proof (derive_v (vline 0 v F) 0 F (vline_moves 0 v F)) as D. rewrite vline_at in D. exact (derive_unique _ 0 _ _ D (H 0)).
Qed.

Lemma vrate_plus v a b : vrate v (plus_v a b) = vrate v a + vrate v b.
Proof. unfold vrate. pose proof (rate_plus ms one) as P. unfold plus_v, vxf, vyf, vzf, cx, cy, cz in *. cbn [fst snd]. rewrite !P. ring. Qed.

Definition e3 (v : vfield) (m : mode) : R := norm2 (vxf v m) + norm2 (vyf v m) + norm2 (vzf v m).

Lemma vrate_damped freq v g : vrate v (vdamped freq g v) = vrate v g - total ms (fun m => freq m * e3 v m).
Proof.
  unfold vrate. pose proof (rate_damped ms one) as P. unfold vdamped, e3, vxf, vyf, vzf, cx, cy, cz in *. cbn [fst snd]. rewrite !P.
  rewrite (total_ext ms (fun m => freq m * (_ + _ + _)) (fun m => (freq m * (one m * norm2 (fst (fst v) m)) + freq m * (one m * norm2 (snd (fst v) m))) + freq m * (one m * norm2 (snd v m))))
    by (intros; unfold one; ring).
  rewrite !total_plus. ring.
Qed.

Lemma vPK1 v f : sum_wavenumbers ms (fun m => fst (Cconj (vxf v m) * vxf f m + Cconj (vyf v m) * vyf f m + Cconj (vzf v m) * vzf f m)%C) = vrate v f.
Proof.
  unfold sum_wavenumbers, vrate, rate. rewrite rsum_total, <- !total_plus. apply total_ext. intros m _. unfold one.
  generalize (vxf v m) (vyf v m) (vzf v m) (vxf f m) (vyf f m) (vzf f m). intros [a a'] [b b'] [d d'] [e e'] [g g'] [h h']. cbn. ring.
Qed.

Lemma vrate_zero v : vrate v vzero = 0.
Proof. unfold vrate, vzero, vxf, vyf, vzf. cbn [fst snd]. rewrite !rate_zero. ring. Qed.

Lemma eps_e3 (e : mode -> R) v : (forall m, In m ms -> e m = e3 v m / 2) -> eps ms f_d e + eps_hypo ms f_h e = total ms (fun m => freq_lin (f_d, f_h) m * e3 v m).
Proof.
  intros H. unfold eps, eps_hypo, sum_wavenumbers. rewrite !rsum_total, <- total_plus. apply total_ext. intros m Hm. rewrite (H m Hm). unfold freq_lin. cbn [fst snd]. field.
Qed.

Lemma e3_components v m : energy_1field (vxf v) m + energy_1field (vyf v) m + energy_1field (vzf v) m = e3 v m / 2.
Proof. unfold energy_1field, e3. rewrite !abs2_norm2. field. Qed.

Lemma energy_3d_e3 v : energy_3d ms v = total ms (fun m => e3 v m / 2).
Proof. unfold energy_3d, square, e3. rewrite <- !total_plus. apply total_ext. intros m _. unfold vxf, vyf, vzf, cx, cy, cz. field. Qed.

(** the names written are all different, so that the values read are those written; the lines epsK4, epsK8 are optional *)
Ltac look := unfold written, ns3d_means, ns3d_strat_means, dissipation, eps_n, injection; cbv zeta;
  repeat (destruct (Rlt_dec _ _)); repeat (match goal with |- context [match ?F with None => [] | Some _ => _ end] => destruct F as [[]|] end); reflexivity.

Lemma ns3d_PK1 nu F v : written (ns3d_means o ms f_d f_h dt nu F v) "PK1" = vrate v (vforcing_of F).
Proof.
  destruct F as [f|]; cbn [vforcing_of].
  - rewrite <- vPK1. unfold ns3d_means, eps_n. destruct (Rlt_dec 0 (nu_4 nu)), (Rlt_dec 0 (nu_8 nu)); reflexivity.
  - rewrite vrate_zero. unfold ns3d_means, eps_n. destruct (Rlt_dec 0 (nu_4 nu)), (Rlt_dec 0 (nu_8 nu)); reflexivity.
Qed.

Lemma ns3d_eps nu F v : written (ns3d_means o ms f_d f_h dt nu F v) "epsK_tot" = total ms (fun m => freq_lin (f_d, f_h) m * e3 v m).
Proof. rewrite <- (eps_e3 _ v (fun m _ => e3_components v m)). reflexivity. Qed.

(** ns3d: dE/dt = PK1 - epsK_tot *)
Theorem c97_ns3d dea pr no_vz_kz0 f nu F v t : symmetric_modes ms -> state_3d o ms dea pr no_vz_kz0 (v t) ->
  vmoves ms v t (vdamped (freq_lin (f_d, f_h)) (plus_v (ns3d o ms dea pr no_vz_kz0 f (v t)) (vforcing_of F)) (v t)) ->
  let w := written (ns3d_means o ms f_d f_h dt nu F (v t)) in
  is_derive (fun s => energy_3d ms (v s)) t (w "PK1"%string - w "epsK_tot"%string) /\ w "epsK_tot"%string = w "epsK"%string + w "epsK_hypo"%string.
Proof.
  intros Hs Sv M w. unfold w. split; [|reflexivity]. rewrite ns3d_PK1, ns3d_eps.
  eapply is_derive_eq; [exact (derive_v v t _ M)|]. rewrite vrate_damped, vrate_plus.
  rewrite (vrate_is (v t) (ns3d o ms dea pr no_vz_kz0 f (v t)) 0).
  2:{ intros s. pose proof (c86_energy o Ho ms Hs dea pr no_vz_kz0 f (vline s (v t) (ns3d o ms dea pr no_vz_kz0 f (v t))) s) as H. rewrite vline_at in H.
      apply H; [exact Sv | apply vline_moves]. }
  ring.
Qed.

(** the decomposition of the horizontal velocity *)
Lemma Kx0 m : Kx o m = 0 <-> mx m = 0%Z.
Proof. apply Kx_zero. exact Ho. Qed.
Lemma Ky0 m : Ky o m = 0 <-> my m = 0%Z.
Proof. apply Ky_zero. exact Ho. Qed.

Lemma ud_norm2 kx ky x y : kx <> 0 \/ ky <> 0 ->
  norm2 (fst (ud kx ky x y)) + norm2 (snd (ud kx ky x y)) = norm2 (RtoC kx * x + RtoC ky * y)%C / (kx ^ 2 + ky ^ 2).
Proof.
  intros H. pose proof (inv_Kh_eq kx ky H) as E. unfold Kh2 in E. assert (P : 0 < kx ^ 2 + ky ^ 2).
  { pose proof (pow2_ge_0 kx). pose proof (pow2_ge_0 ky). destruct H as [H|H]; pose proof (pow2_gt_0 _ H); lra. }
  assert (I : inv_Kh kx ky = / (kx ^ 2 + ky ^ 2)).
  { apply (Rmult_eq_reg_r (kx ^ 2 + ky ^ 2)); [|lra]. rewrite Rinv_l by lra. rewrite <- E. ring. }
  unfold ud, kdotu, rmul, norm2. rewrite I. destruct x as [x x'], y as [y y']. cbn. field. lra.
Qed.
Lemma ur_norm2 kx ky x y : kx <> 0 \/ ky <> 0 ->
  norm2 (fst (ur kx ky x y)) + norm2 (snd (ur kx ky x y)) = norm2 (RtoC kx * y - RtoC ky * x)%C / (kx ^ 2 + ky ^ 2).
Proof.
  intros H. pose proof (inv_Kh_eq kx ky H) as E. unfold Kh2 in E. assert (P : 0 < kx ^ 2 + ky ^ 2).
  { pose proof (pow2_ge_0 kx). pose proof (pow2_ge_0 ky). destruct H as [H|H]; pose proof (pow2_gt_0 _ H); lra. }
  assert (I : inv_Kh kx ky = / (kx ^ 2 + ky ^ 2)).
  { apply (Rmult_eq_reg_r (kx ^ 2 + ky ^ 2)); [|lra]. rewrite Rinv_l by lra. rewrite <- E. ring. }
  unfold ur, ud, kdotu, rmul, norm2. rewrite I. destruct x as [x x'], y as [y y']. cbn. field. lra.
Qed.
Lemma ud_0 x y : ud 0 0 x y = (RtoC 0, RtoC 0).
Proof. unfold ud, rmul. f_equal; ring. Qed.
Lemma ur_0 x y : ur 0 0 x y = (x, y).
Proof. unfold ur. rewrite ud_0. cbn [fst snd]. f_equal; ring. Qed.

Lemma norm2_0 : norm2 (RtoC 0) = 0.
Proof. unfold norm2. cbn. ring. Qed.

Lemma sum_div a b d : d <> 0 -> a / d + b / d = (a + b) / d.
Proof. intros. field. assumption. Qed.

Lemma urud_norm2 kx ky x y : norm2 (fst (ur kx ky x y)) + norm2 (snd (ur kx ky x y)) + (norm2 (fst (ud kx ky x y)) + norm2 (snd (ud kx ky x y))) = norm2 x + norm2 y.
Proof.
  destruct (Req_dec kx 0) as [->|A]; [destruct (Req_dec ky 0) as [->|B]|].
  - rewrite ur_0, ud_0. cbn [fst snd]. rewrite norm2_0. ring.
  - assert (H : 0 <> 0 \/ ky <> 0) by (right; exact B). rewrite (ud_norm2 0 ky x y H), (ur_norm2 0 ky x y H).
    assert (P : 0 ^ 2 + ky ^ 2 <> 0) by (pose proof (pow2_gt_0 _ B); lra). rewrite sum_div by exact P. unfold norm2. destruct x, y. cbn. field. lra.
  - assert (H : kx <> 0 \/ ky <> 0) by (left; exact A). rewrite (ud_norm2 kx ky x y H), (ur_norm2 kx ky x y H).
    assert (P : kx ^ 2 + ky ^ 2 <> 0) by (pose proof (pow2_gt_0 _ A); pose proof (pow2_ge_0 ky); lra). rewrite sum_div by exact P. unfold norm2. destruct x, y. cbn in *. field. lra.
Qed.

Section Strat3.
Variable N : R.
Hypothesis HN : N <> 0.

Lemma strat_some nu F s : exists l, ns3d_strat_means o ms f_d f_h dt nu N F s = Some l.
Proof. unfold ns3d_strat_means. destruct (Req_EM_T N 0); [contradiction|]. destruct s. eexists. reflexivity. Qed.

Lemma strat_K v m : energy_1field (vzf v) m
  + energy_2fields (fun m => fst (ur (Kx o m) (Ky o m) (vxf v m) (vyf v m))) (fun m => snd (ur (Kx o m) (Ky o m) (vxf v m) (vyf v m))) m
  + energy_2fields (fun m => fst (ud (Kx o m) (Ky o m) (vxf v m) (vyf v m))) (fun m => snd (ud (Kx o m) (Ky o m) (vxf v m) (vyf v m))) m = e3 v m / 2.
Proof.
  unfold energy_1field, energy_2fields, e3. rewrite !abs2_norm2. pose proof (urud_norm2 (Kx o m) (Ky o m) (vxf v m) (vyf v m)). lra.
Qed.

Lemma strat_A b m : energy_1field_coef b (1 / N ^ 2) m = norm2 (b m) / 2 / N ^ 2.
Proof. unfold energy_1field_coef. rewrite abs2_norm2. field. exact HN. Qed.

Definition w3 nu F s := match ns3d_strat_means o ms f_d f_h dt nu N F s with Some l => written l | None => fun _ => 0 end.

Ltac open3 := unfold w3, ns3d_strat_means, eps_n; destruct (Req_EM_T N 0) as [E0|_]; [contradiction E0|];
  match goal with nu : viscosities |- _ => destruct (Rlt_dec 0 (nu_4 nu)), (Rlt_dec 0 (nu_8 nu)) end.

Lemma w3_PK1 nu F v b : w3 nu F (v, b) "PK1"%string = vrate v (fst (sforcing_of F)).
Proof.
  destruct F as [[f fb]|]; cbn [sforcing_of fst].
  - rewrite <- vPK1. open3; reflexivity.
  - rewrite vrate_zero. open3; reflexivity.
Qed.
Lemma w3_PA1 nu F v b : w3 nu F (v, b) "PA1"%string = rate ms one b (snd (sforcing_of F)) / N ^ 2.
Proof.
  destruct F as [[f fb]|]; cbn [sforcing_of snd].
  - transitivity (sum_wavenumbers ms (fun m => fst (Cconj (b m) * fb m)%C) * (1 / N ^ 2)); [open3; reflexivity|].
    rewrite PZ1_rate. unfold one. field. exact HN.
  - rewrite rate_zero. unfold Rdiv. rewrite Rmult_0_l. open3; reflexivity.
Qed.
Lemma w3_eps nu F v b : w3 nu F (v, b) "eps_tot"%string
  = total ms (fun m => freq_lin (f_d, f_h) m * e3 v m) + total ms (fun m => freq_lin (f_d, f_h) m * (1 * norm2 (b m))) / N ^ 2.
Proof.
  rewrite <- (eps_e3 _ v (fun m _ => strat_K v m)).
  assert (A : eps ms f_d (energy_1field_coef b (1 / N ^ 2)) + eps_hypo ms f_h (energy_1field_coef b (1 / N ^ 2))
    = total ms (fun m => freq_lin (f_d, f_h) m * (1 * norm2 (b m))) / N ^ 2).
  { unfold eps, eps_hypo, sum_wavenumbers. rewrite !rsum_total, <- total_plus. unfold Rdiv. rewrite (Rmult_comm (total _ _) (/ N ^ 2)), <- total_scal.
    apply total_ext. intros m _. rewrite strat_A. unfold freq_lin. cbn [fst snd]. field. exact HN. }
  rewrite <- A, <- Rplus_assoc. open3; reflexivity.
Qed.

(** ns3d.strat: dE/dt = PK1 + PA1 - eps_tot *)
Theorem c97_ns3d_strat dea pr no_vz_kz0 f nu F v b t : good_modes o ms -> (forall m, In m ms -> dea m = false) ->
  state_3d o ms dea pr no_vz_kz0 (v t) -> real_field ms (b t) -> (no_vz_kz0 = true -> forall m, In m ms -> mz m = 0%Z -> b t m = RtoC 0) ->
  vmoves ms v t (vdamped (freq_lin (f_d, f_h)) (plus_v (fst (ns3d_strat o ms dea pr no_vz_kz0 f N (v t, b t))) (fst (sforcing_of F))) (v t)) ->
  moves ms b t (damped (freq_lin (f_d, f_h)) (plus_f (snd (ns3d_strat o ms dea pr no_vz_kz0 f N (v t, b t))) (snd (sforcing_of F))) (b t)) ->
  exists l, ns3d_strat_means o ms f_d f_h dt nu N F (v t, b t) = Some l
  /\ is_derive (fun s => energy_3d ms (v s) + square ms (b s) / N ^ 2) t (written l "PK1" + written l "PA1" - written l "eps_tot")
  /\ written l "eps_tot" = written l "epsK" + written l "epsK_hypo" + written l "epsA" + written l "epsA_hypo".
Proof.
  intros Hg Hd Sv Rb Zb Mv Mb. destruct (strat_some nu F (v t, b t)) as [l E]. exists l. split; [exact E|].
  assert (W : written l = w3 nu F (v t, b t)) by (unfold w3; rewrite E; reflexivity). rewrite W. split; [|open3; reflexivity].
  rewrite w3_PK1, w3_PA1, w3_eps.
  set (Tv := fst (ns3d_strat o ms dea pr no_vz_kz0 f N (v t, b t))) in *. set (Tb := snd (ns3d_strat o ms dea pr no_vz_kz0 f N (v t, b t))) in *.
  eapply is_derive_eq; [exact (derive_add _ _ t _ _ (derive_v v t _ Mv) (derive_div _ t _ N (derive_1 ms b t _ Mb)))|].
  rewrite vrate_damped, vrate_plus, rate_damped, rate_plus.
  assert (Z : vrate (v t) Tv + rate ms one (b t) Tb / N ^ 2 = 0).
  { pose proof (derive_add _ _ 0 _ _ (derive_v (vline 0 (v t) Tv) 0 Tv (vline_moves 0 (v t) Tv))
        (derive_div _ 0 _ N (derive_1 ms (line 0 (b t) Tb) 0 Tb (line_moves ms 0 (b t) Tb)))) as D. rewrite vline_at, line_at in D.
    refine (derive_unique _ 0 _ _ D _).
    pose proof (c89_total o ms Hg dea Hd N 0 pr no_vz_kz0 f (vline 0 (v t) Tv) (line 0 (b t) Tb)) as H. rewrite vline_at, line_at in H.
    apply H; try assumption; [apply vline_moves | apply line_moves]. }
  unfold one in *. set (X := total ms (fun m => freq_lin (f_d, f_h) m * e3 (v t) m)). set (Y := total ms (fun m => freq_lin (f_d, f_h) m * (1 * norm2 (b t m)))).
  transitivity (vrate (v t) Tv + rate ms (fun _ => 1) (b t) Tb / N ^ 2 + vrate (v t) (fst (sforcing_of F)) - X
     + rate ms (fun _ => 1) (b t) (snd (sforcing_of F)) / N ^ 2 - Y / N ^ 2); [field; exact HN|]. rewrite Z. ring.
Qed.
End Strat3.
End Means3.

(** ** Example: the hypotheses are met *)

Example c97_3d_example : exists ms v b, good_modes o8 ms /\ state_3d o8 ms (fun _ => false) Perp false (v 0) /\ real_field ms (b 0) /\ cy (v 0) (1, 0, 0)%Z = RtoC 1
  /\ vmoves ms v 0 (vdamped (freq_lin (fun _ => 2, fun _ => 1)) (plus_v (fst (ns3d_strat o8 ms (fun _ => false) Perp false None 1 (v 0, b 0))) shear_y) (v 0))
  /\ moves ms b 0 (damped (freq_lin (fun _ => 2, fun _ => 1)) (plus_f (snd (ns3d_strat o8 ms (fun _ => false) Perp false None 1 (v 0, b 0))) (fun _ => RtoC 1)) (b 0)).
Proof.
  destruct c86_example as (ms & Hg & Hin & (R & A & D) & _ & E). set (i := fun _ : mode => RtoC 1).
  exists ms, (vline 0 shear_y (vdamped (freq_lin (fun _ => 2, fun _ => 1)) (plus_v (fst (ns3d_strat o8 ms (fun _ => false) Perp false None 1 (shear_y, i))) shear_y) shear_y)),
    (line 0 i (damped (freq_lin (fun _ => 2, fun _ => 1)) (plus_f (snd (ns3d_strat o8 ms (fun _ => false) Perp false None 1 (shear_y, i))) (fun _ => RtoC 1)) i)).
  rewrite vline_at, line_at. split; [exact Hg|]. split.
  { split; [exact R|]. split; [|exact D]. intros m Hm. destruct (A m Hm) as (A1 & A2 & A3). split; [exact A1|]. split; [exact A2 | discriminate]. }
  split; [intros m _; apply C_eq; cbn; lra|]. split; [exact E|]. split; [apply vline_moves | apply line_moves].
Qed.

Print Assumptions c97_ns3d.
Print Assumptions c97_ns3d_strat.
