(** * Proofs about the adaptive time step *)

From Coq Require Import ZArith QArith Qabs Qminmax Qfield List Bool Lia Lqa.
From Verif Require Import Cfl_Model.
Import ListNotations.
Open Scope Q_scope.

Lemma qlt_bool_true a b : qlt_bool a b = true <-> a < b.
Proof.
  unfold qlt_bool. rewrite negb_true_iff. split; intros H.
  - apply Qnot_le_lt. intros H'. apply Qle_bool_iff in H'. congruence.
  - destruct (Qle_bool b a) eqn:E; [|reflexivity].
    apply Qle_bool_iff in E. exfalso. lra.
Qed.

Lemma qlt_bool_false a b : qlt_bool a b = false <-> b <= a.
Proof.
  split; intros H.
  - apply Qnot_lt_le. intros H'. apply qlt_bool_true in H'. congruence.
  - destruct (qlt_bool a b) eqn:E; [|reflexivity]. apply qlt_bool_true in E. lra.
Qed.

Lemma pymax_spec a b : a <= pymax a b /\ b <= pymax a b /\ (pymax a b = a \/ pymax a b = b).
Proof.
  unfold pymax. destruct (qlt_bool a b) eqn:E.
  - apply qlt_bool_true in E. repeat split; try lra. auto.
  - apply qlt_bool_false in E. repeat split; try lra. auto.
Qed.

Lemma pymin_spec a b : pymin a b <= a /\ pymin a b <= b /\ (pymin a b = a \/ pymin a b = b).
Proof.
  unfold pymin. destruct (qlt_bool b a) eqn:E.
  - apply qlt_bool_true in E. repeat split; try lra. auto.
  - apply qlt_bool_false in E. repeat split; try lra. auto.
Qed.

Lemma pymin_pos a b : 0 < a -> 0 < b -> 0 < pymin a b.
Proof. intros Ha Hb. destruct (pymin_spec a b) as (_ & _ & [->| ->]); assumption. Qed.

Lemma fold_pymax_spec l x :
  x <= fold_left pymax l x /\ (forall y, In y l -> y <= fold_left pymax l x) /\
  In (fold_left pymax l x) (x :: l).
Proof.
  revert x. induction l as [|a l IH]; intros x; cbn [fold_left].
  - split; [lra|]. split; [intros y []|left; reflexivity].
  - destruct (IH (pymax x a)) as (H1 & H2 & H3).
    destruct (pymax_spec x a) as (Hx & Ha & He).
    split; [lra|]. split.
    + intros y [<-|Hy]; [lra|auto].
    + destruct H3 as [H3|H3]; [|right; right; exact H3].
      rewrite <- H3. destruct He as [->| ->]; cbn; auto.
Qed.

Lemma fold_pymin_spec l x :
  fold_left pymin l x <= x /\ (forall y, In y l -> fold_left pymin l x <= y) /\
  In (fold_left pymin l x) (x :: l).
Proof.
  revert x. induction l as [|a l IH]; intros x; cbn [fold_left].
  - split; [lra|]. split; [intros y []|left; reflexivity].
  - destruct (IH (pymin x a)) as (H1 & H2 & H3).
    destruct (pymin_spec x a) as (Hx & Ha & He).
    split; [lra|]. split.
    + intros y [<-|Hy]; [lra|auto].
    + destruct H3 as [H3|H3]; [|right; right; exact H3].
      rewrite <- H3. destruct He as [->| ->]; cbn; auto.
Qed.

Lemma Qabs_bounds a b y : a <= y -> y <= b -> Qabs y <= Qmax (Qabs a) (Qabs b).
Proof.
  intros Ha Hb. apply Qabs_Qle_condition. 
  pose proof (Q.le_max_l (Qabs a) (Qabs b)). pose proof (Q.le_max_r (Qabs a) (Qabs b)).
  pose proof (Qle_Qabs b). pose proof (Qle_Qabs (-a)) as H3. rewrite Qabs_opp in H3.
  split; lra.
Qed.

Lemma max_abs_bound l m : max_abs l = Some m ->
  (forall y, In y l -> Qabs y <= m) /\ (exists y, In y l /\ m = Qabs y).
Proof.
  unfold max_abs, arr_min, arr_max. destruct l as [|x l]; [discriminate|].
  intros H. injection H as <-.
  destruct (fold_pymin_spec l x) as (A1 & A2 & A3).
  destruct (fold_pymax_spec l x) as (B1 & B2 & B3).
  set (a := fold_left pymin l x) in *. set (b := fold_left pymax l x) in *.
  destruct (pymax_spec (Qabs a) (Qabs b)) as (M1 & M2 & M3).
  split.
  - intros y Hy.
    assert (G : a <= y /\ y <= b).
    { destruct Hy as [<-|Hy]; [split; assumption|]. split; auto. }
    destruct G as [G1 G2].
    apply Qabs_Qle_condition.
    pose proof (Qle_Qabs b). pose proof (Qle_Qabs (-a)) as H3. rewrite Qabs_opp in H3.
    split; lra.
  - destruct M3 as [->| ->]; eauto.
Qed.

Lemma max_abs_nonneg l m : max_abs l = Some m -> 0 <= m.
Proof.
  intros H. apply max_abs_bound in H. destruct H as [_ (y & _ & ->)]. apply Qabs_nonneg.
Qed.

Lemma Qdiv_le_mono a b c : 0 < c -> a <= b -> a / c <= b / c.
Proof.
  intros Hc H. unfold Qdiv. apply Qmult_le_compat_r; [exact H|].
  apply Qlt_le_weak, Qinv_lt_0_compat; exact Hc.
Qed.

Lemma Qdiv_nonneg a c : 0 < c -> 0 <= a -> 0 <= a / c.
Proof.
  intros Hc H. unfold Qdiv. apply Qmult_le_0_compat; [exact H|].
  apply Qlt_le_weak, Qinv_lt_0_compat; exact Hc.
Qed.

Lemma Qdiv_pos a c : 0 < c -> 0 < a -> 0 < a / c.
Proof.
  intros Hc H. unfold Qdiv.
  setoid_replace 0 with (0 * / c) by ring.
  apply Qmult_lt_compat_r; [|exact H]. apply Qinv_lt_0_compat; exact Hc.
Qed.

(** The values of [tmp] bound the local frequency at every grid point. *)
Lemma tmp_uxuyuz_point dx dy dz ux uy uz tmp u v w :
  0 < dx -> 0 < dy -> 0 < dz ->
  tmp_uxuyuz dx dy dz ux uy uz = Some tmp ->
  In u ux -> In v uy -> In w uz ->
  Qabs u / dx + Qabs v / dy + Qabs w / dz <= tmp.
Proof.
  intros Hx Hy Hz H Hu Hv Hw. unfold tmp_uxuyuz in H.
  destruct ux as [|u0 ux0]; [contradiction|].
  remember (u0 :: ux0) as ux eqn:Eux.
  destruct (max_abs ux) as [a|] eqn:Ea; [|discriminate].
  destruct (max_abs uy) as [b|] eqn:Eb; [|discriminate].
  destruct (max_abs uz) as [c|] eqn:Ec; [|discriminate].
  injection H as <-.
  apply max_abs_bound in Ea, Eb, Ec.
  pose proof (Qdiv_le_mono _ _ dx Hx (proj1 Ea u Hu)).
  pose proof (Qdiv_le_mono _ _ dy Hy (proj1 Eb v Hv)).
  pose proof (Qdiv_le_mono _ _ dz Hz (proj1 Ec w Hw)). lra.
Qed.

Lemma tmp_uxuy_point dx dy ux uy tmp u v :
  0 < dx -> 0 < dy ->
  tmp_uxuy dx dy ux uy = Some tmp -> In u ux -> In v uy ->
  Qabs u / dx + Qabs v / dy <= tmp.
Proof.
  intros Hx Hy H Hu Hv. unfold tmp_uxuy in H.
  destruct (max_abs ux) as [a|] eqn:Ea; [|discriminate].
  destruct (max_abs uy) as [b|] eqn:Eb; [|discriminate].
  injection H as <-. apply max_abs_bound in Ea, Eb.
  pose proof (Qdiv_le_mono _ _ dx Hx (proj1 Ea u Hu)).
  pose proof (Qdiv_le_mono _ _ dy Hy (proj1 Eb v Hv)). lra.
Qed.

Lemma allreduce_max_ge tmps x : In x tmps -> x <= allreduce_max tmps.
Proof.
  destruct tmps as [|a l]; [intros []|]. cbn [allreduce_max].
  destruct (fold_pymax_spec l a) as (H1 & H2 & _).
  intros [<-|H]; auto.
Qed.

Lemma allreduce_max_in tmps : tmps <> [] -> In (allreduce_max tmps) tmps.
Proof.
  destruct tmps as [|a l]; [congruence|]. intros _. apply fold_pymax_spec.
Qed.

(** ** One update *)
Lemma update_dt_spec dt new : 0 < new ->
  let dt' := update_dt dt new in
  (98 # 100) * new <= dt' /\ dt' <= (102 # 100) * new /\
  (dt' = new \/ dt' = dt) /\
  (Qabs (dt - new) <= (2 # 100) * new -> dt' = dt) /\
  ((2 # 100) * new < Qabs (dt - new) -> dt' = new).
Proof.
  intros Hn. unfold update_dt.
  assert (Hiff : (2 # 100) < Qabs (dt - new) / new <-> (2 # 100) * new < Qabs (dt - new)).
  { split; intros H.
    - apply (Qmult_lt_compat_r _ _ new) in H; [|exact Hn].
      setoid_replace (Qabs (dt - new) / new * new) with (Qabs (dt - new)) in H
        by (field; lra). exact H.
    - apply Qlt_shift_div_l; assumption. }
  destruct (qlt_bool (2 # 100) (Qabs (dt - new) / new)) eqn:E; cbn zeta.
  - apply qlt_bool_true in E. apply Hiff in E.
    repeat split; try lra; auto; intros; lra.
  - assert (E' : Qabs (dt - new) <= (2 # 100) * new).
    { apply Qnot_lt_le. intros H. apply Hiff in H. apply qlt_bool_false in E. lra. }
    pose proof E' as E2. apply Qabs_Qle_condition in E2.
    repeat split; try lra; auto; intros; lra.
Qed.

Lemma deltat_cfl_pos CFL dmax tmp : 0 < CFL -> 0 < dmax -> 0 < deltat_cfl CFL dmax tmp.
Proof.
  intros Hc Hm. unfold deltat_cfl. destruct (qlt_bool 0 tmp) eqn:E; [|exact Hm].
  apply qlt_bool_true in E. apply Qdiv_pos; assumption.
Qed.

(** dt * f <= coef whenever dt <= c * CFL / tmp, f <= tmp *)
Lemma freq_bound dt CFL dmax tmp f c : 0 < CFL -> 0 <= c -> 0 <= dt -> 0 <= f -> f <= tmp ->
  dt <= c * deltat_cfl CFL dmax tmp -> dt * f <= c * CFL.
Proof.
  intros Hc Hc0 Hdt Hf Hft H. unfold deltat_cfl in H.
  destruct (qlt_bool 0 tmp) eqn:E.
  - apply qlt_bool_true in E.
    assert (H1 : dt * tmp <= c * (CFL / tmp) * tmp) by (apply Qmult_le_compat_r; lra).
    setoid_replace (c * (CFL / tmp) * tmp) with (c * CFL) in H1 by (field; lra).
    assert (H2 : f * dt <= tmp * dt) by (apply Qmult_le_compat_r; lra). lra.
  - apply qlt_bool_false in E.
    assert (Ef : f == 0) by lra. rewrite Ef, Qmult_0_r.
    apply Qmult_le_0_compat; lra.
Qed.

Lemma reduce_tmp_max all own : In own all -> reduce_tmp all own = allreduce_max all.
Proof.
  intros H. unfold reduce_tmp. destruct all as [|a [|b l]]; cbn in *.
  - contradiction.
  - destruct H as [<-|[]]; reflexivity.
  - reflexivity.
Qed.

(** The limit imposed by a list of upper bounds of the frequency. *)
Lemma clf_bounds CFL dmax dt all own : 0 < CFL -> 0 < dmax -> In own all ->
  let lim := Qmin (deltat_cfl CFL dmax (allreduce_max all)) dmax in
  let dt' := clf_from_tmp CFL dmax all own dt in
  (98 # 100) * lim <= dt' /\ dt' <= (102 # 100) * lim /\ 0 < lim /\
  (Qabs (dt - lim) <= (2 # 100) * lim -> dt' = dt) /\
  ((2 # 100) * lim < Qabs (dt - lim) -> dt' == lim).
Proof.
  intros Hc Hm Hin lim dt'.
  set (new := pymin (deltat_cfl CFL dmax (allreduce_max all)) dmax).
  assert (En : new == lim).
  { unfold new, lim, pymin.
    destruct (qlt_bool dmax (deltat_cfl CFL dmax (allreduce_max all))) eqn:E.
    - apply qlt_bool_true in E. symmetry. apply Q.min_r. lra.
    - apply qlt_bool_false in E. symmetry. apply Q.min_l. lra. }
  assert (Hn : 0 < new).
  { apply pymin_pos; [apply deltat_cfl_pos; assumption|exact Hm]. }
  destruct (update_dt_spec dt new Hn) as (H1 & H2 & _ & H3 & H4).
  assert (Ed : update_dt dt new = dt').
  { unfold dt', clf_from_tmp. rewrite reduce_tmp_max by exact Hin. reflexivity. }
  rewrite Ed in *.
  rewrite En in H1, H2. rewrite En in Hn.
  assert (Ea : Qabs (dt - new) == Qabs (dt - lim)) by (rewrite En; reflexivity).
  rewrite Ea, En in H3.
  repeat split; try assumption.
  intros H. rewrite H4; [exact En|]. rewrite Ea, En. exact H.
Qed.

Lemma deltat_cfl_iff CFL dmax tmp : 0 < CFL ->
  forall x, x <= deltat_cfl CFL dmax tmp <->
            (0 < tmp -> x * tmp <= CFL) /\ (tmp <= 0 -> x <= dmax).
Proof.
  intros Hc x. unfold deltat_cfl. destruct (qlt_bool 0 tmp) eqn:E.
  - apply qlt_bool_true in E. split.
    + intros H. split; [|lra]. intros _.
      apply (Qmult_le_compat_r _ _ tmp) in H; [|lra].
      setoid_replace (CFL / tmp * tmp) with CFL in H by (field; lra). exact H.
    + intros [H _]. apply Qle_shift_div_l; auto.
  - apply qlt_bool_false in E. split.
    + intros H. split; [lra|auto].
    + intros [_ H]. auto.
Qed.

Lemma clf_le_dmax CFL dmax all own dt : 0 < CFL -> 0 < dmax -> dt <= dmax ->
  clf_from_tmp CFL dmax all own dt <= dmax.
Proof.
  intros Hc Hm Hd. unfold clf_from_tmp.
  set (new := pymin (deltat_cfl CFL dmax (reduce_tmp all own)) dmax).
  assert (Hn : 0 < new).
  { apply pymin_pos; [apply deltat_cfl_pos; assumption|exact Hm]. }
  destruct (update_dt_spec dt new Hn) as (_ & _ & [->| ->] & _); [|exact Hd].
  apply pymin_spec.
Qed.

Lemma mpi_run_le_dmax CFL dmax hist dts : 0 < CFL -> 0 < dmax ->
  Forall (fun dt => dt <= dmax) dts ->
  Forall (fun dt => dt <= dmax) (mpi_run (clf_from_tmp CFL dmax) dts hist).
Proof.
  intros Hc Hm. unfold mpi_run. revert dts.
  induction hist as [|all hist IH]; intros dts Hd; cbn [fold_left]; [exact Hd|].
  apply IH. unfold mpi_step. apply Forall_forall. intros x Hx.
  apply in_map_iff in Hx. destruct Hx as ([o d] & <- & Hin). cbn.
  apply clf_le_dmax; try assumption.
  apply in_combine_r in Hin. rewrite Forall_forall in Hd. auto.
Qed.

(** ** Several processes *)
Definition all_eq (l : list Q) : Prop := forall a b, In a l -> In b l -> a = b.

(** an update which uses the local value only through the reduction *)
Definition collective (upd : list Q -> Q -> Q -> Q) : Prop :=
  forall all o1 o2 dt, In o1 all -> In o2 all -> upd all o1 dt = upd all o2 dt.

Lemma collective_from_tmp CFL dmax : collective (clf_from_tmp CFL dmax).
Proof.
  intros all o1 o2 dt H1 H2. unfold clf_from_tmp.
  rewrite !reduce_tmp_max by assumption. reflexivity.
Qed.

Lemma collective_uxuyeta CFL dmax dx dy cph : collective (clf_uxuyeta CFL dmax dx dy cph).
Proof.
  intros all o1 o2 dt H1 H2. unfold clf_uxuyeta.
  rewrite !reduce_tmp_max by assumption. reflexivity.
Qed.

Lemma collective_uxuyb CFL dmax dd dg cg df : collective (clf_uxuyb CFL dmax dd dg cg df).
Proof.
  intros all o1 o2 dt H1 H2. unfold clf_uxuyb.
  rewrite !reduce_tmp_max by assumption. reflexivity.
Qed.

Lemma mpi_step_all_eq upd dts all : collective upd -> all_eq dts -> all_eq (mpi_step upd dts all).
Proof.
  intros Hu H a b Ha Hb. unfold mpi_step in *.
  apply in_map_iff in Ha. apply in_map_iff in Hb.
  destruct Ha as ([o1 d1] & <- & H1). destruct Hb as ([o2 d2] & <- & H2). cbn.
  rewrite (H d1 d2) by (eapply in_combine_r; eassumption).
  apply Hu; eapply in_combine_l; eassumption.
Qed.

Lemma mpi_run_all_eq upd hist dts : collective upd -> all_eq dts ->
  all_eq (mpi_run upd dts hist).
Proof.
  intros Hu. unfold mpi_run. revert dts.
  induction hist as [|t hist IH]; intros dts H; cbn [fold_left]; [exact H|].
  apply IH, mpi_step_all_eq; assumption.
Qed.

Lemma mpi_run_length upd hist dts :
  Forall (fun all => length all = length dts) hist ->
  length (mpi_run upd dts hist) = length dts.
Proof.
  unfold mpi_run. revert dts.
  induction hist as [|t hist IH]; intros dts H; cbn [fold_left]; [reflexivity|].
  inversion H as [|? ? Ht Hh]; subst.
  assert (E : length (mpi_step upd dts t) = length dts).
  { unfold mpi_step. rewrite map_length, combine_length, Ht. apply Nat.min_id. }
  rewrite <- E. apply IH. rewrite E. exact Hh.
Qed.

(** last update of a history *)
Lemma mpi_run_last upd hist all dts dt' :
  In dt' (mpi_run upd dts (hist ++ [all])) ->
  exists own dt, In own all /\ In dt (mpi_run upd dts hist) /\ dt' = upd all own dt.
Proof.
  unfold mpi_run. rewrite fold_left_app. cbn [fold_left]. unfold mpi_step at 1.
  intros H. apply in_map_iff in H. destruct H as ([o d] & <- & Hin).
  exists o, d. repeat split.
  - eapply in_combine_l; exact Hin.
  - eapply in_combine_r; exact Hin.
Qed.
