(** * Adaptive time step: the theorems (C06-C09, C56, C57) *)

From Coq Require Import ZArith QArith Qabs Qminmax Qfield List Bool Lia Lqa.
From Verif Require Import Cfl_Model Cfl_Proofs.
Import ListNotations.
Open Scope Q_scope.

(** ** Specification *)

(** [lim] is the largest time step allowed by deltat_max and by the condition
    lim * f <= CFL for all the frequencies [f] in the list. *)
Definition is_limit (CFL dmax : Q) (freqs : list Q) (lim : Q) : Prop :=
  0 < lim /\ lim <= dmax /\ (forall f, In f freqs -> lim * f <= CFL) /\
  (lim == dmax \/ exists f, In f freqs /\ lim * f == CFL).

Lemma is_limit_eq CFL dmax all lim : 0 < CFL -> 0 < dmax -> all <> [] ->
  is_limit CFL dmax all lim ->
  lim == Qmin (deltat_cfl CFL dmax (allreduce_max all)) dmax.
Proof.
  intros Hc Hm Hne (Hp & Hl & Hf & He).
  pose proof (allreduce_max_in all Hne) as Hin.
  set (M := allreduce_max all) in *.
  apply Qle_antisym.
  - apply Q.min_glb; [|exact Hl].
    apply deltat_cfl_iff; [exact Hc|]. split; auto.
  - destruct He as [He|(f & Hfin & He)].
    + rewrite He. apply Q.le_min_r.
    + pose proof (allreduce_max_ge all f Hfin) as HfM. fold M in HfM.
      assert (Hfp : 0 < f).
      { apply Qnot_le_lt. intros H.
        assert (lim * f <= 0).
        { setoid_replace 0 with (lim * 0) by ring.
          rewrite !(Qmult_comm lim). apply Qmult_le_compat_r; lra. }
        lra. }
      set (m := Qmin (deltat_cfl CFL dmax M) dmax).
      assert (H1 : m <= deltat_cfl CFL dmax M) by apply Q.le_min_l.
      apply deltat_cfl_iff in H1; [|exact Hc]. destruct H1 as [H1 _].
      assert (H2 : m * M <= CFL) by (apply H1; lra).
      apply Qnot_lt_le. intros Hlt.
      assert (H3 : lim * f < m * f) by (apply Qmult_lt_compat_r; assumption).
      assert (H4 : f * m <= M * m) by (apply Qmult_le_compat_r; lra).
      lra.
Qed.

(** C06.  For every history of (local) frequencies, on every process, after each
    update the time step is positive, at most 1.02 times each limit, and not less
    than 0.98 times the smallest limit. *)
Theorem c06_cfl_bound : forall CFL dmax dts hist all dt',
  0 < CFL -> 0 < dmax ->
  In dt' (mpi_run (clf_from_tmp CFL dmax) dts (hist ++ [all])) ->
  0 < dt' /\ dt' <= (102 # 100) * dmax /\
  (forall f, In f all -> dt' * f <= (102 # 100) * CFL) /\
  (dt' >= (98 # 100) * dmax \/ exists f, In f all /\ dt' * f >= (98 # 100) * CFL).
Proof.
  intros CFL dmax dts hist all dt' Hc Hm H.
  apply mpi_run_last in H. destruct H as (own & dt & Hin & _ & ->).
  destruct (clf_bounds CFL dmax dt all own Hc Hm Hin) as (H1 & H2 & H3 & _ & _).
  set (lim := Qmin (deltat_cfl CFL dmax (allreduce_max all)) dmax) in *.
  set (dt' := clf_from_tmp CFL dmax all own dt) in *.
  assert (L1 : lim <= deltat_cfl CFL dmax (allreduce_max all)) by apply Q.le_min_l.
  assert (L2 : lim <= dmax) by apply Q.le_min_r.
  split; [lra|]. split; [lra|]. split.
  - intros f Hf. destruct (Qlt_le_dec f 0) as [Hn|Hn].
    + assert (f * dt' <= 0 * dt') by (apply Qmult_le_compat_r; lra). lra.
    + apply (freq_bound dt' CFL dmax (allreduce_max all)); try lra.
      apply allreduce_max_ge; exact Hf.
  - destruct (Q.min_spec (deltat_cfl CFL dmax (allreduce_max all)) dmax) as [[Hlt He]|[Hle He]].
    + fold lim in He. right. unfold deltat_cfl in He, Hlt.
      destruct (qlt_bool 0 (allreduce_max all)) eqn:E.
      * apply qlt_bool_true in E. exists (allreduce_max all). split.
        -- apply allreduce_max_in. intros ->. contradiction.
        -- apply (Qmult_le_compat_r _ _ (allreduce_max all)) in H1; [|lra].
           rewrite He in H1.
           setoid_replace ((98 # 100) * (CFL / allreduce_max all) * allreduce_max all)
             with ((98 # 100) * CFL) in H1 by (field; lra). exact H1.
      * lra.
    + fold lim in He. left. lra.
Qed.

(** C06, hysteresis: one update changes the time step exactly when it differs from
    the limit by more than 2 % of it, and then sets it to the limit. *)
Theorem c06_hysteresis : forall CFL dmax all own dt lim,
  0 < CFL -> 0 < dmax -> In own all -> is_limit CFL dmax all lim ->
  (Qabs (dt - lim) <= (2 # 100) * lim -> clf_from_tmp CFL dmax all own dt = dt) /\
  ((2 # 100) * lim < Qabs (dt - lim) -> clf_from_tmp CFL dmax all own dt == lim).
Proof.
  intros CFL dmax all own dt lim Hc Hm Hin Hl.
  assert (Hne : all <> []) by (intros ->; contradiction).
  pose proof (is_limit_eq CFL dmax all lim Hc Hm Hne Hl) as E.
  destruct (clf_bounds CFL dmax dt all own Hc Hm Hin) as (_ & _ & _ & H1 & H2).
  split; intros H.
  - apply H1. rewrite <- E. exact H.
  - rewrite E. apply H2. rewrite <- E. exact H.
Qed.

(** C06 in terms of the velocity: at every grid point of every process the number
    of Courant of a 3D solver is at most 1.02 CFL. *)
Theorem c06_courant_pointwise : forall CFL dmax dx dy dz dts hist all ranks dt',
  0 < CFL -> 0 < dmax -> 0 < dx -> 0 < dy -> 0 < dz ->
  Forall2 (fun r tmp => let '(ux, uy, uz) := r in
             tmp_uxuyuz dx dy dz ux uy uz = Some tmp) ranks all ->
  In dt' (mpi_run (clf_from_tmp CFL dmax) dts (hist ++ [all])) ->
  forall ux uy uz u v w, In (ux, uy, uz) ranks -> In u ux -> In v uy -> In w uz ->
  dt' * (Qabs u / dx + Qabs v / dy + Qabs w / dz) <= (102 # 100) * CFL.
Proof.
  intros CFL dmax dx dy dz dts hist all ranks dt' Hc Hm Hx Hy Hz HF H ux uy uz u v w Hr Hu Hv Hw.
  destruct (c06_cfl_bound _ _ _ _ _ _ Hc Hm H) as (Hp & _ & Hf & _).
  assert (G : exists tmp, In tmp all /\ tmp_uxuyuz dx dy dz ux uy uz = Some tmp).
  { clear -HF Hr. induction HF as [|r t rs ts Hrt HF IH]; [contradiction|].
    destruct Hr as [->|Hr].
    - exists t. split; [left; reflexivity|exact Hrt].
    - destruct (IH Hr) as (t' & Hin & E). exists t'. split; [right; exact Hin|exact E]. }
  destruct G as (tmp & Hin & E).
  pose proof (tmp_uxuyuz_point _ _ _ _ _ _ _ _ _ _ Hx Hy Hz E Hu Hv Hw) as B.
  apply Qle_trans with (dt' * tmp); [|apply Hf; exact Hin].
  rewrite !(Qmult_comm dt'). apply Qmult_le_compat_r; lra.
Qed.

(** Same in 2D. *)
Theorem c06_courant_pointwise_2d : forall CFL dmax dx dy dts hist all ranks dt',
  0 < CFL -> 0 < dmax -> 0 < dx -> 0 < dy ->
  Forall2 (fun r tmp => tmp_uxuy dx dy (fst r) (snd r) = Some tmp) ranks all ->
  In dt' (mpi_run (clf_from_tmp CFL dmax) dts (hist ++ [all])) ->
  forall ux uy u v, In (ux, uy) ranks -> In u ux -> In v uy ->
  dt' * (Qabs u / dx + Qabs v / dy) <= (102 # 100) * CFL.
Proof.
  intros CFL dmax dx dy dts hist all ranks dt' Hc Hm Hx Hy HF H ux uy u v Hr Hu Hv.
  destruct (c06_cfl_bound _ _ _ _ _ _ Hc Hm H) as (Hp & _ & Hf & _).
  assert (G : exists tmp, In tmp all /\ tmp_uxuy dx dy ux uy = Some tmp).
  { clear -HF Hr. induction HF as [|r t rs ts Hrt HF IH]; [contradiction|].
    destruct Hr as [->|Hr].
    - exists t. split; [left; reflexivity|exact Hrt].
    - destruct (IH Hr) as (t' & Hin & E). exists t'. split; [right; exact Hin|exact E]. }
  destruct G as (tmp & Hin & E).
  pose proof (tmp_uxuy_point _ _ _ _ _ _ _ Hx Hy E Hu Hv) as B.
  apply Qle_trans with (dt' * tmp); [|apply Hf; exact Hin].
  rewrite !(Qmult_comm dt'). apply Qmult_le_compat_r; lra.
Qed.

(** C06 for the solvers with waves: sw1l (wave speed cph) and ns2d.strat
    (dispersion relation, group velocity, forcing). *)
Lemma update_lims dt new l : 0 < new -> new <= l -> update_dt dt new <= (102 # 100) * l.
Proof. intros Hn Hl. destruct (update_dt_spec dt new Hn) as (_ & H & _). lra. Qed.

Theorem c06_wave_solvers_bound :
  (forall CFL dmax dx dy cph all own dt f,
     0 < CFL -> 0 < dmax -> 0 < dx -> 0 < dy -> 0 < cph -> In own all -> In f all -> 0 <= f ->
     let dt' := clf_uxuyeta CFL dmax dx dy cph all own dt in
     0 < dt' /\ dt' <= (102 # 100) * dmax /\ dt' * f <= (102 # 100) * CFL /\
     dt' * cph <= (102 # 100) * CFL * Qmin dx dy) /\
  (forall CFL dmax ddisp dgroup cg df all own dt f,
     0 < CFL -> 0 < dmax -> 0 < ddisp -> 0 < dgroup ->
     (forall x, df = Some x -> 0 < x) -> In own all -> In f all -> 0 <= f ->
     let dt' := clf_uxuyb CFL dmax ddisp dgroup cg df all own dt in
     0 < dt' /\ dt' <= (102 # 100) * dmax /\ dt' * f <= (102 # 100) * CFL /\
     dt' <= (102 # 100) * ddisp /\
     (cg = true -> dt' <= (102 # 100) * dgroup) /\
     (forall x, df = Some x -> dt' <= (102 # 100) * x)).
Proof.
  split.
  - intros CFL dmax dx dy cph all own dt f Hc Hm Hx Hy Hp Hin Hf Hf0 dt'.
    assert (Edt : dt' = update_dt dt (pymin (pymin (deltat_cfl CFL dmax (allreduce_max all))
                          (CFL * pymin dx dy / cph)) dmax))
      by (unfold dt', clf_uxuyeta; rewrite (reduce_tmp_max _ _ Hin); reflexivity).
    clearbody dt'.
    pose proof (allreduce_max_ge all f Hf) as HfM. set (M := allreduce_max all) in *.
    set (dw := CFL * pymin dx dy / cph) in *.
    assert (Hmin : 0 < pymin dx dy) by (apply pymin_pos; assumption).
    assert (Hdw : 0 < dw).
    { apply Qdiv_pos; [exact Hp|]. setoid_replace 0 with (0 * pymin dx dy) by ring.
      apply Qmult_lt_compat_r; assumption. }
    pose proof (deltat_cfl_pos CFL dmax M Hc Hm) as Hd.
    set (a := deltat_cfl CFL dmax M) in *.
    destruct (pymin_spec a dw) as (A1 & A2 & _).
    destruct (pymin_spec (pymin a dw) dmax) as (B1 & B2 & _).
    assert (Hn : 0 < pymin (pymin a dw) dmax) by (repeat apply pymin_pos; assumption).
    destruct (update_dt_spec dt _ Hn) as (U1 & U2 & _). rewrite <- Edt in *.
    split; [lra|]. split; [lra|]. split.
    + apply (freq_bound dt' CFL dmax M); try lra. fold a. lra.
    + assert (H : dt' <= (102 # 100) * dw) by lra.
      apply (Qmult_le_compat_r _ _ cph) in H; [|lra]. unfold dw in H.
      setoid_replace ((102 # 100) * (CFL * pymin dx dy / cph) * cph)
        with ((102 # 100) * CFL * pymin dx dy) in H by (field; lra).
      assert (E : pymin dx dy == Qmin dx dy).
      { unfold pymin. destruct (qlt_bool dy dx) eqn:E.
        - apply qlt_bool_true in E. symmetry. apply Q.min_r. lra.
        - apply qlt_bool_false in E. symmetry. apply Q.min_l. lra. }
      rewrite <- E. exact H.
  - intros CFL dmax dd dg cg df all own dt f Hc Hm Hdd Hdg Hdf Hin Hf Hf0 dt'.
    unfold clf_uxuyb in dt'. set (M0 := reduce_tmp all own) in dt'.
    assert (EM : M0 = allreduce_max all) by (apply reduce_tmp_max, Hin).
    clearbody M0. subst M0.
    pose proof (allreduce_max_ge all f Hf) as HfM. set (M := allreduce_max all) in *.
    pose proof (deltat_cfl_pos CFL dmax M Hc Hm) as Hd.
    set (a := deltat_cfl CFL dmax M) in *.
    set (n1 := if cg then _ else _) in dt'.
    assert (N1 : 0 < n1 /\ n1 <= a /\ n1 <= dd /\ n1 <= dmax /\ (cg = true -> n1 <= dg)).
    { unfold n1. destruct cg.
      - destruct (pymin_spec a dd) as (A1 & A2 & _).
        destruct (pymin_spec (pymin a dd) dg) as (B1 & B2 & _).
        destruct (pymin_spec (pymin (pymin a dd) dg) dmax) as (C1 & C2 & _).
        split; [repeat apply pymin_pos; assumption|].
        repeat split; try lra.
      - destruct (pymin_spec a dd) as (A1 & A2 & _).
        destruct (pymin_spec (pymin a dd) dmax) as (C1 & C2 & _).
        split; [repeat apply pymin_pos; assumption|].
        repeat split; try lra; try discriminate. }
    clearbody n1. destruct N1 as (N0 & N1 & N2 & N3 & N4).
    set (n2 := match df with Some _ => _ | None => _ end) in dt'.
    assert (N5 : 0 < n2 /\ n2 <= n1 /\ (forall x, df = Some x -> n2 <= x)).
    { unfold n2. destruct df as [x|].
      - destruct (pymin_spec n1 x) as (A1 & A2 & _).
        split; [apply pymin_pos; auto|]. split; [exact A1|].
        intros y Hy; injection Hy as <-; exact A2.
      - split; [exact N0|]. split; [lra|discriminate]. }
    clearbody n2. destruct N5 as (P0 & P1 & P2).
    destruct (update_dt_spec dt n2 P0) as (U1 & U2 & _). fold dt' in U1, U2. clearbody dt'.
    split; [lra|]. split; [lra|]. split.
    { apply (freq_bound dt' CFL dmax M); try lra. fold a. lra. }
    split; [lra|]. split.
    + intros Hg. specialize (N4 Hg). lra.
    + intros x Hx. specialize (P2 x Hx). lra.
Qed.

(** C07 (refuted as stated): the time step can stay above deltat_max for ever. *)
Theorem c07_deltat_max_refuted :
  exists CFL dmax dt0, 0 < CFL /\ 0 < dmax /\
    forall hist, Forall (fun all => all = [0]) hist ->
      Forall (fun dt => dmax < dt) (mpi_run (clf_from_tmp CFL dmax) [dt0] hist).
Proof.
  exists (4 # 10), (2 # 10), (203 # 1000).
  split; [reflexivity|]. split; [reflexivity|].
  intros hist Hh.
  assert (E : mpi_run (clf_from_tmp (4 # 10) (2 # 10)) [203 # 1000] hist = [203 # 1000]).
  { unfold mpi_run. induction Hh as [|all hist Hall Hh IH]; [reflexivity|].
    subst all. cbn [fold_left].
    assert (S : mpi_step (clf_from_tmp (4 # 10) (2 # 10)) [203 # 1000] [0] = [203 # 1000])
      by (vm_compute; reflexivity).
    rewrite S. exact IH. }
  rewrite E. constructor; [reflexivity|constructor].
Qed.

(** C07, what holds: never exceeded if the initial time step does not exceed it. *)
Theorem c07_deltat_max_partial : forall CFL dmax dts hist,
  0 < CFL -> 0 < dmax -> Forall (fun dt => dt <= dmax) dts ->
  Forall (fun dt => dt <= dmax) (mpi_run (clf_from_tmp CFL dmax) dts hist).
Proof. intros. apply mpi_run_le_dmax; assumption. Qed.

(** C08 (refuted): the wave limit is always overwritten by the parameter, and then
    a time step above the limit is used. *)
Theorem c08_wave_limit_refuted : forall pi, 3 < pi -> pi < 4 ->
  exists freq p a dt0 dmax CFL,
    0 < freq /\
    init_from_params pi (Some freq) p = Some a /\
    at_deltat a = Some dt0 /\ at_deltat_max a = Some dmax /\ at_cfl a = Some CFL /\
    (78 # 100) * pi / freq < clf_from_tmp CFL dmax [0] 0 dt0.
Proof.
  intros pi H1 H2.
  exists 100, {| tp_use_cfl := true; tp_cfl_coef := None; tp_scheme := RK4like;
                tp_deltat0 := 2 # 10; tp_deltat_max := 2 # 10 |}.
  eexists. exists (2 # 10), (2 # 10), 1.
  split; [reflexivity|]. split; [reflexivity|].
  split; [reflexivity|]. split; [reflexivity|]. split; [reflexivity|].
  assert (E : clf_from_tmp 1 (2 # 10) [0] 0 (2 # 10) = 2 # 10) by (vm_compute; reflexivity).
  rewrite E. apply Qlt_shift_div_r; [reflexivity|]. lra.
Qed.

(** ... and this for every frequency: the limit in force is the parameter. *)
Theorem c08_limit_always_overwritten : forall pi freq p a,
  init_from_params pi freq p = Some a -> at_deltat_max a = Some (tp_deltat_max p).
Proof.
  intros pi freq p a. unfold init_from_params, init_compute_time_step.
  destruct (if tp_use_cfl p then _ else _); [|discriminate].
  intros H; injection H as <-. reflexivity.
Qed.

(** C09.  All the processes hold the same time step after any history, for the
    four CFL functions, whatever the local values. *)
Theorem c09_same_dt_on_all_ranks : forall n dt0 hist upd,
  (exists CFL dmax, upd = clf_from_tmp CFL dmax) \/
  (exists CFL dmax dx dy cph, upd = clf_uxuyeta CFL dmax dx dy cph) \/
  (exists CFL dmax dd dg cg df, upd = clf_uxuyb CFL dmax dd dg cg df) ->
  Forall (fun all => length all = n) hist ->
  exists dt, mpi_run upd (repeat dt0 n) hist = repeat dt n.
Proof.
  intros n dt0 hist upd Hupd Hlen.
  assert (Hc : collective upd).
  { destruct Hupd as [(? & ? & ->)|[(? & ? & ? & ? & ? & ->)|(? & ? & ? & ? & ? & ? & ->)]].
    - apply collective_from_tmp.
    - apply collective_uxuyeta.
    - apply collective_uxuyb. }
  assert (H0 : all_eq (repeat dt0 n)).
  { intros a b Ha Hb. apply repeat_spec in Ha, Hb. congruence. }
  pose proof (mpi_run_all_eq upd hist _ Hc H0) as HA.
  assert (HL : length (mpi_run upd (repeat dt0 n) hist) = n).
  { rewrite mpi_run_length; rewrite repeat_length; [reflexivity|exact Hlen]. }
  destruct (mpi_run upd (repeat dt0 n) hist) as [|d l] eqn:E.
  - cbn in HL. subst n. exists dt0. reflexivity.
  - exists d. rewrite <- HL. apply Forall_eq_repeat.
    apply Forall_forall. intros x Hx. apply HA; [left; reflexivity|exact Hx].
Qed.

(** C56 (refuted): a negative advection speed params.U is not limited. *)
Theorem c56_negative_U_refuted :
  exists CFL dmax dx U dt, 0 < CFL /\ 0 < dmax /\ 0 < dx /\
    let dt' := clf_from_tmp CFL dmax [tmp_U dx U] (tmp_U dx U) dt in
    (102 # 100) * CFL < dt' * (Qabs U / dx).
Proof.
  exists (4 # 10), (2 # 10), (1 # 10), (-100), (2 # 10).
  repeat split; vm_compute; reflexivity.
Qed.

Theorem c56_positive_U_partial : forall CFL dmax dx U dt,
  0 < CFL -> 0 < dmax -> 0 < dx -> 0 <= U ->
  let dt' := clf_from_tmp CFL dmax [tmp_U dx U] (tmp_U dx U) dt in
  0 < dt' /\ dt' * (Qabs U / dx) <= (102 # 100) * CFL.
Proof.
  intros CFL dmax dx U dt Hc Hm Hx HU dt'.
  assert (Hin : In dt' (mpi_run (clf_from_tmp CFL dmax) [dt] ([] ++ [[tmp_U dx U]])))
    by (left; reflexivity).
  destruct (c06_cfl_bound _ _ _ _ _ _ Hc Hm Hin) as (Hp & _ & Hf & _).
  split; [exact Hp|].
  assert (E : Qabs U / dx == tmp_U dx U) by (unfold tmp_U; rewrite Qabs_pos by exact HU; reflexivity).
  rewrite E. apply Hf. left; reflexivity.
Qed.

(** C57 (refuted): the time step depends on how the grid is distributed: the same
    two-point field on one process and on two processes. *)
Theorem c57_dt_depends_on_distribution_refuted :
  exists CFL dmax dx dy (u1 u2 v1 v2 : Q) t12 t1 t2 dt0,
    0 < CFL /\ 0 < dmax /\ 0 < dx /\ 0 < dy /\
    tmp_uxuy dx dy [u1; u2] [v1; v2] = Some t12 /\
    tmp_uxuy dx dy [u1] [v1] = Some t1 /\ tmp_uxuy dx dy [u2] [v2] = Some t2 /\
    ~ clf_from_tmp CFL dmax [t12] t12 dt0 == clf_from_tmp CFL dmax [t1; t2] t1 dt0.
Proof.
  exists 1, 10, 1, 1, 1, 0, 0, 1. eexists; eexists; eexists. exists 5.
  repeat split; try reflexivity. vm_compute. discriminate.
Qed.

(** C57, what holds: with one velocity component the time step does not depend on
    the distribution of the points on the processes. *)
Lemma reduce_ux : forall dx (l1 l2 : list Q) t12 t1 t2,
  0 < dx ->
  tmp_ux dx (l1 ++ l2) = Some t12 -> tmp_ux dx l1 = Some t1 -> tmp_ux dx l2 = Some t2 ->
  t12 == allreduce_max [t1; t2].
Proof.
  intros dx l1 l2 t12 t1 t2 Hx H12 H1 H2. unfold tmp_ux in *.
  destruct (max_abs (l1 ++ l2)) as [m|] eqn:E; [|discriminate].
  destruct (max_abs l1) as [m1|] eqn:E1; [|discriminate].
  destruct (max_abs l2) as [m2|] eqn:E2; [|discriminate].
  injection H12 as <-. injection H1 as <-. injection H2 as <-.
  apply max_abs_bound in E, E1, E2.
  destruct E as [B (y & Hy & ->)]. destruct E1 as [B1 (y1 & Hy1 & ->)].
  destruct E2 as [B2 (y2 & Hy2 & ->)].
  pose proof (Qdiv_le_mono _ _ dx Hx (B y1 (in_or_app _ _ _ (or_introl Hy1)))).
  pose proof (Qdiv_le_mono _ _ dx Hx (B y2 (in_or_app _ _ _ (or_intror Hy2)))).
  cbn [allreduce_max fold_left].
  destruct (pymax_spec (Qabs y1 / dx) (Qabs y2 / dx)) as (M1 & M2 & M3).
  apply in_app_or in Hy. destruct Hy as [Hy|Hy].
  - pose proof (Qdiv_le_mono _ _ dx Hx (B1 y Hy)).
    apply Qle_antisym; [lra|]. destruct M3 as [->| ->]; lra.
  - pose proof (Qdiv_le_mono _ _ dx Hx (B2 y Hy)).
    apply Qle_antisym; [lra|]. destruct M3 as [->| ->]; lra.
Qed.

Lemma deltat_cfl_comp CFL dmax a b : a == b -> deltat_cfl CFL dmax a == deltat_cfl CFL dmax b.
Proof.
  intros E. unfold deltat_cfl.
  destruct (qlt_bool 0 a) eqn:Ea, (qlt_bool 0 b) eqn:Eb.
  - rewrite E. reflexivity.
  - apply qlt_bool_true in Ea. apply qlt_bool_false in Eb. lra.
  - apply qlt_bool_true in Eb. apply qlt_bool_false in Ea. lra.
  - reflexivity.
Qed.

Theorem c57_one_component_partial : forall CFL dmax dx (l1 l2 : list Q) t12 t1 t2 dt0,
  0 < CFL -> 0 < dmax -> 0 < dx ->
  tmp_ux dx (l1 ++ l2) = Some t12 -> tmp_ux dx l1 = Some t1 -> tmp_ux dx l2 = Some t2 ->
  clf_from_tmp CFL dmax [t12] t12 dt0 == clf_from_tmp CFL dmax [t1; t2] t1 dt0 /\
  clf_from_tmp CFL dmax [t1; t2] t2 dt0 = clf_from_tmp CFL dmax [t1; t2] t1 dt0.
Proof.
  intros CFL dmax dx l1 l2 t12 t1 t2 dt0 Hc Hm Hx H12 H1 H2.
  split; [|apply collective_from_tmp; cbn; auto].
  pose proof (reduce_ux _ _ _ _ _ _ Hx H12 H1 H2) as E.
  destruct (clf_bounds CFL dmax dt0 [t12] t12 Hc Hm) as (_ & _ & _ & A1 & A2); [left; reflexivity|].
  destruct (clf_bounds CFL dmax dt0 [t1; t2] t1 Hc Hm) as (_ & _ & _ & B1 & B2); [left; reflexivity|].
  set (L1 := Qmin (deltat_cfl CFL dmax (allreduce_max [t12])) dmax) in *.
  set (L2 := Qmin (deltat_cfl CFL dmax (allreduce_max [t1; t2])) dmax) in *.
  assert (EL : L1 == L2).
  { unfold L1, L2. rewrite (deltat_cfl_comp CFL dmax _ _ E). reflexivity. }
  destruct (Qlt_le_dec ((2 # 100) * L1) (Qabs (dt0 - L1))) as [Hlt|Hle].
  - rewrite A2 by exact Hlt. rewrite B2; [exact EL|]. rewrite <- EL. exact Hlt.
  - rewrite A1 by exact Hle. rewrite B1; [reflexivity|]. rewrite <- EL. exact Hle.
Qed.

(** ** Concrete cases *)
Example ex_c06 :
  map Qred (mpi_run (clf_from_tmp (4 # 10) (2 # 10)) [1 # 10; 1 # 10]
    [[1; 2]; [8; 3]; [8; 8 + (1 # 10)]; [0; 0]]) = [1 # 5; 1 # 5].
Proof. vm_compute. reflexivity. Qed.

Example ex_c06_limit : is_limit (4 # 10) (2 # 10) [8; 3] (1 # 20).
Proof.
  split; [reflexivity|]. split; [discriminate|]. split.
  - intros f [<-|[<-|[]]]; discriminate.
  - right. exists 8. split; [left; reflexivity|reflexivity].
Qed.

Example ex_c06_pointwise :
  tmp_uxuyuz 1 1 1 [1; -2] [0; 1] [3; -4] = Some (2 / 1 + 1 / 1 + 4 / 1) /\
  tmp_uxuy 1 (1 # 2) [1; -2] [0; 1] = Some (2 / 1 + 1 / (1 # 2)).
Proof. split; reflexivity. Qed.

Example ex_c06_waves :
  Qred (clf_uxuyeta (4 # 10) (2 # 10) (1 # 10) (1 # 10) 2 [1; 3] 1 (1 # 10)) = (1 # 50) /\
  Qred (clf_uxuyb (4 # 10) (2 # 10) (1 # 20) (1 # 30) true (Some (1 # 40)) [1; 3] 1 (1 # 10)) = (1 # 40).
Proof. split; vm_compute; reflexivity. Qed.

Example ex_c07 : Forall (fun dt => dt <= 2 # 10) [1 # 10; 2 # 10].
Proof. repeat constructor; discriminate. Qed.

Example ex_c08 : exists a, init_from_params (314 # 100) (Some 7)
  {| tp_use_cfl := true; tp_cfl_coef := None; tp_scheme := RK2like;
     tp_deltat0 := 1; tp_deltat_max := 2 |} = Some a.
Proof. eexists; reflexivity. Qed.

Example ex_c57 : tmp_ux (1 # 2) ([1; -3] ++ [2]) = Some (3 / (1 # 2)).
Proof. reflexivity. Qed.

Print Assumptions c06_cfl_bound.
Print Assumptions c06_hysteresis.
Print Assumptions c06_courant_pointwise.
Print Assumptions c06_courant_pointwise_2d.
Print Assumptions c06_wave_solvers_bound.
Print Assumptions c07_deltat_max_refuted.
Print Assumptions c07_deltat_max_partial.
Print Assumptions c08_wave_limit_refuted.
Print Assumptions c08_limit_always_overwritten.
Print Assumptions c09_same_dt_on_all_ranks.
Print Assumptions c56_negative_U_refuted.
Print Assumptions c56_positive_U_partial.
Print Assumptions c57_dt_depends_on_distribution_refuted.
Print Assumptions c57_one_component_partial.
