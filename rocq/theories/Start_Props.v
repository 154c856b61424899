(** C243: the computation does not depend on params.output.HAS_TO_SAVE.
    C244: the first record of an output is the state from which the computation starts. *)
From Coq Require Import Reals List Bool Lra.
Import ListNotations.
From Verif Require Import Start_Model.
Local Open Scope R_scope.

(** ** Specification *)

(** the same options with another value of HAS_TO_SAVE *)
Definition saving (b : bool) (o : options) : options :=
  mkOptions (use_cfl o) (cfl_coef o) (deltat_max o) (deltat0 o) (forcing_enabled o)
    (forcing_in_script o) b (modif_after_init o) (preprocess_enable o) (period_save o).

(** neither the initial fields nor the forcing have to be completed by the user after the
    construction of the simulation *)
Definition ready_at_construction (o : options) : Prop :=
  modif_after_init o = false /\ (forcing_enabled o = false \/ forcing_in_script o = false).

(** ** The time step computed again for the same state is the same *)
Lemma cfl_idempotent a b x d : cfl_from_tmp a b x (cfl_from_tmp a b x d) = cfl_from_tmp a b x d.
Proof.
  unfold cfl_from_tmp. cbv zeta.
  set (m := Rmin _ b).
  destruct (ltb (2 / 100) (Rabs (d - m) / m)) eqn:H.
  - destruct (ltb (2 / 100) (Rabs (m - m) / m)); reflexivity.
  - rewrite H. reflexivity.
Qed.

Section Facts.
Variables S P G : Type.
Variable tmp_of : S -> R.
Variable maker : R -> R -> P -> S -> G -> G.
Variable step : R -> R -> P -> G -> S -> S.
Variable preprocess : P -> S -> P * S.
Variable init_fields : S.
Variable user : S -> S.

Notation sim := (sim S P G).
Notation run := (run S P G tmp_of maker step preprocess init_fields user).
Notation started := (started S P G tmp_of maker preprocess init_fields user).
Notation one_time_step := (one_time_step S P G tmp_of maker step).
Notation iws := (init_with_initialized_state S P G tmp_of maker).

(** everything which the computation uses, except the outputs *)
Definition core (s : sim) :=
  (state _ _ _ s, prm _ _ _ s, (t _ _ _ s, it _ _ _ s, deltat _ _ _ s)).

Definition core_f (s : sim) := (core s, maker_state _ _ _ s, t_last_computed _ _ _ s).

Lemma core_f_step o1 o2 s1 s2 :
  use_cfl o1 = use_cfl o2 -> cfl_coef o1 = cfl_coef o2 -> deltat_max o1 = deltat_max o2 ->
  forcing_enabled o1 = forcing_enabled o2 ->
  core_f s1 = core_f s2 -> core_f (one_time_step o1 s1) = core_f (one_time_step o2 s2).
Proof.
  intros H1 H2 H3 H4 H.
  destruct s1 as [a1 b1 c1 d1 e1 f1 g1 h1 i1 j1], s2 as [a2 b2 c2 d2 e2 f2 g2 h2 i2 j2].
  unfold core_f, core in H. cbn in H.
  assert (a1 = a2 /\ b1 = b2 /\ c1 = c2 /\ d1 = d2 /\ e1 = e2 /\ f1 = f2 /\ g1 = g2) as
      (-> & -> & -> & -> & -> & -> & ->) by (inversion H; auto 10).
  unfold Start_Model.one_time_step, compute_cfl, set_deltat, output_one_time_step, save.
  rewrite H1, H4. destruct (use_cfl o2), (forcing_enabled o2); cbn; rewrite ?H2, ?H3;
    unfold forcing_compute; cbn;
    (destruct d2 as [d|]; cbn; [destruct (ltb d e2); cbn|]);
    repeat match goal with |- context [if ?x then _ else _] => destruct x; cbn end; reflexivity.
Qed.

(** Without forcing *)
Lemma core_step_nf o1 o2 s1 s2 :
  use_cfl o1 = use_cfl o2 -> cfl_coef o1 = cfl_coef o2 -> deltat_max o1 = deltat_max o2 ->
  forcing_enabled o1 = false -> forcing_enabled o2 = false ->
  core_f s1 = core_f s2 -> core_f (one_time_step o1 s1) = core_f (one_time_step o2 s2).
Proof. intros. apply core_f_step; auto. congruence. Qed.

(** ** C243 *)

(** without forcing, whatever the preprocessing and the user do *)
Theorem c243_no_forcing o p g n :
  forcing_enabled o = false ->
  core_f (run (saving true o) p g n) = core_f (run (saving false o) p g n).
Proof.
  intros F. unfold Start_Model.run. induction n as [|n IH].
  - cbn [time_steps].
    assert (HI : forall b (s : sim), core_f (iws (saving b o) s) =
              core_f (if outputs_ready _ _ _ s then s else
                      if use_cfl o then compute_cfl S P G tmp_of (saving true o) s else s)).
    { intros b s. unfold init_with_initialized_state. cbn [forcing_enabled saving]. rewrite F.
      cbn [andb]. destruct (outputs_ready _ _ _ s); [reflexivity|].
      destruct (saves (saving b o)), (use_cfl (saving b o)) eqn:U; cbn [use_cfl saving] in U;
        rewrite U; reflexivity. }
    assert (HR : forall b (s : sim), outputs_ready _ _ _ (iws (saving b o) s) = true).
    { intros b s. unfold init_with_initialized_state. cbn [forcing_enabled saving]. rewrite F.
      cbn [andb]. destruct (outputs_ready _ _ _ s) eqn:E; [exact E|].
      destruct (saves (saving b o)), (use_cfl (saving b o)); reflexivity. }
    unfold Start_Model.started, construct, post_init.
    cbn [forcing_enabled modif_after_init deltat0 saving]. rewrite F. cbn [andb].
    destruct (modif_after_init o); cbn [negb].
    + unfold call_preprocess. cbn [preprocess_enable saving].
      unfold prepare_main_loop.
      destruct (preprocess_enable o); cbn [outputs_ready user_modifies]; rewrite !HI; reflexivity.
    + set (s0 := mkSim S P G init_fields p g None 0 0 (deltat0 o) false 0 []).
      pose proof (HI true s0) as H1. rewrite <- (HI false s0) in H1.
      pose proof (HR true s0) as R1. pose proof (HR false s0) as R2.
      destruct (iws (saving true o) s0), (iws (saving false o) s0).
      cbn in R1, R2. unfold core_f, core in H1. cbn in H1. subst.
      inversion H1; subst. unfold call_preprocess. cbn [preprocess_enable saving].
      destruct (preprocess_enable o); reflexivity.
  - cbn [time_steps]. apply core_f_step; auto.
Qed.

(** with a forcing, when nothing changes the state after the initialisation of the outputs *)
Definition nothing_after (o : options) : Prop :=
  ready_at_construction o -> preprocess_enable o = false /\ (forall x, user x = x).

Lemma started_shape o p g :
  nothing_after o ->
  exists s0 : sim,
    t_last_computed _ _ _ s0 = None /\ outputs_ready _ _ _ s0 = false /\
    t _ _ _ s0 = 0 /\ it _ _ _ s0 = 0%nat /\ deltat _ _ _ s0 = deltat0 o /\
    records _ _ _ s0 = [] /\
    (forall b, started (saving b o) p g = iws (saving b o) s0).
Proof.
  intros Q.
  set (s0 := user_modifies S P G user (if preprocess_enable o then
       mkSim S P G (snd (preprocess p init_fields)) (fst (preprocess p init_fields)) g None 0 0
         (deltat0 o) false 0 [] else mkSim S P G init_fields p g None 0 0 (deltat0 o) false 0 [])).
  destruct (modif_after_init o) eqn:M.
  - exists s0. unfold s0. destruct (preprocess_enable o) eqn:PE; do 6 (split; [reflexivity|]);
      intros b; unfold Start_Model.started, construct, post_init; cbn [modif_after_init saving];
      rewrite M; cbn [negb]; unfold call_preprocess; cbn [preprocess_enable saving]; rewrite PE;
      reflexivity.
  - destruct (forcing_enabled o && forcing_in_script o) eqn:FI.
    + exists s0. unfold s0. destruct (preprocess_enable o) eqn:PE; do 6 (split; [reflexivity|]);
        intros b; unfold Start_Model.started, construct, post_init;
        cbn [modif_after_init saving forcing_enabled forcing_in_script];
        rewrite M, FI; cbn [negb]; unfold call_preprocess; cbn [preprocess_enable saving]; rewrite PE;
        reflexivity.
    + destruct Q as [E U].
      { split; [exact M|]. apply andb_false_iff. exact FI. }
      exists (mkSim S P G init_fields p g None 0 0%nat (deltat0 o) false 0 []).
      do 6 (split; [reflexivity|]).
      intros b. unfold Start_Model.started, construct, post_init.
      cbn [modif_after_init saving forcing_enabled forcing_in_script].
      rewrite M, FI. cbn [negb]. unfold call_preprocess. cbn [preprocess_enable saving].
      rewrite E.
      set (s1 := iws (saving b o) _).
      assert (R1 : outputs_ready _ _ _ s1 = true).
      { unfold s1, init_with_initialized_state, saves, compute_cfl, set_deltat, save, forcing_compute.
        cbn. repeat match goal with |- context [if ?x then _ else _] => destruct x; cbn end;
          reflexivity. }
      unfold user_modifies, prepare_main_loop. cbn [outputs_ready]. rewrite R1, U.
      destruct s1; cbn in R1 |- *. rewrite R1. reflexivity.
Qed.

(** the initialisation and a time step without the records *)
Definition init_no_record (o : options) (s : sim) : sim :=
  let s := if use_cfl o then compute_cfl S P G tmp_of o s else s in
  if forcing_enabled o && has_to_save o then forcing_compute S P G maker s else s.

Lemma iws_no_record o s :
  outputs_ready _ _ _ s = false -> core_f (iws o s) = core_f (init_no_record o s).
Proof.
  intros R0. unfold init_with_initialized_state, init_no_record. rewrite R0. cbv zeta.
  destruct s as [a b c d e f g h i j]. cbn in R0. subst h.
  destruct (use_cfl o), (forcing_enabled o && has_to_save o), (saves o);
    unfold forcing_compute, compute_cfl, set_deltat, save;
    cbn [state prm maker_state t_last_computed t it deltat outputs_ready t_last_save records];
    destruct d as [d|]; try reflexivity; destruct (ltb d e); reflexivity.
Qed.

Definition step_no_record (o : options) (s : sim) : sim :=
  let s := if use_cfl o then compute_cfl S P G tmp_of o s else s in
  let s := if forcing_enabled o then forcing_compute S P G maker s else s in
  mkSim S P G (step (t _ _ _ s) (deltat _ _ _ s) (prm _ _ _ s) (maker_state _ _ _ s) (state _ _ _ s))
    (prm _ _ _ s) (maker_state _ _ _ s)
    (t_last_computed _ _ _ s) (t _ _ _ s + deltat _ _ _ s) (Datatypes.S (it _ _ _ s)) (deltat _ _ _ s)
    (outputs_ready _ _ _ s) (t_last_save _ _ _ s) (records _ _ _ s).

Lemma step_no_record_eq o s : core_f (one_time_step o s) = core_f (step_no_record o s).
Proof.
  unfold Start_Model.one_time_step, step_no_record. cbv zeta.
  set (s2 := if forcing_enabled o then _ else _). clearbody s2.
  unfold output_one_time_step. destruct (saves o && _); reflexivity.
Qed.

Lemma first_step_same o s0 :
  t_last_computed _ _ _ s0 = None -> outputs_ready _ _ _ s0 = false ->
  core_f (one_time_step (saving true o) (iws (saving true o) s0)) =
  core_f (one_time_step (saving false o) (iws (saving false o) s0)).
Proof.
  intros L R0.
  assert (H : forall b, core_f (one_time_step (saving b o) (iws (saving b o) s0)) =
                        core_f (step_no_record (saving b o) (init_no_record (saving b o) s0))).
  { intros b. rewrite <- step_no_record_eq. apply core_f_step; auto. apply iws_no_record, R0. }
  rewrite !H. clear H.
  destruct s0 as [a b c d e f g h i j]; cbn in L, R0; subst.
  assert (LE : ltb e e = false).
  { unfold ltb. destruct (Rlt_dec e e); [lra|reflexivity]. }
  destruct o as [uc cc dm d0 fe fs hs mo pe ps].
  unfold step_no_record, init_no_record, saving.
  cbn [use_cfl cfl_coef deltat_max deltat0 forcing_enabled has_to_save].
  destruct uc, fe; cbn [andb]; unfold compute_cfl, set_deltat, forcing_compute;
    cbn [state prm maker_state t_last_computed t it deltat outputs_ready t_last_save records
         cfl_coef deltat_max]; rewrite ?LE;
    cbn [state prm maker_state t_last_computed t it deltat outputs_ready t_last_save records];
    rewrite ?cfl_idempotent; reflexivity.
Qed.

Lemma core_init b1 b2 o s0 :
  core (iws (saving b1 o) s0) = core (iws (saving b2 o) s0).
Proof.
  unfold core, init_with_initialized_state, compute_cfl, set_deltat, save, saves, forcing_compute.
  destruct s0 as [a b c d e f g h i j]; cbn. destruct h; [reflexivity|].
  destruct (use_cfl o), (forcing_enabled o), b1, b2, (Req_EM_T (period_save o) 0); cbn;
    destruct d as [d|]; cbn; try reflexivity; destruct (ltb d e); reflexivity.
Qed.

Theorem c243_same_partial o p g :
  nothing_after o ->
  core (run (saving true o) p g 0) = core (run (saving false o) p g 0) /\
  forall n, core_f (run (saving true o) p g (Datatypes.S n)) =
            core_f (run (saving false o) p g (Datatypes.S n)).
Proof.
  intros Q. destruct (started_shape o p g Q) as (s0 & L & R0 & _ & _ & _ & _ & E).
  unfold Start_Model.run. split.
  - cbn [time_steps]. rewrite !E. apply core_init.
  - induction n as [|n IH].
    + cbn [time_steps]. rewrite !E. apply first_step_same; assumption.
    + change (time_steps S P G tmp_of maker step (saving true o) (Datatypes.S (Datatypes.S n))
                (started (saving true o) p g))
        with (one_time_step (saving true o)
                (time_steps S P G tmp_of maker step (saving true o) (Datatypes.S n)
                   (started (saving true o) p g))).
      change (time_steps S P G tmp_of maker step (saving false o) (Datatypes.S (Datatypes.S n))
                (started (saving false o) p g))
        with (one_time_step (saving false o)
                (time_steps S P G tmp_of maker step (saving false o) (Datatypes.S n)
                   (started (saving false o) p g))).
      apply core_f_step; auto.
Qed.

(** ** C244 *)

(** the record at the start: the time 0, the state from which the time loop starts and, with a
    forcing, the forcing of the first time step. It is the only one of this time *)
Theorem c244_first_record_partial o p g :
  nothing_after o -> 0 < period_save o ->
  let o := saving true o in
  records _ _ _ (run o p g 0) =
    [mkRecord S G 0 (state _ _ _ (run o p g 0)) (maker_state _ _ _ (run o p g 0))] /\
  maker_state _ _ _ (run o p g 1) = maker_state _ _ _ (run o p g 0) /\
  records _ _ _ (run o p g 1) = records _ _ _ (run o p g 0).
Proof.
  intros Q HP o'. destruct (started_shape o p g Q) as (s0 & L & R0 & T0 & _ & _ & RE & E).
  unfold Start_Model.run. cbn [time_steps]. unfold o'. rewrite E. clear E o'.
  destruct s0 as [a b c d e f h i j l]; cbn in L, R0, T0, RE; subst.
  assert (LE : ltb 0 0 = false).
  { unfold ltb. destruct (Rlt_dec 0 0); [lra|reflexivity]. }
  assert (LP : ltb (0 - 0) (period_save o) = true).
  { unfold ltb. destruct (Rlt_dec (0 - 0) (period_save o)); [reflexivity|lra]. }
  assert (SV : saves (saving true o) = true).
  { unfold saves. cbn. destruct (Req_EM_T (period_save o) 0); [lra|reflexivity]. }
  destruct o as [uc cc dm d0 fe fs hs mo pe ps]. unfold saving in *.
  cbn [use_cfl cfl_coef deltat_max deltat0 forcing_enabled has_to_save period_save forcing_in_script
       modif_after_init preprocess_enable] in *.
  assert (HI : exists c' d' h',
    iws (mkOptions uc cc dm d0 fe fs true mo pe ps)
      (mkSim S P G a b c None 0 f h false j []) =
      mkSim S P G a b c' d' 0 f h' true 0 [mkRecord S G 0 a c'] /\
    (fe = true -> d' = Some 0)).
  { unfold init_with_initialized_state. rewrite SV.
    cbn [use_cfl forcing_enabled has_to_save outputs_ready].
    destruct uc, fe; cbn [andb]; unfold compute_cfl, set_deltat, forcing_compute, save;
    cbn [state prm maker_state t_last_computed t it deltat outputs_ready t_last_save records app];
    do 3 eexists; (split; [reflexivity|]); (reflexivity || discriminate). }
  destruct HI as (c' & d' & h' & -> & HF).
  unfold Start_Model.one_time_step, output_one_time_step. rewrite SV.
  cbn [use_cfl forcing_enabled period_save andb].
  assert (HC : forall x : sim, x = mkSim S P G a b c' d' 0 f h' true 0 [mkRecord S G 0 a c'] ->
     exists h2, (if uc then compute_cfl S P G tmp_of (mkOptions uc cc dm d0 fe fs true mo pe ps) x else x)
       = mkSim S P G a b c' d' 0 f h2 true 0 [mkRecord S G 0 a c']).
  { intros x ->. destruct uc; eexists; reflexivity. }
  destruct (HC _ eq_refl) as [h2 ->].
  assert (HG : (if fe then forcing_compute S P G maker
                  (mkSim S P G a b c' d' 0 f h2 true 0 [mkRecord S G 0 a c'])
                else mkSim S P G a b c' d' 0 f h2 true 0 [mkRecord S G 0 a c'])
               = mkSim S P G a b c' d' 0 f h2 true 0 [mkRecord S G 0 a c']).
  { destruct fe; [|reflexivity]. rewrite HF by reflexivity. unfold forcing_compute.
    cbn [t_last_computed t]. rewrite LE. reflexivity. }
  rewrite HG. cbn [t t_last_save]. rewrite LP. cbn [negb]. split; [reflexivity|].
  split; reflexivity.
Qed.

(** the outputs are initialised once: the preparation of a started simulation does nothing more *)
Theorem c244_once o p g :
  outputs_ready _ _ _ (started o p g) = true /\
  prepare_main_loop S P G tmp_of maker o (started o p g) = started o p g /\
  iws o (started o p g) = started o p g.
Proof.
  assert (H : outputs_ready _ _ _ (started o p g) = true).
  { unfold Start_Model.started, prepare_main_loop.
    destruct (outputs_ready _ _ _ (user_modifies S P G user _)) eqn:E; [exact E|].
    unfold init_with_initialized_state. rewrite E.
    cbv zeta. destruct (user_modifies S P G user _) as [a b c d e f h i j l].
    destruct (use_cfl o), (forcing_enabled o && has_to_save o), (saves o);
      unfold compute_cfl, set_deltat, save, forcing_compute;
      cbn [state prm maker_state t_last_computed t it deltat outputs_ready t_last_save records];
      try reflexivity; destruct d as [d|]; try reflexivity; destruct (ltb d e); reflexivity. }
  split; [exact H|]. unfold prepare_main_loop, init_with_initialized_state. rewrite H.
  split; reflexivity.
Qed.
End Facts.

(** ** The preprocessing comes after the initialisation of the outputs *)

(** a flow of one mode: the state is its amplitude, the proportional forcing is the rate divided by
    the amplitude (the injection state * forcing is the rate), Euler scheme; the preprocessing
    gives the energy 2 = state^2 / 2 by doubling the amplitude *)
Definition ex_maker (t dt rate u f : R) : R := rate / u.
Definition ex_step (t dt rate f u : R) : R := u + dt * f.
Definition ex_pre (rate u : R) : R * R := (rate, sqrt (2 / (u * u / 2)) * u).
Definition ex_options (pre : bool) : options :=
  mkOptions false 1 1 (1 / 2) true false true false pre 1.

Lemma ex_pre_1 : ex_pre 1 1 = (1, 2).
Proof.
  unfold ex_pre. replace (2 / (1 * 1 / 2)) with (2 * 2) by field. rewrite sqrt_square by lra.
  f_equal. lra.
Qed.

(** the preprocessing of the example gives the energy asked for *)
Lemma ex_pre_energy rate u : u <> 0 -> let v := snd (ex_pre rate u) in v * v / 2 = 2.
Proof.
  intros H. cbv zeta. unfold ex_pre. cbn [snd].
  assert (0 < 2 / (u * u / 2)).
  { apply Rdiv_lt_0_compat; [lra|]. assert (0 < u * u) by nra. lra. }
  replace (sqrt (2 / (u * u / 2)) * u * (sqrt (2 / (u * u / 2)) * u))
    with ((sqrt (2 / (u * u / 2)) * sqrt (2 / (u * u / 2))) * (u * u)) by ring.
  rewrite sqrt_sqrt by lra. field. exact H.
Qed.

Lemma ltb_irrefl : ltb 0 0 = false.
Proof. unfold ltb. destruct (Rlt_dec 0 0); [lra|reflexivity]. Qed.

Lemma ex_saves b pre : saves (saving b (ex_options pre)) = b.
Proof. unfold saves. cbn. destruct (Req_EM_T 1 0); [lra|]. destruct b; reflexivity. Qed.

Lemma ex_construct_true pre :
  construct R R R (fun _ => 0) ex_maker ex_pre 1 (saving true (ex_options pre)) 1 0 =
  mkSim R R R (if pre then 2 else 1) 1 (1 / 1) (Some 0) 0 0 (1 / 2) true 0 [mkRecord R R 0 1 (1 / 1)].
Proof.
  unfold construct, post_init. cbn [modif_after_init forcing_enabled forcing_in_script saving
    ex_options negb andb deltat0]. unfold init_with_initialized_state. rewrite ex_saves.
  cbn [outputs_ready use_cfl forcing_enabled has_to_save saving ex_options andb].
  unfold forcing_compute, save. 
  cbn [state prm maker_state t_last_computed t it deltat outputs_ready t_last_save records app].
  unfold call_preprocess. cbn [preprocess_enable saving ex_options prm state].
  destruct pre; [|reflexivity].
  rewrite ex_pre_1. reflexivity.
Qed.

Lemma ex_construct_false pre :
  construct R R R (fun _ => 0) ex_maker ex_pre 1 (saving false (ex_options pre)) 1 0 =
  mkSim R R R (if pre then 2 else 1) 1 0 None 0 0 (1 / 2) true 0 [].
Proof.
  unfold construct, post_init. cbn [modif_after_init forcing_enabled forcing_in_script saving
    ex_options negb andb deltat0]. unfold init_with_initialized_state. rewrite ex_saves.
  cbn [outputs_ready use_cfl forcing_enabled has_to_save saving ex_options andb].
  cbn [state prm maker_state t_last_computed t it deltat outputs_ready t_last_save records app].
  unfold call_preprocess. cbn [preprocess_enable saving ex_options prm state].
  destruct pre; [|reflexivity].
  rewrite ex_pre_1. reflexivity.
Qed.

Lemma ex_step_true pre u :
  one_time_step R R R (fun _ => 0) ex_maker ex_step (saving true (ex_options pre))
    (mkSim R R R u 1 (1 / 1) (Some 0) 0 0 (1 / 2) true 0 [mkRecord R R 0 1 (1 / 1)]) =
  mkSim R R R (u + 1 / 2 * (1 / 1)) 1 (1 / 1) (Some 0) (0 + 1 / 2) 1 (1 / 2) true 0
    [mkRecord R R 0 1 (1 / 1)].
Proof.
  unfold one_time_step. cbn [use_cfl forcing_enabled saving ex_options].
  unfold forcing_compute. cbn [t_last_computed t]. rewrite ltb_irrefl.
  unfold output_one_time_step. rewrite ex_saves. cbn [t t_last_save period_save saving ex_options].
  replace (ltb (0 - 0) 1) with true by
    (unfold ltb; destruct (Rlt_dec (0 - 0) 1); [reflexivity|lra]).
  reflexivity.
Qed.

Lemma ex_step_false pre u :
  state _ _ _ (one_time_step R R R (fun _ => 0) ex_maker ex_step (saving false (ex_options pre))
    (mkSim R R R u 1 0 None 0 0 (1 / 2) true 0 [])) = u + 1 / 2 * (1 / u).
Proof.
  unfold one_time_step. cbn [use_cfl forcing_enabled saving ex_options].
  unfold forcing_compute. cbn [t_last_computed t].
  unfold output_one_time_step. rewrite ex_saves. reflexivity.
Qed.

(** with the preprocessing, the first step uses a forcing computed before it if HAS_TO_SAVE, so that
    the two runs differ *)
Theorem c243_preprocess_refuted :
  exists (preprocess : R -> R -> R * R) (o : options),
    (forall rate u, u <> 0 -> let v := snd (preprocess rate u) in v * v / 2 = 2) /\
    ready_at_construction o /\ preprocess_enable o = true /\
    state _ _ _ (run R R R (fun _ => 0) ex_maker ex_step preprocess 1 (fun x => x)
                   (saving true o) 1 0 1) <>
    state _ _ _ (run R R R (fun _ => 0) ex_maker ex_step preprocess 1 (fun x => x)
                   (saving false o) 1 0 1).
Proof.
  exists ex_pre, (ex_options true). split; [exact ex_pre_energy|].
  split; [split; [reflexivity|right; reflexivity]|]. split; [reflexivity|].
  unfold run, started. rewrite ex_construct_true, ex_construct_false.
  unfold prepare_main_loop, user_modifies.
  cbn [outputs_ready time_steps state prm maker_state t_last_computed t it deltat t_last_save records].
  rewrite ex_step_true, ex_step_false. cbn [state]. lra.
Qed.

(** also when the user modifies the state after the construction without having said so
    (params.init_fields.modif_after_init) *)
Theorem c243_user_refuted :
  exists (user : R -> R) (o : options),
    ready_at_construction o /\ preprocess_enable o = false /\
    state _ _ _ (run R R R (fun _ => 0) ex_maker ex_step ex_pre 1 user
                   (saving true o) 1 0 1) <>
    state _ _ _ (run R R R (fun _ => 0) ex_maker ex_step ex_pre 1 user
                   (saving false o) 1 0 1).
Proof.
  exists (fun x => 2 * x), (ex_options false).
  split; [split; [reflexivity|right; reflexivity]|]. split; [reflexivity|].
  unfold run, started. rewrite ex_construct_true, ex_construct_false.
  unfold prepare_main_loop, user_modifies.
  cbn [outputs_ready time_steps state prm maker_state t_last_computed t it deltat t_last_save records].
  rewrite ex_step_true, ex_step_false. cbn [state]. lra.
Qed.

(** the first record of the outputs is the state before the preprocessing, and no other one is made
    at this time *)
Theorem c244_preprocess_refuted :
  exists (preprocess : R -> R -> R * R) (o : options),
    (forall rate u, u <> 0 -> let v := snd (preprocess rate u) in v * v / 2 = 2) /\
    ready_at_construction o /\ preprocess_enable o = true /\
    let s0 := started R R R (fun _ => 0) ex_maker preprocess 1 (fun x => x) o 1 0 in
    let s1 := run R R R (fun _ => 0) ex_maker ex_step preprocess 1 (fun x => x) o 1 0 1 in
    exists r, records _ _ _ s0 = [r] /\ records _ _ _ s1 = [r] /\
      r_t _ _ r = 0 /\ r_state _ _ r <> state _ _ _ s0 /\
      maker_state _ _ _ s1 * state _ _ _ s0 <> prm _ _ _ s0.
Proof.
  exists ex_pre, (saving true (ex_options true)). split; [exact ex_pre_energy|].
  split; [split; [reflexivity|right; reflexivity]|]. split; [reflexivity|].
  cbv zeta. unfold run, started. rewrite ex_construct_true.
  unfold prepare_main_loop, user_modifies.
  cbn [outputs_ready time_steps state prm maker_state t_last_computed t it deltat t_last_save records].
  rewrite ex_step_true. cbn [records state maker_state prm].
  eexists. split; [reflexivity|]. split; [reflexivity|]. cbn [r_t r_state].
  split; [reflexivity|]. split; lra.
Qed.

(** ** Examples: the hypotheses are met *)
Example c243_hyp : nothing_after R (fun x => x) (ex_options false).
Proof. intros _. split; reflexivity. Qed.
Example c243_hyp_in_script :
  nothing_after R (fun x => 3 * x) (mkOptions true 1 1 1 true false true true true 1).
Proof. intros [H _]. discriminate. Qed.
Example c243_nf_hyp : forcing_enabled (mkOptions true 1 1 1 false false true false true 1) = false.
Proof. reflexivity. Qed.
Example c244_hyp : 0 < period_save (ex_options false).
Proof. cbn. lra. Qed.

Print Assumptions c243_no_forcing.
Print Assumptions c243_same_partial.
Print Assumptions c243_preprocess_refuted.
Print Assumptions c243_user_refuted.
Print Assumptions c244_first_record_partial.
Print Assumptions c244_once.
Print Assumptions c244_preprocess_refuted.
