(** * Proofs about the time loop *)

From Coq Require Import String ZArith QArith List Bool Lia Lqa.
From Verif Require Import TimeLoop_Model TimeLoop_Spec.
Import ListNotations.
Open Scope Z_scope.

Lemma qltb_true a b : qltb a b = true <-> (a < b)%Q.
Proof.
  unfold qltb. rewrite negb_true_iff. split; intros H.
  - apply Qnot_le_lt. intros H'. apply Qle_bool_iff in H'. congruence.
  - destruct (Qle_bool b a) eqn:E; [|reflexivity].
    apply Qle_bool_iff in E. exfalso. lra.
Qed.

Lemma qltb_false a b : qltb a b = false <-> (b <= a)%Q.
Proof.
  split; intros H.
  - apply Qnot_lt_le. intros H'. apply qltb_true in H'. congruence.
  - destruct (qltb a b) eqn:E; [|reflexivity]. apply qltb_true in E. lra.
Qed.

Lemma handle_signals_quiet l v :
  (forall s, In s l -> ~ is_stop_signo s) -> handle_signals l v = v.
Proof.
  unfold handle_signals. revert v.
  induction l as [|x l IH]; intros v H; cbn [fold_left]; [reflexivity|].
  assert (Hx : handle_signal x v = v).
  { unfold handle_signal, SIGUSR2, SIGTERM.
    pose proof (H x (or_introl eq_refl)) as Hn. unfold is_stop_signo in Hn.
    destruct (Z.eqb_spec x 12); [tauto|].
    destruct (Z.eqb_spec x 15); [tauto|reflexivity]. }
  rewrite Hx. apply IH. intros s Hs. apply H. right; exact Hs.
Qed.

Lemma handle_signal_nonzero x v : v <> 0 -> handle_signal x v <> 0.
Proof.
  unfold handle_signal, SIGUSR2, SIGTERM. intros Hv.
  destruct (x =? 12); [lia|].
  destruct (Z.eqb_spec x 15); lia.
Qed.

Lemma handle_signals_nonzero l v : v <> 0 -> handle_signals l v <> 0.
Proof.
  unfold handle_signals. revert v.
  induction l as [|x l IH]; intros v H; cbn [fold_left]; [exact H|].
  apply IH. apply handle_signal_nonzero; exact H.
Qed.

Lemma handle_signals_stop l v s :
  In s l -> is_stop_signo s -> handle_signals l v <> 0.
Proof.
  unfold handle_signals. revert v.
  induction l as [|x l IH]; intros v Hin Hs; [contradiction|].
  cbn [fold_left]. destruct Hin as [->|Hin].
  - apply handle_signals_nonzero.
    unfold handle_signal, SIGUSR2, SIGTERM.
    destruct Hs as [->| ->]; cbn; lia.
  - apply IH; assumption.
Qed.

(** values that can be stored in [_stop_signal_received] *)
Lemma handle_signals_range l v :
  v = 0 \/ v = 1 \/ v = 15 ->
  handle_signals l v = 0 \/ handle_signals l v = 1 \/ handle_signals l v = 15.
Proof.
  unfold handle_signals. revert v.
  induction l as [|x l IH]; intros v H; cbn [fold_left]; [exact H|].
  apply IH. unfold handle_signal, SIGUSR2, SIGTERM.
  destruct (x =? 12); [auto|]. destruct (Z.eqb_spec x 15); [auto|exact H].
Qed.

Section P.
  Variable S : Type.
  Variable addt : Q -> Q -> Q.
  Variable clf : S -> Q -> Q.
  Variable forcing_compute : S -> Q -> S.
  Variable advance : S -> Q -> S.
  Variable clock : nat -> Q.
  Variable sig_before sig_after : nat -> list Z.

  Definition sv : solver S :=
    {| sv_clf := clf; sv_forcing := forcing_compute; sv_advance := advance; sv_add := addt |}.

  Notation ots := (one_time_step S addt clf forcing_compute advance clock sig_before sig_after).
  Notation loop := (main_loop S addt clf forcing_compute advance clock sig_before sig_after).

  Lemma dts_app (a b : list (event S)) : dts (a ++ b) = dts a ++ dts b.
  Proof.
    induction a as [|e a IH]; [reflexivity|].
    cbn [app dts]. destruct e; rewrite IH; reflexivity.
  Qed.

  Lemma dts_stop_events (l : list (event S)) :
    (forall e, In e l -> is_stop_event e) -> dts l = [].
  Proof.
    induction l as [|e l IH]; intros H; [reflexivity|].
    pose proof (H e (or_introl eq_refl)) as He.
    cbn [dts]. destruct e; cbn in He; try contradiction;
      apply IH; intros; apply H; right; assumption.
  Qed.

  Lemma step_block_dts v cfl forc it t dt0 ph dt ph' (b : list (event S)) :
    step_block v cfl forc it t dt0 ph dt ph' b -> dts b = [dt].
  Proof.
    intros HB. inversion HB as [dt0' ph0 dt' st msgs Hdt Hst Hm]; subst.
    rewrite !dts_app, (dts_stop_events _ Hm).
    destruct cfl, forc; reflexivity.
  Qed.

  Lemma ots_block p s s' e :
    ots p s = (s', e) ->
    step_block sv (p_use_cfl p) (p_forcing p) (ts_it s) (ts_t s)
      (ts_deltat s) (ts_phys s) (ts_deltat s') (ts_phys s') e
    /\ ts_it s' = ts_it s + 1
    /\ ts_t s' = addt (ts_t s) (ts_deltat s')
    /\ ts_nstep s' = Datatypes.S (ts_nstep s)
    /\ (p_use_cfl p = false -> ts_deltat s' = ts_deltat s)
    /\ (p_use_cfl p = true -> exists ph old, ts_deltat s' = clf ph old).
  Proof.
    unfold one_time_step. intros H. injection H as Hs He.
    subst s'. cbn [ts_it ts_t ts_deltat ts_nstep ts_phys]. split; [|repeat split].
    - rewrite <- He.
      set (late := match p_time_should_stop p with
                   | Some lim => qltb lim (clock (ts_nstep s)) | None => false end).
      set (sg := negb _).
      pose (msgs := (if late then [EvMaxElapsed] else []) ++
                     (if sg then [EvStopSignal (S:=S) (signal_name (handle_signals (sig_before (ts_nstep s)) (ts_stop_signal s)))] else [])).
      match goal with |- step_block _ _ _ _ _ _ _ ?dt _ _ => set (dtt := dt) end.
      match goal with |- context [EvOutput _ _ ?ph] => set (phh := ph) end.
      pose proof (step_block_intro sv (p_use_cfl p) (p_forcing p) (ts_it s) (ts_t s)
                    (ts_deltat s) (ts_phys s) dtt phh msgs eq_refl eq_refl) as B.
      match goal with |- step_block _ _ _ _ _ _ _ _ _ ?l => replace l with
        ((if p_use_cfl p then [EvCfl (ts_it s) (ts_t s) dtt] else [])
         ++ (if p_forcing p then [EvForcing (ts_it s) (ts_t s)] else [])
         ++ msgs ++ [EvOutput (ts_it s) (ts_t s) phh; EvCompute (ts_it s) (ts_t s) dtt]) end.
      + apply B. intros ev Hin. unfold msgs in Hin.
        apply in_app_or in Hin. destruct Hin as [Hin|Hin].
        * destruct late; [|contradiction]. destruct Hin as [<-|[]]; exact I.
        * destruct sg; [|contradiction]. destruct Hin as [<-|[]]; exact I.
      + unfold msgs. rewrite <- !app_assoc. reflexivity.
    - intros ->. reflexivity.
    - intros ->. eauto.
  Qed.

  Lemma loop_blocks fuel p s s' tr :
    loop fuel p s = Some (s', tr) ->
    complete_steps sv p s tr s'.
  Proof.
    unfold complete_steps. revert s s' tr. induction fuel as [|fuel IH]; intros s s' tr; cbn [main_loop].
    - destruct (continue S p s); [discriminate|].
      intros H; injection H as <- <-. constructor.
    - destruct (continue S p s).
      2:{ intros H; injection H as <- <-. constructor. }
      destruct (ots p s) as [s1 e1] eqn:E1.
      destruct (loop fuel p s1) as [[s2 e2]|] eqn:E2; [|discriminate].
      intros H; injection H as <- <-.
      apply ots_block in E1. destruct E1 as (B & Hit & Ht & _).
      apply IH in E2. rewrite Hit, Ht in E2.
      econstructor; eassumption.
  Qed.

  Lemma run_blocks_end v cfl forc it t dt0 ph (tr : list (event S)) it' t' dt' ph' :
    run_blocks v cfl forc it t dt0 ph tr it' t' dt' ph' ->
    it' = it + Z.of_nat (n_steps tr) /\ t' = fold_left (sv_add v) (dts tr) t.
  Proof.
    unfold n_steps. induction 1 as [|it t dt0 ph dt ph1 b tr it' t' dt' ph' Hb Hr [IH1 IH2]].
    - cbn. split; [lia|reflexivity].
    - rewrite dts_app, (step_block_dts _ _ _ _ _ _ _ _ _ _ Hb). cbn [app fold_left].
      split; [|exact IH2]. cbn [Datatypes.length]. lia.
  Qed.

  Lemma fold_qplus l t : (fold_left Qplus l t == t + qsum l)%Q.
  Proof.
    revert t. induction l as [|x l IH]; intros t; cbn [fold_left qsum]; [lra|].
    rewrite IH. lra.
  Qed.

  (** ** Quiet environments *)
  Lemma ots_quiet p s s' e :
    quiet p clock sig_before sig_after -> fresh s ->
    ots p s = (s', e) -> fresh s'.
  Proof.
    intros (Hb & Ha & Hc) [Hs Hsig] H. unfold one_time_step in H.
    injection H as <- _. split; cbn [ts_has_to_stop ts_stop_signal].
    - rewrite Hs, Hsig, handle_signals_quiet by apply Hb. cbn.
      rewrite orb_false_r.
      destruct (p_time_should_stop p) as [lim|] eqn:E; [|reflexivity].
      apply qltb_false. apply Hc; reflexivity.
    - rewrite Hsig, (handle_signals_quiet (sig_before _)) by apply Hb.
      apply handle_signals_quiet, Ha.
  Qed.

  Lemma ots_quiet_no_msg p s s' e :
    quiet p clock sig_before sig_after -> fresh s ->
    ots p s = (s', e) -> forall x, In x e -> ~ is_stop_event x.
  Proof.
    intros (Hb & Ha & Hc) [Hs Hsig] H. unfold one_time_step in H.
    injection H as _ <-. rewrite Hsig, handle_signals_quiet by apply Hb.
    cbn [Z.eqb negb].
    assert (El : match p_time_should_stop p with
            | Some lim => qltb lim (clock (ts_nstep s)) | None => false end = false).
    { destruct (p_time_should_stop p) as [lim|] eqn:E; [|reflexivity].
      apply qltb_false. apply Hc; reflexivity. }
    rewrite El. intros x Hx.
    destruct (p_use_cfl p), (p_forcing p); cbn in Hx;
      repeat (destruct Hx as [Hx|Hx]); subst; cbn; try contradiction; tauto.
  Qed.

  Lemma loop_quiet_fresh fuel p s s' tr :
    quiet p clock sig_before sig_after -> fresh s ->
    loop fuel p s = Some (s', tr) -> fresh s' /\ continue S p s' = false.
  Proof.
    intros Hq. revert s s' tr.
    induction fuel as [|fuel IH]; intros s s' tr Hf; cbn [main_loop].
    - destruct (continue S p s) eqn:E; [discriminate|].
      intros H; injection H as <- <-. auto.
    - destruct (continue S p s) eqn:E.
      2:{ intros H; injection H as <- <-. auto. }
      destruct (ots p s) as [s1 e1] eqn:E1.
      destruct (loop fuel p s1) as [[s2 e2]|] eqn:E2; [|discriminate].
      intros H; injection H as <- <-.
      eapply IH; [|exact E2]. eapply ots_quiet; eassumption.
  Qed.

  (** ** C01: iteration count *)
  Lemma loop_it_end p : forall n fuel s,
    p_use_t_end p = false ->
    quiet p clock sig_before sig_after -> fresh s ->
    n = Z.to_nat (p_it_end p - ts_it s) -> (n <= fuel)%nat ->
    exists s' tr,
      loop fuel p s = Some (s', tr) /\ n_steps tr = n.
  Proof.
    intros n. induction n as [|n IH]; intros fuel s Hu Hq Hf Hn Hfuel.
    - assert (Hc : continue S p s = false).
      { unfold continue. rewrite Hu. apply andb_false_iff. left.
        apply Z.ltb_ge. lia. }
      exists s, []. destruct fuel; cbn [main_loop]; rewrite Hc; auto.
    - assert (Hc : continue S p s = true).
      { unfold continue. rewrite Hu. destruct Hf as [-> _].
        apply andb_true_iff. split; [|reflexivity]. apply Z.ltb_lt. lia. }
      destruct fuel as [|fuel]; [lia|]. cbn [main_loop]. rewrite Hc.
      destruct (ots p s) as [s1 e1] eqn:E1.
      pose proof (ots_block _ _ _ _ E1) as (B & Hit & _).
      destruct (IH fuel s1) as (s2 & tr & El & Ht); auto; try lia.
      { eapply ots_quiet; eassumption. }
      rewrite El. exists s2, (e1 ++ tr). split; [reflexivity|].
      unfold n_steps in *. rewrite dts_app, (step_block_dts _ _ _ _ _ _ _ _ _ _ B).
      cbn. lia.
  Qed.

  (** The run always returns, the result does not depend on the fuel. *)
  Lemma loop_fuel_mono fuel fuel' p s r :
    loop fuel p s = Some r -> (fuel <= fuel')%nat -> loop fuel' p s = Some r.
  Proof.
    revert fuel' s r. induction fuel as [|fuel IH]; intros fuel' s r H Hle.
    - destruct fuel'; cbn [main_loop] in *; [exact H|].
      destruct (continue S p s); [discriminate|exact H].
    - destruct fuel' as [|fuel']; [lia|]. cbn [main_loop] in *.
      destruct (continue S p s); [|exact H].
      destruct (ots p s) as [s1 e1].
      destruct (loop fuel p s1) as [[s2 e2]|] eqn:E; [|discriminate].
      rewrite (IH fuel' _ _ E) by lia. exact H.
  Qed.

  (** ** C02: end time *)
  (** times at which the steps were started *)
  Fixpoint start_times (tr : list (event S)) : list Q :=
    match tr with
    | [] => []
    | EvCompute _ t _ :: tr' => t :: start_times tr'
    | _ :: tr' => start_times tr'
    end.

  Lemma start_times_app (a b : list (event S)) :
    start_times (a ++ b) = start_times a ++ start_times b.
  Proof.
    induction a as [|e a IH]; [reflexivity|].
    cbn [app start_times]. destruct e; rewrite IH; reflexivity.
  Qed.

  Lemma step_block_start v cfl forc it t dt0 ph dt ph' (b : list (event S)) :
    step_block v cfl forc it t dt0 ph dt ph' b -> start_times b = [t].
  Proof.
    intros HB. inversion HB as [dt0' ph0 dt' st msgs Hdt Hst Hm]; subst. rewrite !start_times_app.
    assert (E : start_times msgs = []).
    { clear -Hm. induction msgs as [|e l IH]; [reflexivity|].
      pose proof (Hm e (or_introl eq_refl)) as He.
      cbn. destruct e; cbn in He; try contradiction;
        apply IH; intros; apply Hm; right; assumption. }
    rewrite E. destruct cfl, forc; reflexivity.
  Qed.

  Lemma loop_start_times fuel p s s' tr :
    p_use_t_end p = true ->
    loop fuel p s = Some (s', tr) ->
    Forall (fun t => (t < p_t_end p)%Q) (start_times tr).
  Proof.
    intros Hu. revert s s' tr.
    induction fuel as [|fuel IH]; intros s s' tr; cbn [main_loop].
    - destruct (continue S p s); [discriminate|].
      intros H; injection H as <- <-. constructor.
    - destruct (continue S p s) eqn:Ec.
      2:{ intros H; injection H as <- <-. constructor. }
      destruct (ots p s) as [s1 e1] eqn:E1.
      destruct (loop fuel p s1) as [[s2 e2]|] eqn:E2; [|discriminate].
      intros H; injection H as <- <-.
      pose proof (ots_block _ _ _ _ E1) as (B & _).
      rewrite start_times_app, (step_block_start _ _ _ _ _ _ _ _ _ _ B).
      constructor; [|eapply IH; exact E2].
      unfold continue in Ec. rewrite Hu in Ec.
      apply andb_true_iff in Ec. apply qltb_true. apply Ec.
  Qed.

  Lemma loop_t_end_reached fuel p s s' tr :
    p_use_t_end p = true ->
    quiet p clock sig_before sig_after -> fresh s ->
    loop fuel p s = Some (s', tr) ->
    (p_t_end p <= ts_t s')%Q /\ (tr = [] <-> (p_t_end p <= ts_t s)%Q).
  Proof.
    intros Hu Hq Hf H.
    destruct (loop_quiet_fresh _ _ _ _ _ Hq Hf H) as [[Hst _] Hc].
    unfold continue in Hc. rewrite Hu, Hst, andb_true_r in Hc.
    split; [apply qltb_false; exact Hc|].
    destruct Hf as [Hf _]. split.
    - intros ->. destruct fuel; cbn [main_loop] in H;
        destruct (continue S p s) eqn:Ec; try discriminate.
      + unfold continue in Ec. rewrite Hu, Hf, andb_true_r in Ec.
        apply qltb_false; exact Ec.
      + destruct (ots p s) as [s1 e1] eqn:E1.
        destruct (loop fuel p s1) as [[s2 e2]|]; [|discriminate].
        injection H as _ H. apply app_eq_nil in H. destruct H as [-> _].
        apply ots_block in E1. destruct E1 as (B & _).
        apply step_block_dts in B. discriminate.
      + unfold continue in Ec. rewrite Hu, Hf, andb_true_r in Ec.
        apply qltb_false; exact Ec.
    - intros Hle. destruct fuel; cbn [main_loop] in H;
        unfold continue in H; rewrite Hu, Hf, andb_true_r in H;
        rewrite (proj2 (qltb_false _ _) Hle) in H;
        injection H as _ <-; reflexivity.
  Qed.

  Lemma loop_terminates p (d g : Q) : (0 < g)%Q ->
    p_use_t_end p = true ->
    (p_use_cfl p = true -> forall ph old, d <= clf ph old)%Q ->
    (forall t dt, d <= dt -> t < p_t_end p -> t + g <= addt t dt)%Q ->
    forall n s,
      (p_use_cfl p = false -> d <= ts_deltat s)%Q ->
      (p_t_end p <= ts_t s + inject_Z (Z.of_nat n) * g)%Q ->
      exists s' tr, loop n p s = Some (s', tr) /\ (n_steps tr <= n)%nat.
  Proof.
    intros Hg Hu Hcfl Hadd n. induction n as [|n IH]; intros s Hdt Ht.
    - exists s, []. cbn [main_loop]. unfold continue. rewrite Hu.
      assert (E : qltb (ts_t s) (p_t_end p) = false).
      { apply qltb_false. cbn in Ht. unfold inject_Z in Ht. lra. }
      rewrite E. cbn. auto.
    - cbn [main_loop]. destruct (continue S p s) eqn:Ec.
      2:{ exists s, []. split; [reflexivity|cbn; lia]. }
      unfold continue in Ec. rewrite Hu in Ec. apply andb_true_iff in Ec.
      destruct Ec as [Ec _]. apply qltb_true in Ec.
      destruct (ots p s) as [s1 e1] eqn:E1.
      pose proof (ots_block _ _ _ _ E1) as (B & _ & Ht1 & _ & Hd1 & Hd2).
      assert (Hd : (d <= ts_deltat s1)%Q).
      { destruct (p_use_cfl p) eqn:Eu.
        - destruct (Hd2 eq_refl) as (ph & old & ->). apply Hcfl; reflexivity.
        - rewrite Hd1 by reflexivity. apply Hdt; reflexivity. }
      destruct (IH s1) as (s2 & tr & El & Hn).
      { intros Eu. exact Hd. }
      { rewrite Ht1. pose proof (Hadd (ts_t s) (ts_deltat s1) Hd Ec) as Ha.
        rewrite Nat2Z.inj_succ, <- Z.add_1_l in Ht.
        rewrite inject_Z_plus in Ht.
        change (inject_Z 1) with 1%Q in Ht. lra. }
      rewrite El. exists s2, (e1 ++ tr). split; [reflexivity|].
      unfold n_steps in *. rewrite dts_app, (step_block_dts _ _ _ _ _ _ _ _ _ _ B).
      cbn. lia.
  Qed.

  (** A step absorbed by rounding: the loop never returns. *)
  Lemma loop_absorbed p s :
    p_use_t_end p = true -> quiet p clock sig_before sig_after -> fresh s ->
    (ts_t s < p_t_end p)%Q ->
    (forall t dt, addt t dt = t) ->
    forall fuel, loop fuel p s = None.
  Proof.
    intros Hu Hq Hf Hlt Hadd fuel. revert s Hf Hlt.
    induction fuel as [|fuel IH]; intros s Hf Hlt; cbn [main_loop].
    - unfold continue. rewrite Hu. destruct Hf as [-> _].
      rewrite (proj2 (qltb_true _ _) Hlt). reflexivity.
    - assert (Ec : continue S p s = true).
      { unfold continue. rewrite Hu. destruct Hf as [-> _].
        rewrite (proj2 (qltb_true _ _) Hlt). reflexivity. }
      rewrite Ec. destruct (ots p s) as [s1 e1] eqn:E1.
      pose proof (ots_block _ _ _ _ E1) as (_ & _ & Ht1 & _).
      rewrite IH; [reflexivity| |].
      + eapply ots_quiet; eassumption.
      + rewrite Ht1, Hadd. exact Hlt.
  Qed.

  (** ** C03: stop requests *)
  Lemma loop_stopped fuel p s :
    ts_has_to_stop s = true -> loop fuel p s = Some (s, []).
  Proof.
    intros H. destruct fuel; cbn [main_loop]; unfold continue;
      rewrite H, andb_false_r; reflexivity.
  Qed.

  Lemma ots_stop_event p s s' e x :
    ots p s = (s', e) -> In x e -> is_stop_event x -> ts_has_to_stop s' = true.
  Proof.
    intros H Hin Hx. unfold one_time_step in H. injection H as <- He.
    cbn [ts_has_to_stop]. subst e.
    destruct (match p_time_should_stop p with Some _ => _ | None => _ end);
      [rewrite orb_true_r; reflexivity|].
    destruct (negb _); [apply orb_true_r|]. exfalso.
    destruct (p_use_cfl p), (p_forcing p); cbn in Hin;
      repeat (destruct Hin as [Hin|Hin]); subst; cbn in Hx; contradiction.
  Qed.

  (** In a block the stop messages come before the (single) computation. *)
  Lemma step_block_split v cfl forc it t dt0 ph dt ph' (b : list (event S)) pre x post :
    step_block v cfl forc it t dt0 ph dt ph' b -> b = pre ++ x :: post ->
    is_stop_event x -> dts pre = [] /\ dts post = [dt].
  Proof.
    intros HB Hb Hx. pose proof (step_block_dts _ _ _ _ _ _ _ _ _ _ HB) as Hd.
    assert (Hp : dts post = [dt]).
    { inversion HB as [dt0' ph0 dt1 st msgs Hdt Hst Hm Hq1 Hq2 Hq3 Hq4 Hbb].
      clear Hd. rewrite <- Hbb in Hb. clear HB Hbb Hdt Hst Hq3 Hq4.
      assert (G : forall (A : list (event S)) pre,
                 A ++ [EvOutput it t st; EvCompute it t dt] = pre ++ x :: post ->
                 dts A = [] -> dts post = [dt]).
      { induction A as [|a A IH]; intros pre0 E EA.
        - cbn in E. destruct pre0 as [|a1 pre0]; cbn in E.
          + injection E as <- <-. contradiction.
          + injection E as _ E. destruct pre0 as [|a2 pre0]; cbn in E.
            * injection E as <- <-. contradiction.
            * injection E as _ E. destruct pre0; discriminate.
        - destruct pre0 as [|a1 pre0]; cbn in E.
          + injection E as _ <-. rewrite dts_app. cbn [dts].
            destruct a; cbn [dts] in EA; try discriminate; rewrite EA; reflexivity.
          + injection E as -> E. eapply IH; [exact E|].
            destruct a1; cbn [dts] in EA; try discriminate; exact EA. }
      apply (G ((if cfl then [EvCfl it t dt] else []) ++
                (if forc then [EvForcing it t] else []) ++ msgs) pre).
      - rewrite <- Hb. rewrite <- !app_assoc. reflexivity.
      - rewrite !dts_app, (dts_stop_events _ Hm). destruct cfl, forc; reflexivity. }
    split; [|exact Hp].
    rewrite Hb, dts_app in Hd. cbn [dts] in Hd.
    assert (Hd' : dts pre ++ dts post = [dt]) by (destruct x; try contradiction; exact Hd).
    rewrite Hp in Hd'. destruct (dts pre) as [|y l]; [reflexivity|].
    exfalso. apply (f_equal (@length _)) in Hd'. rewrite app_length in Hd'. cbn in Hd'. lia.
  Qed.

  Lemma loop_after_stop fuel p : forall s s' tr,
    loop fuel p s = Some (s', tr) ->
    forall pre x post, tr = pre ++ x :: post -> is_stop_event x ->
    exists dt, dts post = [dt].
  Proof.
    induction fuel as [|fuel IH]; intros s s' tr H pre x post Htr Hx;
      cbn [main_loop] in H.
    - destruct (continue S p s); [discriminate|].
      injection H as _ <-. destruct pre; discriminate.
    - destruct (continue S p s).
      2:{ injection H as _ <-. destruct pre; discriminate. }
      destruct (ots p s) as [s1 e1] eqn:E1.
      destruct (loop fuel p s1) as [[s2 e2]|] eqn:E2; [|discriminate].
      injection H as <- <-.
      pose proof (ots_block _ _ _ _ E1) as (B & _).
      (* is x in e1 or in e2 ? *)
      assert (C : (exists q, e1 = pre ++ x :: q /\ post = q ++ e2) \/
                  (exists q, e2 = q ++ x :: post /\ pre = e1 ++ q)).
      { clear -Htr. revert pre Htr. induction e1 as [|a e1 IHe]; intros pre Htr.
        - right. exists pre. auto.
        - destruct pre as [|b pre]; cbn in Htr.
          + injection Htr as <- <-. left. exists e1. auto.
          + injection Htr as -> Htr. destruct (IHe pre Htr) as [(q & -> & ->)|(q & -> & ->)].
            * left. exists q. auto.
            * right. exists q. auto. }
      destruct C as [(q & -> & ->)|(q & -> & ->)].
      + destruct (step_block_split _ _ _ _ _ _ _ _ _ _ _ _ _ B eq_refl Hx) as [_ Hq].
        assert (Hs1 : ts_has_to_stop s1 = true).
        { eapply ots_stop_event; [exact E1| |exact Hx].
          apply in_or_app. right. left. reflexivity. }
        rewrite (loop_stopped _ _ _ Hs1) in E2. injection E2 as _ <-.
        exists (ts_deltat s1). rewrite app_nil_r. exact Hq.
      + eapply IH; [exact E2|reflexivity|exact Hx].
  Qed.

  Lemma ots_stop_cause p s s' e :
    ots p s = (s', e) -> ts_has_to_stop s = false -> ts_has_to_stop s' = true ->
    exists x, In x e /\ is_stop_event x.
  Proof.
    intros H Hs Hs'. unfold one_time_step in H. injection H as <- <-.
    cbn [ts_has_to_stop] in Hs'. rewrite Hs in Hs'. cbn [orb] in Hs'.
    apply orb_true_iff in Hs'. destruct Hs' as [Hl|Hl]; rewrite Hl.
    - exists EvMaxElapsed. split; [|exact I].
      apply in_or_app; right. apply in_or_app; right. apply in_or_app; left.
      left; reflexivity.
    - eexists (EvStopSignal _). split; [|exact I].
      apply in_or_app; right. apply in_or_app; right. apply in_or_app; right.
      apply in_or_app; left. left; reflexivity.
  Qed.

  Lemma loop_not_completed fuel p : forall s s' tr,
    ts_has_to_stop s = false ->
    loop fuel p s = Some (s', tr) ->
    is_simul_completed S p s' = false ->
    exists x, In x tr /\ is_stop_event x.
  Proof.
    induction fuel as [|fuel IH]; intros s s' tr Hs H Hc; cbn [main_loop] in H.
    - destruct (continue S p s) eqn:Ec; [discriminate|].
      injection H as <- _. exfalso. unfold continue in Ec.
      rewrite Hs, andb_true_r in Ec. unfold is_simul_completed in Hc.
      destruct (p_use_t_end p).
      + apply qltb_false in Ec. apply Qle_bool_iff in Ec. congruence.
      + lia.
    - destruct (continue S p s) eqn:Ec.
      2:{ injection H as <- _. exfalso. unfold continue in Ec.
          rewrite Hs, andb_true_r in Ec. unfold is_simul_completed in Hc.
          destruct (p_use_t_end p).
          + apply qltb_false in Ec. apply Qle_bool_iff in Ec. congruence.
          + lia. }
      destruct (ots p s) as [s1 e1] eqn:E1.
      destruct (loop fuel p s1) as [[s2 e2]|] eqn:E2; [|discriminate].
      injection H as <- <-.
      destruct (ts_has_to_stop s1) eqn:Es1.
      + destruct (ots_stop_cause _ _ _ _ E1 Hs Es1) as (x & Hin & Hx).
        exists x. split; [apply in_or_app; left; exact Hin|exact Hx].
      + destruct (IH _ _ _ Es1 E2 Hc) as (x & Hin & Hx).
        exists x. split; [apply in_or_app; right; exact Hin|exact Hx].
  Qed.

  (** Responsiveness: the call of one_time_step with number [n] is the last one
      if the request arrived before its check; the next one otherwise. *)
  Lemma ots_request p s s' e :
    ots p s = (s', e) ->
    (ts_stop_signal s <> 0 \/
     (exists x, In x (sig_before (ts_nstep s)) /\ is_stop_signo x) \/
     (exists lim, p_time_should_stop p = Some lim /\ lim < clock (ts_nstep s))%Q) ->
    ts_has_to_stop s' = true.
  Proof.
    intros H Hr. unfold one_time_step in H. injection H as <- _.
    cbn [ts_has_to_stop].
    destruct Hr as [Hr|[(x & Hin & Hx)|(lim & -> & Hl)]].
    - apply orb_true_iff. right. apply negb_true_iff, Z.eqb_neq.
      apply handle_signals_nonzero; exact Hr.
    - apply orb_true_iff. right. apply negb_true_iff, Z.eqb_neq.
      eapply handle_signals_stop; eassumption.
    - rewrite (proj2 (qltb_true _ _) Hl). rewrite orb_true_r. reflexivity.
  Qed.

  Lemma ots_after p s s' e :
    ots p s = (s', e) ->
    (exists x, In x (sig_after (ts_nstep s)) /\ is_stop_signo x) ->
    ts_stop_signal s' <> 0.
  Proof.
    intros H (x & Hin & Hx). unfold one_time_step in H. injection H as <- _.
    cbn [ts_stop_signal]. eapply handle_signals_stop; eassumption.
  Qed.

  Lemma loop_nstep fuel p : forall s s' tr,
    loop fuel p s = Some (s', tr) ->
    n_steps tr = (ts_nstep s' - ts_nstep s)%nat /\ (ts_nstep s <= ts_nstep s')%nat.
  Proof.
    induction fuel as [|fuel IH]; intros s s' tr H; cbn [main_loop] in H.
    - destruct (continue S p s); [discriminate|]. injection H as <- <-. cbn. lia.
    - destruct (continue S p s).
      2:{ injection H as <- <-. cbn. lia. }
      destruct (ots p s) as [s1 e1] eqn:E1.
      destruct (loop fuel p s1) as [[s2 e2]|] eqn:E2; [|discriminate].
      injection H as <- <-.
      pose proof (ots_block _ _ _ _ E1) as (B & _ & _ & Hn & _).
      destruct (IH _ _ _ E2) as [H1 H2].
      unfold n_steps in *. rewrite dts_app, (step_block_dts _ _ _ _ _ _ _ _ _ _ B).
      cbn. lia.
  Qed.

  Lemma loop_signal_before fuel p n : forall s s' tr,
    loop fuel p s = Some (s', tr) -> (ts_nstep s <= n)%nat ->
    ((exists x, In x (sig_before n) /\ is_stop_signo x) \/
     (exists lim, p_time_should_stop p = Some lim /\ lim < clock n)%Q) ->
    (ts_nstep s' <= Datatypes.S n)%nat.
  Proof.
    induction fuel as [|fuel IH]; intros s s' tr H Hn Hr; cbn [main_loop] in H.
    - destruct (continue S p s); [discriminate|]. injection H as <- <-. lia.
    - destruct (continue S p s).
      2:{ injection H as <- <-. lia. }
      destruct (ots p s) as [s1 e1] eqn:E1.
      destruct (loop fuel p s1) as [[s2 e2]|] eqn:E2; [|discriminate].
      injection H as <- <-.
      pose proof (ots_block _ _ _ _ E1) as (_ & _ & _ & Hn1 & _).
      destruct (Nat.eq_dec (ts_nstep s) n) as [En|En].
      + assert (Hs : ts_has_to_stop s1 = true).
        { eapply ots_request; [exact E1|]. rewrite En. right; exact Hr. }
        rewrite (loop_stopped _ _ _ Hs) in E2. injection E2 as <- _. lia.
      + eapply IH; [exact E2|lia|exact Hr].
  Qed.

  Lemma loop_signal_after fuel p n : forall s s' tr,
    loop fuel p s = Some (s', tr) -> (ts_nstep s <= n)%nat ->
    (exists x, In x (sig_after n) /\ is_stop_signo x) ->
    (ts_nstep s' <= Datatypes.S (Datatypes.S n))%nat.
  Proof.
    induction fuel as [|fuel IH]; intros s s' tr H Hn Hr; cbn [main_loop] in H.
    - destruct (continue S p s); [discriminate|]. injection H as <- <-. lia.
    - destruct (continue S p s).
      2:{ injection H as <- <-. lia. }
      destruct (ots p s) as [s1 e1] eqn:E1.
      destruct (loop fuel p s1) as [[s2 e2]|] eqn:E2; [|discriminate].
      injection H as <- <-.
      pose proof (ots_block _ _ _ _ E1) as (_ & _ & _ & Hn1 & _).
      destruct (Nat.eq_dec (ts_nstep s) n) as [En|En].
      + assert (Hs : ts_stop_signal s1 <> 0).
        { eapply ots_after; [exact E1|]. rewrite En. exact Hr. }
        (* at most one more step *)
        destruct fuel as [|fuel2]; cbn [main_loop] in E2;
          destruct (continue S p s1); try discriminate;
          try (injection E2 as <- _; lia).
        destruct (ots p s1) as [s3 e3] eqn:E3.
        pose proof (ots_block _ _ _ _ E3) as (_ & _ & _ & Hn3 & _).
        assert (Hs3 : ts_has_to_stop s3 = true).
        { eapply ots_request; [exact E3|]. left. exact Hs. }
        rewrite (loop_stopped _ _ _ Hs3) in E2. injection E2 as <- _. lia.
      + eapply IH; [exact E2|lia|exact Hr].
  Qed.
End P.
