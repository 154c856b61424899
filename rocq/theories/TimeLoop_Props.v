(** * Time loop: the theorems (C01-C05) *)

From Coq Require Import String ZArith QArith List Bool Lia Lqa.
From Verif Require Import TimeLoop_Model TimeLoop_Spec TimeLoop_Proofs.
Import ListNotations.
Open Scope Z_scope.

Section Statements.
  Variable S : Type.
  Variable addt : Q -> Q -> Q.
  Variable clf : S -> Q -> Q.
  Variable forcing_compute : S -> Q -> S.
  Variable advance : S -> Q -> S.
  Variable clock : nat -> Q.
  Variable sig_before sig_after : nat -> list Z.
  Definition sv : solver S :=
    {| sv_clf := clf; sv_forcing := forcing_compute; sv_advance := advance; sv_add := addt |}.
  Notation loop := (main_loop S addt clf forcing_compute advance clock sig_before sig_after).

  (** C01.  USE_T_END = False, nothing asks to stop: exactly
      max(0, it_end - it) steps are done, the final [it] is max(it, it_end) and the
      final [t] is the sum, in order, of the dt that were used. *)
  Theorem c01_it_end_exact : forall p s fuel,
    p_use_t_end p = false ->
    quiet p clock sig_before sig_after -> fresh s ->
    (Z.to_nat (p_it_end p - ts_it s) <= fuel)%nat ->
    exists s' tr,
      loop fuel p s = Some (s', tr) /\
      Z.of_nat (n_steps tr) = Z.max 0 (p_it_end p - ts_it s) /\
      ts_it s' = Z.max (ts_it s) (p_it_end p) /\
      ts_t s' = fold_left addt (dts tr) (ts_t s).
  Proof.
    intros p s fuel Hu Hq Hf Hn.
    destruct (loop_it_end S addt clf forcing_compute advance clock sig_before
                sig_after p _ fuel s Hu Hq Hf eq_refl Hn) as (s' & tr & E & Ht).
    exists s', tr. split; [exact E|].
    pose proof (run_blocks_end _ _ _ _ _ _ _ _ _ _ _ _ _ (loop_blocks _ _ _ _ _ _ _ _ _ _ _ _ _ E)) as [H1 H2].
    split; [lia|split; [lia|exact H2]].
  Qed.

  (** C02, first part: when the run returns, t >= t_end; every step was started
      strictly before t_end (so the overshoot is less than the last step); no step
      is done iff t >= t_end already. *)
  Theorem c02_t_end_reached : forall p s fuel s' tr,
    p_use_t_end p = true ->
    quiet p clock sig_before sig_after -> fresh s ->
    loop fuel p s = Some (s', tr) ->
    (p_t_end p <= ts_t s')%Q /\
    (tr = [] <-> (p_t_end p <= ts_t s)%Q) /\
    (forall pre it t dt post,
        tr = pre ++ EvCompute it t dt :: post -> (t < p_t_end p)%Q).
  Proof.
    intros p s fuel s' tr Hu Hq Hf H.
    destruct (loop_t_end_reached _ _ _ _ _ _ _ _ _ _ _ _ _ Hu Hq Hf H) as [H1 H2].
    split; [exact H1|split; [exact H2|]].
    intros pre it t dt post ->.
    pose proof (loop_start_times _ _ _ _ _ _ _ _ _ _ _ _ _ Hu H) as F.
    rewrite start_times_app in F. apply Forall_app in F. destruct F as [_ F].
    cbn in F. inversion F; assumption.
  Qed.

  (** C02, second part: if every dt is at least [d] and adding such a dt to a time
      before t_end makes it grow by at least [g] > 0 (g = d for exact arithmetic),
      the run returns after at most [n] steps, for any n >= (t_end - t)/g. *)
  Theorem c02_t_end_terminates : forall p (d g : Q) n s,
    (0 < g)%Q ->
    p_use_t_end p = true ->
    (p_use_cfl p = true -> forall ph old, d <= clf ph old)%Q ->
    (p_use_cfl p = false -> d <= ts_deltat s)%Q ->
    (forall t dt, d <= dt -> t < p_t_end p -> t + g <= addt t dt)%Q ->
    (p_t_end p <= ts_t s + inject_Z (Z.of_nat n) * g)%Q ->
    exists s' tr, loop n p s = Some (s', tr) /\ (n_steps tr <= n)%nat.
  Proof.
    intros p d g n s Hg Hu Hc Hd Ha Hn.
    eapply loop_terminates; eassumption.
  Qed.

  (** C02, third part: with a dt absorbed by the rounding of [t + dt], the run
      never returns. *)
  Theorem c02_absorbed_step_never_returns : forall p s,
    p_use_t_end p = true ->
    quiet p clock sig_before sig_after -> fresh s ->
    (ts_t s < p_t_end p)%Q ->
    (forall t dt, addt t dt = t) ->
    forall fuel, loop fuel p s = None.
  Proof. apply loop_absorbed. Qed.

  (** C03: whatever the requests, (1) the trace is made of complete steps (the fields of the final state are those after the last);
      (2) after a request is noticed, exactly one step is computed; (3) a run that
      returns before its end has noticed a request. *)
  Theorem c03_stop_completes_step : forall p s fuel s' tr,
    loop fuel p s = Some (s', tr) ->
    complete_steps sv p s tr s' /\
    (forall pre x post, tr = pre ++ x :: post -> is_stop_event x ->
                        n_steps post = 1%nat) /\
    (ts_has_to_stop s = false -> is_simul_completed S p s' = false ->
     exists x, In x tr /\ is_stop_event x).
  Proof.
    intros p s fuel s' tr H. split; [|split].
    - eapply loop_blocks; exact H.
    - intros pre x post Htr Hx.
      destruct (loop_after_stop _ _ _ _ _ _ _ _ _ _ _ _ _ H pre x post Htr Hx) as [dt E].
      unfold n_steps. rewrite E. reflexivity.
    - intros Hs Hc. eapply loop_not_completed; eassumption.
  Qed.

  (** C03, delay: a run beginning with call number 0 does at most n+1 steps if
      SIGUSR2/SIGTERM arrives during call n before the check, or if the clock is
      over the limit at call n; at most n+2 if the signal arrives after it. *)
  Theorem c03_stop_is_prompt : forall p s fuel s' tr n,
    loop fuel p s = Some (s', tr) -> ts_nstep s = 0%nat ->
    ((exists x, In x (sig_before n) /\ is_stop_signo x) ->
     (n_steps tr <= n + 1)%nat) /\
    ((exists lim, p_time_should_stop p = Some lim /\ lim < clock n)%Q ->
     (n_steps tr <= n + 1)%nat) /\
    ((exists x, In x (sig_after n) /\ is_stop_signo x) ->
     (n_steps tr <= n + 2)%nat).
  Proof.
    intros p s fuel s' tr n H H0.
    pose proof (loop_nstep _ _ _ _ _ _ _ _ _ _ _ _ _ H) as [En _].
    repeat split; intros Hr.
    - assert (ts_nstep s' <= Datatypes.S n)%nat; [|lia].
      eapply loop_signal_before; [exact H|lia|left; exact Hr].
    - assert (ts_nstep s' <= Datatypes.S n)%nat; [|lia].
      eapply loop_signal_before; [exact H|lia|right; exact Hr].
    - assert (ts_nstep s' <= Datatypes.S (Datatypes.S n))%nat; [|lia].
      eapply loop_signal_after; [exact H|lia|exact Hr].
  Qed.

  (** C05: forcing, outputs and computation of each step all see the [it] and [t]
      of the beginning of the step, in this order, once each; the outputs see the fields
      left by the previous step with the forcing of this time. *)
  Theorem c05_events_see_right_time : forall p s fuel s' tr,
    loop fuel p s = Some (s', tr) ->
    complete_steps sv p s tr s' /\
    ts_it s' = ts_it s + Z.of_nat (n_steps tr) /\
    ts_t s' = fold_left addt (dts tr) (ts_t s).
  Proof.
    intros p s fuel s' tr H. pose proof (loop_blocks _ _ _ _ _ _ _ _ _ _ _ _ _ H) as B.
    split; [exact B|]. exact (run_blocks_end _ _ _ _ _ _ _ _ _ _ _ _ _ B).
  Qed.
End Statements.

(** C01/C05 with exact addition: the final time is the sum. *)
Theorem c01_time_is_sum : forall (l : list Q) t,
  (fold_left Qplus l t == t + qsum l)%Q.
Proof. exact fold_qplus. Qed.

(** C04 (refuted): a run in which the only signal is SIGUSR2 reports SIGHUP. *)
Definition true_name (signo : Z) : option string :=
  if signo =? 12 then Some "SIGUSR2"%string
  else if signo =? 15 then Some "SIGTERM"%string
  else None.

Theorem c04_signal_name_refuted :
  exists (signo : Z) (sigs : nat -> list Z) s' tr name,
    is_stop_signo signo /\
    (forall n x, In x (sigs n) -> x = signo) /\
    main_loop nat Qplus (fun _ dt => dt) (fun s _ => s) (fun s _ => Datatypes.S s)
      (fun _ => 0%Q) sigs (fun _ => [])
      5 {| p_use_t_end := true; p_t_end := 3; p_it_end := 0; p_use_cfl := false;
           p_forcing := true; p_time_should_stop := None |}
      {| ts_it := 0; ts_t := 0; ts_deltat := 1; ts_has_to_stop := false;
         ts_stop_signal := 0; ts_phys := 0%nat; ts_nstep := 0 |} = Some (s', tr) /\
    In (EvStopSignal name) tr /\ name <> true_name signo.
Proof.
  exists 12, (fun n => match n with 1%nat => [12] | _ => [] end).
  eexists; eexists. exists (Some "SIGHUP"%string).
  split; [left; reflexivity|]. split.
  { intros [|[|n]] x; cbn; intuition. }
  split; [vm_compute; reflexivity|].
  split; [|discriminate]. cbn. tauto.
Qed.

(** C04, what holds: with only SIGTERM, the name is right. *)
Theorem c04_sigterm_name_partial : forall l,
  (forall x, In x l -> x = 15) -> l <> [] ->
  signal_name (handle_signals l 0) = true_name 15.
Proof.
  intros l H Hl.
  assert (G : forall v, v = 0 \/ v = 15 -> l <> [] -> handle_signals l v = 15).
  { clear Hl. unfold handle_signals.
    induction l as [|x l IH]; intros v Hv Hn; [congruence|].
    cbn [fold_left]. rewrite (H x (or_introl eq_refl)).
    change (handle_signal 15 v) with 15.
    destruct l as [|y l]; [reflexivity|].
    apply IH; [|auto|discriminate]. intros z Hz; apply H; right; exact Hz. }
  rewrite (G 0) by auto. reflexivity.
Qed.

(** ** Concrete cases meeting the hypotheses *)
Section Examples.
  Let p_it := {| p_use_t_end := false; p_t_end := 0; p_it_end := 3; p_use_cfl := true;
                 p_forcing := true; p_time_should_stop := Some 100%Q |}.
  Let p_t := {| p_use_t_end := true; p_t_end := 2; p_it_end := 0; p_use_cfl := true;
                p_forcing := true; p_time_should_stop := None |}.
  Let s0 : tstate nat :=
    {| ts_it := 0; ts_t := 0; ts_deltat := 1; ts_has_to_stop := false;
       ts_stop_signal := 0; ts_phys := 0%nat; ts_nstep := 0 |}.
  Let clf (s : nat) (dt : Q) : Q := (1 # 2) + (1 # Pos.of_nat (s + 2)).
  Let run := main_loop nat Qplus clf (fun s _ => s) (fun s _ => Datatypes.S s).

  Example ex_c01_hyps :
    p_use_t_end p_it = false /\
    quiet p_it (fun n => inject_Z (Z.of_nat n) * 0)%Q (fun _ => [10]) (fun _ => [1]) /\
    fresh s0.
  Proof.
    split; [reflexivity|]. split; [|split; reflexivity].
    split; [|split].
    - intros n s [<-|[]] [H|H]; discriminate.
    - intros n s [<-|[]] [H|H]; discriminate.
    - intros n lim H. injection H as <-. rewrite Qmult_0_r. discriminate.
  Qed.

  (* 3 steps are done from it = 0 *)
  Example ex_c01_run :
    match run (fun n => 0)%Q (fun _ => [10]) (fun _ => [1]) 3 p_it s0 with
    | Some (s', tr) => ts_it s' = 3 /\ n_steps tr = 3%nat
    | None => False
    end.
  Proof. vm_compute. split; reflexivity. Qed.

  Example ex_c02_terminates :
    (forall (ph : nat) old, (1 # 2) <= clf ph old)%Q /\
    (forall t dt : Q, (1 # 2) <= dt -> t < 2 -> t + (1 # 2) <= t + dt)%Q.
  Proof.
    split.
    - intros ph old. unfold clf, Qle; cbn. lia.
    - intros. lra.
  Qed.

  Example ex_c02_run :
    match run (fun n => 0)%Q (fun _ => []) (fun _ => []) 4 p_t s0 with
    | Some (s', tr) => n_steps tr = 3%nat /\ (2 <= ts_t s')%Q
    | None => False
    end.
  Proof. vm_compute. split; [reflexivity|discriminate]. Qed.

  (* SIGTERM arrives during the first call after the check: two steps in all *)
  Example ex_c03_run :
    match run (fun n => 0)%Q (fun _ => [])
              (fun n => match n with O => [15] | _ => [] end) 9 p_it s0 with
    | Some (s', tr) => n_steps tr = 2%nat /\ is_simul_completed nat p_it s' = false
                       /\ In (EvStopSignal (Some "SIGTERM"%string)) tr
    | None => False
    end.
  Proof. vm_compute. intuition. Qed.

  (* a step absorbed by rounding *)
  Example ex_c02_absorbed :
    forall fuel, main_loop nat (fun t _ => t) clf (fun s _ => s) (fun s _ => Datatypes.S s)
                   (fun _ => 0%Q) (fun _ => []) (fun _ => []) fuel p_t s0 = None.
  Proof.
    apply c02_absorbed_step_never_returns; try reflexivity.
    - repeat split; cbn; try tauto. discriminate.
    - split; reflexivity.
  Qed.

  Example ex_c04 : signal_name (handle_signals [15; 15] 0) = Some "SIGTERM"%string.
  Proof. reflexivity. Qed.
End Examples.

Print Assumptions c01_it_end_exact.
Print Assumptions c01_time_is_sum.
Print Assumptions c02_t_end_reached.
Print Assumptions c02_t_end_terminates.
Print Assumptions c02_absorbed_step_never_returns.
Print Assumptions c03_stop_completes_step.
Print Assumptions c03_stop_is_prompt.
Print Assumptions c04_signal_name_refuted.
Print Assumptions c04_sigterm_name_partial.
Print Assumptions c05_events_see_right_time.
