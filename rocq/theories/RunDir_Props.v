(** Theorems on the directories, the lock and the opening of files (C30, C46, C47, C71, C72) *)

From Coq Require Import String List Arith Bool Lia FinFun.
From Verif Require Import RunDir_Model RunDir_Spec.
Import ListNotations.
Local Open Scope nat_scope.

(** ** C30: new directories *)

Theorem c30_did_not_exist :
  forall name_run ex_t ex_m err fuel k k' p,
  init_path_run name_run ex_t ex_m err fuel true k = Some (k', p) ->
  p = name_run k' /\ ex_t k' p = false /\ ex_m k' p = false /\ err k' = false /\ k <= k'.
Proof.
  intros name_run ex_t ex_m err fuel. induction fuel as [|fuel IH]; intros k k' p H; [discriminate|].
  cbn [init_path_run negb] in H.
  destruct (ex_t k (name_run k)) eqn:E1; [apply IH in H; intuition lia|].
  destruct (ex_m k (name_run k)) eqn:E2; cbn [orb] in H; [apply IH in H; intuition lia|].
  destruct (err k) eqn:E3; [apply IH in H; intuition lia|].
  injection H as <- <-. auto.
Qed.
Print Assumptions c30_did_not_exist.

(** The search ends at the first attempt whose name is free. *)
Theorem c30_found :
  forall name_run ex_t ex_m err n k,
  ex_t (k + n) (name_run (k + n)) = false -> ex_m (k + n) (name_run (k + n)) = false -> err (k + n) = false ->
  exists k' p, init_path_run name_run ex_t ex_m err (S n) true k = Some (k', p) /\ k' <= k + n.
Proof.
  intros name_run ex_t ex_m err n. induction n as [|n IH]; intros k H1 H2 H3.
  - rewrite Nat.add_0_r in *. exists k, (name_run k). cbn [init_path_run negb].
    rewrite H1, H2, H3. split; [reflexivity|lia].
  - change (init_path_run name_run ex_t ex_m err (S (S n)) true k) with
      (if ex_t k (name_run k) then init_path_run name_run ex_t ex_m err (S n) true (S k)
       else if ex_m k (name_run k) || err k then init_path_run name_run ex_t ex_m err (S n) true (S k)
       else Some (k, name_run k)).
    replace (k + S n) with (S k + n) in * by lia. specialize (IH (S k) H1 H2 H3).
    destruct IH as (k' & p & E & L).
    destruct (ex_t k (name_run k)); [exists k', p; split; [exact E|lia]|].
    destruct (ex_m k (name_run k) || err k); [exists k', p; split; [exact E|lia]|].
    exists k, (name_run k). split; [reflexivity|lia].
Qed.
Print Assumptions c30_found.

(** If nothing else creates directories the search ends, whatever directories exist. *)
Lemma free_name (name_run : nat -> string) (d : list string) k :
  (forall i j, name_run i = name_run j -> i = j) ->
  exists n, n <= List.length d /\ ~ In (name_run (k + n)) d.
Proof.
  intros Inj.
  destruct (List.Forall_Exists_dec (fun n => In (name_run (k + n)) d)
              (fun n => in_dec string_dec (name_run (k + n)) d) (seq 0 (S (List.length d)))) as [F|E].
  - exfalso.
    assert (L : S (List.length d) <= List.length d); [|lia].
    rewrite <- (seq_length (S (List.length d)) 0) at 1.
    rewrite <- (map_length (fun n => name_run (k + n))).
    apply NoDup_incl_length.
    + apply Injective_map_NoDup; [|apply seq_NoDup].
      intros i j E. apply Inj in E. lia.
    + intros x X. apply in_map_iff in X. destruct X as (n & <- & N).
      rewrite Forall_forall in F. apply F. exact N.
  - apply Exists_exists in E. destruct E as (n & N & H). apply in_seq in N.
    exists n. split; [lia|exact H].
Qed.

Theorem c30_ends :
  forall (name_run : nat -> string) (d : list string) k,
  (forall i j, name_run i = name_run j -> i = j) ->
  exists k' p, init_path_run name_run (fun _ p => exists_dir d p) (fun _ p => exists_dir d p) (fun _ => false)
                 (S (List.length d)) true k = Some (k', p) /\ ~ In p d.
Proof.
  intros name_run d k Inj. destruct (free_name name_run d k Inj) as (n & L & F).
  assert (E : exists_dir d (name_run (k + n)) = false).
  { unfold exists_dir. apply Bool.not_true_iff_false. intro X. apply existsb_exists in X.
    destruct X as (x & X & Y). apply String.eqb_eq in Y. subst. contradiction. }
  destruct (c30_found name_run (fun _ p => exists_dir d p) (fun _ p => exists_dir d p) (fun _ => false) n k E E eq_refl)
    as (k' & p & R & _).
  assert (M : forall a b k r, init_path_run name_run (fun _ p => exists_dir d p) (fun _ p => exists_dir d p) (fun _ => false) a true k = Some r ->
              a <= b -> init_path_run name_run (fun _ p => exists_dir d p) (fun _ p => exists_dir d p) (fun _ => false) b true k = Some r).
  { induction a as [|a IH]; intros b k0 r H Lb; [discriminate|]. destruct b as [|b]; [lia|].
    cbn [init_path_run negb] in *.
    destruct (exists_dir d (name_run k0)); [apply IH; [exact H|lia]|].
    cbn [orb] in *. exact H. }
  exists k', p. split; [apply (M (S n)); [exact R|lia]|].
  apply c30_did_not_exist in R. destruct R as (_ & R & _). intro I.
  unfold exists_dir in R. rewrite (proj2 (existsb_exists _ _)) in R; [discriminate|].
  exists p. split; [exact I|apply String.eqb_refl].
Qed.
Print Assumptions c30_ends.

(** The mkdir which fails for another reason (no permission, full disk) is retried for ever. *)
Theorem c73_mkdir_error_refuted :
  exists name_run ex_t ex_m err, (forall k p, ex_t k p = false) /\ (forall k p, ex_m k p = false)
    /\ forall fuel k, init_path_run name_run ex_t ex_m err fuel true k = None.
Proof.
  exists (fun _ => "run"%string), (fun _ _ => false), (fun _ _ => false), (fun _ => true).
  split; [reflexivity|]. split; [reflexivity|].
  induction fuel as [|fuel IH]; intro k; [reflexivity|]. cbn [init_path_run negb orb]. apply IH.
Qed.
Print Assumptions c73_mkdir_error_refuted.

Lemma exists_dir_spec d p : exists_dir d p = true <-> In p d.
Proof.
  unfold exists_dir. rewrite existsb_exists. split.
  - intros (x & X & E). apply String.eqb_eq in E. subst. exact X.
  - intro H. exists p. split; [exact H|apply String.eqb_refl].
Qed.

(** the move *)
Theorem c30_move_free :
  forall suffixed name fuel d p, select suffixed name fuel d = Some p ->
  ~ In p d /\ move p d = p :: d.
Proof.
  intros suffixed name fuel d p H. unfold select in H. revert H. generalize name as q. generalize 1 as i.
  induction fuel as [|fuel IH]; intros i q H; [discriminate|]. cbn [new_name] in H.
  destruct (exists_dir d q) eqn:E; [exact (IH _ _ H)|].
  injection H as <-. split; [|unfold move; rewrite E; reflexivity].
  intro I. apply exists_dir_spec in I. congruence.
Qed.
Print Assumptions c30_move_free.

Theorem c30_move_ends :
  forall suffixed name d,
  (forall i j, suffixed i = suffixed j -> i = j) ->
  exists p, select suffixed name (S (S (List.length d))) d = Some p.
Proof.
  intros suffixed name d Inj.
  assert (G : forall n i, ~ In (suffixed (i + n)) d -> exists p, new_name suffixed (S n) d (suffixed i) (S i) = Some p).
  { induction n as [|n IH]; intros i H.
    - rewrite Nat.add_0_r in H. exists (suffixed i). cbn [new_name].
      destruct (exists_dir d (suffixed i)) eqn:E; [apply exists_dir_spec in E; contradiction|reflexivity].
    - change (new_name suffixed (S (S n)) d (suffixed i) (S i)) with
        (if exists_dir d (suffixed i) then new_name suffixed (S n) d (suffixed (S i)) (S (S i)) else Some (suffixed i)).
      destruct (exists_dir d (suffixed i)); [|eauto]. apply IH. replace (S i + n) with (i + S n) by lia. exact H. }
  unfold select.
  assert (M : forall a b q i r, new_name suffixed a d q i = Some r -> a <= b -> new_name suffixed b d q i = Some r).
  { induction a as [|a IH]; intros b q i r H L; [discriminate|]. destruct b as [|b]; [lia|].
    cbn [new_name] in *. destruct (exists_dir d q); [apply IH; [exact H|lia]|exact H]. }
  change (new_name suffixed (S (S (List.length d))) d name 1)
    with (if exists_dir d name then new_name suffixed (S (List.length d)) d (suffixed 1) 2 else Some name).
  destruct (exists_dir d name); [|eauto].
  destruct (free_name suffixed d 1 Inj) as (n & L & F).
  destruct (G n 1 F) as [p P]. exists p. exact (M (S n) (S (List.length d)) _ _ _ P ltac:(lia)).
Qed.
Print Assumptions c30_move_ends.

Example c30_example :
  select (fun i => match i with 1 => "run_1" | 2 => "run_2" | _ => "run_3" end)%string "run" 5 ["run"; "run_1"]%string
  = Some "run_2"%string.
Proof. reflexivity. Qed.

(** ** C71: all the processes agree on the directory *)

Theorem c71_selected_before_the_move_partial :
  forall suffixed name fuel d p0 p1, end_of_simul_mpi suffixed name fuel false d = Some (p0, p1) -> p0 = p1.
Proof.
  intros suffixed name fuel d p0 p1 H. unfold end_of_simul_mpi in H.
  destruct (select suffixed name fuel d) as [p|]; [|discriminate]. injection H as <- <-. reflexivity.
Qed.
Print Assumptions c71_selected_before_the_move_partial.

(** There is no barrier before the move: a slower process sees the new directory. *)
Theorem c71_agree_refuted :
  exists suffixed name fuel d p0 p1,
    end_of_simul_mpi suffixed name fuel true d = Some (p0, p1) /\ p0 <> p1 /\ In p0 (move p0 d) /\ ~ In p1 (move p0 d).
Proof.
  exists (fun _ => "run_1"%string), "run"%string, 3, [], "run"%string, "run_1"%string.
  split; [reflexivity|]. split; [discriminate|]. split; [left; reflexivity|].
  intros [E|[]]. discriminate.
Qed.
Print Assumptions c71_agree_refuted.

(** It happens whenever a process selects after the move. *)
Theorem c71_late_process :
  forall suffixed name fuel d p0 p1, end_of_simul_mpi suffixed name fuel true d = Some (p0, p1) -> p0 <> p1.
Proof.
  intros suffixed name fuel d p0 p1 H. unfold end_of_simul_mpi in H.
  destruct (select suffixed name fuel d) as [p|] eqn:E; [|discriminate].
  destruct (select suffixed name fuel (move p d)) as [q|] eqn:F; [|discriminate].
  injection H as <- <-. intros ->. destruct (c30_move_free _ _ _ _ _ E) as [_ M].
  destruct (c30_move_free _ _ _ _ _ F) as [N _]. apply N. rewrite M. left. reflexivity.
Qed.
Print Assumptions c71_late_process.

(** ** C72: runs outside of FLUIDSIM_PATH are moved *)

Lemma prefix_append a b : String.prefix a (String.append a b) = true.
Proof. induction a as [|c a IH]; cbn; [destruct b; reflexivity|]. destruct (Ascii.ascii_dec c c); [exact IH|congruence]. Qed.

Lemma path_text_app a b : path_text (a ++ b) = String.append (path_text a) (path_text b).
Proof.
  induction a as [|c a IH]; cbn [app path_text]; [reflexivity|]. rewrite IH.
  assert (A : forall x y z : string, String.append x (String.append y z) = String.append (String.append x y) z).
  { induction x as [|h x IHx]; intros; cbn; [reflexivity|]. rewrite IHx. reflexivity. }
  cbn. f_equal. apply A.
Qed.

(** a run inside of FLUIDSIM_PATH stays *)
Theorem c72_inside_not_moved_partial :
  forall base run, below base run -> is_moved (path_text run) (path_text base) = false.
Proof.
  intros base run [r ->]. unfold is_moved. rewrite path_text_app, prefix_append. reflexivity.
Qed.
Print Assumptions c72_inside_not_moved_partial.

Theorem c72_outside_moved_refuted :
  exists base run, ~ below base run /\ is_moved (path_text run) (path_text base) = false.
Proof.
  exists ["data"; "sim"]%string, ["data"; "sim_scratch"; "run"]%string. split; [|reflexivity].
  intros [r E]. discriminate E.
Qed.
Print Assumptions c72_outside_moved_refuted.

Example c72_example : is_moved (path_text ["scratch"; "run"]%string) (path_text ["data"; "sim"]%string) = true.
Proof. reflexivity. Qed.

(** ** C46: the lock *)

Theorem c46_separate_runs_partial :
  forall l, separate l ->
  run_events l = mkLock None []
  /\ forall p, run_events (l ++ [Start p]) = mkLock (Some p) [p].
Proof.
  intros l S. assert (E : run_events l = mkLock None []).
  { induction S as [|p l S IH]; [reflexivity|]. unfold run_events in *. cbn [fold_left lock_step lock running].
    cbn [filter]. rewrite Nat.eqb_refl. exact IH. }
  split; [exact E|]. intro p. unfold run_events in *. rewrite fold_left_app, E. reflexivity.
Qed.
Print Assumptions c46_separate_runs_partial.

(** a second simulation in the directory removes the lock of the first one when it ends *)
Theorem c46_other_simulation_refuted :
  exists l p, owns l p /\ In p (running (run_events l)) /\ lock (run_events l) = None.
Proof.
  exists [Start 1; Start 2; End 2], 1. split; [|split; [left; reflexivity|reflexivity]].
  exists [], [Start 2; End 2]. split; [reflexivity|]. split; [reflexivity|].
  intros [H|[H|[]]]; discriminate.
Qed.
Print Assumptions c46_other_simulation_refuted.

(** after SIGTERM the lock is released although the simulation is still running; a third one can
    then start without warning *)
Theorem c46_signal_refuted :
  exists l p, owns l p /\ In p (running (run_events l)) /\ lock (run_events l) = None
    /\ lock (run_events (l ++ [Start 2])) = Some 2 /\ running (run_events (l ++ [Start 2])) = [2; p].
Proof.
  exists [Start 1; Term 1], 1.
  split; [exists [], [Term 1]; split; [reflexivity|]; split; [reflexivity|]; intros [H|[]]; discriminate|].
  repeat split; try reflexivity. left. reflexivity.
Qed.
Print Assumptions c46_signal_refuted.

(** At the end of a run which is not moved, the lock is removed. *)
Theorem c46_removed_at_the_end_partial :
  forall d locks, ~ In d (exit_run d None locks).
Proof.
  intros d locks H. unfold exit_run, unlink in H. apply filter_In in H. destruct H as [_ H].
  rewrite String.eqb_refl in H. discriminate.
Qed.
Print Assumptions c46_removed_at_the_end_partial.

(** The locks of the other directories are not touched. *)
Theorem c46_other_directories :
  forall d new locks d', d' <> d -> In d' locks -> In d' (exit_run d new locks).
Proof.
  intros d new locks d' N H. unfold exit_run, unlink. apply filter_In. split.
  - destruct new as [n|]; [|exact H]. unfold rename_dir. apply in_map_iff. exists d'. split; [|exact H].
    destruct (String.eqb_spec d' d); [contradiction|reflexivity].
  - destruct (String.eqb_spec d' d); [contradiction|reflexivity].
Qed.
Print Assumptions c46_other_directories.

(** When the directory is moved at the end, the lock moves with it and is never removed. *)
Theorem c46_moved_lock_stays :
  forall d n locks, n <> d -> In d locks -> In n (exit_run d (Some n) locks).
Proof.
  intros d n locks N H. unfold exit_run, unlink. apply filter_In. split.
  - unfold rename_dir. apply in_map_iff. exists d. rewrite String.eqb_refl. auto.
  - destruct (String.eqb_spec n d); [contradiction|reflexivity].
Qed.
Print Assumptions c46_moved_lock_stays.

Theorem c46_moved_refuted :
  exists d n, exit_run d (Some n) [d] = [n].
Proof. exists "scratch/run"%string, "data/run"%string. reflexivity. Qed.
Print Assumptions c46_moved_refuted.

(** In all the cases: a lock present belongs to a simulation which was started. *)
Theorem c46_creator_started :
  forall l p, lock (run_events l) = Some p -> In (Start p) l.
Proof.
  intros l. unfold run_events.
  assert (G : forall l s p, lock (fold_left lock_step l s) = Some p -> lock s = Some p \/ In (Start p) l).
  { clear. induction l as [|e l IH]; intros s p H; [left; exact H|]. cbn [fold_left] in H.
    destruct (IH _ _ H) as [A|A]; [|right; right; exact A].
    destruct e as [q|q|q]; cbn [lock_step lock] in A; try discriminate.
    destruct (lock s) as [x|]; [left; exact A|]. injection A as ->. right. left. reflexivity. }
  intros p H. destruct (G _ _ _ H) as [A|A]; [discriminate|exact A].
Qed.
Print Assumptions c46_creator_started.

Example c46_example : separate [Start 1; End 1; Start 2; End 2].
Proof. repeat constructor. Qed.

(** ** C47: open_patient *)

Section C47.
Variable attempt : nat -> outcome * nat.
Variables total once : nat.

Lemma open_busy fuel n k e :
  (forall j, k <= j < k + n -> busy attempt j /\ start_of attempt once j + snd (attempt j) <= total) ->
  e = start_of attempt once k ->
  open_patient attempt total once (n + fuel) k e
  = open_patient attempt total once fuel (k + n) (start_of attempt once (k + n)).
Proof.
  revert k e. induction n as [|n IH]; intros k e H E.
  - rewrite Nat.add_0_r. subst e. reflexivity.
  - cbn [Nat.add open_patient].
    destruct (H k ltac:(lia)) as [B T]. unfold busy in B. destruct (attempt k) as [o d] eqn:A.
    cbn [fst snd] in *. subst o. rewrite Nat.eqb_refl. cbn [negb orb]. subst e.
    destruct (Nat.ltb_spec total (start_of attempt once k + d)); [lia|].
    rewrite IH.
    + replace (S k + n) with (k + S n) by lia. reflexivity.
    + intros j J. apply H. lia.
    + cbn [start_of]. rewrite A. reflexivity.
Qed.

(** The file is opened at the first attempt which is not busy, if the total time is not exceeded
    before. *)
Theorem c47_opened :
  forall k, (forall j, j < k -> busy attempt j /\ start_of attempt once j + snd (attempt j) <= total) ->
  fst (attempt k) = Opened ->
  open_patient attempt total once (S k) 0 0 = File k.
Proof.
  intros k H O. replace (S k) with (k + 1) by lia.
  rewrite (open_busy 1 k 0 0); [|intros j J; apply H; lia|reflexivity].
  cbn [Nat.add open_patient]. destruct (attempt k) as [o d]. cbn [fst] in O. subst o. reflexivity.
Qed.

(** another error number is raised at once *)
Theorem c47_other_errno :
  forall k n, (forall j, j < k -> busy attempt j /\ start_of attempt once j + snd (attempt j) <= total) ->
  fst (attempt k) = Errno n -> n <> 11 ->
  open_patient attempt total once (S k) 0 0 = RaiseOSError k.
Proof.
  intros k n H O N. replace (S k) with (k + 1) by lia.
  rewrite (open_busy 1 k 0 0); [|intros j J; apply H; lia|reflexivity].
  cbn [Nat.add open_patient]. destruct (attempt k) as [o d]. cbn [fst] in O. subst o.
  destruct (Nat.eqb_spec n 11); [contradiction|]. reflexivity.
Qed.

(** it retries only after "busy" *)
Theorem c47_retry_only_busy :
  forall fuel k, (open_patient attempt total once fuel 0 0 = File k
                  \/ open_patient attempt total once fuel 0 0 = RaiseOSError k
                  \/ open_patient attempt total once fuel 0 0 = RaiseIndexError k) ->
  forall j, j < k -> busy attempt j /\ start_of attempt once j + snd (attempt j) <= total.
Proof.
  assert (G : forall fuel i e k, e = start_of attempt once i ->
     (open_patient attempt total once fuel i e = File k
      \/ open_patient attempt total once fuel i e = RaiseOSError k
      \/ open_patient attempt total once fuel i e = RaiseIndexError k) ->
     forall j, i <= j < k -> busy attempt j /\ start_of attempt once j + snd (attempt j) <= total).
  { induction fuel as [|fuel IH]; intros i e k E H j J; [destruct H as [H|[H|H]]; discriminate|].
    cbn [open_patient] in H. destruct (attempt i) as [o d] eqn:A. destruct o as [|n|].
    - destruct H as [H|[H|H]]; try discriminate. injection H as <-. lia.
    - destruct (negb (Nat.eqb n 11) || Nat.ltb total (e + d)) eqn:C.
      + destruct H as [H|[H|H]]; try discriminate. injection H as <-. lia.
      + apply Bool.orb_false_iff in C. destruct C as [C1 C2].
        apply Bool.negb_false_iff, Nat.eqb_eq in C1. apply Nat.ltb_ge in C2. subst n e.
        destruct (Nat.eq_dec i j) as [->|N].
        * unfold busy. rewrite A. cbn [fst snd]. auto.
        * apply (IH (S i) _ k) with (j := j) in H; [exact H| |lia].
          cbn [start_of]. rewrite A. reflexivity.
    - destruct H as [H|[H|H]]; try discriminate. injection H as <-. lia. }
  intros fuel k H j J. apply (G fuel 0 0 k eq_refl H j). lia.
Qed.

(** it stops: at most total / once + 2 attempts *)
Theorem c47_stops :
  0 < once -> open_patient attempt total once (total / once + 2) 0 0 <> Looping.
Proof.
  intro O.
  assert (G : forall fuel i e, e = start_of attempt once i -> once * i <= e ->
              open_patient attempt total once fuel i e = Looping -> fuel = 0 \/ once * (i + fuel - 1) <= total).
  { induction fuel as [|fuel IH]; intros i e E L H; [left; reflexivity|]. right.
    cbn [open_patient] in H. destruct (attempt i) as [o d] eqn:A. destruct o as [|n|]; try discriminate.
    destruct (negb (Nat.eqb n 11) || Nat.ltb total (e + d)) eqn:C; [discriminate|].
    apply Bool.orb_false_iff in C. destruct C as [_ C2]. apply Nat.ltb_ge in C2.
    destruct (IH (S i) (e + d + once) ltac:(cbn [start_of]; rewrite A; subst e; reflexivity) ltac:(lia) H) as [Z|Z].
    - subst fuel. replace (i + 1 - 1) with i by lia. lia.
    - replace (i + S fuel - 1) with (S i + fuel - 1) by lia. exact Z. }
  intro H. destruct (G _ 0 0 eq_refl ltac:(lia) H) as [Z|Z]; [lia|].
  replace (0 + (total / once + 2) - 1) with (S (total / once)) by lia.
  pose proof (Nat.mul_succ_div_gt total once ltac:(lia)).
  replace (0 + (total / once + 2) - 1) with (S (total / once)) in Z by lia. lia.
Qed.
End C47.
Print Assumptions c47_opened.
Print Assumptions c47_other_errno.
Print Assumptions c47_retry_only_busy.
Print Assumptions c47_stops.

(** The file becomes available at a time not larger than the total time: it is opened less than one
    waiting time later (attempts taking no time). *)
Theorem c47_available_before_total :
  forall (attempt : nat -> outcome * nat) total once T, 0 < once -> T <= total ->
  (forall k, snd (attempt k) = 0) ->
  (forall k, once * k < T -> busy attempt k) -> (forall k, T <= once * k -> fst (attempt k) = Opened) ->
  exists k, open_patient attempt total once (S k) 0 0 = File k /\ once * k < T + once.
Proof.
  intros attempt total once T O L D B A.
  assert (St : forall k, start_of attempt once k = once * k).
  { induction k as [|k IH]; cbn [start_of]; [lia|]. rewrite IH, D. lia. }
  set (k := (T + once - 1) / once).
  assert (K1 : T <= once * k).
  { pose proof (Nat.mul_succ_div_gt (T + once - 1) once ltac:(lia)). fold k in H. lia. }
  assert (K2 : once * k < T + once).
  { pose proof (Nat.mul_div_le (T + once - 1) once ltac:(lia)). fold k in H. lia. }
  exists k. split; [|exact K2]. apply c47_opened; [|apply A; exact K1].
  intros j J. assert (once * j < T) by nia. split; [apply B; exact H|]. rewrite St, D. lia.
Qed.
Print Assumptions c47_available_before_total.

(** An OSError without "errno = " in its text (a file which is not an hdf5 file, for example): an
    IndexError is raised instead. *)
Theorem c47_other_error_refuted :
  exists attempt, fst (attempt 0) = NoErrno /\ open_patient attempt 200 2 1 0 0 = RaiseIndexError 0.
Proof. exists (fun _ => (NoErrno, 0)). split; reflexivity. Qed.
Print Assumptions c47_other_error_refuted.

Example c47_example :
  open_patient (fun k => (if Nat.ltb k 3 then Errno 11 else Opened, 0)) 200 2 10 0 0 = File 3.
Proof. reflexivity. Qed.
