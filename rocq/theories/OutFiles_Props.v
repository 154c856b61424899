(** Properties C23, C24 (files with a time axis) and C66 (files of the probes) *)

From Coq Require Import Permutation String List Arith Bool QArith Qround ZArith Lia Lqa.
From Verif Require Import OutSched_Model OutSched_Spec OutSched_Proofs.
From Verif Require Import OutFiles_Model OutFiles_Spec OutFiles_Proofs.
Import ListNotations.
Local Open Scope nat_scope.

(** ** C23 *)

(** after any number of simulations (the first one and restarts) without crash, the file is the
    table of all the saves: same length for every variable, record i computed at times[i] *)
Theorem c23_table_partial :
  forall (V : Type) ks (runs : list (save V * list (save V))),
  keys_ok ks -> runs <> [] ->
  Forall (fun s => map fst (snd s) = ks) (flat_map saves_of runs) ->
  exists f, simuls runs None = (Some f, true) /\ is_table ks (flat_map saves_of runs) f.
Proof. intros V ks runs KO NE KS. apply (simuls_table V ks runs [] None); auto. Qed.
Print Assumptions c23_table_partial.

Example c23_table_example :
  keys_ok ["EK"; "EA"]%string
  /\ simuls [((0%Q, [("EK", 1); ("EA", 2)]), [(1%Q, [("EK", 3); ("EA", 4)])]);
             ((1%Q, [("EK", 3); ("EA", 4)]), [])]%string None
     = (Some [("times", [Time 0%Q; Time 1%Q; Time 1%Q]); ("EK", [Val 1; Val 3; Val 3]);
              ("EA", [Val 2; Val 4; Val 4])]%string, true).
Proof.
  split; [|vm_compute; reflexivity].
  split; [repeat constructor; cbn; intuition discriminate|cbn; intuition discriminate].
Qed.

(** the file is read back: the times are non-decreasing if those of the saves are, and all the
    columns have the length of the time axis *)
Theorem c23_lengths_partial :
  forall (V : Type) ks (runs : list (save V * list (save V))),
  keys_ok ks -> runs <> [] ->
  Forall (fun s => map fst (snd s) = ks) (flat_map saves_of runs) ->
  exists f lt, fst (simuls runs None) = Some f /\ find f "times" = Some lt
  /\ length lt = length (flat_map saves_of runs)
  /\ (forall k, In k ks -> exists l, find f k = Some l /\ length l = length lt
        /\ forall i s, nth_error (flat_map saves_of runs) i = Some s ->
             nth_error lt i = Some (Time (fst s))
             /\ forall v, In (k, v) (snd s) -> nth_error l i = Some (Val v)).
Proof.
  intros V ks runs KO NE KS. destruct (c23_table_partial V ks runs KO NE KS) as (f & E & T & C).
  exists f. eexists. rewrite E. split; [reflexivity|]. split; [exact T|].
  split; [apply map_length|]. intros k Hk. eexists. split; [apply C; auto|].
  unfold column. rewrite !map_length. split; [reflexivity|].
  intros i s Hi. split; [rewrite nth_error_map, Hi; reflexivity|].
  intros v Hv. rewrite nth_error_map, Hi. cbn. rewrite (assoc_in V (snd s) k v); auto.
  rewrite Forall_forall in KS. rewrite KS by (eapply nth_error_In; eauto). apply KO.
Qed.
Print Assumptions c23_lengths_partial.

Example c23_lengths_example : keys_ok ["E"]%string
  /\ Forall (fun s => map fst (snd s) = ["E"]%string)
       (flat_map saves_of [((0%Q, [("E"%string, 5)]), [(1%Q, [("E"%string, 6)])])]).
Proof.
  split; [split; [repeat constructor; cbn; tauto|cbn; intuition discriminate]|].
  repeat constructor.
Qed.

(** FINDING: the times of each simulation increase, but a restart from an earlier state of the
    same directory appends earlier times: the time axis is not sorted *)
Theorem c23_times_refuted :
  exists (runs : list (save nat * list (save nat))) f lt i ta tb,
  Forall (fun r => exists a b, map fst (saves_of r) = [a; b] /\ (a < b)%Q) runs
  /\ simuls runs None = (Some f, true)
  /\ find f "times" = Some lt
  /\ nth_error lt i = Some (Time ta) /\ nth_error lt (S i) = Some (Time tb) /\ (tb < ta)%Q.
Proof.
  exists [((0%Q, [("E"%string, 0)]), [(2%Q, [("E"%string, 2)])]);
          ((1%Q, [("E"%string, 1)]), [(2%Q, [("E"%string, 2)])])].
  do 2 eexists. exists 1, 2%Q, 1%Q.
  split; [repeat constructor; do 2 eexists; (split; [reflexivity|reflexivity])|].
  split; [vm_compute; reflexivity|]. repeat split.
Qed.
Print Assumptions c23_times_refuted.

(** FINDING: after a crash in the middle of a save and a restart, all the lengths agree again but
    a record of zeros (the fill value) stays in the file for the variables not yet written *)
Theorem c23_after_crash_refuted :
  exists (es : list (event nat)) f lt l,
  fst (events es None) = Some f
  /\ find f "times" = Some lt /\ find f "E" = Some l /\ length lt = length l
  /\ exists i t, nth_error lt i = Some (Time t) /\ nth_error l i = Some Fill.
Proof.
  exists [(None, (0%Q, [("E"%string, 7)])); (Some 2, (1%Q, [("E"%string, 8)]));
          (None, (1%Q, [("E"%string, 8)]))].
  do 3 eexists. split; [vm_compute; reflexivity|]. split; [reflexivity|]. split; [reflexivity|].
  split; [reflexivity|]. exists 1, 1%Q. split; reflexivity.
Qed.
Print Assumptions c23_after_crash_refuted.

(** ** C24 *)

(** one crash on a consistent file with n records, at any point of the append (or an exception):
    every dataset is the old one, or the old one and one more record; no dataset disappears *)
Theorem c24_one_crash :
  forall (V : Type) ks (hs : list (save V)) f stop t d f' ok,
  is_table ks hs f -> init_files stop t d (Some f) = (Some f', ok) ->
  forall k, k = "times"%string \/ In k ks ->
  exists l l', find f k = Some l /\ length l = length hs
  /\ find f' k = Some (l ++ l') /\ length l' <= 1.
Proof.
  intros V ks hs f stop t d f' ok [T C] E k Hk.
  assert (H : exists l, find f k = Some l /\ length l = length hs).
  { destruct Hk as [->|Hk]; eexists; (split; [eauto|]); [apply map_length|].
    unfold column; apply map_length. }
  destruct H as (l & F & L). unfold init_files in E. rewrite T, map_length in E.
  pose proof (exec_all_grows V (length hs) _ f (interrupted_op_of V (length hs) stop t d) k) as G.
  destruct (exec_all f (interrupted stop (add_ops (length hs) t d))) as [f1 ok1].
  injection E as <- _. cbn [fst] in G. rewrite F in G. destruct G as (l2 & F2 & L2 & N2 & _); [lia|].
  exists l, (skipn (length hs) l2). repeat split; auto.
  - rewrite F2. f_equal. rewrite <- (firstn_skipn (length hs) l2) at 1. f_equal.
    apply nth_error_ext. intros i. destruct (Nat.lt_ge_cases i (length hs)) as [Hi|Hi].
    + assert (Hx : exists x, nth_error l i = Some x).
      { destruct (nth_error l i) eqn:X; [eauto|]. apply nth_error_None in X. lia. }
      destruct Hx as (x & Hx). rewrite Hx. rewrite <- (N2 i x Hi Hx).
      clear - Hi. revert l2 i Hi. generalize (length hs) as n. induction n as [|n IH]; intros l2 i Hi; [lia|].
      destruct l2; [destruct i; reflexivity|]. destruct i; [reflexivity|]. cbn. apply IH; lia.
    + rewrite (proj2 (nth_error_None l i)) by lia. apply nth_error_None.
      rewrite firstn_length. lia.
  - rewrite skipn_length. lia.
Qed.
Print Assumptions c24_one_crash.

Example c24_one_crash_example :
  is_table ["E"]%string [(0%Q, [("E"%string, 7)])] [("times", [Time 0%Q]); ("E", [Val 7])]%string
  /\ init_files (Some 3) 1%Q [("E"%string, 8)] (Some [("times", [Time 0%Q]); ("E", [Val 7])]%string)
     = (Some [("times", [Time 0%Q; Time 1%Q]); ("E", [Val 7; Fill])]%string, true).
Proof.
  split; [|vm_compute; reflexivity]. split; [reflexivity|]. intros k [<-|[]]. reflexivity.
Qed.

(** any history of saves and restarts with any number of interrupted saves: the completed saves are
    all in the file, in order, each one in one row of all the variables *)
Theorem c24_completed_saves_kept :
  forall (V : Type) ks (s0 : save V) (es : list (event V)),
  keys_ok ks -> map fst (snd s0) = ks -> Forall (fun e => map fst (snd (snd e)) = ks) es ->
  exists f rows, events ((None, s0) :: es) None = (Some f, completed rows) /\ rows_ok ks rows f.
Proof.
  intros V ks s0 es KO K0 KS. cbn [events]. unfold init_files at 1. cbn [interrupted].
  destruct (create_complete V (fst s0) (snd s0)) as (f0 & E & T & C); [rewrite K0; auto|].
  rewrite E. destruct (events_rows V ks es [Some s0] f0 KO KS) as (f' & rows & E' & R).
  - split.
    + exists [Time (fst s0)]. repeat split; auto. intros [|[|i]] s Hi; cbn in Hi; try discriminate.
      injection Hi as <-. reflexivity.
    + intros k Hk. rewrite <- K0 in Hk. apply in_map_iff in Hk. destruct Hk as ([k' v] & Ek & Hin).
      cbn in Ek; subst k'. exists [Val v]. repeat split; auto.
      intros [|[|i]] s v' Hi Hv; cbn in Hi; try discriminate. injection Hi as <-. cbn.
      destruct KO as [ND _]. rewrite <- K0 in ND.
      pose proof (assoc_in V (snd s0) k v ND Hin) as A1.
      pose proof (assoc_in V (snd s0) k v' ND Hv) as A2. congruence.
  - rewrite E'. exists f', (Some s0 :: rows). split; auto.
Qed.
Print Assumptions c24_completed_saves_kept.

Example c24_completed_saves_kept_example :
  let es := [(Some 3, (1%Q, [("E"%string, 8)])); (None, (2%Q, [("E"%string, 9)]))] in
  Forall (fun e : event nat => map fst (snd (snd e)) = ["E"]%string) es
  /\ fst (events ((None, (0%Q, [("E"%string, 7)])) :: es) None)
     = Some [("times", [Time 0%Q; Time 1%Q; Time 2%Q]); ("E", [Val 7; Fill; Val 9])]%string
  /\ rows_ok ["E"]%string [Some (0%Q, [("E"%string, 7)]); None; Some (2%Q, [("E"%string, 9)])]
       [("times", [Time 0%Q; Time 1%Q; Time 2%Q]); ("E", [Val 7; Fill; Val 9])]%string.
Proof.
  split; [repeat constructor|]. split; [vm_compute; reflexivity|]. split.
  - eexists; split; [reflexivity|]. split; [reflexivity|].
    intros [|[|[|[|i]]]] s Hi; cbn in Hi; try discriminate; injection Hi as <-; reflexivity.
  - intros k [<-|[]]. eexists; split; [reflexivity|]. split; [cbn; lia|].
    intros [|[|[|[|i]]]] s v Hi Hv; cbn in Hi; try discriminate; injection Hi as <-;
      destruct Hv as [[= <-]|[]]; reflexivity.
Qed.

(** FINDING: with two crashes in a row the lengths differ by two *)
Theorem c24_lengths_refuted :
  exists (es : list (event nat)) f lt l,
  fst (events es None) = Some f
  /\ find f "times" = Some lt /\ find f "E" = Some l /\ length lt = length l + 2.
Proof.
  exists [(None, (0%Q, [("E"%string, 7)])); (Some 2, (1%Q, [("E"%string, 8)]));
          (Some 2, (1%Q, [("E"%string, 8)]))].
  do 3 eexists. split; [vm_compute; reflexivity|]. repeat split.
Qed.
Print Assumptions c24_lengths_refuted.

(** FINDING: a crash while the file is created leaves a file without some of the datasets; every
    later save of a simulation restarted in this directory then raises an exception (KeyError) *)
Theorem c24_creation_refuted :
  exists (t : Q) (d : list (string * nat)) stop f k,
  init_files (Some stop) t d None = (Some f, true) /\ In k (map fst d)
  /\ forall (es : list (event nat)) t' d', In k (map fst d') ->
     Forall (fun e => In k (map fst (snd (snd e)))) es ->
     snd (init_files None t' d' (fst (events es (Some f)))) = false.
Proof.
  exists 0%Q, [("EK", 1); ("EA", 2)]%string, 2, [("times", [Time 0%Q]); ("EK", [Val 1])]%string, "EA"%string.
  split; [reflexivity|]. split; [right; left; reflexivity|].
  intros es t' d' Hd.
  assert (G : forall f, find f "EA" = None -> Forall (fun e : event nat => In "EA"%string (map fst (snd (snd e)))) es ->
    exists f', fst (events es (Some f)) = Some f' /\ find f' "EA" = None).
  { induction es as [|[stop [t1 d1]] es IH]; intros f F A; [exists f; auto|].
    inversion_clear A as [|? ? A1 A2]. cbn [snd fst] in A1.
    destruct (append_fails nat f t1 d1 "EA" stop F (or_intror A1)) as (f1 & E1 & F1 & _).
    cbn [events fst snd]. destruct (init_files stop t1 d1 (Some f)) as [dd ok]. cbn [fst] in E1. subst dd.
    destruct (IH f1 F1 A2) as (f' & E & F'). exists f'. destruct (events es (Some f1)). auto. }
  intros A. destruct (G [("times", [Time 0%Q]); ("EK", [Val 1])]%string eq_refl A) as (f' & E & F').
  rewrite E.
  destruct (append_fails nat f' t' d' "EA" None F' (or_intror Hd)) as (_ & _ & _ & X). auto.
Qed.
Print Assumptions c24_creation_refuted.

(** ** C66 *)

Definition fmt1000 (t : Q) : Z := Qfloor (1000 * t + (1 # 2)).

(** without restart, if a file contains more than 1 + 0.001 / period times, reading the files in
    the order of their names gives the saved values exactly once, in order *)
Theorem c66_single_run_partial :
  forall (V : Type) (fmt : Q -> Z) (rnd teps : Q -> Q) period max_nb t0 (calls : list (Q * V)),
  0 < max_nb -> (0 < period)%Q -> (forall t, (t <= teps t)%Q) ->
  (forall a b, (a + (1 # 1000) < b)%Q -> (fmt a < fmt b)%Z) ->
  ((1 # 1000) <= inject_Z (Z.of_nat max_nb - 1) * period)%Q ->
  (forall t v, In (t, v) calls -> (t0 <= t)%Q /\ Qfloor (teps t / period) = Qfloor (t / period)) ->
  snd (saves_of_calls V teps period (- period) calls) <> [] ->
  load_time_series V (pfiles V (probes_run V fmt rnd teps period max_nb calls
                                  (probes_init V fmt period t0 [])))
  = map (fun x => Some x) (rounded V rnd (snd (saves_of_calls V teps period (- period) calls))).
Proof.
  intros V fmt rnd teps period max_nb t0 calls M Hp Ht Hf Hm Hc NE.
  set (p0 := probes_init V fmt period t0 []).
  assert (N : names_ok V fmt rnd teps period max_nb calls p0).
  { apply (names_ok_single V fmt rnd teps period max_nb M Hp Ht Hf Hm calls p0 t0); auto.
    - intros t v H. apply (Hc t v H).
    - left. split; [reflexivity|]. intros t v H. apply (Hc t v H). }
  pose proof (probes_run_inv V fmt rnd teps period max_nb M calls [] p0 (pinv_new V fmt period t0) N)
    as [I _].
  change (tl V p0) with (- period)%Q in I. cbn [app] in I.
  apply (pinv_load V _ _ I). intro Z.
  destruct I as (z & l & r & F & P & D & NB & C). rewrite Z in C. cbn [Nat.eqb] in C.
  (* the first save makes nb positive *)
  assert (G : forall cs (p : probes V) acc tl0, tl V p = tl0 -> (acc <> [] -> nb V p <> 0) ->
     snd (fold_left (step_save V teps period) cs (tl0, acc)) <> [] ->
     nb V (probes_run V fmt rnd teps period max_nb cs p) <> 0).
  { clear. induction cs as [|[t v] cs IH]; intros p acc tl0 T A H; [apply A; exact H|].
    unfold probes_run. cbn [fold_left fst snd] in *.
    fold (probes_run V fmt rnd teps period max_nb cs (probes_save V fmt rnd teps period max_nb t v p)).
    unfold step_save in H at 2. cbn [fst snd] in H. rewrite <- T in H.
    destruct (Qfloor (tl V p / period) <? Qfloor (teps t / period))%Z eqn:E.
    - eapply IH; [|intros _|exact H].
      + rewrite probes_save_tl, E. reflexivity.
      + rewrite probes_save_nb, E. destruct (Nat.leb max_nb (nb V p)); lia.
    - eapply IH; [| |exact H].
      + rewrite probes_save_tl, E. reflexivity.
      + rewrite probes_save_nb, E. exact A. }
  apply (G calls p0 [] (- period)%Q eq_refl); auto.
Qed.
Print Assumptions c66_single_run_partial.

Lemma fmt1000_ok a b : (a + (1 # 1000) < b)%Q -> (fmt1000 a < fmt1000 b)%Z.
Proof.
  intros H. unfold fmt1000.
  assert (X : (1000 * a + (1#2) + inject_Z 1 <= 1000 * b + (1#2))%Q) by (change (inject_Z 1) with 1%Q; lra).
  apply Qfloor_resp_le in X.
  assert (Y : Qfloor (1000 * a + (1#2) + inject_Z 1) = (Qfloor (1000 * a + (1#2)) + 1)%Z).
  { pose proof (floordiv_slot 1 (1000 * a + (1#2) + inject_Z 1) (Qfloor (1000 * a + (1#2)) + 1) eq_refl) as S.
    unfold floordiv in S.
    assert (E : (((1000 * a + (1#2) + inject_Z 1) / 1) == 1000 * a + (1#2) + inject_Z 1)%Q) by field.
    rewrite E in S. apply S. unfold in_slot. rewrite !inject_Z_plus. change (inject_Z 1) with 1%Q.
    pose proof (Qfloor_le (1000 * a + (1#2))) as A. pose proof (Qlt_floor (1000 * a + (1#2))) as B.
    rewrite inject_Z_plus in B. change (inject_Z 1) with 1%Q in B. lra. }
  lia.
Qed.

Example c66_single_run_example :
  let calls := [(0%Q, 5); ((1#4)%Q, 6); (1%Q, 7); ((9#4)%Q, 8)] in
  (forall a b, (a + (1 # 1000) < b)%Q -> (fmt1000 a < fmt1000 b)%Z)
  /\ (forall t v, In (t, v) calls -> (0 <= t)%Q /\ Qfloor (t / 1) = Qfloor (t / 1))
  /\ load_time_series nat (pfiles nat (probes_run nat fmt1000 (fun t => t) (fun t => t) 1 2 calls
       (probes_init nat fmt1000 1 0 []))) = [Some (0%Q, 5); Some (1%Q, 7); Some ((9#4)%Q, 8)].
Proof.
  cbn zeta. split; [exact fmt1000_ok|]. split; [|vm_compute; reflexivity].
  intros t v [[= <- _]|[[= <- _]|[[= <- _]|[[= <- _]|[]]]]]; split; try reflexivity; vm_compute; congruence.
Qed.

(** restart: if something has been saved in the last file and if the new files get later names,
    everything saved before is kept and the new saves follow, once; the schedule starts from the
    rounded last time *)
Theorem c66_restart_partial :
  forall (V : Type) (fmt : Q -> Z) (rnd teps : Q -> Q) period max_nb t1 log (p : probes V) calls,
  0 < max_nb -> pinv V log p -> nb V p <> 0 ->
  let q := probes_init V fmt period t1 (pfiles V p) in
  names_ok V fmt rnd teps period max_nb calls q ->
  load_time_series V (pfiles V p) = map (fun x => Some x) log
  /\ pinv V (log ++ rounded V rnd (snd (saves_of_calls V teps period (tl V q) calls)))
            (probes_run V fmt rnd teps period max_nb calls q).
Proof.
  intros V fmt rnd teps period max_nb t1 log p calls M I N q NO.
  split; [apply pinv_load; auto|].
  apply probes_run_inv; auto. apply (pinv_restart V fmt log p period t1 I N).
Qed.
Print Assumptions c66_restart_partial.

Example c66_restart_example :
  let p := probes_run nat fmt1000 (fun t => t) (fun t => t) 1 2 [(0%Q, 5); (1%Q, 7)]
             (probes_init nat fmt1000 1 0 []) in
  pinv nat [(0%Q, 5); (1%Q, 7)] p /\ nb nat p <> 0
  /\ names_ok nat fmt1000 (fun t => t) (fun t => t) 1 2 [((5#4)%Q, 8); (2%Q, 9)]
       (probes_init nat fmt1000 1 1 (pfiles nat p)).
Proof.
  cbn zeta. split; [|split].
  - exists 0%Z, [Some (0%Q, 5); Some (1%Q, 7)], []. vm_compute. repeat split; auto.
  - vm_compute; lia.
  - vm_compute. repeat split; intros; congruence.
Qed.

(** and the order in which the directory lists its files does not matter *)
Theorem c66_listing_order_partial :
  forall (V : Type) (fmt : Q -> Z) period t1 (d d' : pdir V),
  Permutation d d' -> NoDup (map fst d) -> d <> [] ->
  let q := probes_init V fmt period t1 d in
  let q' := probes_init V fmt period t1 d' in
  path V q' = path V q /\ nb V q' = nb V q /\ tl V q' = tl V q /\ Permutation (pfiles V q) (pfiles V q').
Proof.
  intros V fmt period t1 d d' P ND N q q'.
  assert (M : forall e e' : pdir V, Permutation e e' -> max_name V e = max_name V e').
  { induction 1 as [|[x l] e e' _ IH|[x l] [y m] e|e1 e2 e3 _ IH1 _ IH2]; cbn [max_name].
    - reflexivity.
    - rewrite IH. reflexivity.
    - destruct (max_name V e) as [z|]; f_equal; lia.
    - congruence. }
  assert (F : forall z (e e' : pdir V), Permutation e e' -> NoDup (map fst e) -> pfind V e z = pfind V e' z).
  { intros z. induction 1 as [|[x l] e e' _ IH|[x l] [y m] e|e1 e2 e3 P1 IH1 P2 IH2]; cbn [pfind map fst]; intros D.
    - reflexivity.
    - rewrite IH by (inversion D; assumption). reflexivity.
    - destruct (Z.eqb_spec z y) as [A|_]; [|reflexivity]. destruct (Z.eqb_spec z x) as [B|_]; [|reflexivity].
      exfalso. inversion D as [|? ? H _]. apply H. left. congruence.
    - rewrite IH1 by exact D. apply IH2. eapply Permutation_NoDup; [apply Permutation_map; exact P1|exact D]. }
  unfold q, q', probes_init. rewrite <- (M d d' P). destruct (max_name V d) as [z|] eqn:E.
  - cbn [path nb tl pfiles]. rewrite <- (F z d d' P ND). repeat split; auto.
  - exfalso. destruct d as [|[x l] d]; [apply N; reflexivity|]. cbn [max_name] in E. destruct (max_name V d); discriminate.
Qed.
Print Assumptions c66_listing_order_partial.

Example c66_listing_order_example :
  let d := [(0%Z, [Some (0%Q, 5)]); (2000%Z, [Some (2%Q, 6)])] in
  Permutation d (rev d) /\ NoDup (map fst d) /\ path nat (probes_init nat fmt1000 1 3 d) = 2000%Z.
Proof.
  cbn zeta. split; [apply Permutation_rev|]. split; [|reflexivity].
  cbn [map fst]. repeat constructor; cbn; intuition congruence.
Qed.

(** FINDING: two files whose first times have the same three decimals have the same name; the
    second one is opened in mode "w" and the saved values of the first are lost *)
Theorem c66_overwritten_refuted :
  exists period max_nb (calls : list (Q * nat)),
  0 < max_nb /\ (0 < period)%Q
  /\ snd (saves_of_calls nat (fun t => t) period (- period) calls) = calls
  /\ In (Some (0%Q, 5)) (load_time_series nat (pfiles nat
       (probes_run nat fmt1000 (fun t => t) (fun t => t) period max_nb (firstn 2 calls)
          (probes_init nat fmt1000 period 0 []))))
  /\ ~ In (Some (0%Q, 5)) (load_time_series nat (pfiles nat
       (probes_run nat fmt1000 (fun t => t) (fun t => t) period max_nb calls
          (probes_init nat fmt1000 period 0 [])))).
Proof.
  exists (1 # 10000)%Q, 2, [(0%Q, 5); ((1#10000)%Q, 6); ((2#10000)%Q, 7)].
  split; [lia|]. split; [reflexivity|]. split; [vm_compute; reflexivity|].
  split; [vm_compute; auto|]. vm_compute. intuition congruence.
Qed.
Print Assumptions c66_overwritten_refuted.

(** FINDING: a simulation stopped before its first save (or which only creates the files) leaves a
    record of zeros at time 0, kept by the next simulation in this directory *)
Theorem c66_zero_record_refuted :
  exists period max_nb t0 (calls : list (Q * nat)),
  let p0 := probes_init nat fmt1000 period t0 [] in
  let p1 := probes_init nat fmt1000 period t0 (pfiles nat p0) in
  exists r, load_time_series nat (pfiles nat
     (probes_run nat fmt1000 (fun t => t) (fun t => t) period max_nb calls p1)) = None :: r
  /\ r <> [].
Proof.
  exists 1%Q, 100, 3%Q, [(3%Q, 7)]. cbn zeta. exists [Some (3%Q, 7)].
  split; [vm_compute; reflexivity|discriminate].
Qed.
Print Assumptions c66_zero_record_refuted.

(** FINDING: the times are stored in simple precision (no dtype given), so that after a restart the
    slot already saved at 0.7 (rounded to 0.69999998807907104) is saved again, off schedule *)
Definition f32_0_7 : Q := 11744051 # 16777216.

Theorem c66_restart_schedule_refuted :
  exists period max_nb t0 v1 t2 v2 (rnd : Q -> Q),
  (forall t, rnd t = if Qeq_bool t (7 # 10) then f32_0_7 else t)
  /\ let run c p := probes_run nat fmt1000 rnd (fun t => t) period max_nb c p in
     let p1 := run [(t0, v1)] (probes_init nat fmt1000 period t0 []) in
     length (load_time_series nat (pfiles nat (run [(t2, v2)] p1))) = 1
     /\ length (load_time_series nat (pfiles nat
          (run [(t2, v2)] (probes_init nat fmt1000 period t0 (pfiles nat p1))))) = 2.
Proof.
  exists (1#10)%Q, 100, (7#10)%Q, 1, (71#100)%Q, 2, (fun t => if Qeq_bool t (7 # 10) then f32_0_7 else t).
  split; [reflexivity|]. vm_compute. split; reflexivity.
Qed.
Print Assumptions c66_restart_schedule_refuted.
