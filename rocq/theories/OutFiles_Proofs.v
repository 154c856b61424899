(** Proofs about the contents of the output files *)

From Coq Require Import String List Arith Bool QArith Qround ZArith Lia Lqa.
From Verif Require Import OutSched_Model OutSched_Spec OutSched_Proofs OutFiles_Model OutFiles_Spec.
Import ListNotations.
Local Open Scope nat_scope.

Lemma nth_error_ext {A} (l : list A) : forall l', (forall i, nth_error l i = nth_error l' i) -> l = l'.
Proof.
  induction l as [|x l IH]; intros [|y l'] H.
  - reflexivity.
  - specialize (H 0); discriminate.
  - specialize (H 0); discriminate.
  - pose proof (H 0) as E. injection E as ->. f_equal. apply IH. intro i. apply (H (S i)).
Qed.

Section Files.

Variable V : Type.
Implicit Types (f : file V) (k : string) (l : dataset V) (c : cell V).

Lemma find_set_same f k l l' : find f k = Some l' -> find (set f k l) k = Some l.
Proof.
  induction f as [|[k' x] f IH]; cbn; [discriminate|]. destruct (String.eqb k k') eqn:E.
  - intros _. cbn. rewrite E. reflexivity.
  - intros H. cbn. rewrite E. auto.
Qed.

Lemma find_set_other f k k' l : k <> k' -> find (set f k l) k' = find f k'.
Proof.
  intros N. induction f as [|[k1 x] f IH]; cbn; [reflexivity|]. destruct (String.eqb k k1) eqn:E.
  - apply String.eqb_eq in E. subst. cbn. destruct (String.eqb k' k1) eqn:E2; auto.
    apply String.eqb_eq in E2. congruence.
  - cbn. rewrite IH. reflexivity.
Qed.

Lemma write_at_end l c x : write_at (length l) c (l ++ [x]) = Some (l ++ [c]).
Proof. induction l as [|y l IH]; [reflexivity|]. cbn. rewrite IH. reflexivity. Qed.

Lemma write_at_length i c : forall l l', write_at i c l = Some l' -> length l' = length l /\ i < length l.
Proof.
  induction i as [|i IH]; intros [|x l] l'; cbn; try discriminate.
  - intros [= <-]. cbn. lia.
  - destruct (write_at i c l) eqn:E; cbn; [|discriminate]. intros [= <-]. apply IH in E. cbn. lia.
Qed.

Lemma write_at_other i c : forall l l' j, write_at i c l = Some l' -> j <> i ->
  nth_error l' j = nth_error l j.
Proof.
  induction i as [|i IH]; intros [|x l] l' j; cbn; try discriminate.
  - intros [= <-] N. destruct j; [lia|reflexivity].
  - destruct (write_at i c l) eqn:E; cbn; [|discriminate]. intros [= <-] N.
    destruct j; [reflexivity|]. cbn. apply (IH _ _ _ E). lia.
Qed.

Lemma write_at_there i c : forall l l', write_at i c l = Some l' -> nth_error l' i = Some c.
Proof.
  induction i as [|i IH]; intros [|x l] l'; cbn; try discriminate.
  - intros [= <-]. reflexivity.
  - destruct (write_at i c l) eqn:E; cbn; [|discriminate]. intros [= <-]. cbn. eauto.
Qed.

Lemma write_at_ok i c : forall l, i < length l -> exists l', write_at i c l = Some l'.
Proof.
  induction i as [|i IH]; intros [|x l]; cbn; try lia; [eauto|]. intros H.
  destruct (IH l) as (l' & ->); [lia|]. cbn. eauto.
Qed.

Lemma resized_length n l : length (resized n l) = n.
Proof.
  unfold resized. rewrite app_length, firstn_length, repeat_length. lia.
Qed.

Lemma resized_nth n l i x : i < n -> nth_error l i = Some x -> nth_error (resized n l) i = Some x.
Proof.
  intros Hi H. unfold resized. assert (i < length l) by (apply nth_error_Some; congruence).
  rewrite nth_error_app1 by (rewrite firstn_length; lia).
  rewrite <- H. clear - Hi. revert l i Hi. induction n as [|n IH]; intros [|y l] i Hi; try lia;
    try reflexivity. destruct i; [reflexivity|]. cbn. apply IH. lia.
Qed.

Lemma exec_all_app os1 : forall f os2,
  exec_all f (os1 ++ os2)
  = let (f', ok) := exec_all f os1 in if ok then exec_all f' os2 else (f', false).
Proof.
  induction os1 as [|o os1 IH]; intros f os2; [reflexivity|]. cbn [app exec_all].
  destruct (exec f o); [apply IH|reflexivity].
Qed.

(** ** what an append of record number n, possibly interrupted, does *)

Definition grows (n : nat) (f f' : file V) : Prop :=
  forall k, match find f k with
  | None => find f' k = None
  | Some l => length l <= n + 1 -> exists l', find f' k = Some l'
       /\ length l <= length l' <= n + 1
       /\ (forall i x, i < n -> nth_error l i = Some x -> nth_error l' i = Some x)
       /\ (length l' = length l \/ length l' = n + 1)
  end.

Lemma grows_refl n f : grows n f f.
Proof.
  intro k. destruct (find f k) as [l|]; [|reflexivity]. intros H. exists l. repeat split; auto.
Qed.

Lemma grows_trans n f1 f2 f3 : grows n f1 f2 -> grows n f2 f3 -> grows n f1 f3.
Proof.
  intros A B k. specialize (A k). specialize (B k). destruct (find f1 k) as [l|].
  - intros H. destruct (A H) as (l2 & E2 & L2 & N2 & C2). rewrite E2 in B.
    destruct B as (l3 & E3 & L3 & N3 & C3); [lia|]. exists l3. repeat split; auto; try lia.
  - rewrite A in B. exact B.
Qed.

Definition op_of (n : nat) (o : op V) : Prop :=
  match o with Create _ _ => False | Resize _ m => m = n + 1 | Write _ i _ => i = n end.

Lemma exec_grows n f o f' : op_of n o -> exec f o = Some f' -> grows n f f'.
Proof.
  destruct o as [k c|k m|k i c]; cbn [op_of exec]; [intros []| |]; intros ->;
    destruct (find f k) as [l|] eqn:F; try discriminate.
  - intros [= <-] k'. destruct (String.string_dec k k') as [->|N].
    + rewrite F. intros H. exists (resized (n + 1) l).
      rewrite (find_set_same f k' _ l F), resized_length. repeat split; auto; try lia.
      intros i x Hi. apply resized_nth. lia.
    + rewrite (find_set_other f k k' _ N). destruct (find f k') as [l'|]; [|reflexivity].
      intros H. exists l'. repeat split; auto.
  - destruct (write_at n c l) as [l2|] eqn:W; cbn; [|discriminate]. intros [= <-] k'.
    destruct (String.string_dec k k') as [->|N].
    + rewrite F. intros H. exists l2. rewrite (find_set_same f k' _ l F).
      destruct (write_at_length _ _ _ _ W). repeat split; auto; try lia.
      intros i x Hi Hx. rewrite (write_at_other n c l l2 i W) by lia. exact Hx.
    + rewrite (find_set_other f k k' _ N). destruct (find f k') as [l'|]; [|reflexivity].
      intros H. exists l'. repeat split; auto.
Qed.

Lemma exec_all_grows n os : forall f, Forall (op_of n) os -> grows n f (fst (exec_all f os)).
Proof.
  induction os as [|o os IH]; intros f H; [apply grows_refl|]. inversion_clear H as [|? ? A B].
  cbn [exec_all]. destruct (exec f o) as [f1|] eqn:E; [|apply grows_refl].
  eapply grows_trans; [eapply exec_grows; eauto|auto].
Qed.

Lemma add_ops_op_of n t d : Forall (op_of n) (add_ops n t d).
Proof.
  unfold add_ops. repeat constructor. apply Forall_forall. intros o H.
  apply in_flat_map in H. destruct H as (kv & _ & [<-|[<-|[]]]); reflexivity.
Qed.

Lemma Forall_firstn {A} (P : A -> Prop) (n : nat) : forall l : list A, Forall P l -> Forall P (firstn n l).
Proof.
  induction n as [|n IH]; intros [|x l] H; cbn; auto. inversion H; constructor; auto.
Qed.

Lemma interrupted_op_of n stop t d : Forall (op_of n) (interrupted stop (add_ops n t d)).
Proof.
  destruct stop; cbn; [apply Forall_firstn|]; apply add_ops_op_of.
Qed.

(** appending one value *)
Lemma add_one n f k c l : find f k = Some l -> length l <= n + 1 ->
  exists f' l', exec_all f [Resize k (n + 1); Write k n c] = (f', true)
  /\ find f' k = Some l' /\ length l' = n + 1 /\ nth_error l' n = Some c
  /\ (forall i x, i < n -> nth_error l i = Some x -> nth_error l' i = Some x)
  /\ (length l = n -> l' = l ++ [c])
  /\ (forall k', k' <> k -> find f' k' = find f k').
Proof.
  intros F H. cbn [exec_all exec]. rewrite F. rewrite (find_set_same f k _ l F).
  destruct (write_at_ok n c (resized (n + 1) l)) as (l' & W); [rewrite resized_length; lia|].
  rewrite W. cbn [option_map].
  exists (set (set f k (resized (n + 1) l)) k l'), l'.
  destruct (write_at_length _ _ _ _ W) as [L1 _]. rewrite resized_length in L1.
  repeat split; auto.
  - apply (find_set_same _ k l' (resized (n + 1) l)). apply (find_set_same f k _ l F).
  - eapply write_at_there; eauto.
  - intros i x Hi Hx. rewrite (write_at_other n c _ l' i W) by lia. apply resized_nth; auto; lia.
  - intros E. subst n. unfold resized in W.
    replace (length l + 1 - length l) with 1 in W by lia. cbn [repeat] in W.
    rewrite firstn_all2 in W by lia. rewrite write_at_end in W. congruence.
  - intros k' N. rewrite !find_set_other by auto. reflexivity.
Qed.

Lemma add_dict n : forall (d : list (string * V)) f, NoDup (map fst d) ->
  (forall k, In k (map fst d) -> exists l, find f k = Some l /\ length l <= n + 1) ->
  exists f', exec_all f (flat_map (fun kv => [Resize (fst kv) (n + 1); Write (fst kv) n (Val (snd kv))]) d)
             = (f', true)
  /\ (forall k v, In (k, v) d -> exists l l', find f k = Some l /\ find f' k = Some l'
        /\ length l' = n + 1 /\ nth_error l' n = Some (Val v)
        /\ (forall i x, i < n -> nth_error l i = Some x -> nth_error l' i = Some x)
        /\ (length l = n -> l' = l ++ [Val v]))
  /\ (forall k, ~ In k (map fst d) -> find f' k = find f k).
Proof.
  induction d as [|[k v] d IH]; intros f ND H.
  - exists f. repeat split; auto. intros k v [].
  - cbn [map fst] in ND. inversion_clear ND as [|? ? N1 N2].
    destruct (H k) as (l & F & L); [left; reflexivity|].
    destruct (add_one n f k (Val v) l F L) as (f1 & l1 & E1 & F1 & L1 & T1 & K1 & A1 & O1).
    destruct (IH f1) as (f' & E & S & O); auto.
    { intros k' Hk'. destruct (H k') as (l' & F' & L'); [right; auto|]. exists l'. split; auto.
      rewrite O1; auto. intros ->. contradiction. }
    exists f'. cbn [flat_map fst snd]. rewrite exec_all_app.
    rewrite E1, E. split; [reflexivity|]. split.
    + intros k' v' [[= <- <-]|Hin].
      * exists l, l1. rewrite O by auto. repeat split; auto.
      * assert (Hk' : In k' (map fst d)) by (apply in_map_iff; exists (k', v'); auto).
        destruct (S k' v' Hin) as (l2 & l3 & X & Y). exists l2, l3. split; auto.
        rewrite <- O1; auto. intros ->; contradiction.
    + intros k' Hk'. cbn [map fst] in Hk'. rewrite O, O1; auto; intro X; apply Hk'; [left; auto|right; auto].
Qed.

Lemma add_complete n t d f lt : keys_ok (map fst d) ->
  find f "times" = Some lt -> length lt <= n + 1 ->
  (forall k, In k (map fst d) -> exists l, find f k = Some l /\ length l <= n + 1) ->
  exists f', exec_all f (add_ops n t d) = (f', true)
  /\ (exists lt', find f' "times" = Some lt' /\ length lt' = n + 1
      /\ nth_error lt' n = Some (Time t) /\ (length lt = n -> lt' = lt ++ [Time t]))
  /\ (forall k v, In (k, v) d -> exists l l', find f k = Some l /\ find f' k = Some l'
        /\ length l' = n + 1 /\ nth_error l' n = Some (Val v)
        /\ (length l = n -> l' = l ++ [Val v])).
Proof.
  intros [ND NT] F L H.
  destruct (add_one n f "times"%string (Time t) lt F L) as (f1 & l1 & E1 & F1 & L1 & T1 & K1 & A1 & O1).
  destruct (add_dict n d f1 ND) as (f' & E & S & O).
  { intros k Hk. rewrite O1; auto. intros ->. contradiction. }
  exists f'. unfold add_ops. rewrite exec_all_app, E1, E. split; [reflexivity|]. split.
  - exists l1. rewrite O by auto. auto.
  - intros k v Hin. assert (In k (map fst d)) by (apply in_map_iff; exists (k, v); auto).
    destruct (S k v Hin) as (l & l' & X & Y & Z & T & _ & W). exists l, l'. repeat split; auto.
    rewrite <- O1; auto. intros ->; contradiction.
Qed.

(** ** creation *)
Lemma find_app f g k : find (f ++ g) k = match find f k with Some l => Some l | None => find g k end.
Proof.
  induction f as [|[k' l] f IH]; cbn; [reflexivity|]. destruct (String.eqb k k'); auto.
Qed.

Lemma create_dict : forall (d : list (string * V)) f, NoDup (map fst d) ->
  (forall k, In k (map fst d) -> find f k = None) ->
  exec_all f (map (fun kv => Create (fst kv) (Val (snd kv))) d)
  = (f ++ map (fun kv => (fst kv, [Val (snd kv)])) d, true).
Proof.
  induction d as [|[k v] d IH]; intros f ND H.
  - cbn. rewrite app_nil_r. reflexivity.
  - cbn [map fst snd]. cbn [map fst] in ND. inversion_clear ND as [|? ? N1 N2].
    cbn [exec_all exec]. rewrite (H k) by (left; reflexivity).
    rewrite IH; auto.
    + rewrite <- app_assoc. reflexivity.
    + intros k' Hk'. rewrite find_app, H by (right; auto). cbn.
      destruct (String.eqb k' k) eqn:E; [|reflexivity]. apply String.eqb_eq in E. subst; contradiction.
Qed.

Lemma create_complete t d : keys_ok (map fst d) ->
  exists f, exec_all [] (create_ops t d) = (f, true)
  /\ find f "times" = Some [Time t]
  /\ (forall k v, In (k, v) d -> find f k = Some [Val v]).
Proof.
  intros [ND NT]. unfold create_ops. cbn [exec_all exec find].
  rewrite create_dict; auto.
  - eexists; split; [reflexivity|]. split; [reflexivity|]. intros k v Hin. rewrite find_app.
    assert (In k (map fst d)) by (apply in_map_iff; exists (k, v); auto).
    cbn [find app]. destruct (String.eqb k "times") eqn:E;
      [apply String.eqb_eq in E; subst; contradiction|]. clear - ND Hin.
    induction d as [|[k' v'] d IH]; [destruct Hin|]. cbn [map fst snd find].
    cbn [map fst] in ND. inversion_clear ND as [|? ? N1 N2]. destruct Hin as [[= -> ->]|Hin].
    + rewrite String.eqb_refl. reflexivity.
    + destruct (String.eqb k k') eqn:E; [|auto]. apply String.eqb_eq in E. subst.
      exfalso. apply N1. apply in_map_iff. exists (k', v). auto.
  - intros k Hk. cbn [find app]. destruct (String.eqb k "times") eqn:E; [|reflexivity].
    apply String.eqb_eq in E; subst; contradiction.
Qed.

(** ** complete histories: the file is the table of the saves *)
Lemma assoc_in (d : list (string * V)) k v : NoDup (map fst d) -> In (k, v) d -> assoc d k = Some v.
Proof.
  induction d as [|[k' v'] d IH]; [intros _ []|]. cbn [map fst]. intros ND.
  inversion_clear ND as [|? ? N1 N2]. cbn. intros [[= -> ->]|H].
  - rewrite String.eqb_refl; auto.
  - destruct (String.eqb k k') eqn:E; auto. apply String.eqb_eq in E; subst.
    exfalso; apply N1. apply in_map_iff. exists (k', v); auto.
Qed.

Lemma table_add ks hs s f : keys_ok ks -> map fst (snd s) = ks -> is_table ks hs f ->
  exists f', init_files None (fst s) (snd s) (Some f) = (Some f', true) /\ is_table ks (hs ++ [s]) f'.
Proof.
  intros KO KS [T C]. unfold init_files. rewrite T, map_length. cbn [interrupted].
  destruct (add_complete (length hs) (fst s) (snd s) f _ ltac:(rewrite KS; auto) T) as (f' & E & X & Y).
  - rewrite map_length; apply Nat.le_add_r.
  - intros k Hk. rewrite KS in Hk. exists (column k hs). split; auto.
    unfold column. rewrite map_length; apply Nat.le_add_r.
  - rewrite E. exists f'. split; [reflexivity|]. split.
    + destruct X as (lt' & A & B & _ & D). rewrite A, D by (rewrite map_length; reflexivity).
      rewrite map_app. reflexivity.
    + intros k Hk. assert (Hk2 : In k (map fst (snd s))) by (rewrite KS; auto).
      apply in_map_iff in Hk2. destruct Hk2 as ([k' v] & E2 & Hin). cbn in E2; subst k'.
      destruct (Y k v Hin) as (l & l' & A & B & _ & _ & D). rewrite (C k Hk) in A.
      injection A as <-. rewrite B, D by (unfold column; rewrite map_length; reflexivity).
      unfold column. rewrite map_app. cbn [map].
      rewrite (assoc_in (snd s) k v); auto. rewrite KS. apply KO.
Qed.

Lemma online_all_table ks : forall (l hs : list (save V)) f, keys_ok ks -> Forall (fun s => map fst (snd s) = ks) l ->
  is_table ks hs f ->
  exists f', online_all l (Some f) = (Some f', true) /\ is_table ks (hs ++ l) f'.
Proof.
  induction l as [|s l IH]; intros hs f KO KS T.
  - exists f. rewrite app_nil_r. split; auto.
  - inversion_clear KS as [|? ? A B]. destruct (table_add ks hs s f KO A T) as (f1 & E & T1).
    destruct (IH (hs ++ [s]) f1 KO B T1) as (f' & E' & T'). exists f'.
    rewrite <- app_assoc in T'. split; auto. unfold online_all. cbn [fold_left snd fst].
    unfold online_save at 2. rewrite E. exact E'.
Qed.

Lemma simul_table ks run hs d : keys_ok ks -> Forall (fun s => map fst (snd s) = ks) (saves_of run) ->
  (d = None /\ hs = [] \/ exists f, d = Some f /\ is_table ks hs f) ->
  exists f', simul run d = (Some f', true) /\ is_table ks (hs ++ saves_of run) f'.
Proof.
  intros KO KS D. inversion_clear KS as [|? ? A B]. unfold simul.
  assert (H : exists f1, init_files None (fst (fst run)) (snd (fst run)) d = (Some f1, true)
              /\ is_table ks (hs ++ [fst run]) f1).
  { destruct D as [[-> ->]|(f & -> & T)].
    - destruct (create_complete (fst (fst run)) (snd (fst run))) as (f & E & X & Y); [rewrite A; auto|].
      exists f. unfold init_files; cbn [interrupted]. rewrite E. split; auto. split; auto.
      intros k Hk. rewrite <- A in Hk. apply in_map_iff in Hk. destruct Hk as ([k' v] & E2 & Hin).
      cbn in E2; subst k'. rewrite (Y k v Hin). cbn. rewrite (assoc_in _ k v); auto. rewrite A; apply KO.
    - apply table_add; auto. }
  destruct H as (f1 & E & T1). rewrite E.
  destruct (online_all_table ks (snd run) (hs ++ [fst run]) f1 KO B T1) as (f' & E' & T').
  exists f'. rewrite E'. split; auto. rewrite <- app_assoc in T'. exact T'.
Qed.

Lemma simuls_table ks : forall runs hs d, keys_ok ks ->
  Forall (fun s => map fst (snd s) = ks) (flat_map saves_of runs) ->
  (d = None /\ hs = [] \/ exists f, d = Some f /\ is_table ks hs f) ->
  runs <> [] ->
  exists f', simuls runs d = (Some f', true) /\ is_table ks (hs ++ flat_map saves_of runs) f'.
Proof.
  induction runs as [|r runs IH]; intros hs d KO KS D NE; [congruence|].
  cbn [flat_map] in KS. apply Forall_app in KS. destruct KS as [A B].
  destruct (simul_table ks r hs d KO A D) as (f1 & E & T). unfold simuls. cbn [fold_left snd fst].
  rewrite E. fold (simuls runs (Some f1)). cbn [flat_map]. rewrite app_assoc.
  destruct runs as [|r' runs].
  - exists f1. cbn. rewrite app_nil_r. split; auto.
  - apply IH; auto; [right; eauto|discriminate].
Qed.

(** ** histories with interruptions: completed records are never lost *)

Lemma completed_app (a b : list (option (save V))) : completed (a ++ b) = completed a ++ completed b.
Proof. apply flat_map_app. Qed.

Lemma rows_ok_none ks rows f f' lt' : rows_ok ks rows f -> grows (length rows) f f' ->
  find f' "times" = Some lt' -> length lt' = length rows + 1 ->
  rows_ok ks (rows ++ [None]) f'.
Proof.
  intros [(lt & T & TL & TR) C] G T' TL'.
  assert (H : forall i s, nth_error (rows ++ [None]) i = Some (Some s) ->
              i < length rows /\ nth_error rows i = Some (Some s)).
  { intros i s Hi. destruct (Nat.lt_ge_cases i (length rows)) as [Hl|Hl].
    - rewrite nth_error_app1 in Hi by auto. auto.
    - rewrite nth_error_app2 in Hi by auto.
      destruct (i - length rows) as [|[|j]]; cbn in Hi; discriminate. }
  split.
  - pose proof (G "times"%string) as GT. rewrite T in GT.
    destruct GT as (lt2 & T2 & L1 & N1 & D1); [lia|]. rewrite T' in T2. injection T2 as <-.
    exists lt'. repeat split; auto; [rewrite app_length; cbn; lia|].
    intros i s Hi. destruct (H i s Hi). apply N1; auto.
  - intros k Hk. destruct (C k Hk) as (l & F & L & R). pose proof (G k) as GK. rewrite F in GK.
    destruct GK as (l' & F' & L2 & N2 & D2); [lia|]. exists l'. repeat split; auto.
    + rewrite app_length; cbn; lia.
    + intros i s v Hi Hv. destruct (H i s Hi). apply N2; eauto.
Qed.

Lemma add_ops_cons n t (d : list (string * V)) : exists os, add_ops n t d = Resize "times"%string (n + 1) :: os.
Proof. eexists; reflexivity. Qed.

Lemma event_rows ks rows f stop s : keys_ok ks -> map fst (snd s) = ks -> rows_ok ks rows f ->
  exists f' ok, init_files stop (fst s) (snd s) (Some f) = (Some f', ok)
  /\ match stop with
     | None => ok = true /\ rows_ok ks (rows ++ [Some s]) f'
     | Some 0 => f' = f
     | Some (S _) => rows_ok ks (rows ++ [None]) f'
     end.
Proof.
  intros KO KS R. pose proof R as [(lt & T & TL & TR) C]. unfold init_files. rewrite T, TL.
  set (n := length rows) in *.
  pose proof (interrupted_op_of n stop (fst s) (snd s)) as OP.
  destruct stop as [[|m]|].
  - exists f, true. split; reflexivity.
  - destruct (exec_all f (interrupted (Some (S m)) (add_ops n (fst s) (snd s)))) as [f' ok] eqn:E.
    exists f', ok. split; [reflexivity|].
    pose proof (exec_all_grows n _ f OP) as G. rewrite E in G. cbn [fst] in G.
    destruct (add_ops_cons n (fst s) (snd s)) as (os & EO). cbn [interrupted] in E, OP.
    rewrite EO in E, OP. cbn [firstn exec_all exec] in E. rewrite T in E.
    cbn [firstn] in OP. inversion_clear OP as [|? ? O1 O2].
    pose proof (exec_all_grows n _ (set f "times" (resized (n + 1) lt)) O2 "times"%string) as G2.
    rewrite (find_set_same f _ _ lt T) in G2. rewrite E in G2. cbn [fst] in G2.
    rewrite resized_length in G2. destruct G2 as (lt' & T' & L' & _); [lia|].
    apply (rows_ok_none ks rows f f' lt'); auto. lia.
  - cbn [interrupted] in *.
    destruct (add_complete n (fst s) (snd s) f lt ltac:(rewrite KS; auto) T) as (f' & E & X & Y).
    + lia.
    + intros k Hk. rewrite KS in Hk. destruct (C k Hk) as (l & F & L & _). exists l. split; auto; lia.
    + exists f', true. rewrite E. split; [reflexivity|]. split; [reflexivity|].
      pose proof (exec_all_grows n _ f OP) as G. rewrite E in G. cbn [fst] in G.
      destruct X as (lt' & T' & L' & NT' & _).
      pose proof (rows_ok_none ks rows f f' lt' R G T' L') as [(lt2 & T2 & TL2 & TR2) C2].
      rewrite T' in T2. injection T2 as <-.
      assert (H : forall i s', nth_error (rows ++ [Some s]) i = Some (Some s') ->
              nth_error (rows ++ [None]) i = Some (Some s') \/ (i = n /\ s' = s)).
      { intros i s' Hi. destruct (Nat.lt_ge_cases i (length rows)) as [Hl|Hl].
        - rewrite nth_error_app1 in Hi by auto. left. rewrite nth_error_app1; auto.
        - rewrite nth_error_app2 in Hi by auto. right. fold n in Hi, Hl.
          destruct (i - n) as [|j] eqn:Ei; cbn in Hi; [|destruct j; discriminate].
          injection Hi as ->. split; [lia|reflexivity]. }
      split.
      * exists lt'. repeat split; auto; [rewrite app_length; cbn; fold n; lia|].
        intros i s' Hi. destruct (H i s' Hi) as [Hi'|[-> ->]]; [auto|exact NT'].
      * intros k Hk. destruct (C2 k Hk) as (l & F & L & R2). exists l. repeat split; auto.
        -- rewrite app_length in *; cbn in *; lia.
        -- intros i s' v Hi Hv. destruct (H i s' Hi) as [Hi'|[-> ->]]; [eauto|].
           destruct (Y k v Hv) as (l0 & l' & _ & F' & _ & NV & _). congruence.
Qed.

Lemma events_rows ks : forall es rows f, keys_ok ks ->
  Forall (fun e : event V => map fst (snd (snd e)) = ks) es -> rows_ok ks rows f ->
  exists f' rows', events es (Some f) = (Some f', completed rows') /\ rows_ok ks (rows ++ rows') f'.
Proof.
  induction es as [|[stop s] es IH]; intros rows f KO KS R.
  - exists f, []. rewrite app_nil_r. split; auto.
  - inversion_clear KS as [|? ? A B]. cbn [snd] in A.
    destruct (event_rows ks rows f stop s KO A R) as (f1 & ok & E & X). cbn [events]. rewrite E.
    destruct stop as [[|m]|].
    + subst f1. destruct (IH rows f KO B R) as (f' & rows' & E' & R').
      exists f', rows'. rewrite E'. split; auto.
    + destruct (IH _ f1 KO B X) as (f' & rows' & E' & R'). exists f', (None :: rows').
      rewrite E'. split; auto. rewrite <- app_assoc in R'. exact R'.
    + destruct X as [_ X]. destruct (IH _ f1 KO B X) as (f' & rows' & E' & R').
      exists f', (Some s :: rows'). rewrite E'. split; auto. rewrite <- app_assoc in R'. exact R'.
Qed.

(** creation interrupted: a key is missing and the appends always fail *)
Lemma find_none_exec f o f' k : (forall c, o <> Create k c) -> find f k = None ->
  exec f o = Some f' -> find f' k = None.
Proof.
  intros N F. destruct o as [k' c|k' m|k' i c]; cbn [exec].
  - destruct (find f k'); [discriminate|]. intros [= <-]. rewrite find_app, F. cbn.
    destruct (String.eqb k k') eqn:E; [|reflexivity]. apply String.eqb_eq in E; subst.
    exfalso; eapply N; reflexivity.
  - destruct (find f k') as [l|] eqn:F'; [|discriminate]. intros [= <-].
    destruct (String.string_dec k' k) as [->|M]; [congruence|]. rewrite find_set_other; auto.
  - destruct (find f k') as [l|] eqn:F'; [|discriminate].
    destruct (write_at i c l); cbn; [|discriminate]. intros [= <-].
    destruct (String.string_dec k' k) as [->|M]; [congruence|]. rewrite find_set_other; auto.
Qed.

Lemma exec_all_missing os k : forall f, find f k = None -> (forall o c, In o os -> o <> Create k c) ->
  find (fst (exec_all f os)) k = None.
Proof.
  induction os as [|o os IH]; intros f F H; [exact F|]. cbn [exec_all].
  destruct (exec f o) as [f1|] eqn:E; [|exact F]. apply IH.
  - eapply find_none_exec; eauto. intros c. apply H. left; reflexivity.
  - intros o' c Ho. apply H. right; auto.
Qed.

Lemma exec_all_fails os k n : forall f, find f k = None -> (forall o c, In o os -> o <> Create k c) ->
  In (Resize k n) os -> snd (exec_all f os) = false.
Proof.
  induction os as [|o os IH]; intros f F H; [intros []|]. intros [->|Hin]; cbn [exec_all].
  - cbn [exec]. rewrite F. reflexivity.
  - destruct (exec f o) as [f1|] eqn:E; [|reflexivity]. apply IH; auto.
    + eapply find_none_exec; eauto. intros c. apply H. left; reflexivity.
    + intros o' c Ho. apply H. right; auto.
Qed.

Lemma add_ops_no_create n t (d : list (string * V)) k (o : op V) c : In o (add_ops n t d) -> o <> Create k c.
Proof.
  intros H ->. pose proof (add_ops_op_of n t d) as A. rewrite Forall_forall in A. apply (A _ H).
Qed.

Lemma append_fails f t d k stop : find f k = None -> In k ("times"%string :: map fst d) ->
  let r := init_files stop t d (Some f) in
  exists f', fst r = Some f' /\ find f' k = None /\ (stop = None -> snd r = false).
Proof.
  intros F Hk. cbn zeta. unfold init_files. destruct (find f "times") as [ts|] eqn:T.
  - set (os := interrupted stop (add_ops (length ts) t d)).
    assert (NC : forall o c, In o os -> o <> Create k c).
    { intros o c Ho. apply (add_ops_no_create (length ts) t d). unfold os, interrupted in Ho.
      destruct stop; auto. rewrite <- (firstn_skipn n). apply in_or_app; auto. }
    pose proof (exec_all_missing os k f F NC) as M.
    pose proof (exec_all_fails os k (length ts + 1) f F NC) as X.
    destruct (exec_all f os) as [f' ok]. cbn [fst snd] in *. exists f'. repeat split; auto.
    intros ->. apply X. unfold os; cbn [interrupted]. destruct Hk as [<-|Hk].
    + left; reflexivity.
    + apply in_map_iff in Hk. destruct Hk as ([k' v] & E & Hin). cbn in E; subst k'.
      unfold add_ops. apply in_or_app; right. apply in_flat_map. exists (k, v). split; auto.
      left; reflexivity.
  - exists f. repeat split; auto.
Qed.

End Files.

(** ** probes files *)

Section Probes.

Variable V : Type.
Variable fmt : Q -> Z.
Variable rnd teps : Q -> Q.

Notation probes := (probes V).
Notation probes_save := (probes_save V fmt rnd teps).
Notation probes_run := (probes_run V fmt rnd teps).
Notation probes_init := (probes_init V fmt).
Notation pdir := (pdir V).

(** names strictly decreasing, the latest file first *)
Fixpoint decreasing (d : pdir) : Prop :=
  match d with
  | [] => True
  | (z, _) :: r => match r with [] => True | (y, _) :: _ => (y < z)%Z end /\ decreasing r
  end.

Definition contents (d : pdir) : list (record V) := flat_map snd (rev d).

(** invariant: [log] is what has been saved (rounded times); [fresh]: nothing in the last file yet *)
Definition pinv (log : list (Q * V)) (p : probes) : Prop :=
  exists z l r, pfiles _ p = (z, l) :: r /\ path _ p = z /\ decreasing (pfiles _ p)
  /\ (nb _ p = length l \/ (nb _ p = 0 /\ l = [None]))
  /\ contents (if Nat.eqb (nb _ p) 0 then r else pfiles _ p) = map (fun x => Some x) log.

Lemma decreasing_lt d : forall z l, decreasing ((z, l) :: d) -> forall y m, In (y, m) d -> (y < z)%Z.
Proof.
  induction d as [|[x k] d IH]; intros z l H y m; [intros []|]. destruct H as [A B].
  intros [[= -> ->]|Hin]; [exact A|]. pose proof (IH x k B y m Hin). lia.
Qed.

Lemma filter_all {A} (g : A -> bool) l : (forall x, In x l -> g x = true) -> filter g l = l.
Proof.
  induction l as [|x l IH]; intros H; [reflexivity|]. cbn. rewrite H by (left; auto).
  rewrite IH; auto. intros y Hy. apply H. right; auto.
Qed.

Lemma write_last_append n x (l : list (record V)) : n = length l -> write_last V (n + 1) x l = l ++ [x].
Proof.
  intros ->. unfold write_last. replace (length l + 1 - 1) with (length l) by lia.
  rewrite firstn_app, Nat.sub_diag, firstn_all. cbn. rewrite app_nil_r. reflexivity.
Qed.

Lemma contents_cons z (l : list (record V)) r : contents ((z, l) :: r) = contents r ++ l.
Proof. unfold contents. cbn [rev]. rewrite flat_map_app. cbn. rewrite app_nil_r. reflexivity. Qed.

Lemma write_inv log z l r n (x : Q * V) t : decreasing ((z, l) :: r) ->
  (n = length l \/ (n = 0 /\ l = [None])) ->
  contents (if Nat.eqb n 0 then r else (z, l) :: r) = map (fun x => Some x) log ->
  pinv (log ++ [x]) (mkPr V (pset V ((z, l) :: r) z (write_last V (n + 1) (Some x) l)) z (n + 1) t).
Proof.
  intros D N C. cbn [pset]. rewrite Z.eqb_refl.
  exists z, (write_last V (n + 1) (Some x) l), r. cbn [pfiles path nb].
  split; [reflexivity|]. split; [reflexivity|]. split; [exact D|].
  assert (W : write_last V (n + 1) (Some x) l = (if Nat.eqb n 0 then [] else l) ++ [Some x]).
  { destruct N as [->|[-> ->]]; [|reflexivity]. rewrite write_last_append by reflexivity.
    destruct l; reflexivity. }
  split.
  - left. rewrite W. destruct N as [->|[-> ->]]; [|reflexivity].
    rewrite app_length. destruct l; cbn; lia.
  - replace (Nat.eqb (n + 1) 0) with false by (symmetry; apply Nat.eqb_neq; lia).
    rewrite contents_cons, W, map_app, <- C.
    destruct (Nat.eqb n 0); [reflexivity|]. rewrite contents_cons, app_assoc. reflexivity.
Qed.

(** a save: appended to the log, if a new file gets a later name *)
Lemma probes_save_inv period max_nb t v log p : 0 < max_nb -> pinv log p ->
  (max_nb <= nb _ p -> (path _ p < fmt t)%Z) ->
  pinv (if (Qfloor (tl _ p / period) <? Qfloor (teps t / period))%Z then log ++ [(rnd t, v)] else log)
       (probes_save period max_nb t v p).
Proof.
  intros M (z & l & r & F & P & D & N & C) H. unfold OutFiles_Model.probes_save.
  destruct (Qfloor (tl V p / period) <? Qfloor (teps t / period))%Z;
    [|exists z, l, r; repeat split; auto; fail].
  destruct (Nat.leb max_nb (nb V p)) eqn:L.
  - apply Nat.leb_le in L. specialize (H L). unfold init_new_file. cbn [pfiles path nb tl].
    rewrite F in *. rewrite P in H.
    rewrite filter_all.
    + cbn [pfind]. rewrite Z.eqb_refl. apply write_inv.
      * cbn. split; auto.
      * right; split; reflexivity.
      * cbn [Nat.eqb]. replace (Nat.eqb (nb V p) 0) with false in C; [exact C|].
        symmetry; apply Nat.eqb_neq; lia.
    + intros [y m] Hin. cbn [fst]. apply negb_true_iff, Z.eqb_neq. destruct Hin as [[= -> ->]|Hin]; [lia|].
      pose proof (decreasing_lt r z l D y m Hin). lia.
  - rewrite F in *. rewrite P. cbn [pfind]. rewrite Z.eqb_refl. apply write_inv; auto.
Qed.

(** loading: the files sorted by name are the files in the order of their creation *)
Lemma insert_min (f : Z * list (record V)) d : (forall g, In g d -> (fst f < fst g)%Z) ->
  insert_file V f d = f :: d.
Proof.
  destruct d as [|g d]; [reflexivity|]. intros H. cbn. specialize (H g (or_introl eq_refl)).
  destruct (Z.leb_spec (fst f) (fst g)); [reflexivity|lia].
Qed.

Lemma insert_last (f : Z * list (record V)) d : (forall g, In g d -> (fst g < fst f)%Z) ->
  insert_file V f d = d ++ [f].
Proof.
  induction d as [|g d IH]; intros H; [reflexivity|]. cbn.
  pose proof (H g (or_introl eq_refl)). destruct (Z.leb_spec (fst f) (fst g)); [lia|].
  rewrite IH; auto. intros x Hx. apply H; right; auto.
Qed.

Lemma sorted_decreasing d : decreasing d -> sorted_files V d = rev d.
Proof.
  induction d as [|[z l] d IH]; intros H; [reflexivity|]. cbn [sorted_files fold_right rev].
  change (fold_right (insert_file V) [] d) with (sorted_files V d).
  rewrite IH by apply H. apply insert_last. intros [y m] Hin. apply in_rev in Hin. cbn.
  eapply decreasing_lt; eauto.
Qed.

Lemma max_name_decreasing d : forall z l, decreasing ((z, l) :: d) -> max_name V ((z, l) :: d) = Some z.
Proof.
  induction d as [|[y m] d IH]; intros z l H; [reflexivity|].
  change (match max_name V ((y, m) :: d) with None => Some z | Some x => Some (Z.max z x) end = Some z).
  destruct H as [A B]. rewrite (IH y m B). f_equal. lia.
Qed.

Lemma pinv_load log p : pinv log p -> nb _ p <> 0 ->
  load_time_series V (pfiles _ p) = map (fun x => Some x) log.
Proof.
  intros (z & l & r & F & P & D & N & C) H. unfold load_time_series.
  rewrite sorted_decreasing by exact D. apply Nat.eqb_neq in H. rewrite H in C. exact C.
Qed.

Lemma pinv_new period t0 : pinv [] (probes_init period t0 []).
Proof.
  exists (fmt t0), [None], []. repeat split; auto.
Qed.

(** restart: the same invariant, with the last time rounded *)
Lemma pinv_restart log p period t0 : pinv log p -> nb _ p <> 0 ->
  let q := probes_init period t0 (pfiles _ p) in
  pinv log q /\ pfiles _ q = pfiles _ p /\ path _ q = path _ p /\ nb _ q = nb _ p.
Proof.
  intros (z & l & r & F & P & D & N & C) H. cbn zeta. unfold OutFiles_Model.probes_init.
  rewrite F in *. rewrite (max_name_decreasing r z l D). cbn [pfind]. rewrite Z.eqb_refl.
  cbn [pfiles path nb]. assert (E : nb V p = length l) by (destruct N as [N|[N _]]; congruence).
  repeat split; auto. exists z, l, r. cbn [pfiles path nb].
  split; [reflexivity|]. split; [reflexivity|]. split; [exact D|]. split; [left; reflexivity|].
  rewrite E in C. exact C.
Qed.

(** hypothesis on the names: a new file always gets a later name *)
Fixpoint names_ok (period : Q) (max_nb : nat) (calls : list (Q * V)) (p : probes) : Prop :=
  match calls with
  | [] => True
  | c :: r =>
      ((Qfloor (tl _ p / period) < Qfloor (teps (fst c) / period))%Z ->
       max_nb <= nb _ p -> (path _ p < fmt (fst c))%Z)
      /\ names_ok period max_nb r (probes_save period max_nb (fst c) (snd c) p)
  end.

Lemma probes_save_tl period max_nb t v p :
  tl _ (probes_save period max_nb t v p)
  = if (Qfloor (tl _ p / period) <? Qfloor (teps t / period))%Z then t else tl _ p.
Proof. unfold OutFiles_Model.probes_save. destruct (_ <? _)%Z; reflexivity. Qed.

Lemma probes_save_nb period max_nb t v p :
  nb _ (probes_save period max_nb t v p)
  = if (Qfloor (tl _ p / period) <? Qfloor (teps t / period))%Z
    then if Nat.leb max_nb (nb _ p) then 1 else nb _ p + 1 else nb _ p.
Proof.
  unfold OutFiles_Model.probes_save. destruct (_ <? _)%Z; [|reflexivity]. cbn [nb].
  destruct (Nat.leb max_nb (nb V p)); reflexivity.
Qed.

Lemma probes_save_path period max_nb t v p :
  path _ (probes_save period max_nb t v p)
  = if (Qfloor (tl _ p / period) <? Qfloor (teps t / period))%Z
    then if Nat.leb max_nb (nb _ p) then fmt t else path _ p else path _ p.
Proof.
  unfold OutFiles_Model.probes_save. destruct (_ <? _)%Z; [|reflexivity]. cbn [path].
  destruct (Nat.leb max_nb (nb V p)); reflexivity.
Qed.

Lemma probes_run_inv period max_nb : 0 < max_nb -> forall calls log p,
  pinv log p -> names_ok period max_nb calls p ->
  pinv (log ++ rounded V rnd (snd (saves_of_calls V teps period (tl _ p) calls)))
       (probes_run period max_nb calls p)
  /\ tl _ (probes_run period max_nb calls p) = fst (saves_of_calls V teps period (tl _ p) calls).
Proof.
  intros M.
  assert (G : forall calls log p acc tl0, pinv (log ++ rounded V rnd acc) p -> tl _ p = tl0 ->
    names_ok period max_nb calls p ->
    pinv (log ++ rounded V rnd (snd (fold_left (step_save V teps period) calls (tl0, acc))))
         (probes_run period max_nb calls p)
    /\ tl _ (probes_run period max_nb calls p) = fst (fold_left (step_save V teps period) calls (tl0, acc))).
  { induction calls as [|[t v] calls IH]; intros log p acc tl0 I T N.
    - split; auto.
    - destruct N as [N1 N2]. cbn [fst snd] in *.
      unfold OutFiles_Model.probes_run. cbn [fold_left fst snd].
      fold (probes_run period max_nb calls (probes_save period max_nb t v p)).
      change (step_save V teps period (tl0, acc) (t, v))
        with (if (Qfloor (tl0 / period) <? Qfloor (teps t / period))%Z
              then (t, acc ++ [(t, v)]) else (tl0, acc)).
      subst tl0.
      destruct (Qfloor (tl V p / period) <? Qfloor (teps t / period))%Z eqn:E.
      + apply IH; auto.
        * pose proof (probes_save_inv period max_nb t v (log ++ rounded V rnd acc) p M I) as S.
          rewrite E in S. unfold rounded. rewrite map_app, app_assoc. apply S.
          intros L. apply N1; auto. apply Z.ltb_lt; exact E.
        * rewrite probes_save_tl, E. reflexivity.
      + apply IH; auto.
        * unfold OutFiles_Model.probes_save. rewrite E. exact I.
        * rewrite probes_save_tl, E. reflexivity. }
  intros calls log p I N. apply (G calls log p [] (tl V p)); auto.
  unfold rounded; cbn. rewrite app_nil_r. exact I.
Qed.

(** names are distinct when a file spans more than a thousandth *)
Lemma names_ok_single period max_nb : 0 < max_nb -> (0 < period)%Q ->
  (forall t, (t <= teps t)%Q) ->
  (forall a b, (a + (1 # 1000) < b)%Q -> (fmt a < fmt b)%Z) ->
  ((1 # 1000) <= inject_Z (Z.of_nat max_nb - 1) * period)%Q ->
  forall calls p c, path _ p = fmt c ->
  (forall t v, In (t, v) calls -> floordiv (teps t) period = floordiv t period) ->
  (nb _ p = 0 /\ (forall t v, In (t, v) calls -> (c <= t)%Q)
   \/ (floordiv c period + Z.of_nat (nb _ p) - 1 <= floordiv (tl _ p) period)%Z) ->
  names_ok period max_nb calls p.
Proof.
  intros Hm0 Hp Ht Hf Hm. induction calls as [|[t v] calls IH]; intros p c P B K; [exact I|].
  cbn [names_ok fst snd]. assert (E := B t v (or_introl eq_refl)). unfold floordiv in *.
  split.
  - intros L M. rewrite P. apply Hf. rewrite E in L. destruct K as [[K _]|K]; [lia|].
    pose proof (Qfloor_le (t / period)) as H1. pose proof (Qlt_floor (c / period)) as H2.
    assert (Et : (t == t / period * period)%Q) by (field; intro C; rewrite C in Hp; discriminate).
    assert (Ec : (c == c / period * period)%Q) by (field; intro C; rewrite C in Hp; discriminate).
    set (x := (t / period)%Q) in *. set (y := (c / period)%Q) in *.
    assert (Z1 : (Qfloor y + Z.of_nat max_nb <= Qfloor x)%Z) by lia.
    rewrite Zle_Qle, inject_Z_plus in Z1. unfold Z.sub in Hm.
    rewrite inject_Z_plus in Hm, H2. change (inject_Z (- (1))) with (- (1))%Q in Hm.
    change (inject_Z 1) with 1%Q in H2.
    set (m := inject_Z (Z.of_nat max_nb)) in *. rewrite Et, Ec.
    assert ((y + (m + - (1)) < x)%Q) by lra.
    assert (((y + (m + - (1))) * period < x * period)%Q) by (apply Qmult_lt_compat_r; auto).
    lra.
  - pose proof (probes_save_tl period max_nb t v p) as T1.
    pose proof (probes_save_nb period max_nb t v p) as T2.
    pose proof (probes_save_path period max_nb t v p) as T3.
    destruct (Qfloor (tl V p / period) <? Qfloor (teps t / period))%Z eqn:L.
    + apply Z.ltb_lt in L. destruct (Nat.leb max_nb (nb V p)).
      * apply (IH _ t); auto; [intros; eapply B; right; eauto|]. right. rewrite T1, T2. lia.
      * apply (IH _ c); auto; [congruence|intros; eapply B; right; eauto|]. right. rewrite T1, T2.
        destruct K as [[K1 K2]|K]; [|lia].
        pose proof (floordiv_mono period c t Hp (K2 t v (or_introl eq_refl))) as G.
        unfold floordiv in G. lia.
    + apply (IH _ c); auto; [congruence|intros; eapply B; right; eauto|]. rewrite T1, T2.
      destruct K as [[K1 K2]|K]; [left; split; auto; intros; eapply K2; right; eauto|right; exact K].
Qed.

End Probes.
