(** Proofs about the schedule of the outputs *)

From Coq Require Import QArith Qround ZArith List Bool Arith Lia Lqa Psatz.
From Verif Require Import OutSched_Model OutSched_Spec.
Import ListNotations.

Local Open Scope Q_scope.

Section Sched.

Variable teps : Q -> Q.
Hypothesis teps_ge : forall t, t <= teps t.

Notation run := (run teps).
Notation online_save := (online_save teps).

Lemma knd_online t o : knd (online_save t o) = knd o.
Proof. unfold online_save; destruct (has_to teps o t); reflexivity. Qed.

Lemma period_online t o : period (online_save t o) = period o.
Proof. unfold online_save; destruct (has_to teps o t); reflexivity. Qed.

Lemma run_app a b o : run (a ++ b) o = run b (run a o).
Proof. apply fold_left_app. Qed.

Lemma run_last a t o : run (a ++ [t]) o = online_save t (run a o).
Proof. rewrite run_app; reflexivity. Qed.

Lemma knd_run ts : forall o, knd (run ts o) = knd o.
Proof. induction ts as [|t ts IH]; intros o; [reflexivity|]. change (knd (run ts (online_save t o)) = knd o).
  rewrite IH; apply knd_online. Qed.

Lemma period_run ts : forall o, period (run ts o) = period o.
Proof. induction ts as [|t ts IH]; intros o; [reflexivity|].
  change (period (run ts (online_save t o)) = period o). rewrite IH; apply period_online. Qed.

(** the saves made during a run, and the last one *)
Lemma run_saved ts : forall o, exists l, saved (run ts o) = l ++ saved o
  /\ t_last_save (run ts o) = hd (t_last_save o) l
  /\ (forall s, In s l -> In s ts).
Proof.
  induction ts as [|t ts IH] using rev_ind; intros o.
  - exists []; repeat split; auto.
  - destruct (IH o) as (l & H1 & H2 & H3). rewrite run_last. unfold online_save.
    destruct (has_to teps (run ts o) t).
    + exists (t :: l); cbn [saved t_last_save]. rewrite H1. repeat split; auto.
      intros s [->|Hs]; apply in_or_app; [right; left; reflexivity|left; auto].
    + exists l; repeat split; auto. intros s Hs; apply in_or_app; left; auto.
Qed.

(** ** floor divisions *)
Lemma floordiv_mono p a b : 0 < p -> a <= b -> (floordiv a p <= floordiv b p)%Z.
Proof.
  intros Hp H. apply Qfloor_resp_le. unfold Qdiv. apply Qmult_le_compat_r; auto.
  apply Qlt_le_weak, Qinv_lt_0_compat; auto.
Qed.

Lemma floordiv_same p a b : 0 < p -> floordiv a p = floordiv b p -> b - a < p.
Proof.
  intros Hp H. unfold floordiv in H.
  pose proof (Qfloor_le (a / p)) as H1. pose proof (Qlt_floor (b / p)) as H2.
  rewrite H in H1. rewrite inject_Z_plus in H2.
  assert (Ha : a == a / p * p) by (field; intro E; rewrite E in Hp; discriminate Hp).
  assert (Hb : b == b / p * p) by (field; intro E; rewrite E in Hp; discriminate Hp).
  rewrite Ha, Hb. set (x := a / p) in *. set (y := b / p) in *.
  set (n := inject_Z (Qfloor y)) in *. change (inject_Z 1) with 1 in H2.
  assert (y - x < 1) by lra. nra.
Qed.

Lemma floordiv_slot p t n : 0 < p -> (floordiv t p = n <-> in_slot p n t).
Proof.
  intros Hp. unfold floordiv, in_slot.
  assert (Ht : t == t / p * p) by (field; intro E; rewrite E in Hp; discriminate Hp).
  set (x := t / p) in *. split.
  - intros <-. pose proof (Qfloor_le x) as H1. pose proof (Qlt_floor x) as H2. rewrite Ht.
    split; [apply Qmult_le_compat_r; lra|apply Qmult_lt_compat_r; auto].
  - intros [H1 H2]. rewrite Ht in H1, H2.
    apply Qmult_lt_0_le_reg_r in H1; auto. apply Qmult_lt_r in H2; auto.
    pose proof (Qfloor_resp_le _ _ H1) as H3. rewrite Qfloor_Z in H3.
    pose proof (Qfloor_le x) as H4. assert (H5 : inject_Z (Qfloor x) < inject_Z (n + 1)) by lra.
    rewrite <- Zlt_Qlt in H5. lia.
Qed.

Lemma has_to_elapsed_spec o t : knd o = Elapsed ->
  has_to teps o t = true <-> period o <= t - t_last_save o.
Proof. intros E; unfold has_to; rewrite E; unfold has_to_save_elapsed; apply Qle_bool_iff. Qed.

Lemma has_to_slot_spec o t : knd o = Slot ->
  has_to teps o t = true
  <-> (floordiv (t_last_save o) (period o) < floordiv (teps t) (period o))%Z.
Proof. intros E; unfold has_to; rewrite E; unfold has_to_online_save; apply Z.ltb_lt. Qed.

(** after every call, less than a period has elapsed since the last save *)
Lemma fresh_after_call o t : 0 < period o ->
  (knd o = Slot -> t_last_save o <= t) ->
  t - t_last_save (online_save t o) < period o.
Proof.
  intros Hp Hm. unfold online_save. destruct (has_to teps o t) eqn:E.
  - cbn [t_last_save]. lra.
  - destruct (knd o) eqn:K.
    + apply Qnot_le_lt. intro C. apply (has_to_elapsed_spec o t K) in C. congruence.
    + assert (~ (floordiv (t_last_save o) (period o) < floordiv (teps t) (period o))%Z).
      { intro C. apply (has_to_slot_spec o t K) in C. congruence. }
      assert (H1 := floordiv_mono (period o) _ _ Hp (Hm eq_refl)).
      assert (H2 := floordiv_mono (period o) _ _ Hp (teps_ge t)).
      apply floordiv_same; auto. lia.
Qed.

Lemma steps_snoc d : forall ts t u, steps d t (ts ++ [u]) ->
  steps d t ts /\ last ts t <= u /\ u <= last ts t + d.
Proof.
  induction ts as [|v ts IH]; intros t u.
  - cbn. intros (A & B & _); auto.
  - intros (A & B & C). destruct (IH v u C) as (D & E & F).
    split; [cbn; auto|]. replace (last (v :: ts) t) with (last ts v); auto.
    clear. revert v; induction ts as [|w ts IH]; intros v; [reflexivity|].
    change (last (w :: ts) v = last (w :: ts) t). clear IH. revert w.
    induction ts as [|x ts IH]; intros w; [reflexivity|]. apply (IH x).
Qed.

Lemma t_last_le ts : forall d t o, t_last_save o <= t -> steps d t ts ->
  t_last_save (run ts o) <= last ts t.
Proof.
  induction ts as [|u ts IH] using rev_ind; intros d t o H Hs; [exact H|].
  destruct (steps_snoc d ts t u Hs) as (A & B & C). rewrite run_last, last_last.
  specialize (IH d t o H A). unfold online_save.
  destruct (has_to teps (run ts o) u); [cbn [t_last_save]; apply Qle_refl|].
  eapply Qle_trans; eauto.
Qed.

(** invariant: since the last save less than a period has elapsed at the last call *)
Lemma fresh ts : forall d t o, 0 < period o -> t_last_save o <= t ->
  t - t_last_save o < period o -> steps d t ts ->
  last ts t - t_last_save (run ts o) < period o.
Proof.
  induction ts as [|u ts IH] using rev_ind; intros d t o Hp Hl Hf Hs; [exact Hf|].
  destruct (steps_snoc d ts t u Hs) as (A & B & C). rewrite run_last, last_last.
  rewrite <- (period_run ts o). apply fresh_after_call.
  - rewrite period_run; auto.
  - intros _. eapply Qle_trans; [eapply t_last_le; eauto|auto].
Qed.

Lemma next_in_cons x l s2 s1 : next_in (x :: l) s2 s1 ->
  (x = s2 /\ exists r, l = s1 :: r) \/ next_in l s2 s1.
Proof.
  intros (l1 & l2 & E). destruct l1 as [|y l1].
  - injection E as -> ->. left; eauto.
  - injection E as -> ->. right; exists l1, l2; reflexivity.
Qed.

(** generic induction over the saves of a run: a property of (last save, time of the call at which
    the next save is made) holds for all the consecutive saves *)
Lemma run_consecutive (P : Q -> Q -> Prop) ts : forall o,
  (forall pre t post, ts = pre ++ t :: post -> has_to teps (run pre o) t = true ->
     P t (t_last_save (run pre o))) ->
  forall l, saved (run ts o) = l ++ saved o ->
  forall s2 s1, next_in (l ++ [t_last_save o]) s2 s1 -> P s2 s1.
Proof.
  induction ts as [|t ts IH] using rev_ind; intros o H l El s2 s1 Hn.
  - change (saved o = l ++ saved o) in El.
    assert (l = []) as -> by (apply (app_inv_tail (saved o)); rewrite <- El; reflexivity).
    destruct Hn as (l1 & l2 & E). destruct l1 as [|? [|]]; discriminate.
  - destruct (run_saved ts o) as (m & H1 & H2 & _). rewrite run_last in El.
    assert (IH' := IH o).
    assert (H' : forall pre u post, ts = pre ++ u :: post -> has_to teps (run pre o) u = true ->
                 P u (t_last_save (run pre o))).
    { intros pre u post E. apply (H pre u (post ++ [t])). rewrite E, <- app_assoc; reflexivity. }
    specialize (IH' H' m H1).
    unfold online_save in El. destruct (has_to teps (run ts o) t) eqn:E.
    + cbn [saved] in El. rewrite H1 in El.
      assert (l = t :: m) as -> by (apply (app_inv_tail (saved o)); rewrite <- El; reflexivity).
      cbn in Hn. apply next_in_cons in Hn. destruct Hn as [[<- (r & Er)]|Hn]; [|apply IH'; auto].
      assert (s1 = t_last_save (run ts o)) as ->.
      { rewrite H2. destruct m; cbn in Er; injection Er as -> _; reflexivity. }
      apply (H ts t []); auto.
    + rewrite H1 in El. assert (l = m) as -> by (apply (app_inv_tail (saved o)); auto).
      apply IH'; auto.
Qed.

Lemma steps_prefix d : forall pre t u post, steps d t (pre ++ u :: post) -> steps d t (pre ++ [u]).
Proof.
  induction pre as [|v pre IH]; intros t u post.
  - cbn. intros (A & B & _); auto.
  - cbn. intros (A & B & C). repeat split; auto. apply (IH v u post C).
Qed.

(** spacing of the elapsed-time saves *)
Lemma elapsed_spacing ts o l : knd o = Elapsed -> saved (run ts o) = l ++ saved o ->
  forall s2 s1, next_in (l ++ [t_last_save o]) s2 s1 -> period o <= s2 - s1.
Proof.
  intros K. apply (run_consecutive (fun s2 s1 => period o <= s2 - s1)). intros pre t post E H.
  apply has_to_elapsed_spec in H; [|rewrite knd_run; auto]. rewrite period_run in H. exact H.
Qed.

Lemma slot_spacing ts o l : knd o = Slot -> saved (run ts o) = l ++ saved o ->
  forall s2 s1, next_in (l ++ [t_last_save o]) s2 s1 ->
  (floordiv s1 (period o) < floordiv (teps s2) (period o))%Z.
Proof.
  intros K.
  apply (run_consecutive (fun s2 s1 => (floordiv s1 (period o) < floordiv (teps s2) (period o))%Z)).
  intros pre t post E H.
  apply has_to_slot_spec in H; [|rewrite knd_run; auto]. rewrite period_run in H. exact H.
Qed.

(** largest gap between two saves *)
Lemma gap ts d t0 o l : 0 < period o -> t_last_save o <= t0 -> t0 - t_last_save o < period o ->
  steps d t0 ts -> saved (run ts o) = l ++ saved o ->
  forall s2 s1, next_in (l ++ [t_last_save o]) s2 s1 -> s2 - s1 < period o + d.
Proof.
  intros Hp Hl Hf Hs. apply (run_consecutive (fun s2 s1 => s2 - s1 < period o + d)).
  intros pre t post E H. subst ts. apply steps_prefix in Hs.
  destruct (steps_snoc d pre t0 t Hs) as (A & B & C).
  pose proof (fresh pre d t0 o Hp Hl Hf A). lra.
Qed.

(** every slot in which there is a call contains a save *)
Lemma slot_covered pre post t d t0 o : knd o = Slot -> 0 < period o -> t_last_save o <= t0 ->
  steps d t0 (pre ++ t :: post) ->
  exists s, (s = t_last_save o \/ In s (saved (run (pre ++ t :: post) o))) /\ s <= t
    /\ (floordiv s (period o) = floordiv (teps t) (period o)
        \/ floordiv (teps s) (period o) = floordiv (teps t) (period o)).
Proof.
  intros K Hp Hl Hs. apply steps_prefix in Hs as Hs'.
  destruct (steps_snoc d pre t0 t Hs') as (A & B & C).
  assert (Hle : t_last_save (run pre o) <= t) by (eapply Qle_trans; [eapply t_last_le; eauto|auto]).
  assert (Hmon : forall s, In s (saved (run (pre ++ [t]) o)) -> In s (saved (run (pre ++ t :: post) o))).
  { intros s Hin. replace (pre ++ t :: post) with ((pre ++ [t]) ++ post) by (rewrite <- app_assoc; auto).
    rewrite run_app. destruct (run_saved post (run (pre ++ [t]) o)) as (m & -> & _).
    apply in_or_app; auto. }
  rewrite run_last in Hmon. unfold online_save in Hmon.
  destruct (has_to teps (run pre o) t) eqn:E.
  - exists t. split; [right; apply Hmon; left; reflexivity|]. split; [apply Qle_refl|auto].
  - exists (t_last_save (run pre o)). split; [|split; [auto|left]].
    + destruct (run_saved pre o) as (m & H1 & H2 & _). rewrite H2. destruct m as [|s m]; [left; auto|].
      right. apply Hmon. rewrite H1. left; reflexivity.
    + assert (~ (floordiv (t_last_save (run pre o)) (period o) < floordiv (teps t) (period o))%Z).
      { intro N. rewrite <- (period_run pre o) in N.
        apply has_to_slot_spec in N; [congruence|rewrite knd_run; auto]. }
      pose proof (floordiv_mono (period o) _ _ Hp Hle).
      pose proof (floordiv_mono (period o) _ _ Hp (teps_ge t)). lia.
Qed.

(** strictly increasing slots when no call time is just below a multiple of the period *)
Lemma chain_lt (f : Q -> Z) l : (forall s2 s1, next_in l s2 s1 -> (f s1 < f s2)%Z) ->
  NoDup (map f l).
Proof.
  assert (G : forall l x, (forall s2 s1, next_in (x :: l) s2 s1 -> (f s1 < f s2)%Z) ->
              forall y, In y l -> (f y < f x)%Z).
  { clear l. induction l as [|z l IH]; intros x H y; [intros []|].
    intros [->|Hy].
    - apply H. exists [], l; reflexivity.
    - assert ((f y < f z)%Z).
      { apply IH; auto. intros s2 s1 (l1 & l2 & E). apply H. exists (x :: l1), l2. rewrite E; auto. }
      assert ((f z < f x)%Z) by (apply H; exists [], l; reflexivity). lia. }
  induction l as [|x l IH]; intros H; [constructor|]. cbn. constructor.
  - intro Hin. apply in_map_iff in Hin. destruct Hin as (y & E & Hy).
    pose proof (G l x H y Hy). lia.
  - apply IH. intros s2 s1 (l1 & l2 & E). apply H. exists (x :: l1), l2. rewrite E; auto.
Qed.

Lemma chain_slots p l : 0 < p ->
  (forall s2 s1, next_in l s2 s1 -> (floordiv s1 p < floordiv s2 p)%Z) ->
  forall l1 s2 l2 s1 l3 n, l = l1 ++ s2 :: l2 ++ s1 :: l3 -> in_slot p n s2 -> ~ in_slot p n s1.
Proof.
  intros Hp H l1 s2 l2 s1 l3 n E H2 H1.
  apply floordiv_slot in H1; auto. apply floordiv_slot in H2; auto.
  pose proof (chain_lt (fun s => floordiv s p) l H) as N. rewrite E in N.
  rewrite map_app in N. cbn [map] in N. rewrite map_app in N. cbn [map] in N.
  apply NoDup_remove_2 in N. apply N. apply in_or_app; right. apply in_or_app; right.
  left. congruence.
Qed.

(** counting *)
Lemma elapsed_count ts o l : knd o = Elapsed -> saved (run ts o) = l ++ saved o ->
  inject_Z (Z.of_nat (length l)) * period o <= t_last_save (run ts o) - t_last_save o.
Proof.
  intros K El. destruct (run_saved ts o) as (m & H1 & H2 & _).
  assert (m = l) as -> by (apply (app_inv_tail (saved o)); congruence).
  pose proof (elapsed_spacing ts o l K El) as G. rewrite H2.
  clear - G. induction l as [|x l IH].
  - change (inject_Z (Z.of_nat (length (@nil Q)))) with 0; cbn [hd]; lra.
  - assert (inject_Z (Z.of_nat (length l)) * period o <= hd (t_last_save o) l - t_last_save o).
    { apply IH. intros s2 s1 (l1 & l2 & E). apply G. exists (x :: l1), l2. cbn. rewrite E; auto. }
    assert (period o <= x - hd (t_last_save o) l).
    { apply G. destruct l as [|y l]; [exists [], []; reflexivity|exists [], (l ++ [t_last_save o]); reflexivity]. }
    cbn [length hd]. rewrite Nat2Z.inj_succ. unfold Z.succ. rewrite inject_Z_plus.
    change (inject_Z 1) with 1. lra.
Qed.

Lemma count_lower ts d t0 o l : 0 < period o -> 0 <= d -> t_last_save o <= t0 ->
  t0 - t_last_save o < period o -> steps d t0 ts -> saved (run ts o) = l ++ saved o ->
  last ts t0 - t_last_save o
  < inject_Z (Z.of_nat (length l)) * (period o + d) + period o.
Proof.
  intros Hp Hd Hl Hf Hs El. pose proof (gap ts d t0 o l Hp Hl Hf Hs El) as G.
  pose proof (fresh ts d t0 o Hp Hl Hf Hs) as F.
  destruct (run_saved ts o) as (m & H1 & H2 & _).
  assert (m = l) as -> by (apply (app_inv_tail (saved o)); congruence).
  rewrite H2 in F.
  assert (A : hd (t_last_save o) l - t_last_save o
              <= inject_Z (Z.of_nat (length l)) * (period o + d)).
  { clear - G. induction l as [|x l IH].
    - change (inject_Z (Z.of_nat (length (@nil Q)))) with 0; cbn [hd]; lra.
    - assert (hd (t_last_save o) l - t_last_save o
              <= inject_Z (Z.of_nat (length l)) * (period o + d)).
      { apply IH. intros s2 s1 (l1 & l2 & E). apply G. exists (x :: l1), l2. cbn. rewrite E; auto. }
      assert (x - hd (t_last_save o) l < period o + d).
      { apply G. destruct l as [|y l]; [exists [], []; reflexivity|exists [], (l ++ [t_last_save o]); reflexivity]. }
      cbn [length hd]. rewrite Nat2Z.inj_succ. unfold Z.succ. rewrite inject_Z_plus.
      change (inject_Z 1) with 1. lra. }
  lra.
Qed.

(** ** several outputs *)
Definition run_nonzero (ts : list Q) (o : output) : output :=
  if Qeq_bool (period o) 0 then o else run ts o.

Lemma call_run_nonzero t ts o : run_nonzero ts (call_nonzero teps t o) = run_nonzero (t :: ts) o.
Proof.
  unfold run_nonzero, call_nonzero. destruct (Qeq_bool (period o) 0) eqn:E.
  - rewrite E; reflexivity.
  - rewrite period_online, E. reflexivity.
Qed.

Lemma map_id_ext {A} (f : A -> A) l : (forall x, f x = x) -> map f l = l.
Proof. intros H; induction l; cbn; congruence. Qed.

Lemma run_outputs_spec plot_ok hs : forall ts os,
  run_outputs teps plot_ok hs ts os
  = mkOs (map (run_nonzero ts) (prints os))
         (if plot_ok then map (run_nonzero ts) (plots os) else plots os)
         (if hs then map (run_nonzero ts) (saves os) else saves os).
Proof.
  induction ts as [|t ts IH]; intros os.
  - assert (N : forall o, run_nonzero [] o = o) by (intro o; unfold run_nonzero; destruct Qeq_bool; auto).
    destruct os as [a b c]; unfold run_outputs; cbn [fold_left prints plots saves].
    rewrite !(map_id_ext (run_nonzero [])) by exact N. destruct plot_ok, hs; reflexivity.
  - change (run_outputs teps plot_ok hs ts (one_time_step teps plot_ok hs t os) =
      mkOs (map (run_nonzero (t :: ts)) (prints os))
         (if plot_ok then map (run_nonzero (t :: ts)) (plots os) else plots os)
         (if hs then map (run_nonzero (t :: ts)) (saves os) else saves os)).
    rewrite IH. unfold one_time_step; cbn [prints plots saves].
    destruct plot_ok, hs; rewrite ?map_map; f_equal; apply map_ext; intro o; apply call_run_nonzero.
Qed.

(** ** constant time steps *)
Lemma time_diff d i j : (j <= i)%nat -> time d i - time d j == inject_Z (Z.of_nat (i - j)) * d.
Proof.
  intros H. unfold time. rewrite Nat2Z.inj_sub by lia. unfold Zminus.
  rewrite inject_Z_plus, inject_Z_opp. ring.
Qed.

Lemma floordiv_time d k i : 0 < d -> (0 < k)%nat -> floordiv (time d i) (time d k) = Z.of_nat (i / k).
Proof.
  intros Hd Hk. unfold floordiv.
  assert (E : time d i / time d k == inject_Z (Z.of_nat i) / inject_Z (Z.of_nat k)).
  { unfold time. field. split.
    - intro C. unfold inject_Z, Qeq in C; cbn in C. lia.
    - intro C; rewrite C in Hd; discriminate. }
  rewrite E. rewrite Nat2Z.inj_div. clear E.
  symmetry. rewrite <- (Z.mul_1_r (Z.of_nat i)) at 1. destruct k as [|k]; [lia|].
  unfold Qdiv, Qmult, Qinv, inject_Z, Qfloor. cbn [Qnum Qden Z.of_nat].
  rewrite Pos2Z.inj_mul. rewrite Z.mul_1_l. reflexivity.
Qed.

Lemma multiples_S k n : multiples k (S n)
  = multiples k n ++ (if Nat.eqb (S n mod k) 0 then [S n] else []).
Proof.
  unfold multiples. rewrite seq_S, filter_app. cbn [filter Nat.add]. reflexivity.
Qed.

Lemma div_step k n : (0 < k)%nat ->
  (S n mod k = 0 /\ S n / k = S (n / k) /\ S n - k * (n / k) = k)%nat
  \/ (S n mod k <> 0 /\ S n / k = n / k /\ S n - k * (n / k) < k)%nat.
Proof.
  intros Hk. pose proof (Nat.div_mod n k ltac:(lia)) as E. pose proof (Nat.mod_upper_bound n k ltac:(lia)) as B.
  destruct (Nat.eq_dec (S (n mod k)) k) as [F|F].
  - left. assert (E2 : S n = (k * S (n / k) + 0)%nat) by lia. repeat split.
    + rewrite E2, Nat.add_0_r, Nat.mul_comm. apply Nat.mod_mul; lia.
    + symmetry. apply (Nat.div_unique (S n) k (S (n / k)) 0); lia.
    + lia.
  - right. repeat split.
    + assert (S n mod k = S (n mod k)) as ->; [|lia].
      symmetry. apply (Nat.mod_unique (S n) k (n / k) (S (n mod k))); lia.
    + symmetry. apply (Nat.div_unique (S n) k (n / k) (S (n mod k))); lia.
    + lia.
Qed.

Lemma teps_constant eps d k i : 0 < d -> eps < d -> (0 < k)%nat ->
  (forall t, teps t <= t + eps) ->
  floordiv (teps (time d i)) (time d k) = floordiv (time d i) (time d k).
Proof.
  intros Hd He Hk Ht.
  assert (P : 0 < time d k).
  { unfold time. setoid_replace 0 with (0 * d) by ring. apply Qmult_lt_compat_r; auto.
    change 0 with (inject_Z 0). rewrite <- Zlt_Qlt. lia. }
  rewrite floordiv_time by auto. apply floordiv_slot; auto.
  assert (M : (k * (i / k) <= i < k * (i / k) + k)%nat).
  { pose proof (Nat.div_mod i k ltac:(lia)). pose proof (Nat.mod_upper_bound i k ltac:(lia)). lia. }
  set (q := (i / k)%nat) in *. pose proof (teps_ge (time d i)). pose proof (Ht (time d i)).
  unfold in_slot, time in *.
  assert (A : inject_Z (Z.of_nat q) * inject_Z (Z.of_nat k) <= inject_Z (Z.of_nat i)).
  { rewrite <- inject_Z_mult, <- Zle_Qle. lia. }
  assert (B : inject_Z (Z.of_nat i) + 1 <= inject_Z (Z.of_nat q + 1) * inject_Z (Z.of_nat k)).
  { change 1 with (inject_Z 1). rewrite <- inject_Z_mult, <- inject_Z_plus, <- Zle_Qle. lia. }
  set (x := inject_Z (Z.of_nat q + 1)) in *. set (y := inject_Z (Z.of_nat k)) in *.
  set (z := inject_Z (Z.of_nat i)) in *. set (w := inject_Z (Z.of_nat q)) in *.
  split.
  - apply Qle_trans with (z * d); auto. rewrite Qmult_assoc. apply Qmult_le_compat_r; lra.
  - apply Qlt_le_trans with ((z + 1) * d); [lra|]. rewrite Qmult_assoc.
    apply Qmult_le_compat_r; lra.
Qed.

Lemma constant_steps kd d k n o : 0 < d -> (0 < k)%nat ->
  (forall i, floordiv (teps (time d i)) (time d k) = floordiv (time d i) (time d k)) ->
  knd o = kd -> period o = time d k -> t_last_save o = time d 0 ->
  saved (run (map (time d) (seq 1 n)) o) = rev (map (time d) (multiples k n)) ++ saved o
  /\ t_last_save (run (map (time d) (seq 1 n)) o) = time d (k * (n / k)).
Proof.
  intros Hd Hk Ht K P L. induction n as [|n [IH1 IH2]].
  - cbn [seq map multiples]. rewrite Nat.div_0_l, Nat.mul_0_r by lia. split; [reflexivity|exact L].
  - rewrite seq_S, map_app. cbn [map Nat.add]. rewrite run_last. unfold online_save.
    set (r := run (map (time d) (seq 1 n)) o) in *.
    assert (Kr : knd r = kd) by (unfold r; rewrite knd_run; auto).
    assert (Pr : period r = time d k) by (unfold r; rewrite period_run; auto).
    assert (T : has_to teps r (time d (S n)) = Nat.eqb (S n mod k) 0).
    { destruct (div_step k n Hk) as [(A & B & C)|(A & B & C)].
      - rewrite A, Nat.eqb_refl. unfold has_to. rewrite Kr, Pr, IH2. destruct kd.
        + unfold has_to_save_elapsed. apply Qle_bool_iff. rewrite time_diff by lia. rewrite C.
          apply Qle_refl.
        + unfold has_to_online_save. apply Z.ltb_lt. rewrite Ht, !floordiv_time by auto.
          rewrite B, Nat.mul_comm, Nat.div_mul by lia. lia.
      - apply Nat.eqb_neq in A as A'. rewrite A'. unfold has_to. rewrite Kr, Pr, IH2. destruct kd.
        + unfold has_to_save_elapsed. destruct (Qle_bool _ _) eqn:Q; [|reflexivity].
          apply Qle_bool_iff in Q. pose proof (Nat.div_mod (S n) k ltac:(lia)).
          rewrite time_diff in Q by (rewrite <- B; lia). unfold time in Q.
          apply Qmult_lt_0_le_reg_r in Q; auto. rewrite <- Zle_Qle in Q. lia.
        + unfold has_to_online_save. apply Z.ltb_ge. rewrite Ht, !floordiv_time by auto.
          rewrite B, Nat.mul_comm, Nat.div_mul by lia. lia. }
    rewrite T, multiples_S. destruct (div_step k n Hk) as [(A & B & C)|(A & B & C)].
    + rewrite A, Nat.eqb_refl. cbn [saved t_last_save]. rewrite map_app, rev_app_distr, IH1. split.
      * reflexivity.
      * f_equal. rewrite B. lia.
    + apply Nat.eqb_neq in A. rewrite A, B, app_nil_r. split; assumption.
Qed.

End Sched.

(** ** kzkh spectra *)
Definition kzkh_wanted (p : nat) (i : nat) : bool := Nat.eqb (i mod p) 0.

Lemma spectra_saves_spec p n : forall s, (0 < p)%nat ->
  let r := spectra_saves p n s in
  nb_saved_times r = (nb_saved_times s + n)%nat /\ n1d r = (n1d s + n)%nat
  /\ (nb_saved_times s = n1d s -> kzkh r = kzkh s ++ filter (kzkh_wanted p) (seq (n1d s) n)).
Proof.
  induction n as [|n IH]; intros s Hp r.
  - unfold r; cbn. repeat split; try lia. intros _; rewrite app_nil_r; reflexivity.
  - unfold r. cbn [spectra_saves].
    destruct (IH (spectra_save p s) Hp) as (A & B & C).
    unfold spectra_save at 2 in A; cbn [nb_saved_times] in A.
    unfold spectra_save at 2 in B; cbn [n1d] in B.
    split; [lia|]. split; [lia|]. intros E. rewrite C.
    + unfold spectra_save; cbn [kzkh n1d]. cbn [seq filter].
      unfold has_to_save_kzkh. destruct (Nat.eqb p 0) eqn:Z; [apply Nat.eqb_eq in Z; lia|].
      rewrite E. cbn [negb andb]. unfold kzkh_wanted at 2.
      replace (n1d s + 1)%nat with (S (n1d s)) by lia.
      destruct (Nat.eqb (n1d s mod p) 0); [rewrite <- app_assoc; reflexivity|reflexivity].
    + unfold spectra_save; cbn. lia.
Qed.

Lemma spectra_run_new p n : (0 < p)%nat ->
  spectra_run p None n = Some ((n + 1)%nat, filter (kzkh_wanted p) (seq 0 (n + 1))).
Proof.
  intros Hp. unfold spectra_run.
  destruct (spectra_saves_spec p n (spectra_init p None) Hp) as (_ & B & C).
  rewrite B, C by reflexivity. unfold spectra_init; cbn [n1d kzkh].
  destruct (Nat.eqb p 0) eqn:Z; [apply Nat.eqb_eq in Z; lia|]. cbn [negb].
  replace (n + 1)%nat with (S n) by lia. cbn [seq filter].
  unfold kzkh_wanted at 2. rewrite Nat.mod_0_l by lia. reflexivity.
Qed.

Lemma spectra_run_restart p n m l : (0 < p)%nat ->
  spectra_run p (Some (n, l)) m
  = Some ((n + 1 + m)%nat,
          l ++ (if kzkh_wanted p (n + 1) then [n] else []) ++ filter (kzkh_wanted p) (seq (n + 1) m)).
Proof.
  intros Hp. unfold spectra_run.
  destruct (spectra_saves_spec p m (spectra_init p (Some (n, l))) Hp) as (_ & B & C).
  rewrite B, C by reflexivity. unfold spectra_init; cbn [n1d kzkh]. unfold has_to_save_kzkh.
  destruct (Nat.eqb p 0) eqn:Z; [apply Nat.eqb_eq in Z; lia|]. cbn [negb andb].
  unfold kzkh_wanted at 2. destruct (Nat.eqb ((n + 1) mod p) 0); [rewrite <- app_assoc|]; reflexivity.
Qed.

(** ** correl_freq *)
Definition exact_it (i : nat) : Q := inject_Z (Z.of_nat i).

Lemma correl_test (k i a : nat) :
  Qle_bool (inject_Z (Z.of_nat k) - 1) (exact_it i - exact_it a) = true
  <-> (Z.of_nat k - 1 <= Z.of_nat i - Z.of_nat a)%Z.
Proof.
  rewrite Qle_bool_iff. unfold exact_it. change 1 with (inject_Z 1).
  unfold Qminus. rewrite <- !inject_Z_opp, <- !inject_Z_plus, <- Zle_Qle. lia.
Qed.

Definition correl_inv (k s n : nat) (c : correl) : Prop :=
  (filled c = [] /\ it_last_run c = exact_it s
   /\ (n = 0%nat \/ (Z.of_nat n < Z.of_nat s + (Z.of_nat k - 1))%Z))
  \/ (exists a r, filled c = a :: r /\ it_last_run c = exact_it a /\ (a <= n)%nat
      /\ (n - a < Nat.max 1 (k - 1))%nat
      /\ forall l1 j2 j1 l2, filled c = l1 ++ j2 :: j1 :: l2 -> (j2 = j1 + Nat.max 1 (k - 1))%nat).

Lemma correl_run_S itsim p nb n c :
  correl_run itsim p nb (S n) c = correl_online_save itsim p nb (S n) (correl_run itsim p nb n c).
Proof. unfold correl_run. rewrite seq_S, fold_left_app. reflexivity. Qed.

Lemma correl_inv_run k s nb n : (1 <= k)%nat ->
  correl_inv k s n (correl_run exact_it (inject_Z (Z.of_nat k)) nb n (correl_init (exact_it s))).
Proof.
  intros Hk. induction n as [|n IH].
  - left. cbn. auto.
  - rewrite correl_run_S. set (c := correl_run _ _ _ n _) in *. unfold correl_online_save.
    destruct (Qle_bool _ _) eqn:T.
    + right. cbn [filled it_last_run]. exists (S n), (filled c).
      repeat split; try lia.
      intros l1 j2 j1 l2 E. destruct IH as [(F & _)|(a & r & F & L & A & B & G)].
      * rewrite F in E. destruct l1 as [|? [|]]; discriminate.
      * destruct l1 as [|y l1].
        -- injection E as <- E. rewrite F in E. injection E as -> _.
           rewrite L, correl_test in T. lia.
        -- injection E as _ E. apply (G _ _ _ _ E).
    + assert (N : Qle_bool (inject_Z (Z.of_nat k) - 1) (exact_it (S n) - it_last_run c) <> true)
        by congruence.
      destruct IH as [(F & L & B)|(a & r & F & L & A & B & G)].
      * left. rewrite L, correl_test in N. repeat split; auto. right; lia.
      * right. rewrite L, correl_test in N. exists a, r. repeat split; auto; lia.
Qed.
