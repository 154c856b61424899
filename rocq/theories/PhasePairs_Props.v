(** * C19: pairs of random phase shifts *)

From Coq Require Import List Arith Bool Lia.
From Verif Require Import PhasePairs_Model.
Import ListNotations.

Section Spec.

Variable P : Type.
Variable draw : nat -> P * P.
Variable h0 : heap P.

Notation init np := (init_phaseshift_random P draw np h0).
Notation run np ns rp rf n := (calls P draw np ns rp rf n (init np)).

(** Vocabulary: [uses v d] if the returned values are those of the draw d, in one order. *)
Definition in_order (v : P * P) (d : nat) : Prop := v = draw d.
Definition flipped (v : P * P) (d : nat) : Prop := v = (snd (draw d), fst (draw d)).

(** ** Invariant: the pairs are the last draws, in arrays all distinct *)

Definition addresses (l : list (nat * nat)) : list nat := flat_map (fun p => [fst p; snd p]) l.

Definition holds (h : heap P) (p : nat * nat) (d : nat) : Prop :=
  (h (fst p), h (snd p)) = draw d.

Record inv (np ns : nat) (s : pstate P) : Prop := mkInv {
  i_len : length (pairs P s) = np;
  i_draws : np <= ndraws P s;
  i_val : forall i p, nth_error (pairs P s) i = Some p -> holds (hp P s) p (ndraws P s - np + i);
  i_nodup : NoDup (addresses (pairs P s))
}.

Lemma addresses_app l l' : addresses (l ++ l') = addresses l ++ addresses l'.
Proof. apply flat_map_app. Qed.

Lemma in_addresses l i p : nth_error l i = Some p ->
  In (fst p) (addresses l) /\ In (snd p) (addresses l).
Proof.
  intros H. apply nth_error_In in H. unfold addresses. split; apply in_flat_map; exists p;
    simpl; auto.
Qed.

Lemma init_loop_spec n : forall i h l h' l',
  length l = i ->
  (forall j p, nth_error l j = Some p -> p = (2 * j, 2 * j + 1) /\ holds h p j) ->
  init_loop P draw n i h l = (h', l') ->
  length l' = i + n /\
  (forall j p, nth_error l' j = Some p -> p = (2 * j, 2 * j + 1) /\ holds h' p j).
Proof.
  induction n as [|n IH]; intros i h l h' l' Hl Hv E; simpl in E.
  - injection E as <- <-. split; [lia|exact Hv].
  - apply IH in E; [split; [lia|apply E]|rewrite app_length; simpl; lia|].
    intros j p Hj. destruct (Nat.lt_ge_cases j (length l)) as [Lt|Ge].
    + rewrite nth_error_app1 in Hj by exact Lt. destruct (Hv j p Hj) as [-> Hh].
      split; [reflexivity|]. unfold holds in *. rewrite <- Hh. simpl. unfold write.
      repeat match goal with |- context [?a =? ?b] => destruct (Nat.eqb_spec a b); try lia end.
      reflexivity.
    + rewrite nth_error_app2 in Hj by exact Ge.
      destruct (j - length l) as [|d] eqn:D; simpl in Hj.
      * injection Hj as <-. assert (j = i) by lia. subst j. split; [reflexivity|].
        unfold holds. simpl. unfold write.
        repeat match goal with |- context [?a =? ?b] => destruct (Nat.eqb_spec a b); try lia end.
        destruct (draw i); reflexivity.
      * destruct d; discriminate.
Qed.

Lemma nodup_range l : (forall j p, nth_error l j = Some p -> p = (2 * j, 2 * j + 1)) ->
  addresses l = seq 0 (2 * length l).
Proof.
  induction l as [|x l IH] using rev_ind; intros H; [reflexivity|].
  rewrite addresses_app, IH.
  - rewrite app_length. simpl length. replace (2 * (length l + 1)) with (2 * length l + 2) by lia.
    rewrite seq_app. f_equal.
    rewrite (H (length l) x) by (rewrite nth_error_app2, Nat.sub_diag by lia; reflexivity).
    simpl. repeat f_equal; lia.
  - intros j p Hj. apply H. rewrite nth_error_app1; [exact Hj|].
    apply nth_error_Some. congruence.
Qed.

Lemma inv_init np ns : inv np ns (init np).
Proof.
  unfold init_phaseshift_random. destruct (init_loop P draw np 0 h0 []) as [h' l'] eqn:E.
  apply init_loop_spec in E; [|reflexivity|intros [|j] p; discriminate].
  destruct E as [L V]. split; simpl.
  - lia.
  - lia.
  - intros i p Hp. rewrite Nat.sub_diag. apply V, Hp.
  - rewrite nodup_range; [apply seq_NoDup|]. intros j p Hp. apply V, Hp.
Qed.

Lemma holds_write h a b v w p d : holds h p d ->
  fst p <> a -> fst p <> b -> snd p <> a -> snd p <> b -> holds (write P (write P h a v) b w) p d.
Proof.
  intros H H1 H2 H3 H4. unfold holds in *. rewrite <- H. unfold write.
  repeat match goal with |- context [?a =? ?b] => destruct (Nat.eqb_spec a b); try congruence end.
Qed.

(** what one call does *)
Lemma step np ns rp rf s : inv np ns s -> 0 < np -> rp < np ->
  exists ret s', get_phaseshift_random P draw np ns rp rf s = Some (ret, s') /\ inv np ns s' /\
   (if index P s =? ns
    then index P s' = 1 /\ ndraws P s' = S (ndraws P s) /\ in_order (values P ret s') (ndraws P s)
    else index P s' = S (index P s) /\ ndraws P s' = ndraws P s /\ pairs P s' = pairs P s /\
         exists i, i < np /\ (in_order (values P ret s') (ndraws P s - np + i)
                           \/ flipped (values P ret s') (ndraws P s - np + i))).
Proof.
  intros I Hnp Hrp.
  assert (G : forall i, i < np -> exists a b, nth_error (pairs P s) i = Some (a, b) /\
     (hp P s a, hp P s b) = draw (ndraws P s - np + i)).
  { intros i Hi. rewrite <- (i_len _ _ _ I) in Hi. apply nth_error_Some in Hi.
    destruct (nth_error (pairs P s) i) as [[a b]|] eqn:E; [|congruence].
    exists a, b. split; [reflexivity|]. apply (i_val _ _ _ I i (a, b) E). }
  assert (CH : exists i a b fl pp pf, i < np /\ nth_error (pairs P s) i = Some (a, b) /\
     (hp P s a, hp P s b) = draw (ndraws P s - np + i) /\
     get_phaseshift_random P draw np ns rp rf s =
     (if index P s =? ns then
        match pairs P s with
        | [] => None
        | (a, b) :: rest =>
            let (h', p) := compute_phaseshift_terms P draw (ndraws P s) a b (hp P s) in
            Some ((a, b), mkP P h' (rest ++ [p]) 1 pp pf (S (ndraws P s)))
        end
      else Some (if fl : bool then (a, b) else (b, a),
                 mkP P (hp P s) (pairs P s) (S (index P s)) pp pf (ndraws P s)))).
  { unfold get_phaseshift_random.
    destruct ((np =? 1) && (ns =? 1)).
    - destruct (G 0 ltac:(lia)) as (a & b & E & V). rewrite E.
      exists 0, a, b, true, (prev_pair P s), (prev_flip P s).
      split; [lia|]. split; [assumption|]. split; [exact V|]. reflexivity.
    - destruct ((np =? 1) && (ns =? 2)).
      + destruct (G 0 ltac:(lia)) as (a & b & E & V). rewrite E.
        exists 0, a, b, (index P s =? 1), (prev_pair P s), (prev_flip P s).
        split; [lia|]. split; [assumption|]. split; [exact V|]. reflexivity.
      + destruct (G rp Hrp) as (a & b & E & V). rewrite E.
        exists rp, a, b. eexists _, _, _.
        split; [lia|]. split; [assumption|]. split; [exact V|]. reflexivity. }
  destruct CH as (i & a & b & fl & pp & pf & Hi & Ei & Vi & ->).
  destruct (index P s =? ns) eqn:Eidx.
  - destruct (pairs P s) as [|[a0 b0] rest] eqn:Ep.
    { pose proof (i_len _ _ _ I) as L. rewrite Ep in L. simpl in L. lia. }
    simpl. eexists _, _. split; [reflexivity|].
    pose proof (i_nodup _ _ _ I) as ND. rewrite Ep in ND. simpl in ND.
    inversion ND as [|? ? N1 ND']; subst. inversion ND' as [|? ? N2 ND'']; subst.
    assert (Hab : a0 <> b0) by (intros ->; apply N1; left; reflexivity).
    assert (Vn : (write P (write P (hp P s) a0 (fst (draw (ndraws P s)))) b0
          (snd (draw (ndraws P s))) a0,
        write P (write P (hp P s) a0 (fst (draw (ndraws P s)))) b0
          (snd (draw (ndraws P s))) b0) = draw (ndraws P s)).
    { unfold write. rewrite !Nat.eqb_refl.
      destruct (Nat.eqb_spec b0 a0) as [->|_]; [congruence|]. destruct (draw (ndraws P s)); reflexivity. }
    split.
    + pose proof (i_len _ _ _ I) as L. rewrite Ep in L. simpl in L.
      pose proof (i_draws _ _ _ I) as D.
      split; cbn [pairs ndraws hp].
      * rewrite app_length. simpl. lia.
      * lia.
      * intros j p Hj. destruct (Nat.lt_ge_cases j (length rest)) as [Lt|Ge].
        -- rewrite nth_error_app1 in Hj by exact Lt.
           pose proof (i_val _ _ _ I (S j) p) as V. rewrite Ep in V. specialize (V Hj).
           replace (S (ndraws P s) - np + j) with (ndraws P s - np + S j) by lia.
           destruct (in_addresses _ _ _ Hj) as [A1 A2].
           apply holds_write; [exact V|..].
           ++ intros X. apply N1. right. rewrite <- X. exact A1.
           ++ intros X. apply N2. rewrite <- X. exact A1.
           ++ intros X. apply N1. right. rewrite <- X. exact A2.
           ++ intros X. apply N2. rewrite <- X. exact A2.
        -- rewrite nth_error_app2 in Hj by exact Ge.
           destruct (j - length rest) as [|d] eqn:Dj; simpl in Hj; [|destruct d; discriminate].
           injection Hj as <-. unfold holds. simpl fst. simpl snd. rewrite Vn. f_equal. lia.
      * rewrite addresses_app. simpl. 
        apply (NoDup_Add (a := b0) (l := addresses rest ++ [a0])).
        { replace (addresses rest ++ [a0; b0]) with ((addresses rest ++ [a0]) ++ b0 :: [])
            by (rewrite <- app_assoc; reflexivity).
          rewrite <- (app_nil_r (addresses rest ++ [a0])) at 1. apply Add_app. }
        split.
        { apply (NoDup_Add (a := a0) (l := addresses rest)).
          { rewrite <- (app_nil_r (addresses rest)) at 1. apply Add_app. }
          split; [exact ND''|]. intros X. apply N1. right. exact X. }
        { rewrite in_app_iff. intros [X|[X|[]]]; [apply N2; exact X|congruence]. }
    + split; [reflexivity|]. split; [reflexivity|]. exact Vn.
  - eexists _, _. split; [reflexivity|]. split.
    + destruct I as [I1 I2 I3 I4]. split; simpl; assumption.
    + split; [reflexivity|]. split; [reflexivity|]. split; [reflexivity|]. exists i. split; [exact Hi|].
      destruct fl; [left|right]; unfold in_order, flipped, values; simpl; rewrite <- Vi; reflexivity.
Qed.

Lemma calls_S np ns rp rf n :
  run np ns rp rf (S n) =
  match run np ns rp rf n with
  | None => None
  | Some (l, s1) =>
      match get_phaseshift_random P draw np ns (rp n) (rf n) s1 with
      | None => None
      | Some (ret, s2) => Some (l ++ [values P ret s2], s2)
      end
  end.
Proof. reflexivity. Qed.

Lemma run_inv np ns rp rf n : 0 < np -> (forall i, rp i < np) ->
  exists l s, run np ns rp rf n = Some (l, s) /\ inv np ns s /\ length l = n.
Proof.
  intros Hnp Hrp. induction n as [|n (l & s & E & I & L)]; simpl.
  - exists [], (init np). split; [reflexivity|]. split; [apply inv_init|reflexivity].
  - rewrite E. destruct (step np ns (rp n) (rf n) s I Hnp (Hrp n)) as (ret & s' & -> & I' & _).
    exists (l ++ [values P ret s']), s'. split; [reflexivity|]. split; [exact I'|].
    rewrite app_length. simpl. lia.
Qed.

(** ** At each call the returned phases are those of one of the current pairs *)
Theorem c19_current_pair_partial np ns rp rf n : 0 < np -> (forall i, rp i < np) ->
  exists l s l' s' v, run np ns rp rf n = Some (l, s) /\ run np ns rp rf (S n) = Some (l', s') /\
    l' = l ++ [v] /\
    (* the pairs stored after the call are the np last draws *)
    length (pairs P s') = np /\
    (forall i p, nth_error (pairs P s') i = Some p ->
       (hp P s' (fst p), hp P s' (snd p)) = draw (ndraws P s' - np + i)) /\
    (* and one of them is returned *)
    exists i, i < np /\ (in_order v (ndraws P s' - np + i) \/ flipped v (ndraws P s' - np + i)).
Proof.
  intros Hnp Hrp. destruct (run_inv np ns rp rf n Hnp Hrp) as (l & s & E & I & _).
  destruct (step np ns (rp n) (rf n) s I Hnp (Hrp n)) as (ret & s' & E' & I' & C).
  exists l, s, (l ++ [values P ret s']), s', (values P ret s').
  split; [exact E|]. simpl. rewrite E, E'. split; [reflexivity|]. split; [reflexivity|].
  split; [apply (i_len _ _ _ I')|]. split; [intros i p; apply (i_val _ _ _ I')|].
  destruct (index P s =? ns).
  - destruct C as (_ & D & V). exists (np - 1). split; [lia|]. left.
    pose proof (i_draws _ _ _ I). rewrite D.
    replace (S (ndraws P s) - np + (np - 1)) with (ndraws P s) by lia. exact V.
  - destruct C as (_ & D & _ & i & Hi & V). exists i. rewrite D. auto.
Qed.

(** ** One new pair every nb_steps calls *)
Lemma run_index np ns rp rf n l s : 0 < np -> (forall i, rp i < np) -> 0 < ns ->
  run np ns rp rf n = Some (l, s) -> index P s = S (n mod ns) /\ ndraws P s = np + n / ns.
Proof.
  intros Hnp Hrp Hns. revert l s. induction n as [|n IH]; intros l s E.
  - simpl in E. injection E as <- <-. rewrite Nat.mod_0_l, Nat.div_0_l by lia.
    unfold init_phaseshift_random. destruct (init_loop _ _ _ _ _ _). simpl. lia.
  - simpl in E. destruct (run_inv np ns rp rf n Hnp Hrp) as (l1 & s1 & E1 & I & _).
    rewrite E1 in E. destruct (step np ns (rp n) (rf n) s1 I Hnp (Hrp n)) as (ret & s2 & E2 & I2 & C).
    rewrite E2 in E. injection E as <- <-. destruct (IH _ _ E1) as [X D]. clear IH.
    pose proof (Nat.div_mod n ns ltac:(lia)) as DM. pose proof (Nat.mod_upper_bound n ns ltac:(lia)).
    destruct (Nat.eqb_spec (index P s1) ns) as [Eq|Ne].
    + destruct C as (-> & -> & _).
      assert (Q : S n / ns = S (n / ns)) by (symmetry; apply Nat.div_unique with (r := 0); lia).
      assert (R : S n mod ns = 0) by (symmetry; apply Nat.mod_unique with (q := S (n / ns)); lia).
      rewrite Q, R. lia.
    + destruct C as (-> & -> & _).
      assert (Q : S n / ns = n / ns) by (symmetry; apply Nat.div_unique with (r := S (n mod ns)); lia).
      assert (R : S n mod ns = S (n mod ns)) by (symmetry; apply Nat.mod_unique with (q := n / ns); lia).
      rewrite Q, R. lia.
Qed.

Theorem c19_renewal_partial np given rp rf n : 0 < np -> (forall i, rp i < np) ->
  let ns := nb_steps_of np given in
  (given = None -> ns = if np =? 1 then 2 else 4 * np) /\
  (0 < ns -> exists l s, run np ns rp rf n = Some (l, s) /\ length l = n /\ ndraws P s = np + n / ns).
Proof.
  intros Hnp Hrp ns. split; [intros ->; reflexivity|]. intros Hns.
  destruct (run_inv np ns rp rf n Hnp Hrp) as (l & s & E & _ & L). exists l, s.
  split; [exact E|]. split; [exact L|].
  apply (run_index np ns rp rf n l s Hnp Hrp Hns E).
Qed.

(** ** One pair: the exact sequence of returned values *)

(** default parameters (renewal each 2 calls): the pairs are used in the order of the draws,
    each one twice but the first one, never flipped *)
Theorem c19_default_sequence_partial rp rf n : (forall i, rp i < 1) ->
  exists s, run 1 (nb_steps_of 1 None) rp rf n
    = Some (map (fun i => draw ((i + 1) / 2)) (seq 0 n), s).
Proof.
  intros Hrp. induction n as [|n [s E]]; [eexists; reflexivity|].
  rewrite calls_S, E. change (nb_steps_of 1 None) with 2 in *.
  destruct (run_inv 1 2 rp rf n ltac:(lia) Hrp) as (l1 & s1 & E1 & I & _).
  rewrite E in E1. injection E1 as <- <-.
  destruct (run_index 1 2 rp rf n _ s ltac:(lia) Hrp ltac:(lia) E) as [X D].
  pose proof (i_len _ _ _ I) as L. pose proof (i_val _ _ _ I 0) as V.
  destruct (step 1 2 (rp n) (rf n) s I ltac:(lia) (Hrp n)) as (ret & s2 & E2 & I2 & C).
  rewrite E2. exists s2. rewrite seq_S, map_app. do 3 f_equal. change (0 + n) with n. cbn [map]. f_equal.
  pose proof (Nat.mod_upper_bound n 2 ltac:(lia)) as MB. pose proof (Nat.div_mod n 2 ltac:(lia)) as DM.
  destruct (Nat.eqb_spec (index P s) 2) as [Eq|Ne].
  - destruct C as (_ & _ & ->). f_equal. rewrite D.
    assert (n mod 2 = 1) by lia. apply Nat.div_unique with (r := 0); lia.
  - assert (M : n mod 2 = 0) by lia.
    unfold get_phaseshift_random in E2. rewrite X, M in E2. simpl in E2.
    destruct (pairs P s) as [|[a b] rest]; [discriminate|]. simpl in E2.
    injection E2 as <- <-. unfold values. cbn [hp fst snd].
    specialize (V (a, b) eq_refl). unfold holds in V. cbn [hp fst snd] in V. rewrite V, D. f_equal.
    apply Nat.div_unique with (r := 1); lia.
Qed.

(** renewal at each call: the first pair is never used *)
Theorem c19_each_step_sequence_partial rp rf n : (forall i, rp i < 1) ->
  exists s, run 1 (nb_steps_of 1 (Some 1)) rp rf n = Some (map (fun i => draw (i + 1)) (seq 0 n), s).
Proof.
  intros Hrp. induction n as [|n [s E]]; [eexists; reflexivity|].
  rewrite calls_S, E. change (nb_steps_of 1 (Some 1)) with 1 in *.
  destruct (run_inv 1 1 rp rf n ltac:(lia) Hrp) as (l1 & s1 & E1 & I & _).
  rewrite E in E1. injection E1 as <- <-.
  destruct (run_index 1 1 rp rf n _ s ltac:(lia) Hrp ltac:(lia) E) as [X D].
  destruct (step 1 1 (rp n) (rf n) s I ltac:(lia) (Hrp n)) as (ret & s2 & E2 & I2 & C).
  rewrite E2. exists s2. rewrite seq_S, map_app. do 3 f_equal. change (0 + n) with n. cbn [map]. f_equal.
  rewrite Nat.mod_1_r in X. rewrite X in C. simpl in C. destruct C as (_ & _ & ->).
  f_equal. rewrite D, Nat.div_1_r. lia.
Qed.

(** ** Several pairs: two successive calls between which no pair is renewed do not return the
    same phases in the same order *)
Theorem c19_no_repeat_partial np ns rp rf n l s l1 s1 l2 s2 u v :
  0 < np -> (forall i, rp i < np) -> ~ (np = 1 /\ (ns = 1 \/ ns = 2)) ->
  run np ns rp rf n = Some (l, s) -> run np ns rp rf (S n) = Some (l1, s1) ->
  run np ns rp rf (S (S n)) = Some (l2, s2) ->
  l1 = l ++ [u] -> l2 = l1 ++ [v] ->
  ndraws P s1 = ndraws P s -> ndraws P s2 = ndraws P s ->
  (* different draws give different phases, also exchanged *)
  (forall d d', draw d = draw d' -> d = d') ->
  (forall d d', draw d <> (snd (draw d'), fst (draw d'))) ->
  u <> v.
Proof.
  intros Hnp Hrp Hb E E1 E2 Hu Hv D1 D2 Inj Fl.
  assert (EQ1 := E1). simpl in EQ1. rewrite E in EQ1.
  assert (EQ2 : match get_phaseshift_random P draw np ns (rp (S n)) (rf (S n)) s1 with
     | Some (ret, s') => Some (l1 ++ [values P ret s'], s') | None => None end = Some (l2, s2)).
  { clear EQ1. change (run np ns rp rf (S (S n))) with
      (match run np ns rp rf (S n) with None => None | Some (l, s1) =>
        match get_phaseshift_random P draw np ns (rp (S n)) (rf (S n)) s1 with
        | None => None | Some (ret, s2) => Some (l ++ [values P ret s2], s2) end end) in E2.
    rewrite E1 in E2. destruct (get_phaseshift_random _ _ _ _ _ _ s1) as [[? ?]|]; exact E2. }
  destruct (run_inv np ns rp rf n Hnp Hrp) as (l' & s' & E' & I & _).
  rewrite E in E'. injection E' as <- <-.
  destruct (get_phaseshift_random P draw np ns (rp n) (rf n) s) as [[ret1 t1]|] eqn:G1; [|discriminate].
  injection EQ1 as L1 ->.
  destruct (get_phaseshift_random P draw np ns (rp (S n)) (rf (S n)) s1) as [[ret2 t2]|] eqn:G2; [|discriminate].
  injection EQ2 as L2 ->.
  rewrite Hu in L1. apply app_inj_tail in L1. destruct L1 as [_ <-].
  rewrite Hv in L2. apply app_inj_tail in L2. destruct L2 as [_ <-].
  assert (B1 : (np =? 1) && (ns =? 1) = false).
  { apply andb_false_iff. destruct (Nat.eqb_spec np 1), (Nat.eqb_spec ns 1); auto. lia. }
  assert (B2 : (np =? 1) && (ns =? 2) = false).
  { apply andb_false_iff. destruct (Nat.eqb_spec np 1), (Nat.eqb_spec ns 2); auto. lia. }
  unfold get_phaseshift_random in G1, G2. rewrite B1, B2 in G1, G2.
  destruct (nth_error (pairs P s) (rp n)) as [[a b]|] eqn:Ea; [|discriminate].
  destruct (index P s =? ns).
  { destruct (pairs P s) as [|[a0 b0] rest]; [discriminate|]. simpl in G1. injection G1 as <- <-.
    simpl in D1. lia. }
  injection G1 as <- <-. cbn [pairs index prev_pair prev_flip ndraws hp] in G2.
  destruct (nth_error (pairs P s) (rp (S n))) as [[a' b']|] eqn:Ea'; [|discriminate].
  destruct (S (index P s) =? ns).
  { destruct (pairs P s) as [|[a0 b0] rest]; [discriminate|]. simpl in G2. injection G2 as <- <-.
    simpl in D2. lia. }
  injection G2 as <- <-. unfold values; simpl.
  pose proof (i_val _ _ _ I _ _ Ea) as V. pose proof (i_val _ _ _ I _ _ Ea') as V'.
  unfold holds in V, V'. simpl in V, V'.
  set (f1 := if (rp n =? prev_pair P s) && Bool.eqb (rf n) (prev_flip P s) then negb (rf n) else rf n) in *.
  set (f2 := if (rp (S n) =? rp n) && Bool.eqb (rf (S n)) f1 then negb (rf (S n)) else rf (S n)).
  intros Eq.
  assert (F1 : f1 = f2 /\ rp n = rp (S n)).
  { destruct f1 eqn:X1, f2 eqn:X2; simpl in Eq.
    - rewrite V, V' in Eq. apply Inj in Eq. split; [reflexivity|]. lia.
    - exfalso. apply (Fl (ndraws P s - np + rp n) (ndraws P s - np + rp (S n))).
      rewrite <- V, <- V'. simpl. exact Eq.
    - exfalso. apply (Fl (ndraws P s - np + rp (S n)) (ndraws P s - np + rp n)).
      rewrite <- V, <- V'. simpl. symmetry. exact Eq.
    - assert (Eq' : (hp P s a, hp P s b) = (hp P s a', hp P s b')) by congruence.
      rewrite V, V' in Eq'. apply Inj in Eq'. split; [reflexivity|]. lia. }
  destruct F1 as [F R]. unfold f2 in F. rewrite <- R, Nat.eqb_refl in F. simpl in F.
  destruct (Bool.eqb (rf (S n)) f1) eqn:X.
  - apply eqb_prop in X. rewrite X in F. exact (no_fixpoint_negb _ (eq_sym F)).
  - apply eqb_false_iff in X. congruence.
Qed.

End Spec.

(** ** FINDING: with the default parameters a pair is never used in the two orders: when the
    second use should be flipped, the arrays have been overwritten by a new pair, which is
    returned in the normal order. *)
Theorem c19_alternation_refuted : exists (P : Type) (draw : nat -> P * P) (h : heap P) n,
  forall rp rf, (forall i, rp i < 1) ->
  exists l s d, calls P draw 1 (nb_steps_of 1 None) rp rf n (init_phaseshift_random P draw 1 h)
      = Some (l, s) /\
    (* the draw d is used, then replaced, and never used in the other order *)
    In (draw d) l /\ d < ndraws P s - 1 /\ ~ In (snd (draw d), fst (draw d)) l.
Proof.
  exists nat, (fun n => (2 * n, 2 * n + 1)), (fun _ => 0), 4. intros rp rf H.
  destruct (c19_default_sequence_partial nat (fun n => (2 * n, 2 * n + 1)) (fun _ => 0) rp rf 4 H) as [s E].
  exists (map (fun i => (2 * ((i + 1) / 2), 2 * ((i + 1) / 2) + 1)) (seq 0 4)), s, 1.
  split; [exact E|]. split; [simpl; auto|].
  split.
  - destruct (run_index nat (fun n => (2 * n, 2 * n + 1)) (fun _ => 0) 1 2 rp rf 4 _ s
      ltac:(lia) H ltac:(lia) E) as [_ D]. rewrite D. simpl. lia.
  - simpl. intuition congruence.
Qed.

(** the hypotheses of the theorems are met *)
Example c19_example : exists l s,
  calls nat (fun n => (2 * n, 2 * n + 1)) 2 (nb_steps_of 2 None) (fun _ => 1) (fun _ => true) 3
    (init_phaseshift_random nat (fun n => (2 * n, 2 * n + 1)) 2 (fun _ => 0)) = Some (l, s)
  /\ l = [(2, 3); (3, 2); (2, 3)].
Proof. eexists _, _. split; reflexivity. Qed.

Print Assumptions c19_current_pair_partial.
Print Assumptions c19_renewal_partial.
Print Assumptions c19_default_sequence_partial.
Print Assumptions c19_each_step_sequence_partial.
Print Assumptions c19_no_repeat_partial.
Print Assumptions c19_alternation_refuted.
