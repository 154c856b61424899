(** * Properties of plot2d of the spectra of ns2d.strat *)

From Coq Require Import List QArith Qabs Bool Lia Lqa.
From Verif Require Import StratPlot_Model.
Import ListNotations.
Local Open Scope Q_scope.

(** ** Specification *)

(** i is the first index of a time nearest to t *)
Definition first_nearest (times : list Q) (t : Q) (i : nat) : Prop :=
  exists x, nth_error times i = Some x /\
    (forall j y, nth_error times j = Some y -> Qabs (x - t) <= Qabs (y - t)) /\
    (forall j y, (j < i)%nat -> nth_error times j = Some y -> Qabs (x - t) < Qabs (y - t)).

(** the sum of the values of the records i, ..., i + n - 1 *)
Fixpoint sum_from (l : list Q) (i n : nat) : Q :=
  match n with O => 0 | S n => nth i l 0 + sum_from l (S i) n end.

(** ** Lemmas *)

Lemma argmin_from_spec : forall r pre best ib,
  nth_error pre ib = Some best ->
  (forall j y, nth_error pre j = Some y -> best <= y) ->
  (forall j y, (j < ib)%nat -> nth_error pre j = Some y -> best < y) ->
  exists b, nth_error (pre ++ r) (argmin_from best ib (List.length pre) r) = Some b /\
    (forall j y, nth_error (pre ++ r) j = Some y -> b <= y) /\
    (forall j y, (j < argmin_from best ib (List.length pre) r)%nat -> nth_error (pre ++ r) j = Some y -> b < y).
Proof.
  induction r as [|x r IH]; intros pre best ib Hb Hm Hf.
  - rewrite app_nil_r. exists best. split; [exact Hb | split; assumption].
  - cbn [argmin_from]. replace (pre ++ x :: r) with ((pre ++ [x]) ++ r) by (rewrite <- app_assoc; reflexivity).
    assert (L : S (List.length pre) = List.length (pre ++ [x])) by (rewrite app_length; simpl; lia).
    rewrite L. assert (Hib : (ib < List.length pre)%nat) by (apply nth_error_Some; congruence).
    assert (P : forall j y, nth_error (pre ++ [x]) j = Some y -> nth_error pre j = Some y \/ (j = List.length pre /\ y = x)).
    { intros j y H. destruct (Nat.lt_ge_cases j (List.length pre)) as [G | G].
      - left. rewrite nth_error_app1 in H; assumption.
      - right. rewrite nth_error_app2 in H by exact G. destruct (j - List.length pre)%nat eqn:D.
        + simpl in H. split; [lia | congruence].
        + simpl in H. destruct n; discriminate H. }
    destruct (Qle_bool best x) eqn:E.
    + apply Qle_bool_iff in E. apply IH.
      * rewrite nth_error_app1 by exact Hib. exact Hb.
      * intros j y H. destruct (P j y H) as [G | [_ G]]; [eapply Hm; exact G | subst; exact E].
      * intros j y J H. destruct (P j y H) as [G | [G _]]; [eapply Hf; eassumption | lia].
    + assert (Lx : x < best). { destruct (Qlt_le_dec x best) as [G | G]; [exact G|]. apply Qle_bool_iff in G. congruence. }
      apply IH.
      * rewrite nth_error_app2 by lia. rewrite Nat.sub_diag. reflexivity.
      * intros j y H. destruct (P j y H) as [G | [_ G]]; [assert (B := Hm j y G); lra | subst; lra].
      * intros j y J H. destruct (P j y H) as [G | [G _]]; [assert (B := Hm j y G); lra | lia].
Qed.

Lemma argmin_spec : forall times t i, argmin times t = Some i -> first_nearest times t i.
Proof.
  intros times t i H. unfold argmin in H. destruct times as [|x r]; [discriminate|]. cbn [map] in H.
  destruct (argmin_from_spec (map (fun x => Qabs (x - t)) r) [Qabs (x - t)] (Qabs (x - t)) 0) as [b [B1 [B2 B3]]].
  - reflexivity.
  - intros [|j] y G; cbn [nth_error] in G; [|destruct j; discriminate G].
    assert (G' : Qabs (x - t) = y) by congruence. rewrite G'. apply Qle_refl.
  - intros j y J. lia.
  - assert (Hi : argmin_from (Qabs (x - t)) 0 1 (map (fun x => Qabs (x - t)) r) = i) by congruence.
    change (List.length [Qabs (x - t)]) with 1%nat in B1, B2, B3. rewrite Hi in B1, B3.
    change ([Qabs (x - t)] ++ map (fun x => Qabs (x - t)) r) with (map (fun x => Qabs (x - t)) (x :: r)) in B1, B2, B3.
    assert (N : forall j y, nth_error (x :: r) j = Some y -> nth_error (map (fun x => Qabs (x - t)) (x :: r)) j = Some (Qabs (y - t))).
    { intros j y G. apply (map_nth_error (fun x => Qabs (x - t))). exact G. }
    destruct (nth_error (x :: r) i) as [z|] eqn:Z.
    + rewrite (N i z Z) in B1. inversion B1; subst b. exists z. split; [exact Z|]. split.
      * intros j y G. apply (B2 j). apply N. exact G.
      * intros j y J G. apply (B3 j); [exact J | apply N; exact G].
    + exfalso. apply nth_error_None in Z. assert (W : nth_error (map (fun x => Qabs (x - t)) (x :: r)) i = None).
      { apply nth_error_None. rewrite map_length. exact Z. } congruence.
Qed.

Lemma last_cons : forall (l : list Q) y d, last (y :: l) d = last l y.
Proof.
  induction l as [|z l IH]; intros y d; [reflexivity|].
  change (last (y :: z :: l) d) with (last (z :: l) d). rewrite !IH. reflexivity.
Qed.

Lemma diffs_sum : forall l x, sum (diffs (x :: l)) == last l x - x.
Proof.
  induction l as [|y l IH]; intros x; [simpl; lra|].
  change (diffs (x :: y :: l)) with ((y - x) :: diffs (y :: l)). cbn [sum]. rewrite IH.
  assert (G := last_cons l y x).
  rewrite G. lra.
Qed.

Lemma diffs_cons : forall x y l, diffs (x :: y :: l) <> [].
Proof. intros x y l H. discriminate H. Qed.

Lemma delta_ok : forall x y l delta_t, ~ last (y :: l) x == x -> exists d, delta_i (x :: y :: l) delta_t = inl d.
Proof.
  intros x y l delta_t H. unfold delta_i, mean. assert (S := diffs_sum (y :: l) x).
  destruct (diffs (x :: y :: l)) as [|a r] eqn:D; [exfalso; apply (diffs_cons x y l D)|].
  match goal with |- context [Qeq_bool ?q 0] => destruct (Qeq_bool q 0) eqn:E end; [|eexists; reflexivity].
  exfalso. apply Qeq_bool_iff in E.
  set (n := inject_Z (Z.of_nat (List.length (a :: r)))) in E.
  assert (P : 0 < n). { unfold n. change 0 with (inject_Z 0). rewrite <- Zlt_Qlt. simpl List.length. lia. }
  apply H. assert (Z : sum (a :: r) == 0).
  { assert (F : sum (a :: r) == sum (a :: r) / n * n) by (field; lra). rewrite F, E. ring. }
  rewrite Z in S. lra.
Qed.

Lemma argmin_some : forall x r t, exists i, argmin (x :: r) t = Some i.
Proof. intros x r t. unfold argmin. simpl. eexists. reflexivity. Qed.

Lemma sum_skip : forall l i n, (i + n <= List.length l)%nat -> sum (firstn n (skipn i l)) = sum_from l i n.
Proof.
  intros l i n. revert i. induction n as [|n IH]; intros i H; [reflexivity|].
  destruct (skipn i l) as [|a r] eqn:Sk.
  - exfalso. assert (G : List.length (skipn i l) = O) by (rewrite Sk; reflexivity). rewrite skipn_length in G. lia.
  - cbn [firstn sum sum_from]. assert (N : nth i l 0 = a).
    { rewrite <- (Nat.add_0_r i). rewrite <- (firstn_skipn i l) at 1. rewrite app_nth2; rewrite firstn_length_le by lia; [|lia].
      replace (i + 0 - i)%nat with O by lia. rewrite Sk. reflexivity. }
    rewrite N. f_equal. rewrite <- IH by lia. f_equal. f_equal.
    assert (G : skipn 1 (skipn i l) = skipn (S i) l). { clear. revert l. induction i as [|i IH]; intros [|b l]; try reflexivity. simpl. apply IH. }
    rewrite Sk in G. exact G.
Qed.

Lemma slice_spec : forall i j l, (i <= j)%nat -> (j < List.length l)%nat ->
  List.length (slice i j l) = (j + 1 - i)%nat /\ sum (slice i j l) = sum_from l i (j + 1 - i).
Proof.
  intros i j l H1 H2. unfold slice. split.
  - rewrite skipn_length, firstn_length_le by lia. reflexivity.
  - rewrite <- sum_skip by lia. f_equal. apply skipn_firstn_comm.
Qed.

Lemma mean_slice : forall i j l, (i <= j)%nat -> (j < List.length l)%nat ->
  exists m, mean (slice i j l) = Some m /\ m * inject_Z (Z.of_nat (j + 1 - i)) == sum_from l i (j + 1 - i).
Proof.
  intros i j l H1 H2. destruct (slice_spec i j l H1 H2) as [L S]. unfold mean.
  destruct (slice i j l) as [|a r] eqn:E; [simpl in L; lia|]. eexists. split; [reflexivity|]. rewrite S, L.
  assert (P : 0 < inject_Z (Z.of_nat (j + 1 - i))). { change 0 with (inject_Z 0). rewrite <- Zlt_Qlt. lia. }
  field. lra.
Qed.

Lemma nearest_lt : forall times t i, first_nearest times t i -> (i < List.length times)%nat.
Proof. intros times t i [x [H _]]. apply nth_error_Some. congruence. Qed.

Lemma sum_from_add : forall a b c i n, (forall j, nth j c 0 == nth j a 0 + nth j b 0) ->
  sum_from c i n == sum_from a i n + sum_from b i n.
Proof. intros a b c i n H. revert i. induction n as [|n IH]; intros i; simpl; [lra|]. rewrite IH, H. lra. Qed.

(** ** C293 *)

(** the curves: the averages between the records nearest to tmin and tmax, with at least two records *)
Theorem c293_means_partial : forall k x y l dE dEK dEA tmin tmax delta_t c, let times := x :: y :: l in
  ~ last (y :: l) x == x ->
  List.length dE = List.length times -> List.length dEK = List.length times -> List.length dEA = List.length times ->
  exists i j, first_nearest times tmin i /\ first_nearest times tmax j /\
    ((i <= j)%nat -> exists e ek ea, plot2d k times dE dEK dEA tmin tmax delta_t c = inl (mkC (Some e) (Some ek) (Some ea)) /\
       e * inject_Z (Z.of_nat (j + 1 - i)) == sum_from dE i (j + 1 - i) /\
       ek * inject_Z (Z.of_nat (j + 1 - i)) == sum_from dEK i (j + 1 - i) /\
       ea * inject_Z (Z.of_nat (j + 1 - i)) == sum_from dEA i (j + 1 - i)).
Proof.
  intros k x y l dE dEK dEA tmin tmax delta_t c times H L1 L2 L3.
  destruct (argmin_some x (y :: l) tmin) as [i Hi]. destruct (argmin_some x (y :: l) tmax) as [j Hj].
  assert (Ni := argmin_spec _ _ _ Hi). assert (Nj := argmin_spec _ _ _ Hj).
  exists i, j. split; [exact Ni|]. split; [exact Nj|]. intros Hij.
  assert (J := nearest_lt _ _ _ Nj). destruct (delta_ok x y l delta_t H) as [d D].
  destruct (mean_slice i j dE Hij) as [e [E1 E2]]; [unfold times in *; lia|].
  destruct (mean_slice i j dEK Hij) as [ek [K1 K2]]; [unfold times in *; lia|].
  destruct (mean_slice i j dEA Hij) as [ea [A1 A2]]; [unfold times in *; lia|].
  exists e, ek, ea. split; [|split; [exact E2 | split; [exact K2 | exact A2]]].
  unfold plot2d, load2d_means, times. rewrite D, Hi, Hj, E1, K1, A1. reflexivity.
Qed.

(** the black curve is the sum of the red and blue ones when the saved energies are *)
Theorem c293_total : forall k x y l dE dEK dEA tmin tmax delta_t c e ek ea, let times := x :: y :: l in
  ~ last (y :: l) x == x ->
  List.length dE = List.length times -> List.length dEK = List.length times -> List.length dEA = List.length times ->
  (forall j, nth j dE 0 == nth j dEK 0 + nth j dEA 0) ->
  plot2d k times dE dEK dEA tmin tmax delta_t c = inl (mkC (Some e) (Some ek) (Some ea)) -> e == ek + ea.
Proof.
  intros k x y l dE dEK dEA tmin tmax delta_t c e ek ea times H L1 L2 L3 Hs P.
  destruct (c293_means_partial k x y l dE dEK dEA tmin tmax delta_t c H L1 L2 L3) as [i [j [Ni [Nj M]]]].
  destruct (Nat.le_gt_cases i j) as [G | G].
  - destruct (M G) as [e' [ek' [ea' [Q' [A [B C]]]]]]. fold times in Q'. rewrite P in Q'. inversion Q'; subst e' ek' ea'.
    rewrite (sum_from_add dEK dEA dE _ _ Hs), <- B, <- C in A.
    assert (Pos : 0 < inject_Z (Z.of_nat (j + 1 - i))). { change 0 with (inject_Z 0). rewrite <- Zlt_Qlt. lia. }
    rewrite <- Qmult_plus_distr_l in A. apply Qmult_inj_r in A; [exact A | lra].
  - exfalso. unfold plot2d, load2d_means, times in P. destruct (delta_ok x y l delta_t H) as [d D]. rewrite D in P.
    destruct (argmin_some x (y :: l) tmin) as [i' Hi]. destruct (argmin_some x (y :: l) tmax) as [j' Hj]. rewrite Hi, Hj in P.
    assert (U : forall t a b, first_nearest (x :: y :: l) t a -> first_nearest (x :: y :: l) t b -> a = b).
    { intros t a b [u [Hu [Mu Fu]]] [v [Hv [Mv Fv]]]. destruct (Nat.lt_trichotomy a b) as [T | [T | T]]; [|exact T|].
      - assert (W := Fv a u T Hu). assert (W' := Mu b v Hv). lra.
      - assert (W := Fu b v T Hv). assert (W' := Mv a u Hu). lra. }
    rewrite (U tmin i' i (argmin_spec _ _ _ Hi) Ni), (U tmax j' j (argmin_spec _ _ _ Hj) Nj) in P.
    assert (Z : slice i j dE = []). { unfold slice. apply skipn_all2. rewrite firstn_length. lia. }
    rewrite Z in P. discriminate P.
Qed.

(** delta_t does not change the curves *)
Theorem c293_delta_t : forall k x y l dE dEK dEA tmin tmax d1 d2 c, ~ last (y :: l) x == x ->
  plot2d k (x :: y :: l) dE dEK dEA tmin tmax d1 c = plot2d k (x :: y :: l) dE dEK dEA tmin tmax d2 c.
Proof.
  intros k x y l dE dEK dEA tmin tmax d1 d2 c H. unfold plot2d, load2d_means.
  destruct (delta_ok x y l d1 H) as [a A]. destruct (delta_ok x y l d2 H) as [b B]. rewrite A, B. reflexivity.
Qed.

(** the curves are not compensated *)
Theorem c293_compensated_refuted : exists k times d e, 
  plot2d k times d d d 0 1 2 0 = inl (mkC (Some e) (Some e) (Some e)) /\
  plot2d k times d d d 0 1 2 3 = inl (mkC (Some e) (Some e) (Some e)) /\ ~ e * k * k * k == e.
Proof.
  exists 2, [0; 1], [1; 1]. eexists. split; [reflexivity|]. split; [reflexivity|]. intros H. vm_compute in H. discriminate H.
Qed.

(** a file with one record is an error *)
Theorem c293_one_record_refuted : exists times d, List.length times = List.length d /\ times <> [] /\
  forall k tmin tmax delta_t c, plot2d k times d d d tmin tmax delta_t c = inr ValueErr.
Proof. exists [1], [1]. split; [reflexivity|]. split; [discriminate|]. reflexivity. Qed.

Example c293_example : ~ last [1; 2] 0 == 0 /\
  exists e, plot2d 1 [0; 1; 2] [1; 2; 6] [1; 1; 3] [0; 1; 3] (9 # 10) 1000 2 3 = inl e /\ exists v, E e = Some v /\ v == 4.
Proof.
  split; [intros H; vm_compute in H; discriminate H|]. eexists. split; [reflexivity|]. eexists. split; [reflexivity|]. vm_compute. reflexivity.
Qed.

Print Assumptions c293_means_partial.
Print Assumptions c293_total.
Print Assumptions c293_delta_t.
Print Assumptions c293_compensated_refuted.
Print Assumptions c293_one_record_refuted.
