(** Theorems on the pdf and the increments (C125-C129) *)

From Coq Require Import Reals List Arith ZArith Bool Lra Lia Permutation.
From Verif Require Import Incr_Model.
Import ListNotations.
Local Open Scope R_scope.

(** ** Specification *)

(** x is in the bin number i of the edges e_0 < ... < e_nb: [e_i, e_(i+1)[, the last bin is closed *)
Definition in_bin (e : nat -> R) (nb i : nat) (x : R) : bool :=
  (if Rle_dec (e i) x then true else false)
  && (if (S i =? nb)%nat then (if Rle_dec x (e nb) then true else false)
      else (if Rlt_dec x (e (S i)) then true else false)).

(** fraction of the values which satisfy P *)
Definition fraction (P : R -> bool) (l : list R) : R := INR (length (filter P l)) / INR (length l).

(** regular edges around all the values *)
Definition covers (e : nat -> R) (nb : nat) (w : R) (l : list R) : Prop :=
  0 < w /\ (forall i, e (S i) - e i = w) /\ forall x, In x l -> e O <= x <= e nb.

(** mean of a power of the values *)
Definition moment (n : nat) (l : list R) : R := mean (map (fun x => x ^ n) l).

(** ** Sums *)

Lemma sum_list_app a b : sum_list (a ++ b) = sum_list a + sum_list b.
Proof. induction a as [|x a IH]; unfold sum_list in *; cbn; [lra|rewrite IH; ring]. Qed.

Lemma sumR_S n f : sumR (S n) f = sumR n f + f n.
Proof.
  unfold sumR. rewrite seq_S, map_app. change (fold_right Rplus 0) with sum_list. rewrite sum_list_app. unfold sum_list at 2. cbn. lra.
Qed.

Lemma sumR_ext n f g : (forall i, (i < n)%nat -> f i = g i) -> sumR n f = sumR n g.
Proof. induction n as [|n IH]; intros H; [reflexivity|]. rewrite !sumR_S, IH, H; auto. Qed.

Lemma sumR_plus n f g : sumR n (fun i => f i + g i) = sumR n f + sumR n g.
Proof. induction n as [|n IH]; [unfold sumR; cbn; lra|]. rewrite !sumR_S, IH. ring. Qed.

Lemma sumR_scal n c f : sumR n (fun i => c * f i) = c * sumR n f.
Proof. induction n as [|n IH]; [unfold sumR; cbn; lra|]. rewrite !sumR_S, IH. ring. Qed.

Lemma sumR_zero n : sumR n (fun _ => 0) = 0.
Proof. induction n as [|n IH]; [reflexivity|]. rewrite sumR_S, IH. lra. Qed.

(** sum of a family with only one nonzero term *)
Lemma sumR_point n f k : (k < n)%nat -> sumR n (fun i => if (k =? i)%nat then f i else 0) = f k.
Proof.
  induction n as [|n IH]; intros H; [lia|]. rewrite sumR_S. destruct (Nat.eqb_spec k n) as [->|N].
  - rewrite (sumR_ext n _ (fun _ => 0)), sumR_zero; [lra|]. intros i Hi. destruct (Nat.eqb_spec n i); [lia|reflexivity].
  - rewrite IH by lia. lra.
Qed.

(** values sorted in bins *)
Lemma sumR_count n (ind : R -> nat) (f : nat -> R) l : (forall x, In x l -> (ind x < n)%nat) ->
  sumR n (fun i => INR (length (filter (fun x => (ind x =? i)%nat) l)) * f i) = sum_list (map (fun x => f (ind x)) l).
Proof.
  induction l as [|x l IH]; intros H.
  - rewrite (sumR_ext n _ (fun _ => 0)); [apply sumR_zero|]. intros; cbn; ring.
  - cbn [map]. change (sum_list (f (ind x) :: map (fun x => f (ind x)) l)) with (f (ind x) + sum_list (map (fun x => f (ind x)) l)).
    rewrite <- IH by (intros; apply H; right; assumption).
    rewrite <- (sumR_point n f (ind x)) by (apply H; left; reflexivity). rewrite <- sumR_plus. apply sumR_ext. intros i Hi.
    cbn [filter]. destruct (Nat.eqb_spec (ind x) i); [cbn [length]; rewrite S_INR|]; ring.
Qed.

Lemma sum_list_const c (l : list R) : sum_list (map (fun _ => c) l) = INR (length l) * c.
Proof.
  induction l as [|x l IH]; [unfold sum_list; cbn; lra|]. cbn [map length]. rewrite S_INR.
  change (c + sum_list (map (fun _ => c) l) = (INR (length l) + 1) * c). rewrite IH. ring.
Qed.

(** ** Histograms *)

Lemma Int_part_unique x z : IZR z <= x < IZR z + 1 -> Int_part x = z.
Proof.
  intros H. destruct (base_Int_part x) as [A B].
  assert (Int_part x < z + 1)%Z by (apply lt_IZR; rewrite plus_IZR; lra).
  assert (z < Int_part x + 1)%Z by (apply lt_IZR; rewrite plus_IZR; lra). lia.
Qed.

Lemma edge_le first last nb i x : first < last -> (0 < nb)%nat ->
  bin_edge first last nb i <= x <-> INR i <= (x - first) * INR nb / (last - first).
Proof.
  intros H N. apply lt_INR in N. cbn in N. unfold bin_edge.
  set (y := (x - first) * INR nb / (last - first)). assert (E : x = first + y * ((last - first) / INR nb)) by (unfold y; field; split; lra).
  rewrite E. assert (P : 0 < (last - first) / INR nb) by (apply Rdiv_lt_0_compat; lra).
  set (w := (last - first) / INR nb) in *. split; intros Q; nra.
Qed.

Lemma edge_lt first last nb i x : first < last -> (0 < nb)%nat ->
  x < bin_edge first last nb i <-> (x - first) * INR nb / (last - first) < INR i.
Proof.
  intros H N. pose proof (edge_le first last nb i x H N) as E. split; intros Q.
  - apply Rnot_le_lt. intros K. apply E in K. lra.
  - apply Rnot_le_lt. intros K. apply E in K. lra.
Qed.

Lemma bin_index_spec first last nb x i : first < last -> (0 < nb)%nat -> first <= x <= last -> (i < nb)%nat ->
  (bin_index first last nb x =? i)%nat = in_bin (bin_edge first last nb) nb i x.
Proof.
  intros H N Hx Hi. assert (N' := lt_INR _ _ N). cbn in N'.
  set (y := (x - first) * INR nb / (last - first)).
  assert (E : x = first + y * ((last - first) / INR nb)) by (unfold y; field; split; lra).
  assert (P : 0 < (last - first) / INR nb) by (apply Rdiv_lt_0_compat; lra).
  assert (El : last = first + INR nb * ((last - first) / INR nb)) by (field; lra).
  set (w := (last - first) / INR nb) in *.
  assert (Y0 : 0 <= y) by nra. assert (Y1 : y <= INR nb) by nra.
  assert (Z0 : (0 <= Int_part y)%Z). { destruct (base_Int_part y). apply le_IZR. assert (-1 < Int_part y)%Z by (apply lt_IZR; lra). apply IZR_le. lia. }
  unfold in_bin, bin_index. fold y.
  assert (A : (if Rle_dec (bin_edge first last nb i) x then true else false) = (if Rle_dec (INR i) y then true else false)).
  { pose proof (edge_le first last nb i x H N) as Q. fold y in Q. destruct (Rle_dec (bin_edge first last nb i) x), (Rle_dec (INR i) y); tauto. }
  rewrite A. clear A.
  assert (B : (if Rlt_dec x (bin_edge first last nb (S i)) then true else false) = (if Rlt_dec y (INR (S i)) then true else false)).
  { pose proof (edge_lt first last nb (S i) x H N) as Q. fold y in Q. destruct (Rlt_dec x (bin_edge first last nb (S i))), (Rlt_dec y (INR (S i))); tauto. }
  rewrite B. clear B.
  assert (L : bin_edge first last nb nb = last) by (unfold bin_edge; field; lra). rewrite L.
  destruct (base_Int_part y) as [I1 I2].
  assert (K : Int_part y = Z.of_nat (Z.to_nat (Int_part y))) by lia. set (k := Z.to_nat (Int_part y)) in *.
  rewrite K in I1, I2. rewrite <- INR_IZR_INZ in I1, I2.
  assert (Kn : (k <= nb)%nat) by (apply INR_le; lra).
  rewrite S_INR.
  destruct (Rle_dec x last) as [_|W]; [|lra].
  assert (D : forall j : nat, INR j <= y -> (j <= k)%nat).
  { intros j Hj. apply Nat.lt_succ_r. apply INR_lt. rewrite S_INR. lra. }
  assert (D' : forall j : nat, y < INR j -> (k < j)%nat) by (intros j Hj; apply INR_lt; lra).
  destruct (Nat.eqb_spec k nb) as [Ek|Ek].
  - destruct (Nat.eqb_spec (S i) nb) as [Ei|Ei].
    + destruct (Nat.eqb_spec (nb - 1) i); [|lia]. destruct (Rle_dec (INR i) y) as [_|W]; [reflexivity|].
      exfalso. apply W. assert (INR nb = INR i + 1) by (rewrite <- Ei; apply S_INR). rewrite Ek in I1. lra.
    + destruct (Nat.eqb_spec (nb - 1) i); [lia|]. destruct (Rlt_dec y (INR i + 1)) as [W|W]; [|rewrite andb_false_r; reflexivity].
      exfalso. rewrite <- S_INR in W. apply D' in W. lia.
  - destruct (Nat.eqb_spec k i) as [->|Nk].
    + destruct (Rle_dec (INR i) y) as [_|W]; [|lra]. destruct (Nat.eqb_spec (S i) nb); [reflexivity|].
      destruct (Rlt_dec y (INR i + 1)) as [_|W]; [reflexivity|lra].
    + destruct (Rle_dec (INR i) y) as [W|W]; [|reflexivity]. apply D in W. rewrite andb_true_l.
      destruct (Nat.eqb_spec (S i) nb) as [Ei|Ei]; [lia|]. destruct (Rlt_dec y (INR i + 1)) as [W'|W']; [|reflexivity].
      rewrite <- S_INR in W'. apply D' in W'. lia.
Qed.

Lemma bin_index_lt first last nb x : first < last -> (0 < nb)%nat -> first <= x <= last -> (bin_index first last nb x < nb)%nat.
Proof.
  intros H N Hx. assert (N' := lt_INR _ _ N). cbn in N'. unfold bin_index.
  set (y := (x - first) * INR nb / (last - first)).
  assert (E : x = first + y * ((last - first) / INR nb)) by (unfold y; field; split; lra).
  assert (P : 0 < (last - first) / INR nb) by (apply Rdiv_lt_0_compat; lra).
  assert (El : last = first + INR nb * ((last - first) / INR nb)) by (field; lra).
  set (w := (last - first) / INR nb) in *. assert (Y1 : y <= INR nb) by nra.
  destruct (base_Int_part y) as [I1 _]. destruct (Nat.eqb_spec (Z.to_nat (Int_part y)) nb) as [|K]; [lia|].
  assert (Int_part y <= Z.of_nat nb)%Z by (apply le_IZR; rewrite <- INR_IZR_INZ; lra). lia.
Qed.

(** ** Minima and maxima *)

Lemma fold_max_ge r x : x <= fold_left Rmax r x /\ forall y, In y r -> y <= fold_left Rmax r x.
Proof.
  revert x. induction r as [|a r IH]; intros x; cbn; [split; [lra|contradiction]|].
  destruct (IH (Rmax x a)) as [A B]. pose proof (Rmax_l x a). pose proof (Rmax_r x a). split; [lra|].
  intros y [<-|Hy]; [lra|apply B; exact Hy].
Qed.

Lemma fold_max_in r x : In (fold_left Rmax r x) (x :: r).
Proof.
  revert x. induction r as [|a r IH]; intros x; cbn; [left; reflexivity|].
  destruct (IH (Rmax x a)) as [E|E]; [|right; right; exact E]. rewrite <- E. unfold Rmax. destruct (Rle_dec x a); auto.
Qed.

Lemma fold_min_le r x : fold_left Rmin r x <= x /\ forall y, In y r -> fold_left Rmin r x <= y.
Proof.
  revert x. induction r as [|a r IH]; intros x; cbn; [split; [lra|contradiction]|].
  destruct (IH (Rmin x a)) as [A B]. pose proof (Rmin_l x a). pose proof (Rmin_r x a). split; [lra|].
  intros y [<-|Hy]; [lra|apply B; exact Hy].
Qed.

Lemma fold_min_in r x : In (fold_left Rmin r x) (x :: r).
Proof.
  revert x. induction r as [|a r IH]; intros x; cbn; [left; reflexivity|].
  destruct (IH (Rmin x a)) as [E|E]; [|right; right; exact E]. rewrite <- E. unfold Rmin. destruct (Rle_dec x a); auto.
Qed.

Lemma reduce_max l : l <> [] -> In (reduce Rmax l) l /\ forall x, In x l -> x <= reduce Rmax l.
Proof.
  destruct l as [|a r]; [contradiction|]. intros _. split; [apply fold_max_in|]. destruct (fold_max_ge r a) as [A B].
  intros x [<-|Hx]; [exact A|apply B; exact Hx].
Qed.

Lemma reduce_min l : l <> [] -> In (reduce Rmin l) l /\ forall x, In x l -> reduce Rmin l <= x.
Proof.
  destruct l as [|a r]; [contradiction|]. intros _. split; [apply fold_min_in|]. destruct (fold_min_le r a) as [A B].
  intros x [<-|Hx]; [exact A|apply B; exact Hx].
Qed.

(** the processes have at least one point *)
Definition distributed (field : list (list R)) : Prop := field <> [] /\ forall f, In f field -> f <> [].

Lemma global_max field : distributed field ->
  In (reduce Rmax (map (reduce Rmax) field)) (concat field) /\ forall x, In x (concat field) -> x <= reduce Rmax (map (reduce Rmax) field).
Proof.
  intros [N E]. destruct (reduce_max (map (reduce Rmax) field)) as [A B]; [destruct field; [contradiction|discriminate]|].
  split.
  - apply in_map_iff in A. destruct A as (f & <- & Hf). apply in_concat. exists f. split; [exact Hf|].
    apply reduce_max, E, Hf.
  - intros x Hx. apply in_concat in Hx. destruct Hx as (f & Hf & Hx). apply Rle_trans with (reduce Rmax f).
    + apply reduce_max; [apply E; exact Hf|exact Hx].
    + apply B, in_map, Hf.
Qed.

Lemma global_min field : distributed field ->
  In (reduce Rmin (map (reduce Rmin) field)) (concat field) /\ forall x, In x (concat field) -> reduce Rmin (map (reduce Rmin) field) <= x.
Proof.
  intros [N E]. destruct (reduce_min (map (reduce Rmin) field)) as [A B]; [destruct field; [contradiction|discriminate]|].
  split.
  - apply in_map_iff in A. destruct A as (f & <- & Hf). apply in_concat. exists f. split; [exact Hf|].
    apply reduce_min, E, Hf.
  - intros x Hx. apply in_concat in Hx. destruct Hx as (f & Hf & Hx). apply Rle_trans with (reduce Rmin f).
    + apply B, in_map, Hf.
    + apply reduce_min; [apply E; exact Hf|exact Hx].
Qed.

Lemma distributed_concat field : distributed field -> concat field <> [].
Proof. intros D E. destruct (global_max field D) as [A _]. rewrite E in A. exact A. Qed.

Lemma distributed_one l : l <> [] -> distributed [l].
Proof. intros H. split; [discriminate|]. intros f [<-|[]]. exact H. Qed.

Lemma outer_edges_spec field : distributed field ->
  let '(first, last) := outer_edges (reduce Rmin (map (reduce Rmin) field)) (reduce Rmax (map (reduce Rmax) field)) in
  first < last /\ forall x, In x (concat field) -> first <= x <= last.
Proof.
  intros D. destruct (global_max field D) as [A1 A2]. destruct (global_min field D) as [B1 B2].
  set (hi := reduce Rmax _) in *. set (lo := reduce Rmin _) in *. unfold outer_edges.
  pose proof (A2 lo B1). destruct (Req_EM_T lo hi) as [E|E].
  - split; [lra|]. intros x Hx. pose proof (A2 x Hx). pose proof (B2 x Hx). lra.
  - split; [lra|]. intros x Hx. split; [apply B2|apply A2]; exact Hx.
Qed.

Lemma extrema_concat field : distributed field ->
  reduce Rmax (map (reduce Rmax) field) = reduce Rmax (map (reduce Rmax) [concat field])
  /\ reduce Rmin (map (reduce Rmin) field) = reduce Rmin (map (reduce Rmin) [concat field]).
Proof.
  intros D. pose proof (distributed_one _ (distributed_concat field D)) as D1.
  destruct (global_max field D) as [A1 A2]. destruct (global_max _ D1) as [A3 A4].
  destruct (global_min field D) as [B1 B2]. destruct (global_min _ D1) as [B3 B4].
  assert (F : concat [concat field] = concat field) by (cbn; apply app_nil_r). rewrite F in *.
  split; apply Rle_antisym; auto.
Qed.

Lemma histogram_concat first last nb i field :
  fold_right Nat.add 0%nat (map (fun f => histogram first last nb f i) field) = histogram first last nb (concat field) i.
Proof.
  induction field as [|f field IH]; [reflexivity|]. cbn [map fold_right concat]. rewrite IH. unfold histogram. rewrite filter_app, app_length. reflexivity.
Qed.

(** the two branches compute the same *)
Lemma pdf_branches field nb : distributed field -> (0 < nb)%nat ->
  let '(first, last) := outer_edges (reduce Rmin (map (reduce Rmin) field)) (reduce Rmax (map (reduce Rmax) field)) in
  (forall i, snd (pdf_normalized field nb) i = bin_edge first last nb i)
  /\ forall i, fst (pdf_normalized field nb) i
     = INR (histogram first last nb (concat field) i) / ((last - first) / INR nb * INR (length (concat field))).
Proof.
  intros D N. pose proof (outer_edges_spec field D) as O. unfold pdf_normalized.
  destruct (outer_edges _ _) as [first last]. destruct O as [O1 O2].
  assert (N' := lt_INR _ _ N). cbn in N'.
  assert (T : sumR nb (fun i => INR (histogram first last nb (concat field) i)) = INR (length (concat field))).
  { unfold histogram. rewrite (sumR_ext nb _ (fun i => INR (length (filter (fun x => (bin_index first last nb x =? i)%nat) (concat field))) * 1)) by (intros; ring).
    rewrite (sumR_count nb (bin_index first last nb) (fun _ => 1)) by (intros x Hx; apply bin_index_lt; auto).
    rewrite sum_list_const. ring. }
  assert (L : INR (length (concat field)) <> 0).
  { apply not_0_INR. pose proof (distributed_concat field D). destruct (concat field); [contradiction|discriminate]. }
  assert (W : forall i, bin_edge first last nb (S i) - bin_edge first last nb i = (last - first) / INR nb).
  { intros i. unfold bin_edge. rewrite S_INR. ring. }
  assert (P : (last - first) / INR nb <> 0) by (assert (0 < (last - first) / INR nb) by (apply Rdiv_lt_0_compat; lra); lra).
  destruct field as [|f [|f' r]]; [destruct D; contradiction| |].
  - cbn [fst snd]. split; [reflexivity|]. intros i. assert (F : concat [f] = f) by (cbn; apply app_nil_r).
    rewrite F in *. rewrite T, W. field. repeat split; lra.
  - cbn [fst snd]. split; [reflexivity|]. intros i. rewrite histogram_concat.
    rewrite (sumR_ext nb _ (fun j => INR (histogram first last nb (concat (f :: f' :: r)) j))) by (intros; rewrite histogram_concat; reflexivity).
    rewrite T, W. reflexivity.
Qed.

Lemma edge_last first last nb : (0 < nb)%nat -> bin_edge first last nb nb = last.
Proof. intros N. apply lt_INR in N. cbn in N. unfold bin_edge. field. lra. Qed.

Lemma edge_first first last nb : bin_edge first last nb 0 = first.
Proof. unfold bin_edge. cbn. ring. Qed.

Lemma edge_step first last nb i : bin_edge first last nb (S i) - bin_edge first last nb i = (last - first) / INR nb.
Proof. unfold bin_edge. rewrite S_INR. ring. Qed.

Lemma covers_pdf field nb : distributed field -> (0 < nb)%nat ->
  covers (snd (pdf_normalized field nb)) nb ((snd (pdf_normalized field nb) nb - snd (pdf_normalized field nb) O) / INR nb) (concat field).
Proof.
  intros D N. pose proof (pdf_branches field nb D N) as B. pose proof (outer_edges_spec field D) as O.
  destruct (outer_edges _ _) as [first last]. destruct O as [O1 O2], B as [B1 _].
  assert (N' := lt_INR _ _ N). cbn in N'.
  split; [|split].
  - rewrite !B1, edge_last, edge_first by exact N. apply Rdiv_lt_0_compat; lra.
  - intros i. rewrite !B1, edge_last, edge_first, edge_step by exact N. reflexivity.
  - intros x Hx. rewrite !B1, edge_last, edge_first by exact N. apply O2, Hx.
Qed.

(** ** C125: pdf_normalized *)

(** the edges are regular and around all the values; the pdf times the width is the fraction of the values of
    each bin and its integral is 1 *)
Theorem c125_density : forall (field : list (list R)) (nb : nat), distributed field -> (0 < nb)%nat ->
  let pdf := fst (pdf_normalized field nb) in let e := snd (pdf_normalized field nb) in
  exists w, covers e nb w (concat field)
  /\ (forall i, (i < nb)%nat -> pdf i * w = fraction (in_bin e nb i) (concat field))
  /\ sumR nb (fun i => pdf i * w) = 1.
Proof.
  intros field nb D N pdf e. exists ((e nb - e O) / INR nb). split; [apply covers_pdf; assumption|].
  subst pdf e. pose proof (pdf_branches field nb D N) as B. pose proof (outer_edges_spec field D) as O.
  destruct (outer_edges _ _) as [first last]. destruct O as [O1 O2], B as [B1 B2].
  assert (N' := lt_INR _ _ N). cbn in N'.
  assert (L : INR (length (concat field)) <> 0).
  { apply not_0_INR. pose proof (distributed_concat field D). destruct (concat field); [contradiction|discriminate]. }
  assert (P : 0 < (last - first) / INR nb) by (apply Rdiv_lt_0_compat; lra).
  assert (E : forall i, fst (pdf_normalized field nb) i * ((snd (pdf_normalized field nb) nb - snd (pdf_normalized field nb) O) / INR nb)
    = INR (histogram first last nb (concat field) i) / INR (length (concat field))).
  { intros i. rewrite B2, !B1, edge_last, edge_first by exact N. field. repeat split; lra. }
  split.
  - intros i Hi. rewrite E. unfold fraction, histogram. f_equal. f_equal. f_equal. apply filter_ext_in. intros x Hx.
    rewrite bin_index_spec by auto. unfold in_bin. rewrite !B1. reflexivity.
  - rewrite (sumR_ext nb _ (fun i => / INR (length (concat field)) * INR (histogram first last nb (concat field) i)))
      by (intros; rewrite E; field; exact L).
    rewrite sumR_scal. unfold histogram.
    rewrite (sumR_ext nb _ (fun i => INR (length (filter (fun x => (bin_index first last nb x =? i)%nat) (concat field))) * 1)) by (intros; ring).
    rewrite (sumR_count nb (bin_index first last nb) (fun _ => 1)) by (intros x Hx; apply bin_index_lt; auto).
    rewrite sum_list_const. field. exact L.
Qed.

(** the number of processes does not matter *)
Theorem c125_processes : forall (field : list (list R)) (nb : nat), distributed field -> (0 < nb)%nat ->
  forall i, fst (pdf_normalized field nb) i = fst (pdf_normalized [concat field] nb) i
  /\ snd (pdf_normalized field nb) i = snd (pdf_normalized [concat field] nb) i.
Proof.
  intros field nb D N i. pose proof (distributed_one _ (distributed_concat field D)) as D1.
  pose proof (pdf_branches field nb D N) as B. pose proof (pdf_branches _ nb D1 N) as B1.
  destruct (extrema_concat field D) as [E1 E2]. rewrite <- E1, <- E2 in B1.
  destruct (outer_edges _ _) as [first last]. destruct B as [B2 B3], B1 as [B4 B5].
  assert (F : concat [concat field] = concat field) by (cbn; apply app_nil_r). rewrite F in B5.
  rewrite B2, B3, B4, B5. split; reflexivity.
Qed.

(** the range is the one of the values, unless they are all equal *)
Theorem c125_range : forall (field : list (list R)) (nb : nat), distributed field -> (0 < nb)%nat ->
  let e := snd (pdf_normalized field nb) in
  (In (e O) (concat field) /\ In (e nb) (concat field))
  \/ exists x, (forall y, In y (concat field) -> y = x) /\ e O = x - / 2 /\ e nb = x + / 2.
Proof.
  intros field nb D N e. subst e. pose proof (pdf_branches field nb D N) as B.
  destruct (global_max field D) as [A1 A2]. destruct (global_min field D) as [C1 C2].
  unfold outer_edges in B. destruct (Req_EM_T _ _) as [E|E]; destruct B as [B _]; rewrite !B, edge_last, edge_first by exact N.
  - right. exists (reduce Rmin (map (reduce Rmin) field)). split; [|split; [reflexivity|rewrite <- E; reflexivity]].
    intros y Hy. apply Rle_antisym; [rewrite E; apply A2; exact Hy|apply C2; exact Hy].
  - left. split; assumption.
Qed.

Example c125_example : distributed [[0; 1]; [3]] /\ fst (pdf_normalized [[0; 1]; [3]] 1) O = / 3.
Proof.
  assert (D : distributed [[0; 1]; [3]]) by (split; [discriminate|intros f [<-|[<-|[]]]; discriminate]).
  split; [exact D|]. destruct (c125_density _ 1 D ltac:(lia)) as (w & (W0 & W1 & W2) & W3 & W4).
  specialize (W1 O). destruct (c125_range _ 1 D ltac:(lia)) as [[R1 R2]|(x & R1 & _)].
  - pose proof (W2 0 ltac:(cbn; tauto)). pose proof (W2 3 ltac:(cbn; tauto)).
    cbn [concat app In] in R1, R2.
    assert (snd (pdf_normalized [[0; 1]; [3]] 1) O = 0) by (destruct R1 as [R|[R|[R|[]]]]; lra).
    assert (snd (pdf_normalized [[0; 1]; [3]] 1) 1%nat = 3) by (destruct R2 as [R|[R|[R|[]]]]; lra).
    rewrite sumR_S in W4. unfold sumR in W4. cbn [seq map fold_right] in W4.
    set (v := fst (pdf_normalized [[0; 1]; [3]] 1) O) in *. clearbody v.
    assert (Ew : w = 3) by (rewrite <- W1, H1, H2; ring). rewrite Ew in W4. lra.
  - pose proof (R1 0 ltac:(cbn; tauto)). pose proof (R1 3 ltac:(cbn; tauto)). lra.
Qed.

(** ** C126: the separations *)

Lemma np_round_near x : Rabs (IZR (np_round x) - x) <= / 2.
Proof.
  unfold np_round. destruct (base_Int_part x) as [A B]. apply Rabs_le.
  destruct (Rlt_dec (x - IZR (Int_part x)) (/ 2)); [lra|].
  destruct (Rlt_dec (/ 2) (x - IZR (Int_part x))); [rewrite plus_IZR; lra|].
  destruct (Z.even _); [|rewrite plus_IZR]; lra.
Qed.

Lemma np_round_int z : np_round (IZR z) = z.
Proof.
  pose proof (np_round_near (IZR z)) as H. rewrite <- minus_IZR, <- abs_IZR in H.
  assert (Z.abs (np_round (IZR z) - z) < 1)%Z by (apply lt_IZR; lra). lia.
Qed.

(** the exponential is below its chord *)
Lemma exp_chord L t : 0 <= t <= 1 -> exp (L * t) <= t * exp L + (1 - t).
Proof.
  intros H. pose proof (exp_ineq1_le (L - L * t)) as A. pose proof (exp_ineq1_le (0 - L * t)) as B.
  pose proof (exp_pos (L * t)) as P.
  assert (A' : exp (L * t) * (1 + (L - L * t)) <= exp L).
  { replace (exp L) with (exp (L * t) * exp (L - L * t)) by (rewrite <- exp_plus; f_equal; ring). apply Rmult_le_compat_l; lra. }
  assert (B' : exp (L * t) * (1 + (0 - L * t)) <= 1).
  { replace 1 with (exp (L * t) * exp (0 - L * t)) at 2 by (rewrite <- exp_plus; replace (L * t + (0 - L * t)) with 0 by ring; apply exp_0). apply Rmult_le_compat_l; lra. }
  assert (t * (exp (L * t) * (1 + (L - L * t))) <= t * exp L) by (apply Rmult_le_compat_l; lra).
  assert ((1 - t) * (exp (L * t) * (1 + (0 - L * t))) <= (1 - t) * 1) by (apply Rmult_le_compat_l; lra). nra.
Qed.

Section RxsProofs.
Variable nx : nat.
Hypothesis Hnx : (4 <= nx)%nat.

Lemma nrx_half : nrx nx = (nx / 2)%nat.
Proof.
  unfold nrx. apply Nat.max_r. apply Nat.le_trans with (nx / 16)%nat; [apply Nat.le_min_l|].
  apply Nat.div_le_compat_l. lia.
Qed.

Lemma nrx_ge : (2 <= nrx nx)%nat.
Proof. rewrite nrx_half. apply Nat.div_le_lower_bound; [discriminate|]. exact Hnx. Qed.

Lemma rmax_ge : (nrx nx <= rmax nx)%nat.
Proof.
  rewrite nrx_half. unfold rmax. apply Nat.div_le_lower_bound; [discriminate|].
  pose proof (Nat.mul_div_le nx 2 ltac:(discriminate)). lia.
Qed.

Lemma log_value i : exp (ln (INR rmin) + delta_logr nx * INR i) = exp (ln (INR (rmax nx)) * (INR i / INR (nrx nx - 1))).
Proof.
  pose proof nrx_ge. assert (P : 0 < INR (nrx nx - 1)) by (apply lt_0_INR; lia).
  f_equal. unfold delta_logr, rmin. cbn [INR]. rewrite ln_1. replace (INR (rmax nx) / 1) with (INR (rmax nx)) by lra. field. lra.
Qed.

Lemma rxs_log_bound i : (i <= nrx nx - 1)%nat -> (rxs_log nx i + Z.of_nat (nrx nx - 1 - i) <= Z.of_nat (rmax nx))%Z.
Proof.
  intros Hi. pose proof nrx_ge as N. pose proof rmax_ge as M.
  assert (P : 0 < INR (nrx nx - 1)) by (apply lt_0_INR; lia).
  assert (R0 : 0 < INR (rmax nx)) by (apply lt_0_INR; lia).
  pose proof (np_round_near (exp (ln (INR rmin) + delta_logr nx * INR i))) as Q. fold (rxs_log nx i) in Q. rewrite log_value in Q.
  set (t := INR i / INR (nrx nx - 1)) in Q.
  assert (T : 0 <= t <= 1).
  { unfold t. split; [apply Rmult_le_pos; [apply pos_INR|left; apply Rinv_0_lt_compat; exact P]|].
    apply Rmult_le_reg_r with (INR (nrx nx - 1)); [exact P|]. unfold Rdiv. rewrite Rmult_assoc, Rinv_l, Rmult_1_r, Rmult_1_l by lra.
    apply le_INR. exact Hi. }
  pose proof (exp_chord (ln (INR (rmax nx))) t T) as C. rewrite exp_ln in C by exact R0.
  assert (Et : t * INR (nrx nx - 1) = INR i) by (unfold t; field; lra).
  assert (En : INR (nrx nx - 1 - i) = INR (nrx nx - 1) * (1 - t)) by (rewrite minus_INR by exact Hi; lra).
  assert (Em : INR (nrx nx - 1) + 1 <= INR (rmax nx)) by (rewrite <- S_INR; apply le_INR; lia).
  assert (G : IZR (rxs_log nx i + Z.of_nat (nrx nx - 1 - i)) < IZR (Z.of_nat (rmax nx) + 1)).
  { rewrite !plus_IZR, <- !INR_IZR_INZ, En. apply Rabs_def2 with (a := / 2 + / 4) in Q || idtac.
    pose proof (Rle_abs (IZR (rxs_log nx i) - exp (ln (INR (rmax nx)) * t))). nra. }
  apply lt_IZR in G. lia.
Qed.

Lemma rxs_bound i : (i <= nrx nx - 1)%nat -> (rxs nx i + Z.of_nat (nrx nx - 1 - i) <= Z.of_nat (rmax nx))%Z.
Proof.
  induction i as [|i IH]; intros Hi; [apply rxs_log_bound; exact Hi|].
  cbn [rxs]. destruct (Z.leb_spec (rxs_log nx (S i)) (rxs nx i)); [|apply rxs_log_bound; exact Hi].
  specialize (IH ltac:(lia)). lia.
Qed.

Lemma rxs_ge i : (rxs_log nx i <= rxs nx i)%Z.
Proof. destruct i as [|i]; cbn [rxs]; [lia|]. destruct (Z.leb_spec (rxs_log nx (S i)) (rxs nx i)); lia. Qed.

Lemma rxs_step i : (rxs nx i < rxs nx (S i))%Z.
Proof. cbn [rxs]. destruct (Z.leb_spec (rxs_log nx (S i)) (rxs nx i)); lia. Qed.
End RxsProofs.

(** the separations are strictly increasing from one mesh to 80 % of the length of the rows, so that there are
    increments for each of them *)
Theorem c126_separations : forall nx, (4 <= nx)%nat ->
  nrx nx = (nx / 2)%nat /\ rxs nx 0 = 1%Z /\ rxs nx (nrx nx - 1) = Z.of_nat (8 * nx / 10)
  /\ (forall i j, (i < j)%nat -> (rxs nx i < rxs nx j)%Z)
  /\ (forall i, (i < nrx nx)%nat -> (1 <= rxs nx i <= Z.of_nat (8 * nx / 10))%Z /\ (rxs nx i < Z.of_nat nx)%Z).
Proof.
  intros nx H. assert (M : forall i j, (i < j)%nat -> (rxs nx i < rxs nx j)%Z).
  { intros i j. induction j as [|j IH]; intros L; [lia|]. pose proof (rxs_step nx H j). destruct (Nat.eq_dec i j) as [->|]; [assumption|]. specialize (IH ltac:(lia)). lia. }
  assert (Z0 : rxs nx 0 = 1%Z).
  { cbn. unfold rxs_log. rewrite (log_value nx H). replace (INR 0 / INR (nrx nx - 1)) with 0 by (cbn; lra).
    rewrite Rmult_0_r, exp_0. apply (np_round_int 1). }
  split; [apply nrx_half; exact H|]. split; [exact Z0|]. split; [|split; [exact M|]].
  - pose proof (rxs_bound nx H (nrx nx - 1) ltac:(lia)) as A. pose proof (rxs_ge nx H (nrx nx - 1)) as B.
    assert (C : rxs_log nx (nrx nx - 1) = Z.of_nat (rmax nx)).
    { unfold rxs_log. rewrite (log_value nx H). pose proof (nrx_ge nx H). pose proof (rmax_ge nx H).
      assert (P : 0 < INR (nrx nx - 1)) by (apply lt_0_INR; lia).
      replace (INR (nrx nx - 1) / INR (nrx nx - 1)) with 1 by (field; lra). rewrite Rmult_1_r, exp_ln, INR_IZR_INZ by (apply lt_0_INR; lia).
      apply np_round_int. }
    unfold rmax in *. lia.
  - intros i Hi. pose proof (rxs_bound nx H i ltac:(lia)) as A. unfold rmax in A.
    assert (8 * nx / 10 < nx)%nat by (apply Nat.div_lt_upper_bound; lia).
    assert (1 <= rxs nx i)%Z by (destruct i; [lia|pose proof (M 0%nat (S i) ltac:(lia)); lia]). lia.
Qed.

Example c126_example : rxs 4 0 = 1%Z /\ rxs 4 1 = 3%Z.
Proof.
  destruct (c126_separations 4 ltac:(lia)) as (_ & A & B & _). split; [exact A|].
  assert (E : (8 * 4 / 10)%nat = 3%nat) by reflexivity. rewrite E in B. assert (F : (nrx 4 - 1)%nat = 1%nat) by reflexivity. rewrite F in B. exact B.
Qed.

(** ** C127: the moments computed from the pdf *)

Lemma pow_near M n a b : Rabs a <= M -> Rabs b <= M -> Rabs (a ^ n - b ^ n) <= INR n * M ^ (n - 1) * Rabs (a - b).
Proof.
  intros Ha Hb. assert (M0 : 0 <= M) by (pose proof (Rabs_pos a); lra).
  induction n as [|n IH]; [cbn; rewrite Rminus_eq_0, Rabs_R0; lra|].
  replace (a ^ S n - b ^ S n) with (a * (a ^ n - b ^ n) + (a - b) * b ^ n) by (cbn; ring).
  eapply Rle_trans; [apply Rabs_triang|]. rewrite !Rabs_mult.
  assert (Bn : Rabs (b ^ n) <= M ^ n) by (rewrite <- RPow_abs; apply pow_incr; split; [apply Rabs_pos|exact Hb]).
  pose proof (Rabs_pos (a - b)) as P. pose proof (Rabs_pos (a ^ n - b ^ n)). pose proof (Rabs_pos a).
  rewrite S_INR. replace (S n - 1)%nat with n by lia.
  assert (A1 : Rabs a * Rabs (a ^ n - b ^ n) <= INR n * M ^ n * Rabs (a - b)).
  { destruct n as [|n]; [cbn; rewrite Rminus_eq_0, Rabs_R0; lra|].
    replace (S n - 1)%nat with n in IH by lia.
    apply Rle_trans with (M * (INR (S n) * M ^ n * Rabs (a - b))); [apply Rmult_le_compat; assumption|].
    right. cbn [pow]. ring. }
  assert (A2 : Rabs (a - b) * Rabs (b ^ n) <= Rabs (a - b) * M ^ n) by (apply Rmult_le_compat_l; assumption).
  lra.
Qed.

Lemma sum_list_near (f g : R -> R) l eps : (forall x, In x l -> Rabs (f x - g x) <= eps) ->
  Rabs (sum_list (map f l) - sum_list (map g l)) <= INR (length l) * eps.
Proof.
  induction l as [|x l IH]; intros H.
  - unfold sum_list. cbn. rewrite Rminus_eq_0, Rabs_R0. lra.
  - cbn [map length]. rewrite S_INR. change (sum_list (f x :: map f l)) with (f x + sum_list (map f l)).
    change (sum_list (g x :: map g l)) with (g x + sum_list (map g l)).
    specialize (IH (fun y Hy => H y (or_intror Hy))). specialize (H x (or_introl eq_refl)).
    replace (f x + sum_list (map f l) - (g x + sum_list (map g l))) with ((f x - g x) + (sum_list (map f l) - sum_list (map g l))) by ring.
    eapply Rle_trans; [apply Rabs_triang|]. lra.
Qed.

(** the values are the centres of the bins *)
Lemma values_centre nb lo hi i : (0 < nb)%nat -> compute_values_inc nb lo hi i = bin_edge lo hi nb i + (hi - lo) / INR nb / 2.
Proof. intros N. apply lt_INR in N. cbn in N. unfold compute_values_inc, bin_edge. field. lra. Qed.

Lemma strfunc_moment field nb order (absolute : bool) : distributed field -> (2 <= nb)%nat ->
  let pdf := fst (pdf_normalized field nb) in let e := snd (pdf_normalized field nb) in
  let values := compute_values_inc nb (e O) (e nb) in
  Rabs ((if absolute then Rabs (values 1%nat) else values 1%nat) - (if absolute then Rabs (values O) else values O)) = (e nb - e O) / INR nb ->
  forall M, Rabs (e O) <= M -> Rabs (e nb) <= M ->
  Rabs (strfunc_from_pdf nb pdf values order absolute
        - mean (map (fun x => (if absolute then Rabs x else x) ^ order) (concat field)))
  <= INR order * M ^ (order - 1) * ((e nb - e O) / INR nb) / 2.
Proof.
  intros D N pdf e values Hw M M1 M2. subst pdf e.
  pose proof (pdf_branches field nb D ltac:(lia)) as B. pose proof (outer_edges_spec field D) as O.
  destruct (outer_edges _ _) as [first last]. destruct O as [O1 O2], B as [B1 B2].
  assert (N0 : (0 < nb)%nat) by lia. assert (N' := lt_INR _ _ N0). cbn in N'.
  assert (L0 : (0 < length (concat field))%nat).
  { pose proof (distributed_concat field D). destruct (concat field); [contradiction|cbn; lia]. }
  assert (L : 0 < INR (length (concat field))) by (apply lt_0_INR; exact L0).
  rewrite !B1, !edge_last, !edge_first in * by exact N0.
  set (w := (last - first) / INR nb) in *. assert (P : 0 < w) by (apply Rdiv_lt_0_compat; lra).
  set (val := fun i => if absolute then Rabs (values i) else values i).
  unfold strfunc_from_pdf.
  replace (Rabs ((if absolute then fun i => Rabs (values i) else values) 1%nat - (if absolute then fun i => Rabs (values i) else values) 0%nat)) with w
    by (destruct absolute; symmetry; exact Hw).
  assert (E : w * sumR nb (fun i => fst (pdf_normalized field nb) i * (if absolute then fun j => Rabs (values j) else values) i ^ order)
    = mean (map (fun x => val (bin_index first last nb x) ^ order) (concat field))).
  { rewrite <- sumR_scal. unfold mean. rewrite map_length. rewrite <- (sumR_count nb (bin_index first last nb) (fun i => val i ^ order))
      by (intros x Hx; apply bin_index_lt; auto).
    unfold Rdiv. rewrite Rmult_comm, <- sumR_scal. apply sumR_ext. intros i Hi. rewrite B2. unfold histogram, val. fold w.
    destruct absolute; field; split; lra. }
  rewrite E. unfold mean. rewrite !map_length.
  assert (G : Rabs (sum_list (map (fun x => val (bin_index first last nb x) ^ order) (concat field))
                    - sum_list (map (fun x => (if absolute then Rabs x else x) ^ order) (concat field)))
    <= INR (length (concat field)) * (INR order * M ^ (order - 1) * w / 2)).
  { apply sum_list_near. intros x Hx. destruct (O2 x Hx) as [X1 X2].
    pose proof (bin_index_lt first last nb x O1 N0 (O2 x Hx)) as I.
    pose proof (bin_index_spec first last nb x _ O1 N0 (O2 x Hx) I) as S. rewrite Nat.eqb_refl in S.
    set (i := bin_index first last nb x) in *. symmetry in S. unfold in_bin in S. apply andb_true_iff in S. destruct S as [S1 S2].
    destruct (Rle_dec (bin_edge first last nb i) x) as [S3|]; [clear S1|discriminate].
    assert (S4 : x <= bin_edge first last nb (S i)).
    { destruct (Nat.eqb_spec (S i) nb) as [Q|_]; [rewrite Q; destruct (Rle_dec x _) as [|]; [assumption|discriminate]|].
      destruct (Rlt_dec x _) as [|]; [lra|discriminate]. }
    clear S2. pose proof (edge_step first last nb i) as St. fold w in St.
    assert (Ev : values i = bin_edge first last nb i + w / 2) by (unfold values; rewrite values_centre, !B1, edge_last, edge_first by exact N0; reflexivity).
    assert (Vx : Rabs (values i - x) <= w / 2) by (apply Rabs_le; lra).
    assert (F0 : first <= bin_edge first last nb i).
    { unfold bin_edge. fold w. pose proof (pos_INR i). nra. }
    assert (F1 : bin_edge first last nb (S i) <= last).
    { unfold bin_edge. fold w. assert (INR (S i) <= INR nb) by (apply le_INR; lia). assert (last = first + INR nb * w) by (unfold w; field; lra). nra. }
    assert (Bd : forall y, first <= y <= last -> Rabs y <= M).
    { intros y Hy. apply Rabs_le. revert M1 M2. unfold Rabs. destruct (Rcase_abs first), (Rcase_abs last); lra. }
    assert (Bv : Rabs (values i) <= M) by (apply Bd; lra). assert (Bx : Rabs x <= M) by (apply Bd; lra).
    assert (K0 : 0 <= INR order * M ^ (order - 1)).
    { apply Rmult_le_pos; [apply pos_INR|]. apply pow_le. pose proof (Rabs_pos x). lra. }
    replace (INR order * M ^ (order - 1) * w / 2) with (INR order * M ^ (order - 1) * (w / 2)) by lra.
    unfold val. destruct absolute.
    - eapply Rle_trans; [apply (pow_near M); rewrite Rabs_Rabsolu; assumption|].
      apply Rmult_le_compat_l; [exact K0|]. eapply Rle_trans; [apply Rabs_triang_inv2|exact Vx].
    - eapply Rle_trans; [apply (pow_near M); assumption|]. apply Rmult_le_compat_l; assumption. }
  unfold Rdiv at 1 2. rewrite <- Rmult_minus_distr_r, Rabs_mult, (Rabs_pos_eq (/ INR (length (concat field)))) by (left; apply Rinv_0_lt_compat; exact L).
  apply Rmult_le_reg_r with (INR (length (concat field))); [exact L|]. rewrite Rmult_assoc, Rinv_l, Rmult_1_r by lra.
  rewrite Rmult_comm in G. replace (INR order * M ^ (order - 1) * w / 2 * INR (length (concat field))) with (INR (length (concat field)) * (INR order * M ^ (order - 1) * w / 2)) by ring.
  rewrite Rmult_comm. rewrite Rmult_comm in G. lra.
Qed.

(** the moments computed from the pdf are those of the values up to the half width of the bins *)
Theorem c127_moments_partial : forall (field : list (list R)) (nb order : nat), distributed field -> (2 <= nb)%nat ->
  let pdf := fst (pdf_normalized field nb) in let e := snd (pdf_normalized field nb) in
  forall M, Rabs (e O) <= M -> Rabs (e nb) <= M ->
  Rabs (strfunc_from_pdf nb pdf (compute_values_inc nb (e O) (e nb)) order false - moment order (concat field))
  <= INR order * M ^ (order - 1) * ((e nb - e O) / INR nb) / 2.
Proof.
  intros field nb order D N pdf e M M1 M2. subst pdf e. apply (strfunc_moment field nb order false D N); [|exact M1|exact M2].
  destruct (covers_pdf field nb D ltac:(lia)) as (W & _). set (e := snd (pdf_normalized field nb)) in *.
  rewrite !values_centre by lia. replace (bin_edge (e O) (e nb) nb 1 + (e nb - e O) / INR nb / 2 - (bin_edge (e O) (e nb) nb 0 + (e nb - e O) / INR nb / 2))
    with (bin_edge (e O) (e nb) nb 1 - bin_edge (e O) (e nb) nb 0) by ring.
  rewrite edge_step. apply Rabs_pos_eq. lra.
Qed.

(** absolute values: the centres of the two first bins have the same sign *)
Theorem c127_absolute_partial : forall (field : list (list R)) (nb order : nat), distributed field -> (2 <= nb)%nat ->
  let pdf := fst (pdf_normalized field nb) in let e := snd (pdf_normalized field nb) in
  let values := compute_values_inc nb (e O) (e nb) in
  0 <= values O \/ values 1%nat <= 0 ->
  forall M, Rabs (e O) <= M -> Rabs (e nb) <= M ->
  Rabs (strfunc_from_pdf nb pdf values order true - moment order (map Rabs (concat field)))
  <= INR order * M ^ (order - 1) * ((e nb - e O) / INR nb) / 2.
Proof.
  intros field nb order D N pdf e values S M M1 M2. subst pdf. unfold moment. rewrite map_map.
  apply (strfunc_moment field nb order true D N); [|exact M1|exact M2].
  destruct (covers_pdf field nb D ltac:(lia)) as (W & _). fold e in W. fold e. fold values.
  assert (V : values 1%nat - values O = (e nb - e O) / INR nb).
  { unfold values. rewrite !values_centre by lia. pose proof (edge_step (e O) (e nb) nb 0). lra. }
  destruct S as [S|S].
  - rewrite (Rabs_pos_eq (values O)), (Rabs_pos_eq (values 1%nat)) by lra. rewrite V. apply Rabs_pos_eq. lra.
  - rewrite (Rabs_left1 (values O)), (Rabs_left1 (values 1%nat)) by lra. replace (- values 1%nat - - values O) with (- ((e nb - e O) / INR nb)) by lra.
    rewrite Rabs_Ropp. apply Rabs_pos_eq. lra.
Qed.

(** a field with two values in two bins *)
Lemma two_values a b : a < b ->
  distributed [[a; b]] /\ (forall i, snd (pdf_normalized [[a; b]] 2) i = a + INR i * ((b - a) / 2))
  /\ fst (pdf_normalized [[a; b]] 2) 0%nat = / (b - a) /\ fst (pdf_normalized [[a; b]] 2) 1%nat = / (b - a).
Proof.
  intros H. assert (D : distributed [[a; b]]) by (split; [discriminate|intros f [<-|[]]; discriminate]).
  split; [exact D|]. pose proof (pdf_branches [[a; b]] 2 D ltac:(lia)) as B.
  cbn [map reduce fold_left] in B. rewrite Rmin_left, Rmax_right in B by lra. unfold outer_edges in B.
  destruct (Req_EM_T a b) as [E|_]; [lra|].
  split; [intros i; apply B|].
  destruct (c125_density _ 2 D ltac:(lia)) as (w & (W0 & W1 & W2) & W3 & _).
  destruct B as [B _]. assert (Ew : w = (b - a) / 2) by (rewrite <- (W1 O), !B; unfold bin_edge; cbn; lra).
  pose proof (W3 0%nat ltac:(lia)) as P0. pose proof (W3 1%nat ltac:(lia)) as P1.
  unfold fraction, in_bin in P0, P1. cbn [concat app filter length Nat.eqb] in P0, P1. rewrite !B in P0, P1. unfold bin_edge in P0, P1. cbn [INR] in P0, P1. replace (1 + 1) with 2 in P0, P1 by lra.
  destruct (Rle_dec (a + 0 * ((b - a) / 2)) a); [|lra]. destruct (Rlt_dec a (a + 1 * ((b - a) / 2))); [|lra].
  destruct (Rle_dec (a + 0 * ((b - a) / 2)) b); [|lra]. destruct (Rlt_dec b (a + 1 * ((b - a) / 2))); [lra|].
  destruct (Rle_dec (a + 1 * ((b - a) / 2)) a); [lra|]. destruct (Rle_dec (a + 1 * ((b - a) / 2)) b); [|lra].
  destruct (Rle_dec b (a + 2 * ((b - a) / 2))); [|lra]. cbn [andb length INR] in P0, P1.
  rewrite Ew in P0, P1. split.
  - apply Rmult_eq_reg_r with ((b - a) / 2); [|lra]. rewrite P0. field. lra.
  - apply Rmult_eq_reg_r with ((b - a) / 2); [|lra]. rewrite P1. field. lra.
Qed.

(** the values -1 and 2 in two bins: the centres -1/4 and 5/4 have absolute values closer than the width *)
Theorem c127_absolute_refuted : exists (field : list (list R)) (nb order : nat) (M : R),
  distributed field /\ (2 <= nb)%nat
  /\ let pdf := fst (pdf_normalized field nb) in let e := snd (pdf_normalized field nb) in
     Rabs (e O) <= M /\ Rabs (e nb) <= M
     /\ Rabs (strfunc_from_pdf nb pdf (compute_values_inc nb (e O) (e nb)) order true - moment order (map Rabs (concat field)))
        > INR order * M ^ (order - 1) * ((e nb - e O) / INR nb) / 2.
Proof.
  destruct (two_values (-1) 2 ltac:(lra)) as (D & E & P0 & P1).
  exists [[-1; 2]], 2%nat, 1%nat, 2. split; [exact D|]. split; [lia|]. cbn zeta. rewrite !E. cbn [INR].
  replace (-1 + 0 * ((2 - -1) / 2)) with (-1) by lra. replace (-1 + (1 + 1) * ((2 - -1) / 2)) with 2 by lra.
  split; [rewrite Rabs_left by lra; lra|]. split; [rewrite Rabs_pos_eq by lra; lra|].
  unfold strfunc_from_pdf, moment, mean, sum_list. rewrite !sumR_S. unfold sumR at 1. cbn [seq map fold_right concat app length INR pow]. rewrite P0, P1. replace (/ (2 - -1)) with (/ 3) by (f_equal; lra).
  unfold compute_values_inc. cbn [INR].
  replace (-1 + (2 - -1) * ((1 + / 2) / (1 + 1))) with (5 / 4) by lra. replace (-1 + (2 - -1) * ((0 + / 2) / (1 + 1))) with (- / 4) by lra.
  rewrite (Rabs_left (- / 4)), (Rabs_left (-1)), (Rabs_pos_eq (5 / 4)), (Rabs_pos_eq 2), (Rabs_pos_eq (5 / 4 - - - / 4)) by lra.
  change (2 ^ (1 - 1)) with 1. rewrite Rabs_left by lra. lra.
Qed.

(** order 1: the mean *)
Example c127_example : Rabs (strfunc_from_pdf 2 (fst (pdf_normalized [[-1; 2]] 2)) (compute_values_inc 2 (-1) 2) 1 false - / 2) <= 3 / 4.
Proof.
  destruct (two_values (-1) 2 ltac:(lra)) as (D & E & _).
  pose proof (c127_moments_partial _ 2 1 D ltac:(lia)) as H. cbn zeta in H. rewrite !E in H. cbn [INR] in H.
  replace (-1 + 0 * ((2 - -1) / 2)) with (-1) in H by lra. replace (-1 + (1 + 1) * ((2 - -1) / 2)) with 2 in H by lra.
  specialize (H 2 ltac:(rewrite Rabs_left by lra; lra) ltac:(rewrite Rabs_pos_eq by lra; lra)).
  unfold moment, mean, sum_list in H. cbn [concat app map fold_right length INR pow Nat.sub] in H.
  replace ((-1 * 1 + (2 * 1 + 0)) / (1 + 1)) with (/ 2) in H by lra. eapply Rle_trans; [exact H|]. lra.
Qed.

(** ** C128: the time averaged pdf *)

Lemma interp_from_node (v f : nat -> R) : (forall j, v j < v (S j)) -> forall n s i, (s <= i <= s + n)%nat ->
  interp_from (v i) (v s) (f s) (map (fun j => (v j, f j)) (seq (S s) n)) = f i.
Proof.
  intros Hv. assert (Mono : forall i j, (i <= j)%nat -> v i <= v j).
  { intros i j L. induction L as [|m L IH]; [lra|]. pose proof (Hv m). lra. }
  induction n as [|n IH]; intros s i Hi.
  - assert (i = s) by lia. subst. reflexivity.
  - cbn [seq map interp_from]. destruct (Rlt_dec (v i) (v (S s))) as [L|L].
    + assert (i = s). { destruct (Nat.eq_dec i s); [assumption|]. pose proof (Mono (S s) i ltac:(lia)). lra. }
      subst. unfold Rdiv. rewrite Rminus_eq_0, !Rmult_0_l. lra.
    + apply IH. destruct (Nat.eq_dec i s) as [->|]; [|lia]. pose proof (Hv s). lra.
Qed.

Lemma interp_node (v f : nat -> R) n i : (forall j, v j < v (S j)) -> (i < n)%nat ->
  interp (v i) (map (fun j => (v j, f j)) (seq 0 n)) = f i.
Proof.
  intros Hv Hi. destruct n as [|n]; [lia|]. cbn [seq map interp]. destruct (Rlt_dec (v i) (v O)) as [L|_].
  - exfalso. assert (v O <= v i); [|lra]. clear -Hv. induction i as [|i IH]; [lra|]. pose proof (Hv i). lra.
  - apply interp_from_node; [exact Hv|lia].
Qed.

Lemma mean_const {A} (l : list A) c : l <> [] -> mean (map (fun _ => c) l) = c.
Proof.
  intros H. unfold mean. rewrite map_length. assert (E : sum_list (map (fun _ : A => c) l) = INR (length l) * c).
  { clear H. induction l as [|x l IH]; [unfold sum_list; cbn; lra|]. cbn [map length]. rewrite S_INR.
    change (c + sum_list (map (fun _ => c) l) = (INR (length l) + 1) * c). rewrite IH. ring. }
  rewrite E. field. apply not_0_INR. destruct l; [contradiction|discriminate].
Qed.

(** all the records have the same range: mean of the pdf *)
Theorem c128_same_range_partial : forall (nb : nat) (records : list ((nat -> R) * R * R)) (lo hi : R),
  records <> [] -> (0 < nb)%nat -> lo < hi -> (forall r, In r records -> snd (fst r) = lo /\ snd r = hi) ->
  (forall i, snd (load_pdf nb records) i = compute_values_inc nb lo hi i)
  /\ forall i, (i < nb)%nat -> fst (load_pdf nb records) i = mean (map (fun r => fst (fst r) i) records).
Proof.
  intros nb records lo hi H N L E. unfold load_pdf. cbn [fst snd].
  assert (A : mean (map (fun r => snd (fst r)) records) = lo).
  { rewrite <- (mean_const records lo H). f_equal. apply map_ext_in. intros r Hr. apply E, Hr. }
  assert (B : mean (map snd records) = hi).
  { rewrite <- (mean_const records hi H). f_equal. apply map_ext_in. intros r Hr. apply E, Hr. }
  rewrite A, B. split; [reflexivity|]. intros i Hi. f_equal. apply map_ext_in. intros r Hr. destruct (E r Hr) as [-> ->].
  apply (interp_node (compute_values_inc nb lo hi) (fst (fst r))); [|exact Hi].
  intros j. apply lt_INR in N. cbn in N. unfold compute_values_inc. rewrite S_INR.
  assert (P : 0 < (hi - lo) * / INR nb) by (apply Rmult_lt_0_compat; [lra|apply Rinv_0_lt_compat; exact N]). unfold Rdiv. nra.
Qed.

Definition record_of (nb : nat) (field : list (list R)) : (nat -> R) * R * R :=
  (fst (pdf_normalized field nb), snd (pdf_normalized field nb) O, snd (pdf_normalized field nb) nb).

(** two times with different ranges: the integral of the result is 4/3 *)
Theorem c128_integral_refuted : exists (nb : nat) (fields : list (list (list R))),
  (0 < nb)%nat /\ (forall f, In f fields -> distributed f)
  /\ let r := load_pdf nb (map (record_of nb) fields) in
     sumR nb (fun i => fst r i * (snd r 1%nat - snd r O)) = 4 / 3.
Proof.
  destruct (two_values 0 1 ltac:(lra)) as (D & E & P0 & P1). destruct (two_values 0 3 ltac:(lra)) as (D' & E' & P0' & P1').
  exists 2%nat, [[[0; 1]]; [[0; 3]]]. split; [lia|]. split; [intros f [<-|[<-|[]]]; assumption|].
  cbn zeta. rewrite !sumR_S. unfold sumR. cbn [seq map fold_right]. unfold load_pdf, record_of, mean, sum_list.
  cbn [map fst snd fold_right length seq interp interp_from]. rewrite !E, !E', P0, P1, P0', P1'. unfold compute_values_inc. cbn [INR].
  repeat match goal with |- context [Rlt_dec ?x ?y] => destruct (Rlt_dec x y); try lra end; field_simplify; lra.
Qed.

Example c128_example : exists r, r = load_pdf 2 [record_of 2 [[0; 1]]; record_of 2 [[0; 1]]] /\ fst r O = 1.
Proof.
  destruct (two_values 0 1 ltac:(lra)) as (D & E & P0 & P1). eexists. split; [reflexivity|].
  rewrite (proj2 (c128_same_range_partial 2 [record_of 2 [[0; 1]]; record_of 2 [[0; 1]]] 0 1 ltac:(discriminate) ltac:(lia) ltac:(lra)
    ltac:(intros r [<-|[<-|[]]]; cbn [record_of fst snd]; rewrite !E; cbn [INR]; lra)) O ltac:(lia)).
  unfold mean, sum_list. cbn [map fold_right length record_of fst snd INR]. rewrite P0. lra.
Qed.

(** ** C129: the number of processes *)

Lemma concat_increments rx (var : list (list (list R))) :
  concat (map (fun loc => compute_increments_dim1 loc rx) var) = compute_increments_dim1 (concat var) rx.
Proof.
  unfold compute_increments_dim1. induction var as [|loc var IH]; [reflexivity|].
  cbn [map concat]. rewrite IH, map_app, concat_app. reflexivity.
Qed.

(** the increments of a row are the differences of the values separated by rx points *)
Lemma increments_row_nth rx row i : (rx + i < length row)%nat -> nth_error (increments_row rx row) i = Some (nth (rx + i) row 0 - nth i row 0).
Proof.
  intros H. unfold increments_row. rewrite nth_error_map.
  assert (L : (i < length (combine (skipn rx row) (firstn (length row - rx) row)))%nat).
  { rewrite combine_length, skipn_length, firstn_length. lia. }
  rewrite (nth_error_nth' _ (0, 0) L). cbn. f_equal. rewrite combine_nth by (rewrite skipn_length, firstn_length; lia). cbn.
  assert (A : forall (l : list R) n j, nth j (skipn n l) 0 = nth (n + j) l 0).
  { clear. induction l as [|x l IH]; intros [|n] j; cbn; try reflexivity; [destruct j; reflexivity|apply IH]. }
  assert (B : forall (l : list R) n j, (j < n)%nat -> nth j (firstn n l) 0 = nth j l 0).
  { clear. induction l as [|x l IH]; intros [|n] [|j] Hj; cbn; try reflexivity; try lia. apply IH. lia. }
  rewrite A, B by lia. reflexivity.
Qed.

Lemma increments_row_length rx row : length (increments_row rx row) = (length row - rx)%nat.
Proof. unfold increments_row. rewrite map_length, combine_length, skipn_length, firstn_length. lia. Qed.

(** for a row of n points: the n - rx differences *)
Theorem c126_increments : forall (var : list (list R)) (rx : nat), 
  compute_increments_dim1 var rx
  = concat (map (fun row => map (fun i => nth (rx + i) row 0 - nth i row 0) (seq 0 (length row - rx))) var).
Proof.
  intros var rx. unfold compute_increments_dim1. f_equal. apply map_ext. intros row.
  apply nth_ext with (d := 0) (d' := 0); rewrite increments_row_length; [rewrite map_length, seq_length; reflexivity|].
  intros i Hi. set (F := fun i => nth (rx + i) row 0 - nth i row 0). transitivity (F i).
  - apply nth_error_nth. apply increments_row_nth. lia.
  - symmetry. rewrite (nth_indep (map F (seq 0 (length row - rx))) 0 (F 0%nat)) by (rewrite map_length, seq_length; exact Hi).
    rewrite map_nth, seq_nth by exact Hi. reflexivity.
Qed.

(** the pdf of the increments of the base class: each process has at least one row, longer than rx *)
Theorem c129_increments_partial : forall (var : list (list (list R))) (rx nb : nat), (0 < nb)%nat ->
  var <> [] -> (forall loc, In loc var -> loc <> []) -> (forall loc row, In loc var -> In row loc -> (rx < length row)%nat) ->
  let r := compute_increment_pdf var rx nb in let s := compute_increment_pdf [concat var] rx nb in
  (forall i, fst (fst r) i = fst (fst s) i) /\ snd (fst r) = snd (fst s) /\ snd r = snd s.
Proof.
  intros var rx nb N Hv Hl Hr r s. subst r s. unfold compute_increment_pdf.
  set (field := map (fun loc => compute_increments_dim1 loc rx) var).
  assert (D : distributed field).
  { split; [unfold field; destruct var; [contradiction|discriminate]|]. intros f Hf. unfold field in Hf. apply in_map_iff in Hf.
    destruct Hf as (loc & <- & Hloc). pose proof (Hl loc Hloc) as Hne. destruct loc as [|row loc]; [contradiction|].
    intros E. apply (f_equal (@length R)) in E. unfold compute_increments_dim1 in E. cbn [map concat] in E.
    rewrite app_length, increments_row_length in E. pose proof (Hr _ row Hloc (or_introl eq_refl)). cbn in E. lia. }
  pose proof (c125_processes field nb D N) as P.
  assert (E : map (fun loc => compute_increments_dim1 loc rx) [concat var] = [concat field]).
  { unfold field. rewrite concat_increments. reflexivity. }
  rewrite E. destruct (pdf_normalized field nb) as [pdf e] eqn:E1. destruct (pdf_normalized [concat field] nb) as [pdf' e'] eqn:E2.
  cbn [fst snd] in *. split; [intros i; apply P|]. split; apply P.
Qed.

(** valmin and valmax are the limits of the bins: they contain all the increments, and the pdf is a density on them *)
Theorem c129_limits : forall (var : list (list (list R))) (rx nb : nat), (0 < nb)%nat ->
  var <> [] -> (forall loc, In loc var -> loc <> []) -> (forall loc row, In loc var -> In row loc -> (rx < length row)%nat) ->
  let '(pdf, valmin, valmax) := compute_increment_pdf var rx nb in
  (forall x, In x (compute_increments_dim1 (concat var) rx) -> valmin <= x <= valmax)
  /\ sumR nb (fun i => pdf i * ((valmax - valmin) / INR nb)) = 1.
Proof.
  intros var rx nb N Hv Hl Hr. unfold compute_increment_pdf. rewrite <- concat_increments.
  set (field := map (fun loc => compute_increments_dim1 loc rx) var).
  assert (D : distributed field).
  { split; [unfold field; destruct var; [contradiction|discriminate]|]. intros f Hf. unfold field in Hf. apply in_map_iff in Hf.
    destruct Hf as (loc & <- & Hloc). pose proof (Hl loc Hloc) as Hne. destruct loc as [|row loc]; [contradiction|].
    intros E. apply (f_equal (@length R)) in E. unfold compute_increments_dim1 in E. cbn [map concat] in E.
    rewrite app_length, increments_row_length in E. pose proof (Hr _ row Hloc (or_introl eq_refl)). cbn in E. lia. }
  pose proof (covers_pdf field nb D N) as (W & St & C).
  pose proof (c125_density field nb D N) as (w & (W' & St' & _) & _ & S).
  destruct (pdf_normalized field nb) as [pdf e]. cbn [fst snd] in *.
  split; [exact C|]. rewrite <- (St O), (St' O). exact S.
Qed.

(** u = (0, 0) and (1, 0) at two points: each of two processes removes its own mean *)
Theorem c129_pdf_u_refuted : exists (u : list (list (R * R))) (nb : nat), (0 < nb)%nat
  /\ (forall loc, In loc u -> loc <> []) /\ snd (compute_pdf_u u nb) O <> snd (compute_pdf_u [concat u] nb) O.
Proof.
  exists [[(0, 0)]; [(1, 0)]], 1%nat. split; [lia|]. split; [intros loc [<-|[<-|[]]]; discriminate|].
  assert (A : forall l, (forall f, In f l -> f <> []) -> l <> [] -> forall c, (forall x, In x (concat l) -> x = c) -> snd (pdf_normalized l 1) O = c - / 2).
  { intros l Hne Hn c Hc. assert (D : distributed l) by (split; assumption).
    destruct (c125_range l 1 D ltac:(lia)) as [[R1 R2]|(x & Hx & E & _)].
    - exfalso. destruct (covers_pdf l 1 D ltac:(lia)) as (W & _). rewrite (Hc _ R1), (Hc _ R2) in W. cbn in W. lra.
    - rewrite E. f_equal. pose proof (distributed_concat l D) as Hcc. destruct (concat l) as [|y r]; [contradiction|].
      rewrite <- (Hx y), (Hc y); [reflexivity|left; reflexivity|left; reflexivity]. }
  unfold compute_pdf_u. rewrite (A _) with (c := 0).
  - rewrite (A _) with (c := / 2); [lra| | |].
    + intros f [<-|[]]. discriminate.
    + discriminate.
    + intros x Hx. unfold mean, sum_list in Hx. cbn [map concat app fst snd fold_right length INR In] in Hx.
      assert (Q : sqrt (/ 4) = / 2) by (replace (/ 4) with (/ 2 * / 2) by lra; apply sqrt_square; lra).
      destruct Hx as [<-|[<-|[]]]; rewrite <- Q; f_equal; lra.
  - intros f Hf. cbn in Hf. destruct Hf as [<-|[<-|[]]]; discriminate.
  - discriminate.
  - intros x Hx. unfold mean, sum_list in Hx. cbn [map concat app fst snd fold_right length INR In] in Hx.
    assert (Z : forall y, y = 0 -> sqrt y = 0) by (intros y ->; apply sqrt_0).
    destruct Hx as [<-|[<-|[]]]; apply Z; lra.
Qed.

(** two rows (0, 1) and (0, 0) of ux: 1 with two processes, 1/2 with one *)
Theorem c129_struc_func_refuted : exists (c2 : R) (rx : nat) (ux uy eta : list (list (list R))),
  length ux = 2%nat /\ saved_struc_func_Kolmo c2 rx ux uy eta = 1
  /\ saved_struc_func_Kolmo c2 rx [concat ux] [concat uy] [concat eta] = / 2.
Proof.
  exists 1, 1%nat, [[[0; 1]]; [[0; 0]]], [[[0; 0]]; [[0; 0]]], [[[0; 0]]; [[0; 0]]]. split; [reflexivity|].
  unfold saved_struc_func_Kolmo, struc_func_Kolmo, compute_increments_dim1, increments_row, flux, mean, sum_list.
  cbn [nth concat app map combine fst snd skipn firstn length Nat.sub fold_right INR pow]. split; lra.
Qed.

Example c129_example : let var := [[[0; 1]]; [[0; 3]]] in
  var <> [] /\ (forall loc, In loc var -> loc <> []) /\ (forall loc row, In loc var -> In row loc -> (1 < length row)%nat).
Proof.
  cbn zeta. split; [discriminate|]. split; [intros loc [<-|[<-|[]]]; discriminate|].
  intros loc row [<-|[<-|[]]] [<-|[]]; cbn; lia.
Qed.

Print Assumptions c125_density.
Print Assumptions c125_processes.
Print Assumptions c125_range.
Print Assumptions c126_separations.
Print Assumptions c126_increments.
Print Assumptions c127_moments_partial.
Print Assumptions c127_absolute_partial.
Print Assumptions c127_absolute_refuted.
Print Assumptions c128_same_range_partial.
Print Assumptions c128_integral_refuted.
Print Assumptions c129_increments_partial.
Print Assumptions c129_limits.
Print Assumptions c129_pdf_u_refuted.
Print Assumptions c129_struc_func_refuted.
