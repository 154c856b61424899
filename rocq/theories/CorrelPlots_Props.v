(** * Figures of the correlations of frequencies, filters of the benchmarks: C270, C271, C272, C273 *)

From Coq Require Import List Arith ZArith Reals Bool Lia Lra.
From Coquelicot Require Import Complex.
From Verif Require Import DFT Correl_Model CorrelPlots_Model.
Import ListNotations.
Local Open Scope nat_scope.

(** ** Specification *)
(** the frequencies at a distance of at most d of io *)
Definition around (nb io d : nat) (l : list nat) : Prop :=
  NoDup l /\ forall i, In i l <-> i < nb /\ i <= io + d /\ io <= i + d.
(** the modulus of the mean over the pairs of frequencies of a list *)
Definition mean_pairs (l : list nat) (f : nat -> nat -> C) : C :=
  (lsum (list_prod l l) (fun p => f (fst p) (snd p)) / RtoC (INR (length (list_prod l l))))%C.

(** ** C270 *)
Lemma slice_around nb io d : d <= io -> around nb io d (slice (io - d) (io + d + 1) nb).
Proof.
  intros H. split; [apply seq_NoDup|]. intros i. unfold slice. rewrite in_seq. lia.
Qed.

Lemma lsum_prod (l l' : list nat) (f : nat -> nat -> C) :
  lsum (list_prod l l') (fun p => f (fst p) (snd p)) = lsum l (fun a => lsum l' (f a)).
Proof.
  induction l as [|a l IH]; [reflexivity|]. cbn [list_prod]. unfold lsum in *. rewrite fold_right_app. cbn [fold_right]. rewrite IH.
  generalize (fold_right (fun x s => (fold_right (fun x0 s0 => (f x x0 + s0)%C) (RtoC 0) l' + s)%C) (RtoC 0) l). intros z. clear IH.
  induction l' as [|b l' IH]; cbn; [ring|]. rewrite IH. ring.
Qed.

Lemma abs_mean_some f nb lo hi l : slice lo hi nb = l -> l <> [] -> abs_mean f nb lo hi = Some (Cmod (mean_pairs l f)).
Proof.
  intros E N. unfold abs_mean. rewrite E. destruct l as [|x l]; [congruence|].
  unfold mean_pairs. rewrite lsum_prod, prod_length. reflexivity.
Qed.

(** the value is the modulus of the mean over the frequencies around 4 omega_1, if one of them is in the array *)
Theorem c270_window_partial : forall corr4 nb io1 delta d, d = Nat.min delta (4 * io1) -> 4 * io1 < nb + d ->
  exists l, around nb (4 * io1) d l /\ norm_pick corr4 nb io1 delta = Some (Cmod (mean_pairs l corr4)).
Proof.
  intros f nb io1 delta d D H. set (io := 4 * io1) in *. exists (slice (io - d) (io + d + 1) nb).
  split; [apply slice_around; lia|]. unfold norm_pick. fold io. rewrite <- D.
  apply abs_mean_some; [reflexivity|]. intros E. apply (f_equal (@length nat)) in E. unfold slice in E. rewrite seq_length in E. cbn in E. lia.
Qed.

(** otherwise it is nan *)
Theorem c270_nan : forall corr4 nb io1 delta, nb + Nat.min delta (4 * io1) <= 4 * io1 -> norm_pick corr4 nb io1 delta = None.
Proof.
  intros f nb io1 delta H. unfold norm_pick, abs_mean, slice. set (io := 4 * io1) in *.
  replace (Nat.min (io + Nat.min delta io + 1) nb - (io - Nat.min delta io)) with 0 by lia. reflexivity.
Qed.

(** a frequency omega_1 which is accepted by the constructor *)
Theorem c270_refuted : exists nb_times io1, checked nb_times 1 [io1] <> None
  /\ forall corr4, norm_pick corr4 (nb_times / 2 + 1) io1 10 = None.
Proof.
  exists 100, 20. split.
  - unfold checked. destruct (Rle_dec _ _) as [L|L]; [|discriminate]. exfalso. unfold omega_Nyquist in L. cbn [list_max fold_right Nat.max] in L.
    replace (INR 100) with 100%R in L by (rewrite INR_IZR_INZ; reflexivity). replace (INR 20) with 20%R in L by (rewrite INR_IZR_INZ; reflexivity).
    pose proof PI_RGT_0. lra.
  - intros f. apply c270_nan. cbn. lia.
Qed.

(** the relative slope, for each number of means after the first one *)
Lemma diff_length l : length (diff l) = length l - 1.
Proof. induction l as [|x [|y l] IH]; [reflexivity|reflexivity|]. change (diff (x :: y :: l)) with ((y - x)%R :: diff (y :: l)). cbn [length]. rewrite IH. cbn. lia. Qed.
Lemma diff_nth : forall l i, S i < length l -> nth i (diff l) 0%R = (nth (S i) l 0 - nth i l 0)%R.
Proof.
  induction l as [|x [|y l] IH]; intros i H; [cbn in H; lia|cbn in H; lia|].
  change (diff (x :: y :: l)) with ((y - x)%R :: diff (y :: l)). destruct i as [|i]; [reflexivity|].
  cbn [nth]. rewrite IH by (cbn in *; lia). reflexivity.
Qed.
Lemma zip4_length f : forall a b c d n, length a = n -> length b = n -> length c = n -> length d = n -> length (zip4 f a b c d) = n.
Proof.
  induction a as [|x a IH]; intros [|y b] [|z c] [|t d] n A B C D; cbn in *; subst; try discriminate; [reflexivity|].
  f_equal. apply IH; congruence.
Qed.
Lemma zip4_nth f : forall a b c d n i, length a = n -> length b = n -> length c = n -> length d = n -> i < n ->
  nth i (zip4 f a b c d) 0%R = f (nth i a 0%R) (nth i b 0%R) (nth i c 0%R) (nth i d 0%R).
Proof.
  induction a as [|x a IH]; intros [|y b] [|z c] [|t d] n i A B C D H; cbn in *; subst; try discriminate; [lia|].
  destruct i as [|i]; [reflexivity|]. apply (IH b c d (length a)); congruence || lia.
Qed.

Theorem c270_slope : forall nb_means f, length f = length nb_means ->
  length (dnormpick nb_means f) = length nb_means - 1
  /\ forall i, S i < length nb_means ->
     nth i (dnormpick nb_means f) 0%R
     = Rabs ((nth (S i) f 0 - nth i f 0) / (nth (S i) nb_means 0 - nth i nb_means 0) * nth (S i) nb_means 0 / nth (S i) f 0)%R.
Proof.
  intros nb f L. unfold dnormpick.
  assert (T : forall l : list R, length (tl l) = length l - 1) by (intros [|]; cbn; lia).
  assert (N : forall (l : list R) i, nth i (tl l) 0%R = nth (S i) l 0%R) by (intros [|] [|]; reflexivity).
  split.
  - apply zip4_length; rewrite ?diff_length, ?T; lia.
  - intros i H. rewrite (zip4_nth _ _ _ _ _ (length nb - 1)) by (rewrite ?diff_length, ?T; lia).
    rewrite !diff_nth by lia. rewrite !N. reflexivity.
Qed.

Example c270_ex : around 51 4 4 [0; 1; 2; 3; 4; 5; 6; 7; 8] /\ 4 * 1 < 51 + Nat.min 10 (4 * 1).
Proof.
  split; [|cbn; lia]. split; [repeat constructor; cbn; intuition lia|]. intros i. cbn. lia.
Qed.

(** ** C271 *)
(** the value for a frequency: the full window of 21 x 21 frequencies around 2 omega_1, or 0 *)
Theorem c271_window_partial : forall corr4 nb io1,
  (10 < io1 /\ 2 * io1 + 10 < nb ->
   exists l, around nb (2 * io1) 10 l /\ length l = 21 /\ f_conv corr4 nb io1 = Some (Cmod (mean_pairs l corr4)))
  /\ (~ (10 < io1 /\ 2 * io1 + 10 < nb) -> f_conv corr4 nb io1 = Some 0%R).
Proof.
  intros f nb io1. unfold f_conv, ws. split.
  - intros [A B]. rewrite (proj2 (Nat.ltb_lt _ _) B), (proj2 (Z.ltb_lt (Z.of_nat io1) (2 * Z.of_nat io1 - Z.of_nat 10))) by lia. cbn [andb].
    exists (slice (2 * io1 - 10) (2 * io1 + 10 + 1) nb). assert (L : length (slice (2 * io1 - 10) (2 * io1 + 10 + 1) nb) = 21).
    { unfold slice. rewrite seq_length. lia. }
    split; [apply slice_around; lia|]. split; [exact L|]. apply abs_mean_some; [reflexivity|]. intros E. rewrite E in L. discriminate.
  - intros N. destruct (Nat.ltb_spec (2 * io1 + 10) nb) as [A|A]; [|reflexivity].
    destruct (Z.ltb_spec (Z.of_nat io1) (2 * Z.of_nat io1 - Z.of_nat 10)) as [B|B]; [|reflexivity]. exfalso. apply N. lia.
Qed.

(** the curves finish at 1; the ratios of the values are kept *)
Theorem c271_normalised : forall values, (last values 0 <> 0)%R ->
  last (normalised values) 0%R = 1%R /\ length (normalised values) = length values
  /\ forall i, (nth i (normalised values) 0 * last values 0 = nth i values 0)%R.
Proof.
  intros v N. unfold normalised. destruct (Req_EM_T (last v 0%R) 0%R) as [E|_]; [contradiction|]. set (n := last v 0%R) in *.
  assert (L : forall l : list R, l <> [] -> last (map (fun x => (x / n)%R) l) 0%R = (last l 0 / n)%R).
  { induction l as [|x [|y l] IH]; intros H; [congruence|reflexivity|]. exact (IH ltac:(discriminate)). }
  assert (V : v <> []) by (intros ->; apply N; reflexivity).
  split; [rewrite (L v V); fold n; field; exact N|]. split; [apply map_length|].
  intros i. replace 0%R with (0 / n)%R at 1 by (field; exact N). rewrite (map_nth (fun x => (x / n)%R) v 0%R i). field. exact N.
Qed.

(** nothing is drawn for the default omega_1 (index 1), and for all the indices up to 10 *)
Theorem c271_small : forall corr4 nb io1, io1 <= 10 -> f_conv corr4 nb io1 = Some 0%R.
Proof. intros f nb io1 H. apply (proj2 (c271_window_partial f nb io1)). lia. Qed.
Theorem c271_refuted : exists io1, io1 = 1 /\ forall corr4 nb, f_conv corr4 nb io1 = Some 0%R.
Proof. exists 1. split; [reflexivity|]. intros f nb. apply c271_small. lia. Qed.

Example c271_ex : (10 < 20 /\ 2 * 20 + 10 < 51) /\ (last [2; 4] 0 <> 0)%R.
Proof. split; [cbn; lia|]. cbn. lra. Qed.

(** ** C272 *)
Local Open Scope C_scope.
(** corr2 is the mean over the samples (the points and the windows) of q(io) conj(q(io')) *)
Definition correlation (samples : list (nat -> C)) (i j : nat) : C :=
  lsum samples (fun q => q i * Cconj (q j)) / RtoC (INR (length samples)).
(** the mean power of a frequency *)
Definition power (samples : list (nat -> C)) (i : nat) : R :=
  (fold_right (fun q s => Cmod (q i) * Cmod (q i) + s) 0 samples / INR (length samples))%R.

Lemma conj_mult a b : Cconj (a * b) = Cconj a * Cconj b.
Proof. destruct a, b. apply injective_projections; cbn; ring. Qed.
Lemma conj_plus a b : Cconj (a + b) = Cconj a + Cconj b.
Proof. destruct a, b. apply injective_projections; cbn; ring. Qed.
Lemma conj_conj a : Cconj (Cconj a) = a.
Proof. destruct a. apply injective_projections; cbn; ring. Qed.
Lemma mod_conj a : Cmod (Cconj a) = Cmod a.
Proof. destruct a. unfold Cmod. cbn [fst snd Cconj]. f_equal. ring. Qed.
Lemma mult_conj z : z * Cconj z = RtoC (Cmod z * Cmod z)%R.
Proof.
  unfold Cmod. rewrite sqrt_sqrt by (pose proof (pow2_ge_0 (fst z)); pose proof (pow2_ge_0 (snd z)); lra).
  destruct z as [a b]. unfold Cconj, Cmult, RtoC. cbn. f_equal; ring.
Qed.
Lemma sum_squares_nonneg (l : list (nat -> C)) i : (0 <= fold_right (fun q s => Cmod (q i) * Cmod (q i) + s) 0 l)%R.
Proof. induction l as [|q l IH]; cbn; [lra|]. pose proof (Rle_0_sqr (Cmod (q i))) as H. unfold Rsqr in H. lra. Qed.
Lemma power_nonneg l i : l <> [] -> (0 <= power l i)%R.
Proof.
  intros N. unfold power. apply Rmult_le_pos; [apply sum_squares_nonneg|]. apply Rlt_le, Rinv_0_lt_compat, lt_0_INR.
  destruct l; [congruence|cbn; lia].
Qed.
Lemma length_pos (l : list (nat -> C)) : l <> [] -> (0 < INR (length l))%R.
Proof. intros N. apply lt_0_INR. destruct l; [congruence|cbn; lia]. Qed.
Lemma correlation_diag l i : l <> [] -> correlation l i i = RtoC (power l i).
Proof.
  intros N. unfold correlation, power. rewrite RtoC_div by (pose proof (length_pos l N); lra). f_equal.
  clear N. induction l as [|q l IH]; [reflexivity|]. unfold lsum in *. cbn [fold_right]. rewrite IH, mult_conj, <- RtoC_plus. reflexivity.
Qed.
Lemma conj_correlation l i j : l <> [] -> Cconj (correlation l i j) = correlation l j i.
Proof.
  intros N. assert (P : RtoC (INR (length l)) <> RtoC 0) by (pose proof (length_pos l N); intros E; injection E as E; lra).
  unfold correlation, Cdiv. rewrite conj_mult. f_equal.
  - clear. induction l as [|q l IH]; unfold lsum in *; cbn [fold_right]; [apply injective_projections; cbn; ring|].
    rewrite conj_plus, IH. f_equal. rewrite conj_mult, conj_conj. ring.
  - rewrite <- RtoC_inv by (pose proof (length_pos l N); lra). apply injective_projections; cbn; ring.
Qed.

(** the Cauchy-Schwarz inequality *)
Lemma cs_step S A B u v : (0 <= S -> 0 <= A -> 0 <= B -> 0 <= u -> 0 <= v -> S * S <= A * B ->
  (u * v + S) * (u * v + S) <= (u * u + A) * (v * v + B))%R.
Proof.
  intros HS HA HB Hu Hv H.
  assert (K : (2 * (S * (u * v)) <= A * (v * v) + B * (u * u))%R).
  { apply Rsqr_incr_0_var.
    - unfold Rsqr. assert (G : (S * S * ((u * v) * (u * v)) <= A * B * ((u * v) * (u * v)))%R).
      { apply Rmult_le_compat_r; [|exact H]. pose proof (Rle_0_sqr (u * v)). unfold Rsqr in *. lra. }
      pose proof (Rle_0_sqr (A * (v * v) - B * (u * u))) as Q. unfold Rsqr in Q. nra.
    - pose proof (Rmult_le_pos A (v * v) HA ltac:(nra)). pose proof (Rmult_le_pos B (u * u) HB ltac:(nra)). lra. }
  nra.
Qed.
Lemma cauchy_schwarz (l : list (nat -> C)) i j :
  let S := fold_right (fun q s => Cmod (q i) * Cmod (q j) + s)%R 0%R l in
  (0 <= S /\ S * S <= fold_right (fun q s => Cmod (q i) * Cmod (q i) + s) 0 l * fold_right (fun q s => Cmod (q j) * Cmod (q j) + s) 0 l)%R
  /\ (Cmod (lsum l (fun q => q i * Cconj (q j))%C) <= S)%R.
Proof.
  cbv zeta. induction l as [|q l [[P H] T]].
  - cbn. split; [lra|]. rewrite Cmod_0. lra.
  - unfold lsum in *. cbn [fold_right]. pose proof (Cmod_ge_0 (q i)). pose proof (Cmod_ge_0 (q j)). split; [split|].
    + pose proof (Rmult_le_pos _ _ H0 H1). lra.
    + apply cs_step; try assumption; apply sum_squares_nonneg.
    + eapply Rle_trans; [apply Cmod_triangle|]. rewrite Cmod_mult, mod_conj. lra.
Qed.
Lemma correlation_bound l i j : l <> [] -> (Cmod (correlation l i j) <= sqrt (power l i * power l j))%R.
Proof.
  intros N. pose proof (length_pos l N) as P. destruct (cauchy_schwarz l i j) as [[S0 S1] S2].
  unfold correlation. rewrite Cmod_div by (intros E; injection E as E; lra). rewrite Cmod_R, (Rabs_right (INR (length l))) by lra.
  apply Rsqr_incr_0_var; [|apply sqrt_pos]. rewrite Rsqr_sqrt by (apply Rmult_le_pos; apply power_nonneg; exact N).
  unfold power, Rsqr. set (n := INR (length l)) in *. set (m := Cmod _) in *. set (S := fold_right _ _ l) in S0, S1, S2.
  set (A := fold_right _ _ l) in S1 |- *. set (B := fold_right (fun q s => Cmod (q j) * Cmod (q j) + s)%R 0%R l) in *.
  pose proof (Cmod_ge_0 (lsum l (fun q => q i * Cconj (q j)))) as M. fold m in M.
  replace (m / n * (m / n))%R with (m * m * (/ n * / n))%R by (field; lra).
  replace (A / n * (B / n))%R with (A * B * (/ n * / n))%R by (field; lra).
  apply Rmult_le_compat_r; [pose proof (Rinv_0_lt_compat n P); nra|]. nra.
Qed.

(** the drawn values: the coherence of the two frequencies, of modulus at most 1, equal to 1 on the diagonal *)
Theorem c272_coherence : forall samples i j, samples <> [] -> (power samples i <> 0)%R -> (power samples j <> 0)%R ->
  corr2_norm (correlation samples) i j = correlation samples i j / RtoC (sqrt (power samples i * power samples j))
  /\ (Cmod (corr2_norm (correlation samples) i j) <= 1)%R
  /\ corr2_norm (correlation samples) i i = RtoC 1
  /\ corr2_norm (correlation samples) j i = Cconj (corr2_norm (correlation samples) i j).
Proof.
  intros l i j N I J. pose proof (power_nonneg l i N) as Pi. pose proof (power_nonneg l j N) as Pj.
  assert (P : forall a b, (0 < power l a -> 0 < power l b -> 0 < sqrt (power l a * power l b))%R)
    by (intros a b A B; apply sqrt_lt_R0; apply Rmult_lt_0_compat; assumption).
  assert (D : forall a b, (0 <= power l a -> 0 <= power l b -> sqrt (Cmod (correlation l a a * correlation l b b)%C) = sqrt (power l a * power l b))%R).
  { intros a b A B. rewrite !correlation_diag by exact N. rewrite <- RtoC_mult, Cmod_R, Rabs_right; [reflexivity|].
    apply Rle_ge, Rmult_le_pos; assumption. }
  assert (G : forall a b, (0 < power l a)%R -> (0 < power l b)%R -> corr2_norm (correlation l) a b = correlation l a b / RtoC (sqrt (power l a * power l b))).
  { intros a b A B. unfold corr2_norm. destruct (Nat.leb b a); rewrite D by lra; [reflexivity|].
    unfold Cdiv. rewrite conj_mult, conj_correlation by exact N. f_equal. rewrite (Rmult_comm (power l b)).
    rewrite <- RtoC_inv by (pose proof (P a b A B); lra). apply injective_projections; cbn; ring. }
  assert (A : (0 < power l i)%R) by lra. assert (B : (0 < power l j)%R) by lra.
  pose proof (P i j A B) as R. pose proof (P j i B A) as R'. pose proof (P i i A A) as R''.
  rewrite (G i j A B), (G i i A A), (G j i B A).
  split; [reflexivity|]. split; [|split].
  - rewrite Cmod_div by (intros E; injection E as E; lra). rewrite Cmod_R, Rabs_right by lra.
    apply Rmult_le_reg_r with (sqrt (power l i * power l j)); [exact R|]. unfold Rdiv. rewrite Rmult_assoc, Rinv_l, Rmult_1_r, Rmult_1_l by lra.
    apply correlation_bound. exact N.
  - rewrite correlation_diag by exact N. rewrite sqrt_square by exact Pi. rewrite <- RtoC_div by lra. f_equal. field. lra.
  - unfold Cdiv. rewrite conj_mult, conj_correlation by exact N. f_equal. rewrite (Rmult_comm (power l i)).
    rewrite <- RtoC_inv by lra. apply injective_projections; cbn; ring.
Qed.

(** the norm of the correlations 4 is the product of the four root mean square values *)
Theorem c272_norm4 : forall samples nb io1 io3 io4 io2, samples <> [] ->
  io2 = fst (if io4 <=? io3 then index2 nb io1 io3 io4 else index2 nb io1 io4 io3)%nat ->
  norm4 (correlation samples) nb io1 io3 io4
  = (sqrt (power samples io1) * sqrt (power samples io2) * sqrt (power samples io3) * sqrt (power samples io4))%R
  /\ norm4 (correlation samples) nb io1 io3 io4 = norm4 (correlation samples) nb io1 io4 io3.
Proof.
  intros l nb io1 io3 io4 io2 N E.
  assert (G : forall a b c d, sqrt (Cmod (correlation l a a * correlation l b b * correlation l c c * correlation l d d))
              = (sqrt (power l a) * sqrt (power l d) * sqrt (power l b) * sqrt (power l c))%R).
  { intros a b c d. rewrite !correlation_diag by exact N.
    pose proof (power_nonneg l a N). pose proof (power_nonneg l b N). pose proof (power_nonneg l c N). pose proof (power_nonneg l d N).
    pose proof (Rmult_le_pos _ _ H H0). pose proof (Rmult_le_pos _ _ H3 H1).
    rewrite <- !RtoC_mult, Cmod_R, Rabs_right by (apply Rle_ge, Rmult_le_pos; assumption).
    rewrite !sqrt_mult by assumption. ring. }
  split.
  - unfold norm4. subst io2. destruct (Nat.leb io4 io3); rewrite G; [reflexivity|ring].
  - unfold norm4. destruct (Nat.leb_spec io4 io3) as [A|A], (Nat.leb_spec io3 io4) as [B|B]; try reflexivity; [|lia].
    replace io4 with io3 by lia. reflexivity.
Qed.

Example c272_ex : let l := [(fun _ : nat => RtoC 1)] in l <> [] /\ (power l 0 <> 0)%R /\ (power l 3 <> 0)%R.
Proof. cbv zeta. split; [discriminate|]. unfold power. cbn. rewrite Cmod_1. split; lra. Qed.

(** ** C273 *)
Local Open Scope nat_scope.
Theorem c273_shape_partial : forall df m0 m1 r,
  (forall m2, In r (filter_by_shape df m0 m1 (Some m2)) <-> In r df /\ n0 r = m0 /\ n1 r = m1 /\ n2 r = Some m2)
  /\ (In r (filter_by_shape df m0 m1 None) <-> In r df /\ n0 r = m0 /\ n1 r = m1).
Proof.
  intros df m0 m1 r. split; [intros m2|]; unfold filter_by_shape; rewrite filter_In.
  - rewrite !andb_true_iff, !Z.eqb_eq. unfold eq_opt. destruct (n2 r) as [x|]; [rewrite Z.eqb_eq|]; intuition congruence.
  - rewrite andb_true_iff, !Z.eqb_eq. tauto.
Qed.

Theorem c273_shapeloc_partial : forall df m0 m1 r,
  (forall m2, In r (filter_by_shapeloc df m0 m1 (Some m2)) <-> In r df /\ exists x, n2_loc r = Some x /\ (n0_loc r * n1_loc r * x = m0 * m1 * m2)%Z)
  /\ (In r (filter_by_shapeloc df m0 m1 None) <-> In r df /\ (n0_loc r * n1_loc r = m0 * m1)%Z)
  /\ (forall m2, In r df -> n0_loc r = m0 -> n1_loc r = m1 -> n2_loc r = m2 -> In r (filter_by_shapeloc df m0 m1 m2)).
Proof.
  intros df m0 m1 r. split; [intros m2|split; [|intros m2 H A B C]]; unfold filter_by_shapeloc.
  - rewrite filter_In. unfold eq_opt. destruct (n2_loc r) as [x|]; cbn [option_map].
    + rewrite Z.eqb_eq. split; [intros [H E]; eauto|]. intros (H & y & E & F). injection E as <-. auto.
    + split; [intros [_ E]; discriminate|]. intros (_ & y & E & _). discriminate.
  - rewrite filter_In, Z.eqb_eq. reflexivity.
  - subst. destruct (n2_loc r) as [x|] eqn:E; apply filter_In; (split; [exact H|]); unfold eq_opt; rewrite ?E; cbn; apply Z.eqb_refl.
Qed.

(** a result with another local shape is kept; without n2 the results in three dimensions are kept *)
Theorem c273_refuted : exists r r',
  In r (filter_by_shapeloc [r] 64 64 None) /\ n0_loc r <> 64%Z /\ n1_loc r <> 64%Z
  /\ In r' (filter_by_shape [r'] 64 64 None) /\ n2 r' <> None.
Proof.
  exists (mkResult 64 128 None 32 128 None), (mkResult 64 64 (Some 64%Z) 64 64 (Some 64%Z)).
  split; [left; reflexivity|]. split; [discriminate|]. split; [discriminate|]. split; [left; reflexivity|discriminate].
Qed.

Example c273_ex : filter_by_shape [mkResult 64 64 None 32 64 None; mkResult 32 64 None 32 64 None] 64 64 None = [mkResult 64 64 None 32 64 None].
Proof. reflexivity. Qed.

Print Assumptions c270_window_partial.
Print Assumptions c270_nan.
Print Assumptions c270_refuted.
Print Assumptions c270_slope.
Print Assumptions c271_window_partial.
Print Assumptions c271_normalised.
Print Assumptions c271_small.
Print Assumptions c271_refuted.
Print Assumptions c272_coherence.
Print Assumptions c272_norm4.
Print Assumptions c273_shape_partial.
Print Assumptions c273_shapeloc_partial.
Print Assumptions c273_refuted.
