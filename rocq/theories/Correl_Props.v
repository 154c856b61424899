(** C221, C222: the correlations of frequencies of plate2d. *)
From Coq Require Import List ZArith Reals Bool Arith Lia Lra.
From Coquelicot Require Import Complex.
From Verif Require Import CExp DFT Correl_Model.
Import ListNotations.
Local Open Scope C_scope.

(** ** Specification
    the transform in time of a real signal of n values (the factor of the transform and the window are in the signal) *)
Definition tilde (n : nat) (s : nat -> R) (k : Z) : C := nsum n (fun t => RtoC (s t) * chi n (- k) t).
(** the mean over the points *)
Definition mean {A} (l : list A) (f : A -> C) : C := lsum l f / RtoC (INR (length l)).
(** number of frequencies of the transform of a real signal *)
Definition nb_frequencies (n : nat) : nat := (n / 2 + 1)%nat.
(** the process which has the points of the list *)
Definition process_of (n : nat) (l : list (nat -> R)) : process :=
  (length l, fun ix io => tilde n (nth ix l (fun _ => 0%R)) (Z.of_nat io)).
Definition c4 (n : nat) (l : list (nat -> R)) (o1 o3 o4 : Z) : C :=
  mean l (fun s => tilde n s o1 * tilde n s (o3 + o4 - o1) * Cconj (tilde n s o3) * Cconj (tilde n s o4)).
Definition c2 (n : nat) (l : list (nat -> R)) (o1 o2 : Z) : C := mean l (fun s => tilde n s o1 * Cconj (tilde n s o2)).

(** ** Lemmas *)
Lemma conj_mult a b : Cconj (a * b) = Cconj a * Cconj b.
Proof. destruct a, b. apply injective_projections; cbn; ring. Qed.
Lemma conj_plus a b : Cconj (a + b) = Cconj a + Cconj b.
Proof. destruct a, b. apply injective_projections; cbn; ring. Qed.
Lemma conj_real r : Cconj (RtoC r) = RtoC r.
Proof. apply injective_projections; cbn; ring. Qed.
Lemma conj_conj a : Cconj (Cconj a) = a.
Proof. destruct a. apply injective_projections; cbn; ring. Qed.
Lemma conj_nsum n f : Cconj (nsum n f) = nsum n (fun i => Cconj (f i)).
Proof. induction n; cbn [nsum]; [apply conj_real | rewrite conj_plus, IHn; reflexivity]. Qed.
Lemma conj_lsum {A} (l : list A) f : Cconj (lsum l f) = lsum l (fun i => Cconj (f i)).
Proof. induction l; cbn [lsum fold_right]; [apply conj_real |]. rewrite conj_plus. unfold lsum in IHl. rewrite IHl. reflexivity. Qed.
Lemma conj_cis t : Cconj (cis t) = cis (- t).
Proof. unfold cis, cexp. apply injective_projections; cbn; rewrite ?cos_neg, ?sin_neg; ring. Qed.
Lemma conj_chi n m j : Cconj (chi n m j) = chi n (- m) j.
Proof. unfold chi. rewrite conj_cis. f_equal. rewrite opp_IZR. unfold Rdiv. ring. Qed.
Lemma tilde_opp n s k : tilde n s (- k) = Cconj (tilde n s k).
Proof.
  unfold tilde. rewrite conj_nsum. apply nsum_ext. intros i _. rewrite conj_mult, conj_real, conj_chi. reflexivity.
Qed.
Lemma chi_period n m j : (0 < n)%nat -> chi n (m + Z.of_nat n) j = chi n m j.
Proof.
  intros H. rewrite <- chi_mult. replace (chi n (Z.of_nat n) j) with (RtoC 1); [ring |]. symmetry.
  unfold chi. replace (2 * PI * IZR (Z.of_nat n) * INR j / INR n)%R with (2 * PI * IZR (Z.of_nat j))%R; [apply cis_period |].
  rewrite <- !INR_IZR_INZ. field. apply not_0_INR. lia.
Qed.
Lemma tilde_period n s k : (0 < n)%nat -> tilde n s (k - Z.of_nat n) = tilde n s k.
Proof.
  intros H. unfold tilde. apply nsum_ext. intros i _. f_equal.
  replace (- (k - Z.of_nat n))%Z with (- k + Z.of_nat n)%Z by lia. apply chi_period, H.
Qed.
Lemma tilde_fold n s k : (0 < n)%nat -> Cconj (tilde n s (Z.of_nat n - k)) = tilde n s k.
Proof.
  intros H. rewrite <- tilde_opp. replace (- (Z.of_nat n - k))%Z with (k - Z.of_nat n)%Z by lia. apply tilde_period, H.
Qed.
Lemma lsum_cons {A} (a : A) l f : lsum (a :: l) f = f a + lsum l f.
Proof. reflexivity. Qed.
Lemma lsum_app {A} (l l' : list A) f : lsum (l ++ l') f = lsum l f + lsum l' f.
Proof. induction l; cbn [app]; [unfold lsum at 2; cbn; ring |]. rewrite !lsum_cons, IHl. ring. Qed.
Lemma lsum_ext_in {A} (l : list A) f g : (forall a, In a l -> f a = g a) -> lsum l f = lsum l g.
Proof. induction l; intros H; [reflexivity |]. rewrite !lsum_cons, (H a), IHl; [reflexivity | intros; apply H; right; assumption | left; reflexivity]. Qed.
Lemma nsum_first n f : nsum (S n) f = f 0%nat + nsum n (fun i => f (S i)).
Proof. induction n; [cbn; ring |]. cbn [nsum] in *. rewrite IHn. ring. Qed.
Lemma nsum_nth {A} (l : list A) d f : nsum (length l) (fun i => f (nth i l d)) = lsum l f.
Proof.
  induction l; [reflexivity |]. change (length (a :: l)) with (S (length l)). rewrite nsum_first. cbn [nth]. rewrite IHl. reflexivity.
Qed.
Lemma lsum_map {A B} (g : A -> B) l f : lsum (map g l) f = lsum l (fun a => f (g a)).
Proof. induction l; [reflexivity |]. cbn [map]. rewrite !lsum_cons, IHl. reflexivity. Qed.
Lemma nb_points n ls : nb_xs_seq (map (process_of n) ls) = length (concat ls).
Proof. induction ls; [reflexivity |]. cbn [map nb_xs_seq fold_right concat process_of fst]. rewrite app_length. fold (nb_xs_seq (map (process_of n) ls)). rewrite IHls. reflexivity. Qed.
Lemma lsum_concat {A} (ls : list (list A)) f : lsum (concat ls) f = lsum ls (fun l => lsum l f).
Proof. induction ls; [reflexivity |]. cbn [concat]. rewrite lsum_app, lsum_cons, IHls. reflexivity. Qed.

(** the frequency chosen by the code is the one of the definition *)
Definition representable (n io1 io3 io4 : nat) : Prop :=
  Nat.Odd n \/ (io3 + io4 < nb_frequencies n + io1)%nat.
Lemma index2_right n s io1 io3 io4 : (0 < n)%nat -> representable n io1 io3 io4 ->
  (let (io2, conj) := index2 (nb_frequencies n) io1 io3 io4 in
   if conj : bool then Cconj (tilde n s (Z.of_nat io2)) else tilde n s (Z.of_nat io2)) = tilde n s (Z.of_nat io3 + Z.of_nat io4 - Z.of_nat io1)
  \/ (2 * nb_frequencies n <= io3 + io4 - io1)%nat.
Proof.
  intros Hn H. unfold index2. set (k := (Z.of_nat io3 + Z.of_nat io4 - Z.of_nat io1)%Z).
  destruct (Z.ltb_spec k 0).
  - left. rewrite Z2Nat.id by lia. rewrite tilde_opp, conj_conj. reflexivity.
  - destruct (Z.leb_spec (Z.of_nat (nb_frequencies n)) k).
    + destruct (Z.le_gt_cases (2 * Z.of_nat (nb_frequencies n)) k); [right; unfold k in *; lia | left].
      destruct H as [[m E] | H]; [| unfold k in *; lia].
      rewrite Z2Nat.id by lia. rewrite <- (tilde_fold n s k Hn). do 2 f_equal.
      unfold nb_frequencies. subst n. replace ((2 * m + 1) / 2)%nat with m; [lia |].
      rewrite Nat.mul_comm, Nat.div_add_l by lia. cbn. lia.
    + left. rewrite Z2Nat.id by lia. reflexivity.
Qed.
Lemma entry4_right n l io1 io3 io4 : (0 < n)%nat -> (io3 < nb_frequencies n)%nat -> (io4 < nb_frequencies n)%nat ->
  representable n io1 io3 io4 ->
  entry4 (snd (process_of n l)) (length l) (nb_frequencies n) io1 io3 io4 =
  lsum l (fun s => tilde n s (Z.of_nat io1) * tilde n s (Z.of_nat io3 + Z.of_nat io4 - Z.of_nat io1) * Cconj (tilde n s (Z.of_nat io3)) * Cconj (tilde n s (Z.of_nat io4))).
Proof.
  intros Hn H3 H4 H. unfold entry4. cbn [process_of snd]. rewrite <- (nsum_nth l (fun _ => 0%R)).
  pose proof (fun s => index2_right n s io1 io3 io4 Hn H) as E.
  destruct (index2 (nb_frequencies n) io1 io3 io4) as [io2 c]. apply nsum_ext. intros i _.
  destruct (E (nth i l (fun _ => 0%R))) as [E' | E']; [| lia]. rewrite E'. ring.
Qed.

(** C221 (1): for an odd number of times, or when omega_2 is smaller than the Nyquist frequency, the fourth order correlations are the mean over all the points of all the processes. *)
Theorem c221_correl4_partial n ls io1 io3 io4 : (0 < n)%nat -> (io3 < nb_frequencies n)%nat -> (io4 < nb_frequencies n)%nat ->
  representable n io1 io3 io4 ->
  correl4 (map (process_of n) ls) (nb_frequencies n) io1 io3 io4 = c4 n (concat ls) (Z.of_nat io1) (Z.of_nat io3) (Z.of_nat io4).
Proof.
  intros Hn H3 H4 H. unfold correl4, c4, mean. rewrite nb_points. f_equal. rewrite lsum_map, lsum_concat. apply lsum_ext_in. intros l _.
  unfold correl4_seq. change (fst (process_of n l)) with (length l). destruct (io4 <=? io3)%nat.
  - apply entry4_right; assumption.
  - rewrite entry4_right; try assumption.
    + apply lsum_ext_in. intros s _. rewrite (Z.add_comm (Z.of_nat io4)). ring.
    + destruct H; [left; assumption | right; lia].
Qed.
(** C221 (2): exchanging omega_3 and omega_4 does not change them, for every number of times. *)
Theorem c221_symmetric ps nb io1 io3 io4 : correl4 ps nb io1 io3 io4 = correl4 ps nb io1 io4 io3.
Proof.
  unfold correl4. f_equal. apply lsum_ext_in. intros p _. unfold correl4_seq.
  destruct (Nat.leb_spec io4 io3), (Nat.leb_spec io3 io4); try reflexivity; try lia. replace io4 with io3 by lia. reflexivity.
Qed.
(** C221 (3): the second order correlations: the mean, Hermitian, with a diagonal which is real and nonnegative. *)
Theorem c221_correl2 n ls io3 io4 :
  correl2 (map (process_of n) ls) io3 io4 = c2 n (concat ls) (Z.of_nat io3) (Z.of_nat io4).
Proof.
  unfold correl2, c2, mean. rewrite nb_points. f_equal. rewrite lsum_map, lsum_concat. apply lsum_ext_in. intros l _.
  unfold correl2_seq. change (fst (process_of n l)) with (length l). cbn [process_of snd]. destruct (io4 <=? io3)%nat.
  - exact (nsum_nth l _ (fun s => tilde n s (Z.of_nat io3) * Cconj (tilde n s (Z.of_nat io4)))).
  - rewrite (nsum_nth l _ (fun s => tilde n s (Z.of_nat io4) * Cconj (tilde n s (Z.of_nat io3)))), conj_lsum.
    apply lsum_ext_in. intros s _. rewrite conj_mult, conj_conj. ring.
Qed.
Theorem c221_hermitian n l a b : c2 n l a b = Cconj (c2 n l b a).
Proof.
  unfold c2, mean, Cdiv. rewrite conj_mult, conj_lsum. f_equal.
  - apply lsum_ext_in. intros s _. rewrite conj_mult, conj_conj. ring.
  - generalize (INR (length l)). intros r. apply injective_projections; cbn; unfold Rdiv; ring.
Qed.
Lemma inv_real r : fst (/ RtoC r) = (r / (r * r))%R /\ snd (/ RtoC r) = 0%R.
Proof. split; cbn; unfold Rdiv; [f_equal; f_equal; ring | ring]. Qed.
Lemma diag_nonneg n l a : (0 <= fst (lsum l (fun s => tilde n s a * Cconj (tilde n s a))%C) /\ snd (lsum l (fun s => tilde n s a * Cconj (tilde n s a))%C) = 0)%R.
Proof.
  induction l as [| s l [IH1 IH2]]; [cbn; lra |]. rewrite lsum_cons.
  generalize dependent (lsum l (fun s => tilde n s a * Cconj (tilde n s a))). generalize (tilde n s a). intros [x y] [u v] H1 H2. cbn in *. nra.
Qed.
Theorem c221_diagonal n l a : (0 <= fst (c2 n l a a) /\ snd (c2 n l a a) = 0)%R.
Proof.
  unfold c2, mean, Cdiv. destruct (diag_nonneg n l a) as [H1 H2].
  destruct (lsum l (fun s => tilde n s a * Cconj (tilde n s a))) as [u v]. cbn [fst snd] in *. subst v.
  destruct (inv_real (INR (length l))) as [E1 E2]. destruct (/ RtoC (INR (length l))) as [x y]. cbn [fst snd] in *. subst. cbn. split; [| ring].
  assert (0 <= INR (length l))%R by apply pos_INR.
  destruct (Req_dec (INR (length l)) 0) as [Z | Z]; [rewrite Z; unfold Rdiv; rewrite Rmult_0_l; lra |].
  assert (0 <= INR (length l) / (INR (length l) * INR (length l)))%R by (apply Rlt_le, Rdiv_lt_0_compat; nra). nra.
Qed.

(** C221 (4): with an even number of times (the default is 100), the frequencies above the one of Nyquist are shifted by one. *)
Definition signal4 (a b c d : R) (t : nat) : R := match t with 0%nat => a | 1%nat => b | 2%nat => c | _ => d end.
Definition i_pow (m : Z) : C := match (m mod 4)%Z with 0%Z => (1, 0)%R | 1%Z => (0, 1)%R | 2%Z => (-1, 0)%R | _ => (0, -1)%R end.
Lemma chi4 m j : chi 4 m j = i_pow (m * Z.of_nat j).
Proof.
  unfold chi. set (p := (m * Z.of_nat j)%Z).
  replace (2 * PI * IZR m * INR j / INR 4)%R with (2 * PI * IZR (p / 4) + PI / 2 * IZR (p mod 4))%R.
  2:{ rewrite INR_IZR_INZ. replace (INR 4) with 4%R by (cbn; ring).
      assert (E : (IZR m * IZR (Z.of_nat j) = 4 * IZR (p / 4) + IZR (p mod 4))%R).
      { rewrite <- !mult_IZR, <- plus_IZR. f_equal. fold p. apply Z.div_mod. lia. }
      replace (2 * PI * IZR m * IZR (Z.of_nat j) / 4)%R with (2 * PI / 4 * (IZR m * IZR (Z.of_nat j)))%R by field. rewrite E. field. }
  rewrite cis_plus, cis_period. unfold i_pow. pose proof (Z.mod_pos_bound p 4 eq_refl).
  assert (p mod 4 = 0 \/ p mod 4 = 1 \/ p mod 4 = 2 \/ p mod 4 = 3)%Z as [-> | [-> | [-> | ->]]] by lia; unfold cis, cexp; cbn [fst snd]; rewrite exp_0.
  - rewrite Rmult_0_r, cos_0, sin_0. apply injective_projections; cbn; ring.
  - rewrite Rmult_1_r, cos_PI2, sin_PI2. apply injective_projections; cbn; ring.
  - replace (PI / 2 * 2)%R with PI by field. rewrite cos_PI, sin_PI. apply injective_projections; cbn; ring.
  - replace (PI / 2 * 3)%R with (3 * (PI / 2))%R by field. rewrite cos_3PI2, sin_3PI2. apply injective_projections; cbn; ring.
Qed.
Lemma tilde4 a b c d k : tilde 4 (signal4 a b c d) k = (RtoC a + RtoC b * i_pow (- k) + RtoC c * i_pow (- k * 2) + RtoC d * i_pow (- k * 3)).
Proof.
  unfold tilde. cbn [nsum]. rewrite !chi4. cbn [signal4]. change (Z.of_nat 0) with 0%Z. change (Z.of_nat 1) with 1%Z. change (Z.of_nat 2) with 2%Z. change (Z.of_nat 3) with 3%Z.
  rewrite Z.mul_0_r, Z.mul_1_r. change (i_pow 0) with (RtoC 1). ring.
Qed.
Theorem c221_even_number_refuted : exists n s io1 io3 io4, (io1 < nb_frequencies n)%nat /\ (io3 < nb_frequencies n)%nat /\ (io4 < nb_frequencies n)%nat /\
  correl4 [process_of n [s]] (nb_frequencies n) io1 io3 io4 = RtoC 27 /\ c4 n [s] (Z.of_nat io1) (Z.of_nat io3) (Z.of_nat io4) = RtoC 9.
Proof.
  exists 4%nat, (signal4 2 0 1 0), 1%nat, 2%nat, 2%nat. split; [cbn; lia |]. split; [cbn; lia |]. split; [cbn; lia |].
  assert (T1 : tilde 4 (signal4 2 0 1 0) 1 = RtoC 1) by (rewrite tilde4; apply injective_projections; cbn; ring).
  assert (T2 : tilde 4 (signal4 2 0 1 0) 2 = RtoC 3) by (rewrite tilde4; apply injective_projections; cbn; ring).
  assert (T3 : tilde 4 (signal4 2 0 1 0) 3 = RtoC 1) by (rewrite tilde4; apply injective_projections; cbn; ring).
  split.
  - unfold correl4, correl4_seq, entry4, process_of, nb_frequencies, lsum. cbn [fold_right fst snd length nb_xs_seq].
    change (index2 (4 / 2 + 1) 1 2 2) with (2%nat, true). cbn [Nat.leb nsum nth Nat.add INR].
    change (Z.of_nat 1) with 1%Z. change (Z.of_nat 2) with 2%Z. rewrite T1, T2. apply injective_projections; cbn; field.
  - unfold c4, mean, lsum. cbn [fold_right length INR]. change (Z.of_nat 1) with 1%Z. change (Z.of_nat 2) with 2%Z. change (2 + 2 - 1)%Z with 3%Z.
    rewrite T1, T2, T3. apply injective_projections; cbn; field.
Qed.

(** C221 (5): the simulation starts if and only if every omega_1 is below the Nyquist frequency, so that they are indices of the arrays. *)
Theorem c221_checked n dt l : (0 < n)%nat -> (0 < dt)%R -> (0 < length l)%nat ->
  (checked n dt l <> None <-> forall io, In io l -> (2 * io < n)%nat) /\
  (checked n dt l <> None -> forall io, In io l -> (io < nb_frequencies n)%nat).
Proof.
  intros Hn Hd Hl.
  assert (A : checked n dt l <> None <-> (2 * list_max l < n)%nat).
  { unfold checked, omega_Nyquist. pose proof PI_RGT_0 as P. assert (N : (0 < INR n)%R) by (apply lt_0_INR; lia).
    assert (E : (PI / dt - 2 * PI / (INR n * dt) * INR (list_max l) = PI / (INR n * dt) * (INR n - 2 * INR (list_max l)))%R) by (field; split; lra).
    assert (Q : (0 < PI / (INR n * dt))%R) by (apply Rdiv_lt_0_compat; nra).
    assert (T : (2 * INR (list_max l) = INR (2 * list_max l))%R) by (rewrite mult_INR; reflexivity).
    destruct (Rle_dec _ _) as [H | H].
    - split; [congruence |]. intros L. apply lt_INR in L. rewrite <- T in L. nra.
    - split; [intros _ | discriminate]. apply INR_lt. rewrite <- T. nra. }
  assert (B : checked n dt l <> None <-> forall io, In io l -> (2 * io < n)%nat).
  { rewrite A. split.
    - intros H io I. assert (M : (list_max l <= list_max l)%nat) by lia. apply list_max_le in M. rewrite Forall_forall in M. specialize (M io I). lia.
    - intros H. destruct l as [| a l]; [cbn in Hl; lia |]. assert (list_max (a :: l) <= (n - 1) / 2)%nat.
      { apply list_max_le, Forall_forall. intros x I. specialize (H x I). apply Nat.div_le_lower_bound; lia. }
      pose proof (Nat.mul_div_le (n - 1) 2 ltac:(lia)). lia. }
  split; [exact B |]. intros H io I. unfold nb_frequencies. specialize (proj1 B H io I). intros K.
  assert (io <= n / 2)%nat by (apply Nat.div_le_lower_bound; lia). lia.
Qed.
(** the frequencies are the multiples of 2 pi / duration of the window *)
Theorem c221_omegas n dt l f io : checked n dt l = Some f -> f io = (2 * PI * INR io / (INR n * dt))%R.
Proof. unfold checked. destruct (Rle_dec _ _); [discriminate |]. intros H. assert (f = omegas n dt) by congruence. subst. unfold omegas, Rdiv. ring. Qed.

(** ** C222: the mean over the windows *)
Lemma run_app m ws w : run m (ws ++ [w]) = new_window (run m ws) w.
Proof. unfold run. rewrite fold_left_app. reflexivity. Qed.
Lemma INR_C_neq n : (0 < n)%nat -> RtoC (INR n) <> RtoC 0.
Proof. intros H E. apply RtoC_inj in E. apply not_0_INR in E; [assumption | lia]. Qed.
(** the state of a run which continues the windows [before] *)
Definition holds_mean (m : means) (ws : list C) : Prop := nb_means m = length ws /\ corr m * RtoC (INR (length ws)) = lsum ws (fun w => w).
Lemma new_window_mean m ws w : holds_mean m ws -> holds_mean (new_window m w) (ws ++ [w]).
Proof.
  intros [H1 H2]. unfold holds_mean, new_window. cbn [nb_means corr]. rewrite app_length. cbn [length]. split; [rewrite H1; reflexivity |].
  rewrite lsum_app, H1. change (lsum [w] (fun w0 => w0)) with (w + RtoC 0). rewrite <- H2.
  assert (H : RtoC (INR (length ws + 1)) <> RtoC 0) by (apply INR_C_neq; lia).
  assert (H' : INR (length ws + 1) <> 0%R) by (intro E; apply H; rewrite E; reflexivity).
  rewrite RtoC_div by assumption. generalize dependent (RtoC (INR (length ws + 1))). intros r Hr. field. assumption.
Qed.
Lemma run_mean ws : forall m before, holds_mean m before -> holds_mean (run m ws) (before ++ ws).
Proof.
  induction ws as [| w ws IH] using rev_ind; intros m before H; [rewrite app_nil_r; assumption |].
  rewrite run_app, app_assoc. apply new_window_mean, IH, H.
Qed.
(** C222 (1): after any number of windows the arrays are the mean over the windows. *)
Theorem c222_mean_over_windows ws : ws <> [] -> corr (run first_run ws) = mean ws (fun w => w) /\ nb_means (run first_run ws) = length ws.
Proof.
  intros H. destruct (run_mean ws first_run []) as [H1 H2].
  { split; [reflexivity |]. cbn. ring. }
  cbn [app] in *. split; [| assumption]. unfold mean. rewrite <- H2. field. apply INR_C_neq. destruct ws; [congruence | cbn; lia].
Qed.
(** C222 (2): the values of the file are the means over the first k windows, for the k which are multiples of 128 or powers of 2, without 1. *)
Definition recorded (k : nat) : Prop := k <> 1%nat /\ ((exists j, k = 128 * j)%nat \/ (exists j, k = 2 ^ j)%nat).
Lemma has_to_save_iff k : (0 < k)%nat -> has_to_save k = true <-> recorded k.
Proof.
  intros Hk. unfold has_to_save, recorded. rewrite andb_true_iff, orb_true_iff, negb_true_iff, Nat.eqb_neq, !Nat.eqb_eq. split.
  - intros [H H1]. split; [assumption |]. destruct H as [H | H]; [left; exists (k / 128)%nat; apply Nat.div_exact; [lia | assumption] | right; eexists; exact H].
  - intros [H1 H]. split; [| assumption]. destruct H as [[j H] | [j H]].
    + left. subst. rewrite Nat.mul_comm. apply Nat.mod_mul. lia.
    + right. subst. rewrite Nat.log2_pow2 by lia. reflexivity.
Qed.
Theorem c222_file ws c k : In (c, k) (saved (run first_run ws)) <->
  (1 <= k <= length ws)%nat /\ recorded k /\ c = mean (firstn k ws) (fun w => w).
Proof.
  induction ws as [| w ws IH] using rev_ind.
  - cbn. split; [intros [] | intros [H _]; lia].
  - rewrite run_app, app_length. cbn [length]. unfold new_window. cbn [saved].
    pose proof (c222_mean_over_windows (ws ++ [w]) ltac:(destruct ws; discriminate)) as [M1 M2]. rewrite run_app in M1, M2.
    rewrite app_length in M2. cbn [length] in M2. unfold new_window in M1, M2. cbn [corr nb_means] in M1, M2. rewrite M1, M2.
    assert (F : forall j, (j <= length ws)%nat -> firstn j (ws ++ [w]) = firstn j ws).
    { intros j Hj. rewrite firstn_app. replace (j - length ws)%nat with 0%nat by lia. cbn. apply app_nil_r. }
    assert (FF : firstn (length ws + 1) (ws ++ [w]) = ws ++ [w]) by (apply firstn_all2; rewrite app_length; cbn; lia).
    pose proof (has_to_save_iff (length ws + 1) ltac:(lia)) as S. destruct (has_to_save (length ws + 1)).
    + rewrite in_app_iff, IH. split.
      * intros [[H1 [H2 H3]] | [E | []]].
        { split; [lia |]. split; [assumption |]. rewrite F by lia. assumption. }
        { assert (Ek : (k = length ws + 1)%nat) by congruence. assert (Ec : c = mean (ws ++ [w]) (fun w => w)) by congruence.
          subst k. split; [lia |]. split; [apply S; reflexivity |]. rewrite FF. assumption. }
      * intros [H1 [H2 H3]]. destruct (Nat.eq_dec k (length ws + 1)) as [-> | Hk].
        { right. left. rewrite FF in H3. congruence. }
        { left. split; [lia |]. split; [assumption |]. rewrite F in H3 by lia. assumption. }
    + rewrite IH. split.
      * intros [H1 [H2 H3]]. split; [lia |]. split; [assumption |]. rewrite F by lia. assumption.
      * intros [H1 [H2 H3]]. destruct (Nat.eq_dec k (length ws + 1)) as [-> | Hk]; [destruct S as [_ S]; specialize (S H2); discriminate |].
        split; [lia |]. split; [assumption |]. rewrite F in H3 by lia. assumption.
Qed.
(** C222 (3): a simulation which continues when the last window has been recorded gives the mean over all the windows. *)
Lemma last_saved ws : recorded (length ws) -> ws <> [] -> exists f, saved (run first_run ws) = f ++ [(corr (run first_run ws), length ws)].
Proof.
  destruct ws as [| w ws] using rev_ind; [congruence |]. intros H _. clear IHws.
  destruct (c222_mean_over_windows (ws ++ [w]) ltac:(destruct ws; discriminate)) as [_ M]. rewrite run_app in *.
  unfold new_window in *. cbn [saved nb_means corr] in *. exists (saved (run first_run ws)).
  apply has_to_save_iff in H; [| rewrite app_length; cbn; lia]. rewrite M, H. reflexivity.
Qed.
Theorem c222_restart_partial ws ws' : ws <> [] -> recorded (length ws) ->
  corr (run (restart (saved (run first_run ws))) ws') = mean (ws ++ ws') (fun w => w) /\
  nb_means (run (restart (saved (run first_run ws))) ws') = length (ws ++ ws').
Proof.
  intros H Hr. destruct (last_saved ws Hr H) as [f E]. rewrite E. unfold restart. rewrite rev_app_distr. cbn [rev app].
  destruct (run_mean ws' {| corr := corr (run first_run ws); nb_means := length ws; saved := f ++ [(corr (run first_run ws), length ws)] |} ws) as [H1 H2].
  { split; [reflexivity |]. cbn [corr]. destruct (run_mean ws first_run []) as [_ H2]; [split; [reflexivity | cbn; ring] | exact H2]. }
  split; [| assumption]. unfold mean. rewrite <- H2. field. apply INR_C_neq. rewrite app_length. destruct ws; [congruence | cbn; lia].
Qed.
(** but the windows after the last recorded number are lost *)
Theorem c222_windows_lost_refuted : exists ws w, ws = [RtoC 0; RtoC 0; RtoC 12] /\ w = RtoC 0 /\
  corr (run (restart (saved (run first_run ws))) [w]) = RtoC 0 /\ nb_means (run (restart (saved (run first_run ws))) [w]) = 3%nat /\
  mean (ws ++ [w]) (fun w => w) = RtoC 3.
Proof.
  eexists _, _. split; [reflexivity |]. split; [reflexivity |].
  set (r := run _ _).
  assert (E : holds_mean r [RtoC 0; RtoC 0; RtoC 0]).
  { unfold r. set (f := saved _).
    assert (Ef : f = [(RtoC (1 / INR 2) * (RtoC (INR 1) * (RtoC (1 / INR 1) * (RtoC (INR 0) * RtoC 0 + RtoC 0)) + RtoC 0), 2%nat)]) by reflexivity.
    rewrite Ef. apply (new_window_mean _ [RtoC 0; RtoC 0]). split; [reflexivity |]. cbn. apply injective_projections; cbn; ring. }
  destruct E as [E1 E2]. split; [| split; [exact E1 |]].
  - cbn [length] in E2. change (lsum [RtoC 0; RtoC 0; RtoC 0] (fun w => w)) with (RtoC 0 + (RtoC 0 + (RtoC 0 + RtoC 0))) in E2.
    assert (N : RtoC (INR 3) <> RtoC 0) by (apply INR_C_neq; lia).
    replace (corr r) with (corr r * RtoC (INR 3) / RtoC (INR 3)) by (field; assumption). rewrite E2. field. assumption.
  - unfold mean, lsum. apply injective_projections; cbn; field.
Qed.

(** ** The cumulant: the correlations without the products of the correlations of order 2 *)
Definition gaussian (n : nat) (l : list (nat -> R)) (o1 o3 o4 : Z) : C :=
  c2 n l o1 o3 * c2 n l (o3 + o4 - o1) o4 + c2 n l o1 o4 * c2 n l (o3 + o4 - o1) o3.
(** C222 (4): it is right when omega_2 is one of the frequencies of the arrays. *)
Theorem c222_cumulant_partial n l nb io1 io3 io4 : (io1 <= io3 + io4)%nat -> (io3 + io4 < nb + io1)%nat ->
  cumulant (fun a b => c4 n l (Z.of_nat io1) (Z.of_nat a) (Z.of_nat b)) (fun a b => c2 n l (Z.of_nat a) (Z.of_nat b)) nb io1 io3 io4
  = c4 n l (Z.of_nat io1) (Z.of_nat io3) (Z.of_nat io4) - gaussian n l (Z.of_nat io1) (Z.of_nat io3) (Z.of_nat io4).
Proof.
  intros H1 H2.
  assert (I : forall a b, (a + b = io3 + io4)%nat -> index2 nb io1 a b = (io3 + io4 - io1, false)%nat).
  { intros a b E. unfold index2. destruct (Z.ltb_spec (Z.of_nat a + Z.of_nat b - Z.of_nat io1) 0); [lia |].
    destruct (Z.leb_spec (Z.of_nat nb) (Z.of_nat a + Z.of_nat b - Z.of_nat io1)); [lia |]. f_equal. lia. }
  assert (S : forall a b, c4 n l (Z.of_nat io1) a b = c4 n l (Z.of_nat io1) b a).
  { intros a b. unfold c4, mean. f_equal. apply lsum_ext_in. intros s _. rewrite (Z.add_comm b a). ring. }
  assert (Z2 : Z.of_nat (io3 + io4 - io1) = (Z.of_nat io3 + Z.of_nat io4 - Z.of_nat io1)%Z) by lia.
  unfold cumulant, tmp12, gaussian. destruct (io4 <=? io3)%nat.
  - rewrite I by reflexivity. cbn [fst]. rewrite <- !c221_hermitian, Z2. ring.
  - rewrite I by lia. cbn [fst]. rewrite <- !c221_hermitian, Z2, (S (Z.of_nat io4)). ring.
Qed.
(** but for the folded frequencies the conjugate is missing *)
Theorem c222_cumulant_refuted : exists n s io1 io3 io4, (io1 < nb_frequencies n)%nat /\ (io3 < nb_frequencies n)%nat /\ (io4 < nb_frequencies n)%nat /\
  cumulant (fun a b => c4 n [s] (Z.of_nat io1) (Z.of_nat a) (Z.of_nat b)) (fun a b => c2 n [s] (Z.of_nat a) (Z.of_nat b)) (nb_frequencies n) io1 io3 io4 = RtoC 3
  /\ c4 n [s] (Z.of_nat io1) (Z.of_nat io3) (Z.of_nat io4) - gaussian n [s] (Z.of_nat io1) (Z.of_nat io3) (Z.of_nat io4) = RtoC (-1).
Proof.
  exists 4%nat, (signal4 0 1 0 0), 1%nat, 0%nat, 0%nat. split; [cbn; lia |]. split; [cbn; lia |]. split; [cbn; lia |].
  assert (T0 : tilde 4 (signal4 0 1 0 0) 0 = RtoC 1) by (rewrite tilde4; apply injective_projections; cbn; ring).
  assert (T1 : tilde 4 (signal4 0 1 0 0) 1 = (0, -1)%R) by (rewrite tilde4; apply injective_projections; cbn; ring).
  assert (T2 : tilde 4 (signal4 0 1 0 0) (-1) = (0, 1)%R) by (rewrite tilde4; apply injective_projections; cbn; ring).
  assert (one : forall f : (nat -> R) -> C, mean [signal4 0 1 0 0] f = f (signal4 0 1 0 0)).
  { intros f. unfold mean, lsum. cbn [fold_right length INR]. field. intro E. apply RtoC_inj in E. lra. }
  split.
  - unfold cumulant, tmp12. cbn [Nat.leb]. change (fst (index2 (nb_frequencies 4) 1 0 0)) with 1%nat.
    change (Z.of_nat 1) with 1%Z. change (Z.of_nat 0) with 0%Z. unfold c4, c2. rewrite !one. change (0 + 0 - 1)%Z with (-1)%Z. rewrite T0, T1, T2.
    apply injective_projections; cbn; ring.
  - unfold gaussian, c4, c2. rewrite !one. change (Z.of_nat 1) with 1%Z. change (Z.of_nat 0) with 0%Z. change (0 + 0 - 1)%Z with (-1)%Z. rewrite T0, T1, T2.
    apply injective_projections; cbn; ring.
Qed.

(** ** The figure has a subplot for each omega_1 up to four of them, but not for five *)
Theorem c222_subplots_partial nb : (1 <= nb <= 4)%nat -> (nb <= fst (subplots nb) * snd (subplots nb))%nat.
Proof. intros H. assert (nb = 1 \/ nb = 2 \/ nb = 3 \/ nb = 4)%nat as [-> | [-> | [-> | ->]]] by lia; vm_compute; lia. Qed.
Theorem c222_subplots_refuted : exists nb, subplots nb = (2, 2)%nat /\ nb = 5%nat.
Proof. exists 5%nat. split; reflexivity. Qed.

(** the numbers of rows and columns: the integer part of the square root and the nearest integer to the quotient (the even one
    in the middle) *)
Theorem c222_subplots nb vert hori : (1 <= nb)%nat -> subplots nb = (vert, hori) ->
  (1 <= vert /\ vert * vert <= nb < (vert + 1) * (vert + 1))%nat
  /\ (2 * nb <= (2 * hori + 1) * vert /\ 2 * hori * vert <= 2 * nb + vert)%nat
  /\ ((2 * nb = (2 * hori + 1) * vert \/ 2 * hori * vert = 2 * nb + vert)%nat -> Nat.Even hori).
Proof.
  intros H E. unfold subplots in E. injection E as <- <-.
  pose proof (Nat.sqrt_spec nb (Nat.le_0_l nb)) as S. set (v := Nat.sqrt nb) in *.
  assert (V : (1 <= v)%nat) by (destruct v; cbn in *; lia).
  split; [split; [exact V | split; [exact (proj1 S) | rewrite Nat.add_1_r; exact (proj2 S)]] |].
  unfold round_div. pose proof (Nat.div_mod nb v ltac:(lia)) as D. pose proof (Nat.mod_upper_bound nb v ltac:(lia)) as M.
  set (q := (nb / v)%nat) in *. set (r := (nb mod v)%nat) in *.
  destruct (Nat.ltb_spec (2 * r) v) as [A | A]; [split; [nia | intros [X | X]; exfalso; nia] |].
  destruct (Nat.ltb_spec v (2 * r)) as [B | B]; [split; [nia | intros [X | X]; exfalso; nia] |].
  destruct (Nat.even q) eqn:Q.
  - split; [nia |]. intros _. apply Nat.even_spec. exact Q.
  - split; [nia |]. intros _. apply Nat.even_spec. rewrite Nat.add_1_r, Nat.even_succ, <- Nat.negb_even, Q. reflexivity.
Qed.
Example ex_c222_subplots : subplots 10 = (3, 3)%nat /\ subplots 5 = (2, 2)%nat /\ subplots 7 = (2, 4)%nat.
Proof. split; [| split]; reflexivity. Qed.

(** ** The hypotheses can be met *)
Example ex_c221_odd : representable 5 1 2 2 /\ (5 / 2 + 1 <= 2 + 2 - 1)%nat /\ (2 < nb_frequencies 5)%nat.
Proof. split; [left; exists 2%nat; reflexivity |]. cbn. lia. Qed.
Example ex_c221_checked : checked 100 1 [1; 49]%nat <> None /\ checked 100 1 [1; 50]%nat = None.
Proof.
  split.
  - apply (c221_checked 100 1 [1; 49]%nat); [lia | lra | cbn; lia |]. intros io [<- | [<- | []]]; lia.
  - destruct (checked 100 1 [1; 50]%nat) eqn:E; [| reflexivity]. exfalso.
    assert (H : checked 100 1 [1; 50]%nat <> None) by congruence.
    pose proof (proj1 (proj1 (c221_checked 100 1 [1; 50]%nat ltac:(lia) ltac:(lra) ltac:(cbn; lia))) H 50%nat ltac:(right; left; reflexivity)). lia.
Qed.
Example ex_c222 : recorded 2 /\ recorded 384 /\ recorded 64 /\ ~ recorded 1 /\ ~ recorded 3.
Proof.
  split; [split; [lia | right; exists 1%nat; reflexivity] |]. split; [split; [lia | left; exists 3%nat; reflexivity] |].
  split; [split; [lia | right; exists 6%nat; reflexivity] |]. split; [intros [H _]; lia |].
  intros H. apply has_to_save_iff in H; [| lia]. vm_compute in H. discriminate.
Qed.

Print Assumptions c221_correl4_partial.
Print Assumptions c221_even_number_refuted.
Print Assumptions c222_file.
Print Assumptions c222_restart_partial.
Print Assumptions c222_cumulant_refuted.
Print Assumptions c222_subplots.

Print Assumptions c221_symmetric.
Print Assumptions c221_correl2.
Print Assumptions c221_hermitian.
Print Assumptions c221_diagonal.
Print Assumptions c221_checked.
Print Assumptions c221_omegas.
Print Assumptions c222_mean_over_windows.
Print Assumptions c222_windows_lost_refuted.
Print Assumptions c222_cumulant_partial.
Print Assumptions c222_subplots_partial.
Print Assumptions c222_subplots_refuted.
