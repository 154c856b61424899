(** * Complex exponential: definition and facts used by several areas *)

From Coq Require Import Reals Lra Lia.
From Coquelicot Require Import Coquelicot.
Open Scope C_scope.

Bind Scope C_scope with C.
Global Arguments Cmod x%C.
Global Arguments Cplus x%C y%C.
Global Arguments Cminus x%C y%C.
Global Arguments Cmult x%C y%C.
Global Arguments Cdiv x%C y%C.
Global Arguments Copp x%C.
Global Arguments Cinv x%C.

(** np.exp on complex numbers. *)
Definition cexp (z : C) : C :=
  (exp (fst z) * cos (snd z), exp (fst z) * sin (snd z))%R.

(** Integer powers of complex numbers. *)
Fixpoint cpow (z : C) (n : nat) : C :=
  match n with O => RtoC 1 | S m => z * cpow z m end.

Lemma C_eq (z w : C) : fst z = fst w -> snd z = snd w -> z = w.
Proof. destruct z, w; simpl; intros -> ->; reflexivity. Qed.

Lemma cexp_0 : cexp (RtoC 0) = RtoC 1.
Proof.
  apply C_eq; simpl; rewrite exp_0; [rewrite cos_0|rewrite sin_0]; ring.
Qed.

Lemma cexp_plus z w : cexp (z + w) = cexp z * cexp w.
Proof.
  apply C_eq; simpl; rewrite exp_plus; [rewrite cos_plus|rewrite sin_plus]; ring.
Qed.

Lemma cexp_opp z : cexp z * cexp (- z) = RtoC 1.
Proof. rewrite <- cexp_plus. replace (z + - z) with (RtoC 0) by ring. apply cexp_0. Qed.

Lemma cexp_neq_0 z : cexp z <> RtoC 0.
Proof.
  intros H. pose proof (cexp_opp z) as E. rewrite H in E.
  rewrite Cmult_0_l in E. apply (f_equal fst) in E. simpl in E. lra.
Qed.

Lemma cexp_inv z : / cexp z = cexp (- z).
Proof.
  pose proof (cexp_opp z) as E. pose proof (cexp_neq_0 z) as H.
  rewrite <- (Cmult_1_l (/ cexp z)). rewrite <- E. field. exact H.
Qed.

Lemma cexp_div w z : w / cexp z = cexp (- z) * w.
Proof. unfold Cdiv. rewrite cexp_inv. ring. Qed.

Lemma Cmod_cexp z : Cmod (cexp z) = exp (fst z).
Proof.
  unfold Cmod, cexp; simpl.
  replace (exp (fst z) * cos (snd z) * (exp (fst z) * cos (snd z) * 1) +
           exp (fst z) * sin (snd z) * (exp (fst z) * sin (snd z) * 1))%R
    with (Rsqr (exp (fst z)))
    by (unfold Rsqr; pose proof (sin2_cos2 (snd z)) as H; unfold Rsqr in H;
        replace (exp (fst z) * exp (fst z))%R with
          (exp (fst z) * exp (fst z) * (sin (snd z) * sin (snd z) + cos (snd z) * cos (snd z)))%R
          by (rewrite H; ring); ring).
  apply sqrt_Rsqr. left; apply exp_pos.
Qed.

Lemma Cmod_cexp_phase t : Cmod (cexp (0, t)%R) = 1%R.
Proof. rewrite Cmod_cexp. apply exp_0. Qed.

Lemma Cmod_fst z : (Rabs (fst z) <= Cmod z)%R.
Proof. eapply Rle_trans; [apply Rmax_l|apply Rmax_Cmod]. Qed.

Lemma Cmod_snd z : (Rabs (snd z) <= Cmod z)%R.
Proof. eapply Rle_trans; [apply Rmax_r|apply Rmax_Cmod]. Qed.

Lemma exp_le a b : (a <= b)%R -> (exp a <= exp b)%R.
Proof. intros [H| ->]; [left; apply exp_increasing; exact H|right; reflexivity]. Qed.

Lemma Cmod_cexp_le z : (Cmod (cexp z) <= exp (Cmod z))%R.
Proof.
  rewrite Cmod_cexp. apply exp_le.
  eapply Rle_trans; [apply Rle_abs|apply Cmod_fst].
Qed.

Lemma Cmod_cpow z n : Cmod (cpow z n) = (Cmod z ^ n)%R.
Proof. induction n; simpl; [apply Cmod_1|]. now rewrite Cmod_mult, IHn. Qed.

Lemma cpow_plus z n m : cpow z (n + m) = cpow z n * cpow z m.
Proof. induction n; simpl; [ring|rewrite IHn; ring]. Qed.

Lemma cpow_mult z w n : cpow (z * w) n = cpow z n * cpow w n.
Proof. induction n; simpl; [ring|rewrite IHn; ring]. Qed.

Lemma cpow_cexp z n : cpow (cexp z) n = cexp (RtoC (INR n) * z).
Proof.
  induction n as [|n IH].
  - simpl. replace (RtoC 0 * z) with (RtoC 0) by ring. now rewrite cexp_0.
  - cbn [cpow]. rewrite IH, <- cexp_plus. f_equal. rewrite S_INR, RtoC_plus. ring.
Qed.

(** ** Taylor polynomials of the exponential *)

Fixpoint csum (f : nat -> C) (n : nat) : C :=
  match n with O => f O | S m => csum f m + f (S m) end.

Definition texp (p : nat) (z : C) : C :=
  csum (fun k => cpow z k * RtoC (/ INR (fact k))) p.

Lemma fst_csum f n : fst (csum f n) = sum_f_R0 (fun k => fst (f k)) n.
Proof. induction n; simpl; [reflexivity|now rewrite IHn]. Qed.

Lemma snd_csum f n : snd (csum f n) = sum_f_R0 (fun k => snd (f k)) n.
Proof. induction n; simpl; [reflexivity|now rewrite IHn]. Qed.

Lemma cexp_real (t x y : R) :
  cexp (RtoC t * (x, y)) = (exp (t * x) * cos (t * y), exp (t * x) * sin (t * y))%R.
Proof.
  unfold cexp. simpl.
  replace (t * x - 0 * y)%R with (t * x)%R by ring.
  replace (t * y + 0 * x)%R with (t * y)%R by ring. reflexivity.
Qed.

Lemma is_derive_fst w z t :
  is_derive (fun t : R => fst (w * cexp (RtoC t * z))) t
            (fst (w * z * cexp (RtoC t * z))).
Proof.
  destruct w as [a b], z as [x y]. rewrite cexp_real.
  apply is_derive_ext with
    (f := fun u : R => (a * (exp (u * x) * cos (u * y)) - b * (exp (u * x) * sin (u * y)))%R).
  - intros u. now rewrite cexp_real.
  - simpl. auto_derive; [exact I|ring].
Qed.

Lemma is_derive_snd w z t :
  is_derive (fun t : R => snd (w * cexp (RtoC t * z))) t
            (snd (w * z * cexp (RtoC t * z))).
Proof.
  destruct w as [a b], z as [x y]. rewrite cexp_real.
  apply is_derive_ext with
    (f := fun u : R => (a * (exp (u * x) * sin (u * y)) + b * (exp (u * x) * cos (u * y)))%R).
  - intros u. now rewrite cexp_real.
  - simpl. auto_derive; [exact I|ring].
Qed.

Lemma is_derive_n_chain (g : nat -> R -> R) :
  (forall k t, is_derive (g k) t (g (S k) t)) ->
  forall k t, is_derive_n (g O) k t (g k t).
Proof.
  intros H k. induction k as [|k IH]; intros t; [reflexivity|].
  simpl. apply is_derive_ext with (f := g k).
  - intros u. symmetry. apply is_derive_n_unique, IH.
  - apply H.
Qed.

Lemma cpow_S_r z n : cpow z n * z = cpow z (S n).
Proof. simpl. ring. Qed.

Lemma taylor_component (g : nat -> R -> R) (p : nat) (B : R) :
  (forall k t, is_derive (g k) t (g (S k) t)) ->
  (forall t, 0 <= t <= 1 -> Rabs (g (S p) t) <= B)%R ->
  (Rabs (g O 1 - sum_f_R0 (fun k => g k 0 / INR (fact k)) p) <=
   B / INR (fact (S p)))%R.
Proof.
  intros H HB. pose proof (is_derive_n_chain g H) as HD.
  destruct (Taylor_Lagrange (g O) p 0 1) as (zeta & Hz & E); [lra| |].
  - intros t _ k _. destruct k; [exact I|].
    exists (g (S k) t). apply (HD (S k) t).
  - rewrite E. rewrite (is_derive_n_unique _ _ _ _ (HD (S p) zeta)).
    replace (sum_f_R0 (fun m => (1 - 0) ^ m / INR (fact m) * Derive_n (g O) m 0) p)%R
      with (sum_f_R0 (fun k => g k 0 / INR (fact k)) p)%R.
    2:{ apply sum_eq. intros i _. rewrite (is_derive_n_unique _ _ _ _ (HD i 0%R)).
        rewrite Rminus_0_r, pow1. field. apply INR_fact_neq_0. }
    match goal with |- (Rabs ?x <= _)%R =>
      replace x with (g (S p) zeta * / INR (fact (S p)))%R end.
    2:{ rewrite Rminus_0_r, pow1. field. apply INR_fact_neq_0. }
    rewrite Rabs_mult, (Rabs_pos_eq (/ _)).
    2:{ left; apply Rinv_0_lt_compat, INR_fact_lt_0. }
    unfold Rdiv. apply Rmult_le_compat_r.
    + left; apply Rinv_0_lt_compat, INR_fact_lt_0.
    + apply HB. lra.
Qed.

Lemma Cmod_le_sum z : (Cmod z <= Rabs (fst z) + Rabs (snd z))%R.
Proof.
  replace z with (RtoC (fst z) + Ci * RtoC (snd z)) at 1
    by (apply C_eq; simpl; ring).
  eapply Rle_trans; [apply Cmod_triangle|].
  rewrite Cmod_mult, !Cmod_R.
  replace (Cmod Ci) with 1%R; [lra|].
  unfold Cmod, Ci; simpl.
  replace (0 * (0 * 1) + 1 * (1 * 1))%R with 1%R by ring. symmetry; apply sqrt_1.
Qed.

Lemma Cmod_scaled_exp z t k : (0 <= t <= 1)%R ->
  (Cmod (cpow z k * cexp (RtoC t * z)) <= Cmod z ^ k * exp (Cmod z))%R.
Proof.
  intros Ht. rewrite Cmod_mult, Cmod_cpow.
  apply Rmult_le_compat_l; [apply pow_le, Cmod_ge_0|].
  eapply Rle_trans; [apply Cmod_cexp_le|]. apply exp_le.
  rewrite Cmod_mult, Cmod_R, Rabs_pos_eq by lra.
  rewrite <- (Rmult_1_l (Cmod z)) at 2.
  apply Rmult_le_compat_r; [apply Cmod_ge_0|lra].
Qed.

(** Remainder of the Taylor polynomial of degree [p]. *)
Lemma texp_remainder p z :
  (Cmod (cexp z - texp p z) <=
   2 * (Cmod z ^ S p * exp (Cmod z)) / INR (fact (S p)))%R.
Proof.
  assert (Hf := taylor_component
    (fun k t => fst (cpow z k * cexp (RtoC t * z))%C) p
    (Cmod z ^ S p * exp (Cmod z))%R).
  assert (Hs := taylor_component
    (fun k t => snd (cpow z k * cexp (RtoC t * z))%C) p
    (Cmod z ^ S p * exp (Cmod z))%R).
  eapply Rle_trans; [apply Cmod_le_sum|].
  unfold Rdiv. rewrite Rmult_assoc.
  replace (2 * (Cmod z ^ S p * exp (Cmod z) * / INR (fact (S p))))%R with
    (Cmod z ^ S p * exp (Cmod z) / INR (fact (S p)) +
     Cmod z ^ S p * exp (Cmod z) / INR (fact (S p)))%R by (unfold Rdiv; ring).
  assert (E1 : cpow z 0 * cexp (RtoC 1 * z) = cexp z)
    by (simpl; rewrite Cmult_1_l; f_equal; ring).
  assert (E0 : cexp (RtoC 0 * z) = RtoC 1)
    by (rewrite Cmult_0_l; apply cexp_0).
  apply Rplus_le_compat.
  - replace (fst (cexp z - texp p z)) with
      (fst (cpow z 0 * cexp (RtoC 1 * z))%C -
       sum_f_R0 (fun k => fst (cpow z k * cexp (RtoC 0 * z))%C / INR (fact k)) p)%R.
    + apply Hf.
      * intros k t. pose proof (is_derive_fst (cpow z k) z t) as D.
        rewrite cpow_S_r in D. exact D.
      * intros t Ht. eapply Rle_trans; [apply Cmod_fst|apply Cmod_scaled_exp; exact Ht].
    + rewrite E1. unfold texp.
      change (fst (cexp z - csum (fun k => cpow z k * RtoC (/ INR (fact k))) p)) with
        (fst (cexp z) + - fst (csum (fun k => cpow z k * RtoC (/ INR (fact k)))%C p))%R.
      rewrite fst_csum. unfold Rminus. f_equal. f_equal. apply sum_eq. intros k _.
      rewrite E0. simpl. unfold Rdiv. ring.
  - replace (snd (cexp z - texp p z)) with
      (snd (cpow z 0 * cexp (RtoC 1 * z))%C -
       sum_f_R0 (fun k => snd (cpow z k * cexp (RtoC 0 * z))%C / INR (fact k)) p)%R.
    + apply Hs.
      * intros k t. pose proof (is_derive_snd (cpow z k) z t) as D.
        rewrite cpow_S_r in D. exact D.
      * intros t Ht. eapply Rle_trans; [apply Cmod_snd|apply Cmod_scaled_exp; exact Ht].
    + rewrite E1. unfold texp.
      change (snd (cexp z - csum (fun k => cpow z k * RtoC (/ INR (fact k))) p)) with
        (snd (cexp z) + - snd (csum (fun k => cpow z k * RtoC (/ INR (fact k)))%C p))%R.
      rewrite snd_csum. unfold Rminus. f_equal. f_equal. apply sum_eq. intros k _.
      rewrite E0. simpl. unfold Rdiv. ring.
Qed.

(** The Taylor polynomial is bounded by the exponential of the modulus. *)
Lemma texp_bound p z : (Cmod (texp p z) <= exp (Cmod z))%R.
Proof.
  assert (Hm : (forall q, Cmod (texp q z) <=
     sum_f_R0 (fun k => Cmod z ^ k / INR (fact k)) q)%R).
  { induction q as [|q IH].
    - unfold texp; simpl. rewrite Cmult_1_l, Cmod_R, Rabs_pos_eq by lra. lra.
    - unfold texp in *. cbn [csum sum_f_R0].
      eapply Rle_trans; [apply Cmod_triangle|].
      apply Rplus_le_compat; [exact IH|].
      rewrite Cmod_mult, Cmod_cpow, Cmod_R, Rabs_pos_eq.
      + right; reflexivity.
      + left; apply Rinv_0_lt_compat, INR_fact_lt_0. }
  eapply Rle_trans; [apply Hm|].
  pose proof (Cmod_ge_0 z) as Hr. set (r := Cmod z) in *. clearbody r. clear Hm z.
  unfold exp. destruct (exist_exp r) as [l Hl]. simpl.
  assert (Hl' : infinite_sum (fun i => / INR (fact i) * r ^ i)%R l) by exact Hl.
  clear Hl.
  assert (HU : Un_cv (fun n => sum_f_R0 (fun i => / INR (fact i) * r ^ i)%R n) l)
    by exact Hl'.
  replace (sum_f_R0 (fun k => r ^ k / INR (fact k)) p)%R with
    (sum_f_R0 (fun i => / INR (fact i) * r ^ i) p)%R
    by (apply sum_eq; intros; unfold Rdiv; ring).
  apply (growing_ineq (fun n => sum_f_R0 (fun i => / INR (fact i) * r ^ i)%R n) l).
  - intros n. cbn [sum_f_R0].
    assert (0 <= / INR (fact (S n)) * r ^ S n)%R.
    { apply Rmult_le_pos; [left; apply Rinv_0_lt_compat, INR_fact_lt_0|apply pow_le; exact Hr]. }
    lra.
  - exact HU.
Qed.

(** Difference of powers. *)
Lemma cpow_diff a b M n : (0 <= M)%R -> (Cmod a <= M)%R -> (Cmod b <= M)%R ->
  (Cmod (cpow a n - cpow b n) <= INR n * M ^ (n - 1) * Cmod (a - b))%R.
Proof.
  intros HM Ha Hb. induction n as [|n IH].
  - simpl. replace (RtoC 1 - RtoC 1) with (RtoC 0) by ring. rewrite Cmod_0. lra.
  - cbn [cpow]. replace (a * cpow a n - b * cpow b n) with
      (a * (cpow a n - cpow b n) + cpow b n * (a - b)) by ring.
    eapply Rle_trans; [apply Cmod_triangle|]. rewrite !Cmod_mult, Cmod_cpow.
    replace (S n - 1)%nat with n by lia. rewrite S_INR.
    assert (Hd : (0 <= Cmod (a - b))%R) by apply Cmod_ge_0.
    assert (H1 : (Cmod a * Cmod (cpow a n - cpow b n) <= INR n * M ^ n * Cmod (a - b))%R).
    { destruct n as [|n].
      - cbn [cpow]. replace (RtoC 1 - RtoC 1) with (RtoC 0) by ring.
        rewrite Cmod_0. simpl. lra.
      - eapply Rle_trans.
        + apply Rmult_le_compat; [apply Cmod_ge_0|apply Cmod_ge_0|exact Ha|exact IH].
        + replace (S n - 1)%nat with n by lia. right. simpl pow. ring. }
    assert (H2 : (Cmod b ^ n * Cmod (a - b) <= M ^ n * Cmod (a - b))%R).
    { apply Rmult_le_compat_r; [exact Hd|]. apply pow_incr. split; [apply Cmod_ge_0|exact Hb]. }
    lra.
Qed.
