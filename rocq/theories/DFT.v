(** * Discrete Fourier transforms on periodic grids: definitions and the convolution formula

    Modes are triples of integers, the grid has nx * ny * nz points; 2D and 1D fields are the
    case nz = 1 (and ny = 1) with zero wavenumbers in these directions.  The FFT library is
    not part of the studied code: these are the mathematical transforms. *)

From Coq Require Import Reals Lra Lia ZArith List.
From Coquelicot Require Import Complex.
From Verif Require Import CExp.
Import ListNotations.
Open Scope C_scope.

(** sum for 0 <= j < n, sum over a list *)
Fixpoint nsum (n : nat) (f : nat -> C) : C :=
  match n with O => RtoC 0 | S m => nsum m f + f m end.
Definition lsum {A : Type} (l : list A) (f : A -> C) : C :=
  fold_right (fun x s => f x + s) (RtoC 0) l.

(** exp(i t) *)
Definition cis (t : R) : C := cexp (0, t)%R.

Definition mode : Type := (Z * Z * Z)%type.
Definition mx (m : mode) : Z := fst (fst m).
Definition my (m : mode) : Z := snd (fst m).
Definition mz (m : mode) : Z := snd m.
Definition madd (p q : mode) : mode := (mx p + mx q, my p + my q, mz p + mz q)%Z.
Definition msubt (p q : mode) : mode := (mx p - mx q, my p - my q, mz p - mz q)%Z.

Record grid := mkGrid { gx : nat; gy : nat; gz : nat }.
Definition grid_pos (g : grid) : Prop := (0 < gx g /\ 0 < gy g /\ 0 < gz g)%nat.

(** exp(2 i pi j m / n) *)
Definition chi (n : nat) (m : Z) (j : nat) : C := cis (2 * PI * IZR m * INR j / INR n)%R.
Definition chi3 (g : grid) (m : mode) (jx jy jz : nat) : C :=
  chi (gx g) (mx m) jx * chi (gy g) (my m) jy * chi (gz g) (mz m) jz.

(** values on the grid of the field with the coefficients [a] for the modes [ms] *)
Definition idft (g : grid) (ms : list mode) (a : mode -> C) (jx jy jz : nat) : C :=
  lsum ms (fun p => a p * chi3 g p jx jy jz).

(** coefficient of the mode [k] of the field [u] known on the grid *)
Definition dft (g : grid) (u : nat -> nat -> nat -> C) (k : mode) : C :=
  RtoC (/ (INR (gx g) * INR (gy g) * INR (gz g)))
  * nsum (gx g) (fun jx => nsum (gy g) (fun jy => nsum (gz g) (fun jz =>
      u jx jy jz * chi3 g (- mx k, - my k, - mz k)%Z jx jy jz))).

(** the two numbers are equal modulo the grid in each direction *)
Definition congruent (g : grid) (m : mode) : bool :=
  ((mx m mod Z.of_nat (gx g) =? 0) && (my m mod Z.of_nat (gy g) =? 0)
   && (mz m mod Z.of_nat (gz g) =? 0))%Z%bool.

(** ** Sums *)

Lemma nsum_ext n f g : (forall i, (i < n)%nat -> f i = g i) -> nsum n f = nsum n g.
Proof.
  induction n as [|n IH]; simpl; intros H; [reflexivity|].
  rewrite IH, H; auto with arith.
Qed.

Lemma nsum_scal n c f : nsum n (fun i => c * f i) = c * nsum n f.
Proof. induction n; simpl; [ring|]. rewrite IHn. ring. Qed.

Lemma nsum_scal_r n c f : nsum n (fun i => f i * c) = nsum n f * c.
Proof. induction n; simpl; [ring|]. rewrite IHn. ring. Qed.

Lemma nsum_plus n f g : nsum n (fun i => f i + g i) = nsum n f + nsum n g.
Proof. induction n; simpl; [ring|]. rewrite IHn. ring. Qed.

Lemma nsum_zero n : nsum n (fun _ => RtoC 0) = RtoC 0.
Proof. induction n; simpl; [reflexivity|]. rewrite IHn. ring. Qed.

Lemma lsum_ext {A} (l : list A) f g : (forall x, In x l -> f x = g x) -> lsum l f = lsum l g.
Proof.
  induction l as [|x l IH]; simpl; intros H; [reflexivity|].
  rewrite IH, H; auto.
Qed.

Lemma lsum_scal {A} (l : list A) c f : lsum l (fun i => c * f i) = c * lsum l f.
Proof. induction l as [|x l IH]; simpl; [ring|]. rewrite IH. ring. Qed.

Lemma lsum_scal_r {A} (l : list A) c f : lsum l (fun i => f i * c) = lsum l f * c.
Proof. induction l as [|x l IH]; simpl; [ring|]. rewrite IH. ring. Qed.

Lemma lsum_plus {A} (l : list A) f g : lsum l (fun i => f i + g i) = lsum l f + lsum l g.
Proof. induction l as [|x l IH]; simpl; [ring|]. rewrite IH. ring. Qed.

Lemma lsum_zero {A} (l : list A) f : (forall x, In x l -> f x = RtoC 0) -> lsum l f = RtoC 0.
Proof.
  induction l as [|x l IH]; simpl; intros H; [reflexivity|].
  rewrite IH, H by auto. ring.
Qed.

Lemma nsum_lsum {A} n (l : list A) f :
  nsum n (fun i => lsum l (fun x => f i x)) = lsum l (fun x => nsum n (fun i => f i x)).
Proof.
  induction l as [|x l IH]; simpl; [apply nsum_zero|].
  rewrite nsum_plus, IH. reflexivity.
Qed.

Lemma lsum_lsum {A B} (l : list A) (r : list B) f :
  lsum l (fun i => lsum r (fun x => f i x)) = lsum r (fun x => lsum l (fun i => f i x)).
Proof.
  induction l as [|y l IH]; simpl.
  - symmetry. apply lsum_zero. reflexivity.
  - rewrite IH, <- lsum_plus. reflexivity.
Qed.

(** ** Exponentials *)

Lemma cis_plus s t : cis (s + t) = cis s * cis t.
Proof. unfold cis. rewrite <- cexp_plus. f_equal. apply C_eq; simpl; ring. Qed.

Lemma cis_0 : cis 0 = RtoC 1.
Proof. exact cexp_0. Qed.

Lemma cis_neq_0 t : cis t <> RtoC 0.
Proof. apply cexp_neq_0. Qed.

Lemma cis_opp t : cis (- t) = / cis t.
Proof. unfold cis. rewrite cexp_inv. f_equal. apply C_eq; simpl; ring. Qed.

Lemma cis_div s t : cis s / cis t = cis (s - t).
Proof. unfold Rminus. rewrite cis_plus, cis_opp. reflexivity. Qed.

Lemma cis_period_nat (n : nat) : cis (2 * PI * INR n) = RtoC 1.
Proof.
  induction n as [|n IH].
  - simpl. rewrite Rmult_0_r. apply cis_0.
  - rewrite S_INR, Rmult_plus_distr_l, cis_plus, IH, Rmult_1_r.
    unfold cis, cexp; simpl. rewrite exp_0, cos_2PI, sin_2PI. apply C_eq; simpl; ring.
Qed.

Lemma cis_period (z : Z) : cis (2 * PI * IZR z) = RtoC 1.
Proof.
  destruct (Z_le_dec 0 z) as [H|H].
  - rewrite <- (Z2Nat.id z H), <- INR_IZR_INZ. apply cis_period_nat.
  - replace (2 * PI * IZR z)%R with (- (2 * PI * IZR (- z)))%R by (rewrite opp_IZR; ring).
    rewrite cis_opp. rewrite <- (Z2Nat.id (- z)) by lia. rewrite <- INR_IZR_INZ, cis_period_nat.
    apply C_eq; simpl; field.
Qed.

(** exp(i pi z) is 1 or -1 *)
Lemma cis_half (z : Z) : cis (PI * IZR z) = if Z.even z then RtoC 1 else RtoC (-1).
Proof.
  destruct (Z.even z) eqn:E.
  - apply Z.even_spec in E. destruct E as [c ->].
    replace (PI * IZR (2 * c))%R with (2 * PI * IZR c)%R by (rewrite mult_IZR; ring).
    apply cis_period.
  - assert (O : Z.odd z = true) by (rewrite <- Z.negb_even, E; reflexivity).
    apply Z.odd_spec in O. destruct O as [c ->].
    replace (PI * IZR (2 * c + 1))%R with (2 * PI * IZR c + PI)%R
      by (rewrite plus_IZR, mult_IZR; ring).
    rewrite cis_plus, cis_period. unfold cis, cexp; simpl. rewrite exp_0, cos_PI, sin_PI.
    apply C_eq; simpl; ring.
Qed.

(** exp(i t) = 1 only for the multiples of 2 pi *)
Lemma cis_eq_1 t : cis t = RtoC 1 -> exists z : Z, t = (2 * PI * IZR z)%R.
Proof.
  intros H. apply (f_equal fst) in H. unfold cis, cexp in H. simpl in H.
  rewrite exp_0, Rmult_1_l in H.
  assert (S : sin (t / 2) = 0%R).
  { replace t with (2 * (t / 2))%R in H by field. rewrite cos_2a_sin in H.
    assert (E : (sin (t / 2) * sin (t / 2) = 0)%R) by lra.
    apply Rmult_integral in E. tauto. }
  apply sin_eq_0_0 in S. destruct S as [z E]. exists z.
  replace t with (2 * (t / 2))%R by field. rewrite E. ring.
Qed.

Lemma chi_mult n m m' j : chi n m j * chi n m' j = chi n (m + m') j.
Proof.
  unfold chi. rewrite <- cis_plus. f_equal. rewrite plus_IZR. unfold Rdiv. ring.
Qed.

Lemma chi3_mult g m m' jx jy jz :
  chi3 g m jx jy jz * chi3 g m' jx jy jz = chi3 g (madd m m') jx jy jz.
Proof.
  unfold chi3, madd, mx, my, mz; simpl. rewrite <- !chi_mult. ring.
Qed.

Lemma geometric w n : (w - RtoC 1) * nsum n (fun j => cpow w j) = cpow w n - RtoC 1.
Proof.
  induction n as [|n IH]; simpl; [ring|].
  replace ((w - RtoC 1) * (nsum n (fun j => cpow w j) + cpow w n)) with
    ((w - RtoC 1) * nsum n (fun j => cpow w j) + (w - RtoC 1) * cpow w n) by ring.
  rewrite IH. ring.
Qed.

Lemma nsum_one n : nsum n (fun _ => RtoC 1) = RtoC (INR n).
Proof.
  induction n as [|n IH]; [reflexivity|]. cbn [nsum]. rewrite IH, S_INR, RtoC_plus. reflexivity.
Qed.

(** orthogonality of the exponentials on the grid *)
Lemma orthogonality n (m : Z) : (0 < n)%nat ->
  nsum n (chi n m) = if (m mod Z.of_nat n =? 0)%Z then RtoC (INR n) else RtoC 0.
Proof.
  intros Hn. assert (HN : INR n <> 0%R) by (apply not_0_INR; lia).
  set (w := cis (2 * PI * IZR m / INR n)%R).
  assert (Hw : forall j, chi n m j = cpow w j).
  { intros j. unfold w, cis. rewrite cpow_cexp. unfold chi, cis. f_equal.
    apply C_eq; simpl; field; exact HN. }
  rewrite (nsum_ext n _ (fun j => cpow w j)) by (intros; apply Hw).
  destruct (Z.eqb_spec (m mod Z.of_nat n) 0) as [E|E].
  - assert (W : w = RtoC 1).
    { apply Z.mod_divide in E; [|lia]. destruct E as [z ->]. unfold w.
      replace (2 * PI * IZR (z * Z.of_nat n) / INR n)%R with (2 * PI * IZR z)%R
        by (rewrite mult_IZR, <- INR_IZR_INZ; field; exact HN).
      apply cis_period. }
    rewrite W. rewrite (nsum_ext n _ (fun _ => RtoC 1)); [apply nsum_one|].
    intros j _. induction j; simpl; [reflexivity|]. rewrite IHj. ring.
  - assert (W : w <> RtoC 1).
    { intros W. apply cis_eq_1 in W. destruct W as [z Ez]. apply E.
      assert (Em : IZR m = (IZR z * INR n)%R).
      { assert (P : (PI <> 0)%R) by (pose proof PI_RGT_0; lra).
        assert (X : (2 * PI * IZR m = 2 * PI * (IZR z * INR n))%R).
        { replace (2 * PI * IZR m)%R with ((2 * PI * IZR m / INR n) * INR n)%R by (field; exact HN).
          rewrite Ez. ring. }
        apply Rmult_eq_reg_l in X; [exact X|lra]. }
      rewrite INR_IZR_INZ, <- mult_IZR in Em. apply eq_IZR in Em. rewrite Em.
      apply Z.mod_mul. lia. }
    assert (G := geometric w n).
    assert (Wn : cpow w n = RtoC 1).
    { rewrite <- Hw. unfold chi.
      replace (2 * PI * IZR m * INR n / INR n)%R with (2 * PI * IZR m)%R by (field; exact HN).
      apply cis_period. }
    rewrite Wn in G. replace (RtoC 1 - RtoC 1) with (RtoC 0) in G by ring.
    assert (Hd : w - RtoC 1 <> RtoC 0).
    { intros H. apply W. replace w with (w - RtoC 1 + RtoC 1) by ring. rewrite H. ring. }
    replace (nsum n (fun j => cpow w j)) with
      (/ (w - RtoC 1) * ((w - RtoC 1) * nsum n (fun j => cpow w j))) by (field; exact Hd).
    rewrite G. ring.
Qed.

Lemma orthogonality3 g m : grid_pos g ->
  nsum (gx g) (fun jx => nsum (gy g) (fun jy => nsum (gz g) (fun jz => chi3 g m jx jy jz)))
  = if congruent g m then RtoC (INR (gx g) * INR (gy g) * INR (gz g)) else RtoC 0.
Proof.
  intros (Hx & Hy & Hz).
  rewrite (nsum_ext (gx g) _ (fun jx => chi (gx g) (mx m) jx *
     (nsum (gy g) (chi (gy g) (my m)) * nsum (gz g) (chi (gz g) (mz m))))).
  2:{ intros jx _.
      rewrite (nsum_ext (gy g) _ (fun jy => chi (gx g) (mx m) jx *
        (chi (gy g) (my m) jy * nsum (gz g) (chi (gz g) (mz m))))).
      2:{ intros jy _. unfold chi3.
          rewrite (nsum_scal _ _ (chi (gz g) (mz m))). ring. }
      rewrite nsum_scal. f_equal. apply nsum_scal_r. }
  rewrite nsum_scal_r, !orthogonality by assumption. unfold congruent.
  destruct (mx m mod Z.of_nat (gx g) =? 0)%Z, (my m mod Z.of_nat (gy g) =? 0)%Z,
    (mz m mod Z.of_nat (gz g) =? 0)%Z; simpl; rewrite ?RtoC_mult; ring.
Qed.

(** ** Products on the grid are cyclic convolutions *)

Theorem dft_product g ms ns a b k : grid_pos g ->
  dft g (fun jx jy jz => idft g ms a jx jy jz * idft g ns b jx jy jz) k
  = lsum ms (fun p => lsum ns (fun q =>
      if congruent g (msubt (madd p q) k) then a p * b q else RtoC 0)).
Proof.
  intros Hg. unfold dft, idft.
  assert (HG : (INR (gx g) * INR (gy g) * INR (gz g))%R <> 0%R).
  { destruct Hg as (Hx & Hy & Hz).
    apply Rmult_integral_contrapositive_currified;
      [apply Rmult_integral_contrapositive_currified|]; apply not_0_INR; lia. }
  set (c := RtoC (/ (INR (gx g) * INR (gy g) * INR (gz g)))).
  rewrite (nsum_ext (gx g) _ (fun jx => lsum ms (fun p => lsum ns (fun q => a p * b q *
     nsum (gy g) (fun jy => nsum (gz g) (fun jz =>
       chi3 g (msubt (madd p q) k) jx jy jz)))))).
  2:{ intros jx _.
      rewrite (nsum_ext (gy g) _ (fun jy => lsum ms (fun p => lsum ns (fun q => a p * b q *
         nsum (gz g) (fun jz => chi3 g (msubt (madd p q) k) jx jy jz))))).
      2:{ intros jy _.
          rewrite (nsum_ext (gz g) _ (fun jz => lsum ms (fun p => lsum ns (fun q => a p * b q *
             chi3 g (msubt (madd p q) k) jx jy jz)))).
          2:{ intros jz _.
              rewrite <- (lsum_scal_r ms), <- (lsum_scal_r ms). apply lsum_ext. intros p _.
              rewrite <- (lsum_scal ns), <- (lsum_scal_r ns). apply lsum_ext. intros q _.
              replace (msubt (madd p q) k) with (madd (madd p q) (- mx k, - my k, - mz k)%Z)
                by (unfold madd, msubt, mx, my, mz; simpl; repeat f_equal; lia).
              rewrite <- !chi3_mult. ring. }
          rewrite nsum_lsum. apply lsum_ext. intros p _.
          rewrite nsum_lsum. apply lsum_ext. intros q _. apply nsum_scal. }
      rewrite nsum_lsum. apply lsum_ext. intros p _.
      rewrite nsum_lsum. apply lsum_ext. intros q _. apply nsum_scal. }
  rewrite nsum_lsum, <- lsum_scal. apply lsum_ext. intros p _.
  rewrite nsum_lsum, <- lsum_scal. apply lsum_ext. intros q _.
  rewrite nsum_scal, orthogonality3 by exact Hg.
  destruct (congruent g _); [|ring].
  replace (c * (a p * b q * RtoC (INR (gx g) * INR (gy g) * INR (gz g)))) with
    (a p * b q * (c * RtoC (INR (gx g) * INR (gy g) * INR (gz g)))) by ring.
  unfold c. rewrite <- RtoC_mult. rewrite Rinv_l by exact HG. ring.
Qed.
