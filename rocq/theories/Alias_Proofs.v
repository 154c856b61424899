(** * Aliasing: vocabulary and lemmas *)

From Coq Require Import Reals Lra Lia ZArith List Bool FunctionalExtensionality.
From Coquelicot Require Import Complex.
From Verif Require Import CExp DFT Alias_Model.
Import ListNotations.
Open Scope R_scope.

(** ** Vocabulary of the properties *)

(** the sizes and lengths are positive *)
Definition oper_pos (o : oper) : Prop :=
  (0 < nx o)%nat /\ (0 < ny o)%nat /\ (0 < nz o)%nat /\ 0 < Lx o /\ 0 < Ly o /\ 0 < Lz o.

(** p + q is k up to (nx lx, ny ly, nz lz): how many times each direction is folded *)
Definition folds (o : oper) (p q k l : mode) : Prop :=
  (mx p + mx q = mx k + Z.of_nat (nx o) * mx l
   /\ my p + my q = my k + Z.of_nat (ny o) * my l
   /\ mz p + mz q = mz k + Z.of_nat (nz o) * mz l)%Z.

(** the product of the modes p and q appears on the mode k although p + q <> k *)
Definition aliased (o : oper) (p q k : mode) : Prop :=
  exists l, folds o p q k l /\ l <> (0, 0, 0)%Z.

(** the same with a folding in at least two directions *)
Definition multiply_aliased (o : oper) (p q k : mode) : Prop :=
  exists l, folds o p q k l
    /\ ((mx l <> 0 /\ my l <> 0) \/ (my l <> 0 /\ mz l <> 0) \/ (mz l <> 0 /\ mx l <> 0))%Z.

Definition mode_eqb (p q : mode) : bool :=
  ((mx p =? mx q) && (my p =? my q) && (mz p =? mz q))%Z.

(** a sum of quadratic terms where the pair (p, q) contributes to k with the weight w p q k *)
Definition weighted (w : mode -> mode -> mode -> C) (ms : list mode)
  (terms : list ((mode -> C) * (mode -> C) * (mode -> C))) (S : mode -> C) (k : mode) : C :=
  lsum terms (fun t => let '(c, f, h) := t in
    (c k * lsum ms (fun p => lsum ms (fun q => w p q k * (f p * S p * (h q * S q)))))%C).

(** the true quadratic terms: only p + q = k contributes *)
Definition exact_weight (p q k : mode) : C :=
  if mode_eqb (madd p q) k then RtoC 1 else RtoC 0.

(** what the grid computes *)
Definition grid_weight (o : oper) (p q k : mode) : C :=
  if congruent (grid_of o) (msubt (madd p q) k) then RtoC 1 else RtoC 0.

(** the phase factor of a shift by (ax dx, ay dy, az dz) *)
Definition shift (o : oper) (ax ay az : R) (m : mode) : C :=
  cis (2 * PI * (ax * IZR (mx m) / INR (nx o) + ay * IZR (my m) / INR (ny o)
                 + az * IZR (mz m) / INR (nz o))).

(** ** Lemmas *)

Lemma grid_pos_of o : oper_pos o -> grid_pos (grid_of o).
Proof. intros (H1 & H2 & H3 & _). repeat split; simpl; lia. Qed.

Lemma INR_pos n : (0 < n)%nat -> INR n <> 0.
Proof. intros H. apply not_0_INR. lia. Qed.

Lemma tend_weighted o ms terms S k : oper_pos o ->
  tendencies_quadratic (grid_of o) ms terms S k = weighted (grid_weight o) ms terms S k.
Proof.
  intros Ho. unfold tendencies_quadratic, weighted. apply lsum_ext. intros [[c f] h] _. simpl.
  unfold quadratic. rewrite dft_product by (apply grid_pos_of; exact Ho). f_equal.
  apply lsum_ext. intros p _. apply lsum_ext. intros q _. unfold grid_weight.
  destruct (congruent _ _); ring.
Qed.

Lemma weighted_ext w w' ms terms (S S' : mode -> C) k :
  (forall p q, In p ms -> In q ms -> w p q k = w' p q k) ->
  (forall p, In p ms -> S p = S' p) ->
  weighted w ms terms S k = weighted w' ms terms S' k.
Proof.
  intros Hw HS. unfold weighted. apply lsum_ext. intros [[c f] h] _. f_equal.
  apply lsum_ext. intros p Hp. apply lsum_ext. intros q Hq. rewrite Hw, !HS by assumption.
  reflexivity.
Qed.

(** multiplying the state by a phase multiplies the weights *)
Lemma weighted_phase w ms terms (E S : mode -> C) k :
  (weighted w ms terms (fun m => E m * S m) k / E k)%C
  = weighted (fun p q k => w p q k * (E p * E q / E k))%C ms terms S k.
Proof.
  unfold weighted, Cdiv. rewrite <- lsum_scal_r. apply lsum_ext. intros [[c f] h] _.
  rewrite <- Cmult_assoc. f_equal. rewrite <- lsum_scal_r. apply lsum_ext. intros p _.
  rewrite <- lsum_scal_r. apply lsum_ext. intros q _. ring.
Qed.

Lemma weighted_mean w w' ms terms S k :
  (RtoC (1/2) * (weighted w ms terms S k + weighted w' ms terms S k))%C
  = weighted (fun p q k => RtoC (1/2) * (w p q k + w' p q k))%C ms terms S k.
Proof.
  unfold weighted. rewrite <- lsum_plus, <- lsum_scal. apply lsum_ext. intros [[c f] h] _.
  replace (RtoC (1 / 2) *
    (c k * lsum ms (fun p => lsum ms (fun q => w p q k * (f p * S p * (h q * S q)))) +
     c k * lsum ms (fun p => lsum ms (fun q => w' p q k * (f p * S p * (h q * S q))))))%C
  with (c k * (RtoC (1 / 2) *
    (lsum ms (fun p => lsum ms (fun q => w p q k * (f p * S p * (h q * S q)))) +
     lsum ms (fun p => lsum ms (fun q => w' p q k * (f p * S p * (h q * S q)))))))%C by ring.
  f_equal. rewrite <- lsum_plus, <- lsum_scal. apply lsum_ext. intros p _.
  rewrite <- lsum_plus, <- lsum_scal. apply lsum_ext. intros q _. ring.
Qed.

Lemma congruent_spec o m : oper_pos o ->
  congruent (grid_of o) m = true <->
  exists l, (mx m = Z.of_nat (nx o) * mx l /\ my m = Z.of_nat (ny o) * my l
             /\ mz m = Z.of_nat (nz o) * mz l)%Z.
Proof.
  intros (H1 & H2 & H3 & _). unfold congruent, grid_of; simpl.
  rewrite !andb_true_iff, !Z.eqb_eq, !Z.mod_divide by lia. split.
  - intros [[[a Ea] [b Eb]] [c Ec]]. exists (a, b, c). unfold mx at 2, my at 2, mz at 2. simpl. lia.
  - intros [l (E1 & E2 & E3)]. repeat split.
    + exists (mx l). lia.
    + exists (my l). lia.
    + exists (mz l). lia.
Qed.

Lemma congruent_folds o p q k : oper_pos o ->
  congruent (grid_of o) (msubt (madd p q) k) = true <-> exists l, folds o p q k l.
Proof.
  intros Ho. rewrite congruent_spec by exact Ho.
  unfold folds, msubt, madd, mx, my, mz; simpl.
  split; intros [l H]; exists l; lia.
Qed.

(** the factor of an aliased contribution on a shifted grid *)
Lemma shift_folds o ax ay az p q k l : oper_pos o -> folds o p q k l ->
  (shift o ax ay az p * shift o ax ay az q / shift o ax ay az k)%C
  = cis (2 * PI * (ax * IZR (mx l) + ay * IZR (my l) + az * IZR (mz l))).
Proof.
  intros (H1 & H2 & H3 & _) (E1 & E2 & E3). unfold shift.
  rewrite <- cis_plus, cis_div. f_equal.
  apply (f_equal IZR) in E1, E2, E3. rewrite !plus_IZR, !mult_IZR, <- !INR_IZR_INZ in E1, E2, E3.
  apply INR_pos in H1, H2, H3.
  replace (2 * PI * (ax * IZR (mx p) / INR (nx o) + ay * IZR (my p) / INR (ny o) + az * IZR (mz p) / INR (nz o)) +
    2 * PI * (ax * IZR (mx q) / INR (nx o) + ay * IZR (my q) / INR (ny o) + az * IZR (mz q) / INR (nz o)) -
    2 * PI * (ax * IZR (mx k) / INR (nx o) + ay * IZR (my k) / INR (ny o) + az * IZR (mz k) / INR (nz o)))
  with (2 * PI * (ax * (IZR (mx p) + IZR (mx q) - IZR (mx k)) / INR (nx o)
     + ay * (IZR (my p) + IZR (my q) - IZR (my k)) / INR (ny o)
     + az * (IZR (mz p) + IZR (mz q) - IZR (mz k)) / INR (nz o))) by (field; auto).
  rewrite E1, E2, E3. field. auto.
Qed.

(** the mean of the factors for two shifts which differ by one half in each direction *)
Lemma mean_factor ax ay az bx by_ bz (l : mode) :
  Rabs (ax - bx) = 1 / 2 -> Rabs (ay - by_) = 1 / 2 -> Rabs (az - bz) = 1 / 2 ->
  (RtoC (1/2) * (cis (2 * PI * (ax * IZR (mx l) + ay * IZR (my l) + az * IZR (mz l)))
    + cis (2 * PI * (bx * IZR (mx l) + by_ * IZR (my l) + bz * IZR (mz l)))))%C
  = if Z.even (mx l + my l + mz l)
    then cis (2 * PI * (ax * IZR (mx l) + ay * IZR (my l) + az * IZR (mz l))) else RtoC 0.
Proof.
  intros Hx Hy Hz.
  assert (S : forall a b, Rabs (a - b) = 1 / 2 -> exists s : Z,
     b = a + IZR s / 2 /\ Z.odd s = true).
  { intros a b H. unfold Rabs in H. destruct (Rcase_abs (a - b)).
    - exists 1%Z. split; [lra|reflexivity].
    - exists (-1)%Z. split; [simpl; lra|reflexivity]. }
  destruct (S _ _ Hx) as (sx & -> & Ox), (S _ _ Hy) as (sy & -> & Oy), (S _ _ Hz) as (sz & -> & Oz).
  set (A := 2 * PI * (ax * IZR (mx l) + ay * IZR (my l) + az * IZR (mz l))).
  replace (2 * PI * ((ax + IZR sx / 2) * IZR (mx l) + (ay + IZR sy / 2) * IZR (my l)
     + (az + IZR sz / 2) * IZR (mz l)))
  with (A + PI * IZR (sx * mx l + sy * my l + sz * mz l))
  by (unfold A; rewrite !plus_IZR, !mult_IZR; field).
  rewrite cis_plus, cis_half.
  replace (Z.even (sx * mx l + sy * my l + sz * mz l)) with (Z.even (mx l + my l + mz l)).
  2:{ rewrite !Z.even_add, !Z.even_mul, <- !Z.negb_odd, Ox, Oy, Oz.
      destruct (Z.odd (mx l)), (Z.odd (my l)), (Z.odd (mz l)); reflexivity. }
  destruct (Z.even _).
  - apply C_eq; simpl; field.
  - apply C_eq; simpl; field.
Qed.

(** weights of the mean over the two shifted grids *)
Definition mean_weight (o : oper) (ax ay az : R) (p q k : mode) : C :=
  if congruent (grid_of o) (msubt (madd p q) k) then
    let l := ((mx p + mx q - mx k) / Z.of_nat (nx o), (my p + my q - my k) / Z.of_nat (ny o),
              (mz p + mz q - mz k) / Z.of_nat (nz o))%Z in
    if Z.even (mx l + my l + mz l)
    then cis (2 * PI * (ax * IZR (mx l) + ay * IZR (my l) + az * IZR (mz l))) else RtoC 0
  else RtoC 0.

Lemma folds_unique o p q k l : oper_pos o -> folds o p q k l ->
  ((mx p + mx q - mx k) / Z.of_nat (nx o), (my p + my q - my k) / Z.of_nat (ny o),
              (mz p + mz q - mz k) / Z.of_nat (nz o))%Z = l.
Proof.
  intros (H1 & H2 & H3 & _) (E1 & E2 & E3). destruct l as [[lx ly] lz].
  change (mx (lx, ly, lz)) with lx in E1. change (my (lx, ly, lz)) with ly in E2.
  change (mz (lx, ly, lz)) with lz in E3.
  rewrite E1, E2, E3.
  replace (mx k + Z.of_nat (nx o) * lx - mx k)%Z with (lx * Z.of_nat (nx o))%Z by lia.
  replace (my k + Z.of_nat (ny o) * ly - my k)%Z with (ly * Z.of_nat (ny o))%Z by lia.
  replace (mz k + Z.of_nat (nz o) * lz - mz k)%Z with (lz * Z.of_nat (nz o))%Z by lia.
  rewrite !Z.div_mul by lia. reflexivity.
Qed.

Lemma mean_shift o ms terms S k ax ay az bx by_ bz : oper_pos o ->
  Rabs (ax - bx) = 1 / 2 -> Rabs (ay - by_) = 1 / 2 -> Rabs (az - bz) = 1 / 2 ->
  let N := tendencies_quadratic (grid_of o) ms terms in
  let Ea := shift o ax ay az in let Eb := shift o bx by_ bz in
  (RtoC (1/2) * (N (fun m => Ea m * S m) k / Ea k + N (fun m => Eb m * S m) k / Eb k))%C
  = weighted (mean_weight o ax ay az) ms terms S k.
Proof.
  intros Ho Hx Hy Hz N Ea Eb. unfold N. rewrite !tend_weighted by exact Ho.
  rewrite !weighted_phase, weighted_mean. apply weighted_ext; [|reflexivity].
  intros p q _ _. unfold grid_weight, mean_weight.
  destruct (congruent _ _) eqn:C; [|ring].
  apply congruent_folds in C; [|exact Ho]. destruct C as [l Hl].
  rewrite (folds_unique o p q k l Ho Hl). cbv zeta.
  rewrite <- (mean_factor ax ay az bx by_ bz l Hx Hy Hz). unfold Ea, Eb.
  rewrite !(shift_folds o _ _ _ p q k l Ho Hl). ring.
Qed.

Lemma phaseshift_cis phase m : phaseshift_term phase m = cis (phase m).
Proof. unfold phaseshift_term, cis. f_equal. apply C_eq; simpl; ring. Qed.

Lemma deltax_Kx o m : oper_pos o -> deltax o * Kx o m = 2 * PI * IZR (mx m) / INR (nx o).
Proof.
  intros (H1 & _ & _ & L1 & _). unfold deltax, Kx, deltakx. apply INR_pos in H1. field. lra.
Qed.
Lemma deltay_Ky o m : oper_pos o -> deltay o * Ky o m = 2 * PI * IZR (my m) / INR (ny o).
Proof.
  intros (_ & H1 & _ & _ & L1 & _). unfold deltay, Ky, deltaky. apply INR_pos in H1. field. lra.
Qed.
Lemma deltaz_Kz o m : oper_pos o -> deltaz o * Kz o m = 2 * PI * IZR (mz m) / INR (nz o).
Proof.
  intros (_ & _ & H1 & _ & _ & L1). unfold deltaz, Kz, deltakz. apply INR_pos in H1. field. lra.
Qed.

Lemma phase3 o ax ay az m : oper_pos o ->
  cis (ax * deltax o * Kx o m + ay * deltay o * Ky o m + az * deltaz o * Kz o m)
  = shift o ax ay az m.
Proof.
  intros Ho. unfold shift. f_equal.
  rewrite !Rmult_assoc, (deltax_Kx o m Ho), (deltay_Ky o m Ho), (deltaz_Kz o m Ho). unfold Rdiv. ring.
Qed.

Lemma phase2 o ax ay az m : oper_pos o -> mz m = 0%Z ->
  cis (ax * deltax o * Kx o m + ay * deltay o * Ky o m) = shift o ax ay az m.
Proof.
  intros Ho E. unfold shift. f_equal.
  rewrite !Rmult_assoc, (deltax_Kx o m Ho), (deltay_Ky o m Ho), E. unfold Rdiv. ring.
Qed.

Lemma phase1 o ax ay az m : oper_pos o -> my m = 0%Z -> mz m = 0%Z ->
  cis (ax * deltax o * Kx o m) = shift o ax ay az m.
Proof.
  intros Ho E E'. unfold shift. f_equal.
  rewrite !Rmult_assoc, (deltax_Kx o m Ho), E, E'. unfold Rdiv. ring.
Qed.

Lemma shift_0 o m : shift o 0 0 0 m = RtoC 1.
Proof.
  unfold shift. rewrite <- cis_0. f_equal. unfold Rdiv. ring.
Qed.

(** the tendency only depends on the modes of the list *)
Lemma tend_ext o ms terms (S S' : mode -> C) k : oper_pos o ->
  (forall p, In p ms -> S p = S' p) ->
  tendencies_quadratic (grid_of o) ms terms S k = tendencies_quadratic (grid_of o) ms terms S' k.
Proof. intros Ho H. rewrite !tend_weighted by exact Ho. apply weighted_ext; auto. Qed.

Lemma beta_half a : Rabs (a - beta_of a) = 1 / 2.
Proof.
  unfold beta_of. destruct (Rlt_dec a 0).
  - replace (a - (a + 1 / 2)) with (- (1 / 2)) by ring. rewrite Rabs_Ropp, Rabs_pos_eq; lra.
  - replace (a - (a - 1 / 2)) with (1 / 2) by ring. rewrite Rabs_pos_eq; lra.
Qed.

Lemma beta_range a : - (1 / 2) <= a <= 1 / 2 -> - (1 / 2) <= beta_of a <= 1 / 2.
Proof. intros H. unfold beta_of. destruct (Rlt_dec a 0); lra. Qed.

(** ** When at most one direction is folded once, the mean is exact *)

Lemma exact_iff p q k : mode_eqb (madd p q) k = true <->
  (mx p + mx q = mx k /\ my p + my q = my k /\ mz p + mz q = mz k)%Z.
Proof.
  unfold mode_eqb. rewrite !andb_true_iff, !Z.eqb_eq. unfold madd, mx, my, mz; simpl. tauto.
Qed.

Lemma mean_weight_exact o ax ay az p q k : oper_pos o ->
  (forall l, folds o p q k l -> (Z.abs (mx l) + Z.abs (my l) + Z.abs (mz l) <= 1)%Z) ->
  mean_weight o ax ay az p q k = exact_weight p q k.
Proof.
  intros Ho H. unfold mean_weight, exact_weight.
  destruct (congruent _ _) eqn:C.
  - apply congruent_folds in C; [|exact Ho]. destruct C as [l Hl].
    rewrite (folds_unique o p q k l Ho Hl). cbv zeta. specialize (H l Hl).
    destruct (mode_eqb (madd p q) k) eqn:E.
    + apply exact_iff in E. destruct Ho as (H1 & H2 & H3 & _). destruct Hl as (F1 & F2 & F3).
      assert (mx l = 0 /\ my l = 0 /\ mz l = 0)%Z as (-> & -> & ->) by nia.
      simpl Z.even. cbv iota. rewrite <- cis_0. f_equal. ring.
    + assert (Hn : ~ (mx l = 0 /\ my l = 0 /\ mz l = 0)%Z).
      { intros (E1 & E2 & E3). destruct Hl as (F1 & F2 & F3). rewrite E1, E2, E3 in *.
        assert (mode_eqb (madd p q) k = true) by (apply exact_iff; lia). congruence. }
      destruct (Z.even _) eqn:Ev; [|reflexivity].
      apply Z.even_spec in Ev. destruct Ev as [c Hc]. lia.
  - destruct (mode_eqb (madd p q) k) eqn:E; [|reflexivity].
    assert (congruent (grid_of o) (msubt (madd p q) k) = true); [|congruence].
    apply congruent_folds; [exact Ho|]. apply exact_iff in E. exists (0, 0, 0)%Z.
    unfold folds. change (mx (0, 0, 0)%Z) with 0%Z. change (my (0, 0, 0)%Z) with 0%Z.
    change (mz (0, 0, 0)%Z) with 0%Z. lia.
Qed.
