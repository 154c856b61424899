(** Theorems on the normalisation "particular_k" and on the Kolmogorov flows (C119-C122) *)

From Coq Require Import Reals List Bool Arith ZArith Lra Lia.
From Coquelicot Require Import Complex.
From Verif Require Forcing_Model Forcing_Spec Forcing_Proofs Forcing_Props.
From Verif Require Import Oper_Model Oper_Spec Oper_Proofs CExp DFT PartK_Model.
Import ListNotations.
Local Open Scope R_scope.

Lemma rltb_spec a b : reflect (a < b) (rltb a b).
Proof. unfold rltb. destruct (Rlt_dec a b); constructor; assumption. Qed.

(** ** argmin *)

Lemma argmin_from_done r : forall ib i, (forall j, (j < length r)%nat -> 0 < nth j r 0) -> argmin_from ib 0 i r = ib.
Proof.
  induction r as [|x r IH]; intros ib i H; [reflexivity|]. cbn [argmin_from].
  pose proof (H O ltac:(cbn; lia)) as Hx. cbn in Hx.
  destruct (rltb_spec x 0); [lra|]. apply IH. intros j Hj. apply (H (S j)). cbn. lia.
Qed.

Lemma argmin_from_zero l : forall ibest best i k, (k < length l)%nat ->
  nth k l 0 = 0 -> 0 < best -> (forall j, (j < length l)%nat -> j <> k -> 0 < nth j l 0) ->
  argmin_from ibest best i l = (i + k)%nat.
Proof.
  induction l as [|x r IH]; intros ib best i k Hk Nk Hb Hp; [cbn in Hk; lia|].
  cbn [argmin_from]. destruct k as [|k].
  - cbn in Nk. subst x. destruct (rltb_spec 0 best); [|lra]. rewrite Nat.add_0_r.
    apply argmin_from_done. intros j Hj. apply (Hp (S j)); cbn; lia.
  - pose proof (Hp O ltac:(cbn; lia) ltac:(lia)) as Hx. cbn in Hx.
    destruct (rltb_spec x best).
    + rewrite (IH i x (S i) k); [lia|cbn in Hk; lia|exact Nk|exact Hx|].
      intros j Hj Nj. apply (Hp (S j)); cbn; lia.
    + rewrite (IH ib best (S i) k); [lia|cbn in Hk; lia|exact Nk|exact Hb|].
      intros j Hj Nj. apply (Hp (S j)); cbn; lia.
Qed.

Lemma argmin_zero l k : (k < length l)%nat -> nth k l 0 = 0 ->
  (forall j, (j < length l)%nat -> j <> k -> 0 < nth j l 0) -> argmin l = k.
Proof.
  intros Hk Nk Hp. destruct l as [|x r]; [cbn in Hk; lia|]. unfold argmin. destruct k as [|k].
  - cbn in Nk. subst x. destruct r as [|y r]; [reflexivity|]. cbn [argmin_from].
    pose proof (Hp 1%nat ltac:(cbn; lia) ltac:(lia)) as Hy. cbn in Hy.
    destruct (rltb_spec y 0); [lra|].
    apply argmin_from_done. intros j Hj. apply (Hp (S (S j))); cbn; lia.
  - rewrite (argmin_from_zero r 0 x 1 k); [lia|cbn in Hk; lia|exact Nk| |].
    + apply (Hp O); cbn; lia.
    + intros j Hj Nj. apply (Hp (S j)); cbn; lia.
Qed.

(** the index of a stored wavenumber is found again *)
Lemma argmin_wavenumber n (k : nat -> R) i : (i < n)%nat ->
  (forall a b, (a < n)%nat -> (b < n)%nat -> k a = k b -> a = b) ->
  argmin (map (fun j => Rabs (k j - k i)) (seq 0 n)) = i.
Proof.
  intros Hi Hk.
  assert (N : forall j, (j < n)%nat -> nth j (map (fun j => Rabs (k j - k i)) (seq 0 n)) 0 = Rabs (k j - k i)).
  { intros j Hj. rewrite (nth_indep _ 0 (Rabs (k O - k i))) by (rewrite map_length, seq_length; exact Hj).
    rewrite (map_nth (fun j => Rabs (k j - k i)) (seq 0 n) O j), seq_nth by exact Hj. reflexivity. }
  apply argmin_zero; rewrite ?map_length, ?seq_length.
  - exact Hi.
  - rewrite N by exact Hi. replace (k i - k i) with 0 by ring. apply Rabs_R0.
  - intros j Hj Nj. rewrite N by exact Hj. apply Rabs_pos_lt. intros E. apply Nj, Hk; auto. lra.
Qed.

(** ** Sums *)

Lemma NoDup_product {A B} (l : list A) (r : list B) : NoDup l -> NoDup r -> NoDup (list_prod l r).
Proof.
  induction 1 as [|x l Hx Hl IH]; intros Hr; [constructor|]. cbn [list_prod].
  assert (M : NoDup (map (fun y => (x, y)) r)).
  { clear -Hr. induction Hr as [|y r Hy Hr IH]; cbn; constructor; [|exact IH].
    intros H. apply in_map_iff in H as (z & E & Hz). congruence. }
  assert (D : forall p, In p (map (fun y => (x, y)) r) -> ~ In p (list_prod l r)).
  { intros [a b] H1 H2. apply in_map_iff in H1 as (z & E & _). injection E as <- <-.
    apply in_prod_iff in H2 as [H2 _]. contradiction. }
  specialize (IH Hr). revert M D IH. generalize (map (fun y => (x, y)) r) (list_prod l r). clear.
  induction l as [|x l IH]; intros r M D Hr; [exact Hr|]. cbn. inversion M; subst. constructor.
  - rewrite in_app_iff. intros [H|H]; [contradiction|]. apply (D x); [left; reflexivity|exact H].
  - apply IH; auto. intros p Hp. apply D. right. exact Hp.
Qed.

Lemma indices_spec nky nkx p : In p (indices nky nkx) <-> (fst p < nky)%nat /\ (snd p < nkx)%nat.
Proof.
  destruct p as [i j]. unfold indices. rewrite in_prod_iff, !in_seq. cbn [fst snd]. lia.
Qed.

Lemma indices_nodup nky nkx : NoDup (indices nky nkx).
Proof. apply NoDup_product; apply seq_NoDup. Qed.

Section Sums.
Variables nky nkx : nat.
Notation sum := (sum_wavenumbers nky nkx).
Notation w := (weight nkx).

Lemma sum_ext g h : (forall i j, (i < nky)%nat -> (j < nkx)%nat -> g i j = h i j) -> sum g = sum h.
Proof.
  intros H. unfold sum_wavenumbers.
  assert (L : forall p, In p (indices nky nkx) -> (fst p < nky)%nat /\ (snd p < nkx)%nat) by (intro p; apply indices_spec).
  induction (indices nky nkx) as [|p l IH]; [reflexivity|]. cbn [fold_right].
  rewrite IH by (intros q Hq; apply L; right; exact Hq).
  destruct (L p (or_introl eq_refl)). rewrite H by assumption. reflexivity.
Qed.

Lemma sum_plus g h : sum (fun i j => g i j + h i j) = sum g + sum h.
Proof. unfold sum_wavenumbers. induction (indices nky nkx) as [|p l IH]; cbn; [ring|]. rewrite IH. ring. Qed.

Lemma sum_scal c g : sum (fun i j => c * g i j) = c * sum g.
Proof. unfold sum_wavenumbers. induction (indices nky nkx) as [|p l IH]; cbn; [ring|]. rewrite IH. ring. Qed.

Definition eqp (a b : nat * nat) : bool := (Nat.eqb (fst a) (fst b) && Nat.eqb (snd a) (snd b))%bool.

Lemma eqp_spec a b : reflect (a = b) (eqp a b).
Proof.
  destruct a as [a1 a2], b as [b1 b2]. unfold eqp. cbn [fst snd].
  destruct (Nat.eqb_spec a1 b1), (Nat.eqb_spec a2 b2); subst; constructor; congruence.
Qed.

(** the sum of an array with one value only *)
Lemma sum_point i j x : (i < nky)%nat -> (j < nkx)%nat ->
  sum (fun a b => if eqp (a, b) (i, j) then x else 0) = w j * x.
Proof.
  intros Hi Hj. unfold sum_wavenumbers.
  assert (I : In (i, j) (indices nky nkx)) by (apply indices_spec; auto).
  pose proof (indices_nodup nky nkx) as N. induction N as [|p l Hp N IH]; [destruct I|].
  cbn [fold_right]. destruct p as [a b]. cbn [fst snd]. destruct (eqp_spec (a, b) (i, j)) as [E|E].
  - injection E as -> ->.
    enough (Z : fold_right (fun p s => w (snd p) * (if eqp (fst p, snd p) (i, j) then x else 0) + s) 0 l = 0)
      by (rewrite Z; ring).
    clear IH I N. induction l as [|[c d] l IHl]; [reflexivity|]. cbn [fold_right fst snd].
    destruct (eqp_spec (c, d) (i, j)) as [E|E]; [exfalso; apply Hp; left; exact E|].
    rewrite IHl by (intros H; apply Hp; right; exact H). ring.
  - destruct I as [I|I]; [congruence|]. rewrite IH by exact I. ring.
Qed.

(** an array changed at one point *)
Lemma sum_change g h i j : (i < nky)%nat -> (j < nkx)%nat ->
  (forall a b, (a < nky)%nat -> (b < nkx)%nat -> (a, b) <> (i, j) -> h a b = g a b) ->
  sum h = sum g + w j * (h i j - g i j).
Proof.
  intros Hi Hj H. rewrite <- (sum_point i j (h i j - g i j)) by assumption. rewrite <- sum_plus.
  apply sum_ext. intros a b Ha Hb. destruct (eqp_spec (a, b) (i, j)) as [E|E].
  - injection E as -> ->. ring.
  - rewrite H by assumption. ring.
Qed.

(** an array changed at two points *)
Lemma sum_change2 g h i i' j : (i < nky)%nat -> (i' < nky)%nat -> i <> i' -> (j < nkx)%nat ->
  (forall a b, (a < nky)%nat -> (b < nkx)%nat -> (a, b) <> (i, j) -> (a, b) <> (i', j) -> h a b = g a b) ->
  sum h = sum g + w j * (h i j - g i j) + w j * (h i' j - g i' j).
Proof.
  intros Hi Hi' N Hj H.
  set (m := fun a b => if eqp (a, b) (i, j) then h i j else g a b).
  rewrite (sum_change m h i' j) by
    first [assumption | intros a b Ha Hb Nab; unfold m; destruct (eqp_spec (a, b) (i, j)) as [E|E];
      [injection E as -> ->; reflexivity|apply H; assumption]].
  rewrite (sum_change g m i j) by
    first [assumption | intros a b Ha Hb Nab; unfold m; destruct (eqp_spec (a, b) (i, j)); [contradiction|reflexivity]].
  unfold m at 1 2. destruct (eqp_spec (i, j) (i, j)) as [_|E]; [|congruence].
  destruct (eqp_spec (i', j) (i, j)) as [E|_]; [congruence|]. ring.
Qed.
End Sums.

(** ** Specification of the injection *)

(** the quadratic quantity of the field with these coefficients: each coefficient stored once stands
    for itself and, if 0 < kx < kx max, for its conjugate at the opposite wavenumber *)
Definition multiplicity (nkx j : nat) : R :=
  if Nat.eq_dec j 0 then 1 else if Nat.eq_dec j (nkx - 1) then 1 else 2.

Fixpoint sum_to (n : nat) (g : nat -> R) : R := match n with O => 0 | S m => sum_to m g + g m end.

Definition quadratic (nky nkx : nat) (v : nat -> nat -> C) : R :=
  sum_to nky (fun i => sum_to nkx (fun j => multiplicity nkx j * (Cmod (v i j)) ^ 2 / 2)).

Definition euler_step (dt : R) (v f : nat -> nat -> C) (i j : nat) : C := (v i j + RtoC dt * f i j)%C.

Lemma cmod_square z : Cmod z ^ 2 = fst z * fst z + snd z * snd z.
Proof.
  unfold Cmod. replace (fst z * fst z + snd z * snd z) with (fst z ^ 2 + snd z ^ 2) by ring.
  apply pow2_sqrt. pose proof (pow2_ge_0 (fst z)). pose proof (pow2_ge_0 (snd z)). lra.
Qed.

Lemma sum_to_fold n g s : fold_right (fun i s => g i + s) s (seq 0 n) = sum_to n g + s.
Proof.
  revert s. induction n as [|n IH]; intros s; [cbn; ring|]. rewrite seq_S, fold_right_app.
  cbn [fold_right sum_to]. rewrite IH. cbn. ring.
Qed.

Lemma fold_product {A B} (l : list A) (r : list B) g s :
  fold_right (fun p s => g (fst p) (snd p) + s) s (list_prod l r)
  = fold_right (fun a s => fold_right (fun b s => g a b + s) 0 r + s) s l.
Proof.
  induction l as [|a l IH]; [reflexivity|]. cbn [list_prod]. rewrite fold_right_app, IH. cbn [fold_right].
  set (t := fold_right _ s l). clearbody t. clear IH.
  induction r as [|b r IHr]; cbn; [ring|]. rewrite IHr. ring.
Qed.

Lemma quadratic_sum nky nkx v :
  quadratic nky nkx v = sum_wavenumbers nky nkx (fun i j => abs_square (v i j)) / 2.
Proof.
  unfold sum_wavenumbers, indices.
  rewrite (fold_product (seq 0 nky) (seq 0 nkx) (fun i j => weight nkx j * abs_square (v i j)) 0).
  rewrite (sum_to_fold nky (fun i => fold_right (fun j s => weight nkx j * abs_square (v i j) + s) 0 (seq 0 nkx)) 0).
  rewrite Rplus_0_r. unfold quadratic. unfold Rdiv at 2.
  assert (S : forall n g c, sum_to n (fun i => g i * c) = sum_to n g * c).
  { clear. induction n as [|n IH]; intros g c; cbn; [ring|]. rewrite IH. ring. }
  assert (E : forall n g h, (forall i, g i = h i) -> sum_to n g = sum_to n h).
  { clear. induction n as [|n IH]; intros g h H; cbn; [reflexivity|]. rewrite (IH g h H), H. reflexivity. }
  rewrite <- S. apply E. intros i. rewrite (sum_to_fold nkx (fun j => weight nkx j * abs_square (v i j)) 0), Rplus_0_r.
  rewrite <- S. apply E. intros j. rewrite cmod_square. unfold multiplicity, weight, abs_square.
  destruct (Nat.eq_dec j 0) as [A|A]; [rewrite (proj2 (Nat.eqb_eq _ _) A)|rewrite (proj2 (Nat.eqb_neq _ _) A)]; cbn [orb].
  - unfold Rdiv. ring.
  - destruct (Nat.eq_dec j (nkx - 1)) as [B|B];
      [rewrite (proj2 (Nat.eqb_eq _ _) B)|rewrite (proj2 (Nat.eqb_neq _ _) B)]; unfold Rdiv; ring.
Qed.

Lemma quadratic_step nky nkx dt v f :
  quadratic nky nkx (euler_step dt v f) - quadratic nky nkx v
  = dt * (sum_wavenumbers nky nkx (fun i j => re_conj_mult (f i j) (v i j))
          + sum_wavenumbers nky nkx (fun i j => abs_square (f i j)) * dt / 2).
Proof.
  rewrite !quadratic_sum.
  rewrite (sum_ext nky nkx (fun i j => abs_square (euler_step dt v f i j))
    (fun i j => abs_square (v i j) + (2 * dt * re_conj_mult (f i j) (v i j) + dt * dt * abs_square (f i j)))).
  - rewrite !sum_plus, !sum_scal. field.
  - intros i j _ _. unfold abs_square, re_conj_mult, euler_step. destruct (v i j), (f i j). cbn. ring.
Qed.

(** ** The chosen mode *)

Section Normalize.
Variables (m nkx : nat) (deltakx deltaky : R).
Hypothesis Hm : (1 <= m)%nat.
Hypothesis Hx : (2 <= nkx)%nat.
Hypothesis Hdx : 0 < deltakx.
Hypothesis Hdy : 0 < deltaky.
Notation nky := (2 * m)%nat.

Lemma half_nky : (nky / 2 = m)%nat.
Proof. rewrite Nat.mul_comm. apply Nat.div_mul. discriminate. Qed.

Lemma kx_inj a b : kx_loc deltakx a = kx_loc deltakx b -> a = b.
Proof. unfold kx_loc. intros E. apply INR_eq. apply Rmult_eq_reg_l with deltakx; [exact E|lra]. Qed.

Lemma ky_inj a b : (a < nky)%nat -> (b < nky)%nat -> ky_loc nky deltaky a = ky_loc nky deltaky b -> a = b.
Proof.
  intros Ha Hb E. unfold ky_loc in E. rewrite half_nky in E.
  apply Rmult_eq_reg_l in E; [|lra]. apply lt_INR in Ha. apply lt_INR in Hb.
  destruct (Nat.leb_spec a m) as [A|A], (Nat.leb_spec b m) as [B|B].
  - apply INR_eq. exact E.
  - pose proof (pos_INR a). lra.
  - pose proof (pos_INR b). lra.
  - apply INR_eq. lra.
Qed.

(** the list of the forced modes, in the order of the code *)
Definition forced_modes (cond : nat -> nat -> bool) : list (nat * nat) :=
  filter (fun p => negb (cond (fst p) (snd p))) (indices nky nkx).

Definition raw (f : nat -> nat -> C) : nat -> nat -> C := project_fft_on_realX_seq nky nkx f.

(** everything after the choice of the mode (i, j) *)
Lemma part_k_unfold randint cond rate dt f v f' :
  (forall n, (0 < n)%nat -> (randint n < n)%nat) ->
  normalize_forcingc_part_k nky nkx deltakx deltaky randint cond rate dt f v = Some f' ->
  exists i j, nth_error (forced_modes cond) (randint (length (forced_modes cond) - 1)%nat) = Some (i, j)
    /\ (i < nky)%nat /\ (j < nkx)%nat /\ cond i j = false /\ fst (v i j) <> 0
    /\ let f1 := raw f in
       let other := sum_wavenumbers nky nkx (fun a b => re_conj_mult (f1 a b) (v a b))
                    - (if Nat.eqb j 0 then 1 else 2) * re_conj_mult (f1 i j) (v i j) in
       let z := RtoC (- other / fst (v i j) / (if Nat.eqb j 0 then 1 else 2)) in
       exists f2, (forall a b, f2 a b = raw (set2 f1 i j z) a b)
       /\ let PZ := sum_wavenumbers nky nkx (fun a b => abs_square (f2 a b)) * dt / 2 in
          PZ <> 0 /\ forall a b, f' a b = (RtoC (sqrt (rate / PZ)) * f2 a b)%C.
Proof.
  intros Hr. unfold normalize_forcingc_part_k. fold (raw f). set (f1 := raw f).
  fold (forced_modes cond). rewrite map_length. set (nb := length (forced_modes cond)).
  destruct (Nat.leb_spec nb 1) as [L|L]; [discriminate|].
  pose proof (Hr (nb - 1)%nat ltac:(lia)) as Hi.
  set (ip := randint (nb - 1)%nat) in *.
  destruct (nth_error (forced_modes cond) ip) as [[i j]|] eqn:Ep.
  2:{ apply nth_error_None in Ep. fold nb in Ep. lia. }
  pose proof (nth_error_In _ _ Ep) as Ip. unfold forced_modes in Ip. apply filter_In in Ip as [Ip Cp].
  apply indices_spec in Ip. cbn [fst snd] in Ip, Cp. destruct Ip as [Ii Ij]. apply negb_true_iff in Cp.
  assert (Nx : nth ip (map (fun p => kx_loc deltakx (snd p)) (forced_modes cond)) 0 = kx_loc deltakx j).
  { rewrite (nth_indep _ 0 (kx_loc deltakx (snd (O, O)))) by (rewrite map_length; fold nb; lia).
    rewrite (map_nth (fun p => kx_loc deltakx (snd p))). rewrite (nth_error_nth _ _ _ Ep). reflexivity. }
  assert (Ny : nth ip (map (fun p => ky_loc nky deltaky (fst p)) (forced_modes cond)) 0 = ky_loc nky deltaky i).
  { rewrite (nth_indep _ 0 (ky_loc nky deltaky (fst (O, O)))) by (rewrite map_length; fold nb; lia).
    rewrite (map_nth (fun p => ky_loc nky deltaky (fst p))). rewrite (nth_error_nth _ _ _ Ep). reflexivity. }
  rewrite Nx, Ny, (argmin_wavenumber nkx), (argmin_wavenumber nky)
    by (assumption || (intros; apply ky_inj; assumption) || (intros; apply kx_inj; assumption)).
  set (part := fst (Cplus _ _)).
  assert (Hp : part = 2 * re_conj_mult (f1 i j) (v i j)).
  { unfold part, re_conj_mult. destruct (f1 i j), (v i j). cbn. ring. }
  destruct (Req_EM_T (fst (v i j)) 0) as [E|NE]; [discriminate|].
  set (oth := _ - (if (j =? 0)%nat then part / 2 else part)).
  set (fz := if (j =? 0)%nat then _ else _).
  destruct (Req_EM_T _ 0) as [E|NZ]; [discriminate|]. intros E. injection E as <-.
  exists i, j. split; [reflexivity|]. split; [exact Ii|]. split; [exact Ij|]. split; [exact Cp|]. split; [exact NE|].
  cbv zeta. exists (raw fz). split.
  - intros a b. unfold raw. rewrite !project_closed by lia.
    assert (Q : forall a b, fz a b = set2 f1 i j (RtoC (- (sum_wavenumbers nky nkx (fun a b => re_conj_mult (f1 a b) (v a b))
                    - (if Nat.eqb j 0 then 1 else 2) * re_conj_mult (f1 i j) (v i j)) / fst (v i j) / (if Nat.eqb j 0 then 1 else 2))) a b).
    { clear a b. intros a b. unfold fz, oth. rewrite Hp. destruct (Nat.eqb j 0).
      - unfold set2. destruct (_ && _); [|reflexivity]. apply f_equal. cbv iota. field. exact NE.
      - unfold set2. rewrite !Nat.eqb_refl. cbn [andb]. destruct (_ && _); [|reflexivity].
        unfold Cdiv. rewrite <- RtoC_inv by lra. rewrite <- RtoC_mult. f_equal. }
    rewrite !Q. reflexivity.
  - split; [exact NZ|]. intros a b. reflexivity.
Qed.

Lemma raw_edge f a b : (a < nky)%nat -> b = O \/ b = (nkx - 1)%nat ->
  half_sum (raw f a b) (raw f (opposite nky a) b) = raw f a b.
Proof.
  intros Ha Hb. unfold raw. rewrite <- (project_idem nky nkx f a b) at 2 by lia.
  symmetry. apply project_even_edge; auto.
Qed.

(** the sum of the products with the variable vanishes *)
Lemma part_k_orthogonal f v i j :
  hermitian_column nky v 0 -> (i < nky)%nat -> (j < nkx)%nat -> i <> m -> j <> (nkx - 1)%nat -> fst (v i j) <> 0 ->
  let f1 := raw f in
  let other := sum_wavenumbers nky nkx (fun a b => re_conj_mult (f1 a b) (v a b))
               - (if Nat.eqb j 0 then 1 else 2) * re_conj_mult (f1 i j) (v i j) in
  let z := RtoC (- other / fst (v i j) / (if Nat.eqb j 0 then 1 else 2)) in
  sum_wavenumbers nky nkx (fun a b => re_conj_mult (raw (set2 f1 i j z) a b) (v a b)) = 0.
Proof.
  intros Hv Hi Hj Ni Nj NE f1 other z.
  set (S := sum_wavenumbers nky nkx (fun a b => re_conj_mult (f1 a b) (v a b))) in other.
  assert (Out : forall a b, b <> O -> (b < nkx)%nat -> (a < nky)%nat -> (a, b) <> (i, j) -> raw (set2 f1 i j z) a b = f1 a b).
  { intros a b Hb Bb Ha Nab. destruct (Nat.eq_dec b (nkx - 1)) as [Eb|Nb].
    - unfold raw at 1. rewrite project_even_edge by auto.
      unfold set2. rewrite !(proj2 (Nat.eqb_neq b j)) by lia. rewrite !andb_false_r.
      apply raw_edge; auto.
    - unfold raw at 1. rewrite project_inside by (auto; lia). unfold set2.
      destruct (Nat.eqb_spec a i), (Nat.eqb_spec b j); cbn [andb]; try reflexivity. subst. congruence. }
  destruct (Nat.eqb_spec j 0) as [Ej|Ej].
  - subst j.
    assert (H1 : forall a, (a < nky)%nat -> f1 (opposite nky a) O = Cconj (f1 a O)).
    { intros a Ha. unfold f1, raw. rewrite !project_even_edge by (auto using opposite_lt).
      rewrite opposite_opposite by exact Ha. symmetry. apply half_sum_conj. }
    assert (In0 : forall a, (a < nky)%nat -> a <> i -> a <> opposite nky i -> raw (set2 f1 i 0 z) a 0 = f1 a O).
    { intros a Ha N1 N2. unfold raw at 1. rewrite project_even_edge by auto. unfold set2. rewrite Nat.eqb_refl, !andb_true_r.
      rewrite (proj2 (Nat.eqb_neq a i)) by exact N1.
      destruct (Nat.eqb_spec (opposite nky a) i) as [E|_].
      { exfalso. apply N2. rewrite <- E. symmetry. apply opposite_opposite. exact Ha. }
      rewrite H1 by exact Ha. apply half_sum_id. }
    assert (W0 : weight nkx 0 = 1) by reflexivity.
    destruct (Nat.eq_dec i 0) as [Ei|Ei].
    + subst i. rewrite (sum_change nky nkx (fun a b => re_conj_mult (f1 a b) (v a b)) _ 0 0); [|lia|exact Hj|].
      * fold S. rewrite W0. unfold raw. rewrite project_even_edge by auto. cbn [opposite].
        unfold set2. rewrite !Nat.eqb_refl. cbn [andb].
        assert (Vr : snd (v O O) = 0).
        { pose proof (Hv O ltac:(lia)) as H. cbn [opposite] in H. destruct (v O O) as [x y]. unfold Cconj in H.
          cbn in H. injection H. cbn. lra. }
        rewrite half_sum_self. unfold real_of, z, other, re_conj_mult, RtoC, Re. cbn [fst snd]. rewrite Vr.
        field. exact NE.
      * intros a b Ha Hb Nab. destruct (Nat.eq_dec b 0) as [->|Nb]; [|rewrite Out by auto; reflexivity].
        rewrite In0; auto; cbn [opposite]; congruence.
    + assert (Io : opposite nky i = (nky - i)%nat) by (destruct i; [congruence|reflexivity]).
      assert (No : i <> opposite nky i) by (rewrite Io; lia).
      pose proof (opposite_lt nky i Hi) as Lo.
      rewrite (sum_change2 nky nkx (fun a b => re_conj_mult (f1 a b) (v a b)) _ i (opposite nky i) 0); auto.
      * fold S. rewrite W0.
        assert (Gi : raw (set2 f1 i 0 z) i 0 = half_sum z (Cconj (f1 i O))).
        { unfold raw at 1. rewrite project_even_edge by auto. unfold set2. rewrite !Nat.eqb_refl, !andb_true_r.
          rewrite (proj2 (Nat.eqb_neq (opposite nky i) i)) by congruence. rewrite H1 by exact Hi. reflexivity. }
        assert (Go : raw (set2 f1 i 0 z) (opposite nky i) 0 = half_sum (Cconj (f1 i O)) z).
        { unfold raw at 1. rewrite project_even_edge by auto. rewrite opposite_opposite by exact Hi.
          unfold set2. rewrite !Nat.eqb_refl, !andb_true_r.
          rewrite (proj2 (Nat.eqb_neq (opposite nky i) i)) by congruence. rewrite H1 by exact Hi. reflexivity. }
        rewrite Gi, Go, H1, (Hv i Hi) by exact Hi. unfold z, other.
        clearbody S f1. clear -NE. unfold half_sum. destruct (f1 i O) as [p q], (v i O) as [x y].
        unfold re_conj_mult, Cdiv, Cinv, Cmult, Cplus, Cconj, RtoC. cbn [fst snd] in *. field. exact NE.
      * intros a b Ha Hb N1 N2. destruct (Nat.eq_dec b 0) as [->|Nb]; [|rewrite Out by auto; reflexivity].
        rewrite In0; auto; congruence.
  - rewrite (sum_change nky nkx (fun a b => re_conj_mult (f1 a b) (v a b)) _ i j); auto.
    + fold S. unfold weight. rewrite !(proj2 (Nat.eqb_neq j _)) by lia. cbn [orb].
      unfold raw. rewrite project_inside by (auto; lia). unfold set2. rewrite !Nat.eqb_refl. cbn [andb].
      unfold z, other, re_conj_mult, RtoC. cbn [fst snd]. field. exact NE.
    + intros a b Ha Hb Nab. destruct (Nat.eq_dec b 0) as [->|Nb]; [|rewrite Out by auto; reflexivity].
      unfold raw at 1. rewrite project_even_edge by auto. unfold set2. rewrite !(proj2 (Nat.eqb_neq 0 j)) by lia.
      rewrite !andb_false_r. f_equal. apply raw_edge; auto.
Qed.
End Normalize.

(** ** C119: the normalisation "particular_k" injects exactly the requested rate *)

(** forcing of the modes in a shell, as in the code; the variable is the spectrum of a real field
    (only its column kx = 0 is concerned); [f'] is what is obtained without any division by zero *)
Theorem c119_injection_rate :
  forall m nkx deltakx deltaky randint kmin kmax rate dt f v f',
  let nky := (2 * m)%nat in
  (1 <= m)%nat -> (2 <= nkx)%nat -> 0 < deltakx -> 0 < deltaky ->
  (forall n, (0 < n)%nat -> (randint n < n)%nat) ->
  0 <= rate -> 0 < dt -> hermitian_column nky v 0 ->
  normalize_forcingc_part_k nky nkx deltakx deltaky randint
    (cond_no_forcing nky nkx deltakx deltaky kmin kmax) rate dt f v = Some f' ->
  quadratic nky nkx (euler_step dt v f') - quadratic nky nkx v = rate * dt
  /\ sum_wavenumbers nky nkx (fun i j => re_conj_mult (f' i j) (v i j)) = 0.
Proof.
  intros m nkx deltakx deltaky randint kmin kmax rate dt f v f' nky Hm Hx Hdx Hdy Hr HP Hd Hv H.
  destruct (part_k_unfold m nkx deltakx deltaky Hm Hx Hdx Hdy _ _ _ _ _ _ _ Hr H)
    as (i & j & _ & Hi & Hj & Hc & NE & f2 & E2 & NZ & Ef).
  fold nky in Hi, E2, NZ, Ef.
  unfold cond_no_forcing in Hc. rewrite !orb_false_iff in Hc. destruct Hc as [[_ Hci] Hcj].
  apply Nat.eqb_neq in Hci, Hcj. unfold nky in Hci. rewrite half_nky in Hci.
  set (PZ := sum_wavenumbers nky nkx (fun a b => abs_square (f2 a b)) * dt / 2) in *.
  set (c := sqrt (rate / PZ)) in *.
  assert (O : sum_wavenumbers nky nkx (fun a b => re_conj_mult (f' a b) (v a b)) = 0).
  { rewrite (sum_ext nky nkx _ (fun a b => c * re_conj_mult (f2 a b) (v a b))).
    - rewrite sum_scal. rewrite (sum_ext nky nkx _ (fun a b => re_conj_mult (raw m nkx
        (set2 (raw m nkx f) i j (RtoC (- (sum_wavenumbers nky nkx (fun a b => re_conj_mult (raw m nkx f a b) (v a b))
           - (if Nat.eqb j 0 then 1 else 2) * re_conj_mult (raw m nkx f i j) (v i j)) / fst (v i j)
           / (if Nat.eqb j 0 then 1 else 2)))) a b) (v a b))).
      + pose proof (part_k_orthogonal m nkx Hm Hx f v i j Hv Hi Hj Hci Hcj NE) as Q. cbv zeta in Q.
        fold nky in Q. rewrite Q. ring.
      + intros a b _ _. rewrite E2. reflexivity.
    - intros a b _ _. rewrite Ef. unfold re_conj_mult. destruct (f2 a b), (v a b). cbn. ring. }
  split; [|exact O].
  rewrite quadratic_step, O.
  rewrite (sum_ext nky nkx _ (fun a b => (c * c) * abs_square (f2 a b))).
  2:{ intros a b _ _. rewrite Ef. unfold abs_square. destruct (f2 a b). cbn. ring. }
  rewrite sum_scal.
  replace (c * c * sum_wavenumbers nky nkx (fun a b => abs_square (f2 a b)) * dt / 2) with (c * c * PZ)
    by (unfold PZ; field).
  assert (PZ0 : 0 < PZ).
  { assert (P0 : 0 <= sum_wavenumbers nky nkx (fun a b => abs_square (f2 a b))).
    { unfold sum_wavenumbers. induction (indices nky nkx) as [|p l IH]; cbn; [lra|].
      apply Rplus_le_le_0_compat; [|exact IH]. apply Rmult_le_pos.
      - unfold weight. destruct (_ || _); lra.
      - unfold abs_square. nra. }
    assert (0 <= PZ) by (unfold PZ; apply Rmult_le_pos; [apply Rmult_le_pos|]; lra). lra. }
  unfold c. rewrite sqrt_sqrt.
  - field. lra.
  - apply Rmult_le_pos; [exact HP|]. left. apply Rinv_0_lt_compat. exact PZ0.
Qed.
Print Assumptions c119_injection_rate.

(** the forcing is proportional to the projected raw forcing except at the chosen mode (and at the
    opposite mode for kx = 0), which is a forced mode *)
Theorem c119_other_modes :
  forall m nkx deltakx deltaky randint kmin kmax rate dt f v f',
  let nky := (2 * m)%nat in
  (1 <= m)%nat -> (2 <= nkx)%nat -> 0 < deltakx -> 0 < deltaky ->
  (forall n, (0 < n)%nat -> (randint n < n)%nat) ->
  normalize_forcingc_part_k nky nkx deltakx deltaky randint
    (cond_no_forcing nky nkx deltakx deltaky kmin kmax) rate dt f v = Some f' ->
  exists i j c, (i < nky)%nat /\ (j < nkx)%nat /\ cond_no_forcing nky nkx deltakx deltaky kmin kmax i j = false
  /\ forall a b, (a < nky)%nat -> (b < nkx)%nat -> (a, b) <> (i, j) -> (j = O -> (a, b) <> (opposite nky i, O)) ->
     f' a b = (RtoC c * project_fft_on_realX_seq nky nkx f a b)%C.
Proof.
  intros m nkx deltakx deltaky randint kmin kmax rate dt f v f' nky Hm Hx Hdx Hdy Hr H.
  destruct (part_k_unfold m nkx deltakx deltaky Hm Hx Hdx Hdy _ _ _ _ _ _ _ Hr H)
    as (i & j & _ & Hi & Hj & Hc & NE & f2 & E2 & NZ & Ef). fold nky in Hi, Hc.
  exists i, j. eexists. split; [exact Hi|]. split; [exact Hj|]. split; [exact Hc|].
  intros a b Ha Hb N1 N2. rewrite Ef, E2. f_equal. set (z := RtoC _). clearbody z.
  unfold cond_no_forcing in Hc. rewrite !orb_false_iff in Hc. destruct Hc as [_ Hcj]. apply Nat.eqb_neq in Hcj.
  change (project_fft_on_realX_seq nky nkx f a b) with (raw m nkx f a b).
  destruct (Nat.eq_dec b 0) as [Eb|Nb0]; [|destruct (Nat.eq_dec b (nkx - 1)) as [Eb|Nb]].
  3:{ unfold raw at 1. rewrite project_inside by (auto; lia). unfold set2.
      destruct (Nat.eqb_spec a i), (Nat.eqb_spec b j); cbn [andb]; try reflexivity. subst. congruence. }
  - unfold raw at 1. rewrite project_even_edge by auto. rewrite <- (raw_edge m nkx Hm Hx f a b Ha (or_introl Eb)).
    unfold set2. subst b.
    destruct (Nat.eqb_spec a i) as [E|_], (Nat.eqb_spec 0 j) as [Ej|_]; cbn [andb]; [subst; congruence| | |];
      rewrite ?andb_false_r, ?andb_true_r; try reflexivity.
    destruct (Nat.eqb_spec (opposite (2 * m) a) i) as [E|_]; [|reflexivity].
    exfalso. apply (N2 (eq_sym Ej)). f_equal. rewrite <- E. symmetry. apply opposite_opposite. exact Ha.
  - unfold raw at 1. rewrite project_even_edge by auto. rewrite <- (raw_edge m nkx Hm Hx f a b Ha (or_intror Eb)).
    unfold set2. rewrite !(proj2 (Nat.eqb_neq b j)) by lia. rewrite !andb_false_r. reflexivity.
Qed.
Print Assumptions c119_other_modes.

(** ** C120: the normalisation "particular_k" accepts every forced region *)

(** the only failures: less than two forced modes, a chosen mode with a real part equal to zero, or a
    forcing equal to zero *)
Theorem c120_accepted_partial :
  forall m nkx deltakx deltaky randint kmin kmax rate dt f v,
  let nky := (2 * m)%nat in
  (1 <= m)%nat -> (2 <= nkx)%nat -> 0 < deltakx -> 0 < deltaky -> 0 < dt ->
  (forall n, (0 < n)%nat -> (randint n < n)%nat) ->
  let forced := forced_modes m nkx (cond_no_forcing nky nkx deltakx deltaky kmin kmax) in
  (2 <= length forced)%nat ->
  (forall i j, In (i, j) forced -> fst (v i j) <> 0) ->
  (exists a b, (a < nky)%nat /\ (0 < b < nkx - 1)%nat /\ f a b <> RtoC 0
     /\ nth_error forced (randint (length forced - 1)%nat) <> Some (a, b)) ->
  exists f', normalize_forcingc_part_k nky nkx deltakx deltaky randint
    (cond_no_forcing nky nkx deltakx deltaky kmin kmax) rate dt f v = Some f'.
Proof.
  intros m nkx deltakx deltaky randint kmin kmax rate dt f v nky Hm Hx Hdx Hdy Hd Hr forced Hl Hv (a & b & Ha & Hb & Nf & Nc).
  unfold normalize_forcingc_part_k. fold (raw m nkx f). set (f1 := raw m nkx f).
  change (filter (fun p => negb (cond_no_forcing nky nkx deltakx deltaky kmin kmax (fst p) (snd p))) (indices nky nkx)) with forced.
  rewrite map_length.
  destruct (Nat.leb_spec (length forced) 1) as [L|L]; [lia|].
  pose proof (Hr (length forced - 1)%nat ltac:(lia)) as Hi. set (ip := randint (length forced - 1)%nat) in *.
  destruct (nth_error forced ip) as [[i j]|] eqn:Ep; [|apply nth_error_None in Ep; lia].
  pose proof (nth_error_In _ _ Ep) as Ip. pose proof (Hv i j Ip) as Vp.
  unfold forced, forced_modes in Ip. apply filter_In in Ip as [Ip Cp].
  apply indices_spec in Ip. cbn [fst snd] in Ip, Cp. destruct Ip as [Ii Ij]. apply negb_true_iff in Cp.
  unfold cond_no_forcing in Cp. rewrite !orb_false_iff in Cp. destruct Cp as [_ Cj]. apply Nat.eqb_neq in Cj.
  assert (Nx : nth ip (map (fun p => kx_loc deltakx (snd p)) forced) 0 = kx_loc deltakx j).
  { rewrite (nth_indep _ 0 (kx_loc deltakx (snd (O, O)))) by (rewrite map_length; lia).
    rewrite (map_nth (fun p => kx_loc deltakx (snd p))). rewrite (nth_error_nth _ _ _ Ep). reflexivity. }
  assert (Ny : nth ip (map (fun p => ky_loc nky deltaky (fst p)) forced) 0 = ky_loc nky deltaky i).
  { rewrite (nth_indep _ 0 (ky_loc nky deltaky (fst (O, O)))) by (rewrite map_length; lia).
    rewrite (map_nth (fun p => ky_loc nky deltaky (fst p))). rewrite (nth_error_nth _ _ _ Ep). reflexivity. }
  rewrite Nx, Ny, (argmin_wavenumber nkx), (argmin_wavenumber nky)
    by (assumption || (intros; apply (ky_inj m deltaky Hdy); assumption) || (intros; apply (kx_inj deltakx Hdx); assumption)).
  destruct (Req_EM_T (fst (v i j)) 0) as [E|_]; [contradiction|].
  set (z := RtoC _). set (fz := if (j =? 0)%nat then _ else _).
  assert (Q : forall c d, (c, d) <> (i, j) -> fz c d = f1 c d).
  { intros c d Ncd. unfold fz. destruct (Nat.eqb j 0); unfold set2;
      destruct (Nat.eqb_spec c i), (Nat.eqb_spec d j); cbn [andb]; try reflexivity; subst; congruence. }
  destruct (Req_EM_T _ 0) as [E|NZ]; [exfalso|eexists; reflexivity].
  assert (S0 : 0 < sum_wavenumbers nky nkx (fun c d => abs_square (project_fft_on_realX_seq nky nkx fz c d))).
  { assert (P0 : forall g, (forall c d, 0 <= g c d) -> forall l : list (nat * nat), In (a, b) l -> 0 < g a b ->
      0 < fold_right (fun p s => weight nkx (snd p) * g (fst p) (snd p) + s) 0 l).
    { intros g Hg. assert (W : forall d, 1 <= weight nkx d) by (intro d; unfold weight; destruct (_ || _); lra).
      assert (G0 : forall l : list (nat * nat), 0 <= fold_right (fun p s => weight nkx (snd p) * g (fst p) (snd p) + s) 0 l).
      { induction l as [|p l IH]; cbn; [lra|]. pose proof (W (snd p)). pose proof (Hg (fst p) (snd p)). nra. }
      induction l as [|p l IH]; intros Hin Hab; [destruct Hin|]. cbn [fold_right].
      pose proof (W (snd p)). pose proof (Hg (fst p) (snd p)). pose proof (G0 l).
      destruct Hin as [-> | Hin]; [cbn [fst snd] in *; nra|]. pose proof (IH Hin Hab). nra. }
    unfold sum_wavenumbers. apply (P0 (fun c d => abs_square (project_fft_on_realX_seq nky nkx fz c d))).
    - intros c d. unfold abs_square. nra.
    - apply indices_spec. cbn [fst snd]. lia.
    - rewrite project_inside by (unfold nky; lia). rewrite Q by (intros E'; apply Nc; rewrite E'; reflexivity).
      unfold f1, raw. rewrite project_inside by lia. unfold abs_square.
      destruct (f a b) as [p q]. cbn [fst snd]. destruct (Req_dec p 0) as [->|Np]; [|nra].
      destruct (Req_dec q 0) as [->|Nq]; [|nra]. exfalso. apply Nf. reflexivity. }
  assert (0 < sum_wavenumbers nky nkx (fun c d => abs_square (project_fft_on_realX_seq nky nkx fz c d)) * dt / 2)
    by (apply Rmult_lt_0_compat; [apply Rmult_lt_0_compat|]; lra).
  lra.
Qed.
Print Assumptions c120_accepted_partial.

(** with one forced mode the computation of the forcing fails for every state and every raw forcing
    (np.random.randint(0, 0)), although the initialisation accepts it *)
Theorem c120_one_mode_refuted :
  exists m nkx deltakx deltaky kmin kmax, let nky := (2 * m)%nat in
  0 < deltakx /\ 0 < deltaky /\ kmin <= kmax
  /\ (exists p, forced_modes m nkx (cond_no_forcing nky nkx deltakx deltaky kmin kmax) = [p])
  /\ forall randint rate dt f v, normalize_forcingc_part_k nky nkx deltakx deltaky randint
       (cond_no_forcing nky nkx deltakx deltaky kmin kmax) rate dt f v = None.
Proof.
  exists 2%nat, 3%nat, 1, 2, 1, 1. cbv zeta.
  assert (F : forced_modes 2 3 (cond_no_forcing (2 * 2) 3 1 2 1 1) = [(O, 1%nat)]).
  { unfold forced_modes. transitivity (filter (fun p => Nat.eqb (fst p) 0 && Nat.eqb (snd p) 1) (indices (2 * 2) 3)); [|reflexivity].
    apply filter_ext_in. intros [i j] I. apply indices_spec in I. cbn [fst snd] in *. destruct I as [Ii Ij].
    unfold cond_no_forcing, kx_loc, ky_loc. change (2 * 2 / 2)%nat with 2%nat. change (3 - 1)%nat with 2%nat.
    assert (S2 : forall x y, 1 < x * x + y * y -> rltb 1 (sqrt (x * x + y * y)) = true).
    { intros x y L. destruct (rltb_spec 1 (sqrt (x * x + y * y))) as [_|N]; [reflexivity|].
      exfalso. apply N. rewrite <- sqrt_1 at 1. apply sqrt_lt_1_alt. lra. }
    destruct (Nat.eqb_spec i 2) as [->|Ni]; [rewrite orb_true_r; reflexivity|].
    destruct (Nat.eqb_spec j 2) as [->|Nj]; [rewrite !orb_true_r; symmetry; apply andb_false_r|].
    rewrite !orb_false_r.
    assert (Hi : i = O \/ i = 1%nat \/ i = 3%nat) by lia. assert (Hj : j = O \/ j = 1%nat) by lia.
    destruct Hi as [->|[->| ->]].
    2,3: rewrite S2 by (cbn; destruct Hj as [->| ->]; cbn; lra); reflexivity.
    destruct Hj as [->| ->]; cbn [Nat.leb Nat.eqb andb].
    - replace (1 * INR 0 * (1 * INR 0) + 2 * INR 0 * (2 * INR 0)) with 0 by (cbn; ring). rewrite sqrt_0.
      destruct (rltb_spec 0 1); [|lra]. rewrite orb_true_r. reflexivity.
    - replace (1 * INR 1 * (1 * INR 1) + 2 * INR 0 * (2 * INR 0)) with 1 by (cbn; ring). rewrite sqrt_1.
      destruct (rltb_spec 1 1); [lra|]. reflexivity. }
  split; [lra|]. split; [lra|]. split; [lra|]. split; [eexists; exact F|].
  intros randint rate dt f v. unfold normalize_forcingc_part_k.
  fold (forced_modes 2 3 (cond_no_forcing (2 * 2) 3 1 2 1 1)). rewrite F. reflexivity.
Qed.
Print Assumptions c120_one_mode_refuted.

(** a flow at rest is not forced either: division by zero *)
Theorem c120_rest_refuted :
  exists v : nat -> nat -> C, forall nky nkx deltakx deltaky randint cond rate dt f,
  normalize_forcingc_part_k nky nkx deltakx deltaky randint cond rate dt f v = None.
Proof.
  exists (fun _ _ => RtoC 0). intros. unfold normalize_forcingc_part_k.
  destruct (_ <=? 1)%nat; [reflexivity|]. cbn [fst RtoC].
  destruct (Req_EM_T 0 0) as [_|N]; [reflexivity|contradiction].
Qed.
Print Assumptions c120_rest_refuted.

(** one chosen mode among six: the hypotheses of C119 and C120 are met *)
Example c119_example :
  let v := fun _ _ : nat => RtoC 1 in let f := fun _ _ : nat => RtoC 1 in
  hermitian_column 4 v 0
  /\ forced_modes 2 3 (cond_no_forcing 4 3 1 1 (-1) 100) = [(0, 0); (0, 1); (1, 0); (1, 1); (3, 0); (3, 1)]%nat
  /\ exists f', normalize_forcingc_part_k 4 3 1 1 (fun _ => O) (cond_no_forcing 4 3 1 1 (-1) 100) 5 1 f v = Some f'
     /\ quadratic 4 3 (euler_step 1 v f') - quadratic 4 3 v = 5.
Proof.
  cbv zeta.
  assert (F : forced_modes 2 3 (cond_no_forcing 4 3 1 1 (-1) 100) = [(0, 0); (0, 1); (1, 0); (1, 1); (3, 0); (3, 1)]%nat).
  { unfold forced_modes. transitivity (filter (fun p => negb (Nat.eqb (fst p) 2) && negb (Nat.eqb (snd p) 2)) (indices (2 * 2) 3)); [|reflexivity].
    apply filter_ext_in. intros [i j] I. apply indices_spec in I. cbn [fst snd] in *. destruct I as [Ii Ij].
    unfold cond_no_forcing, kx_loc, ky_loc. change (4 / 2)%nat with 2%nat. change (3 - 1)%nat with 2%nat.
    assert (S1 : forall x y, rltb (sqrt (x * x + y * y)) (-1) = false).
    { intros x y. destruct (rltb_spec (sqrt (x * x + y * y)) (-1)) as [L|_]; [|reflexivity].
      pose proof (sqrt_pos (x * x + y * y)). lra. }
    assert (S2 : forall x y, x * x + y * y <= 10000 -> rltb 100 (sqrt (x * x + y * y)) = false).
    { intros x y L. destruct (rltb_spec 100 (sqrt (x * x + y * y))) as [N|_]; [|reflexivity].
      exfalso. apply sqrt_le_1_alt in L. replace 10000 with (100 * 100) in L by ring.
      rewrite sqrt_square in L by lra. lra. }
    rewrite S1. destruct (Nat.eqb_spec i 2) as [->|Ni]; [rewrite orb_true_r; reflexivity|].
    destruct (Nat.eqb_spec j 2) as [->|Nj]; [rewrite !orb_true_r; reflexivity|].
    assert (Hi : i = O \/ i = 1%nat \/ i = 3%nat) by lia. assert (Hj : j = O \/ j = 1%nat) by lia.
    rewrite S2; [reflexivity|]. destruct Hi as [->|[->| ->]], Hj as [->| ->]; cbn; lra. }
  assert (H : hermitian_column 4 (fun _ _ => RtoC 1) 0).
  { intros i _. unfold Cconj, RtoC. cbn. f_equal. ring. }
  split; [exact H|]. split; [exact F|].
  destruct (c120_accepted_partial 2 3 1 1 (fun _ => O) (-1) 100 5 1 (fun _ _ => RtoC 1) (fun _ _ => RtoC 1)) as [f' E];
    try lia; try lra.
  - change (2 * 2)%nat with 4%nat. rewrite F. cbn. lia.
  - intros i j _. cbn. lra.
  - exists O, 1%nat. split; [lia|]. split; [lia|]. split.
    + intros E. apply RtoC_inj in E. lra.
    + change (2 * 2)%nat with 4%nat. rewrite F. cbn. discriminate.
  - exists f'. split; [exact E|].
    destruct (c119_injection_rate 2 3 1 1 (fun _ => O) (-1) 100 5 1 (fun _ _ => RtoC 1) (fun _ _ => RtoC 1) f') as [Q _];
      try lia; try lra; [exact H|exact E|]. change (2 * 2)%nat with 4%nat in Q. rewrite Q. ring.
Qed.

(** ** C121: the Kolmogorov flows have the wavenumber asked for *)

(** the wavenumber [c] along the axis *)
Definition along_axis (l : letter) (c : BinNums.Z) : mode :=
  match l with X => (c, 0, 0)%Z | Y => (0, c, 0)%Z | _ => (0, 0, c)%Z end.

(** wavenumbers known with n points *)
Definition resolved1 (n : nat) (k : BinNums.Z) : Prop := (- Z.of_nat n < 2 * k <= Z.of_nat n)%Z.
Definition resolved (g : grid) (k : mode) : Prop :=
  resolved1 (gx g) (mx k) /\ resolved1 (gy g) (my k) /\ resolved1 (gz g) (mz k).

Definition mode_eq_dec (p q : mode) : {p = q} + {p <> q}.
Proof. decide equality; [apply Z.eq_dec|]. decide equality; apply Z.eq_dec. Defined.

Lemma sin_cis t : RtoC (sin t) = (- Ci / RtoC 2 * cis t + Ci / RtoC 2 * cis (- t))%C.
Proof.
  unfold cis, cexp. cbn [fst snd]. rewrite exp_0, sin_neg, cos_neg.
  apply C_eq; unfold Cdiv, Cinv, Cmult, Cplus, Copp, Ci, RtoC; cbn; field.
Qed.

Lemma chi3_axis g l c jx jy jz : grid_pos g -> l <> OtherLetter ->
  chi3 g (along_axis l c) jx jy jz = chi (points g l) c (index l jx jy jz).
Proof.
  intros Hg Hl. assert (Z : forall n j, chi n 0 j = RtoC 1).
  { intros n j. unfold chi. replace (2 * PI * 0 * INR j / INR n) with 0 by (unfold Rdiv; ring). apply cis_0. }
  unfold chi3. destruct l; cbn [along_axis mx my mz fst snd points index]; rewrite ?Z; ring.
Qed.

Lemma kolmogorov_field_modes g A L ik l jx jy jz : grid_pos g -> L <> 0 -> l <> OtherLetter ->
  kolmogorov_field g A L ik l jx jy jz
  = idft g [along_axis l ik; along_axis l (- ik)]
      (fun p => if mode_eq_dec p (along_axis l ik) then (RtoC A * (- Ci / RtoC 2))%C
                else (RtoC A * (Ci / RtoC 2))%C) jx jy jz
  \/ ik = 0%Z.
Proof.
  intros Hg HL Hl. destruct (Z.eq_dec ik 0) as [E|N]; [right; exact E|left].
  unfold kolmogorov_field, idft, lsum. cbn [fold_right].
  destruct (mode_eq_dec (along_axis l ik) (along_axis l ik)) as [_|E]; [|congruence].
  destruct (mode_eq_dec (along_axis l (- ik)) (along_axis l ik)) as [E|_].
  { exfalso. destruct l; cbn [along_axis] in E; try congruence; injection E; lia. }
  rewrite !chi3_axis by assumption. rewrite RtoC_mult, sin_cis. unfold chi, coordinate.
  assert (Hn : INR (points g l) <> 0).
  { apply not_0_INR. destruct Hg as (? & ? & ?). destruct l; cbn [points]; lia. }
  replace (2 * PI * IZR ik / L * (L / INR (points g l) * INR (index l jx jy jz)))
    with (2 * PI * IZR ik * INR (index l jx jy jz) / INR (points g l)) by (field; split; assumption).
  replace (- (2 * PI * IZR ik * INR (index l jx jy jz) / INR (points g l)))
    with (2 * PI * IZR (- ik) * INR (index l jx jy jz) / INR (points g l)) by (rewrite opp_IZR; field; assumption).
  ring.
Qed.

Lemma dft_modes g ms a k : grid_pos g ->
  dft g (idft g ms a) k = lsum ms (fun p => if congruent g (msubt p k) then a p else RtoC 0).
Proof.
  intros Hg. pose proof (dft_product g ms [(0, 0, 0)%Z] a (fun _ => RtoC 1) k Hg) as D.
  assert (E : forall jx jy jz, (idft g ms a jx jy jz * idft g [(0, 0, 0)%Z] (fun _ => RtoC 1) jx jy jz)%C = idft g ms a jx jy jz).
  { intros jx jy jz. unfold idft at 2, lsum. cbn [fold_right]. unfold chi3, chi. cbn [mx my mz fst snd].
    assert (Z : forall j n, (2 * PI * 0 * INR j / INR n) = 0) by (intros; unfold Rdiv; ring).
    rewrite !Z, cis_0. ring. }
  unfold dft in *.
  rewrite (nsum_ext (gx g) _ (fun jx => nsum (gy g) (fun jy => nsum (gz g) (fun jz =>
      (idft g ms a jx jy jz * idft g [(0, 0, 0)%Z] (fun _ => RtoC 1) jx jy jz *
      chi3 g (- mx k, - my k, - mz k)%Z jx jy jz)%C)))).
  - rewrite D. apply lsum_ext. intros p _. unfold lsum at 1. cbn [fold_right].
    replace (madd p (0, 0, 0)%Z) with p
      by (destruct p as [[x y] z]; unfold madd; cbn [mx my mz fst snd]; rewrite !Z.add_0_r; reflexivity).
    destruct (congruent g (msubt p k)); ring.
  - intros jx _. apply nsum_ext. intros jy _. apply nsum_ext. intros jz _. rewrite E. reflexivity.
Qed.

(** coefficients in general *)
Lemma kolmogorov_coefficients g A L ik l k : grid_pos g -> L <> 0 -> l <> OtherLetter -> ik <> 0%Z ->
  kolmogorov_fft g A L ik l k
  = ((if congruent g (msubt (along_axis l ik) k) then RtoC A * (- Ci / RtoC 2) else RtoC 0)
     + (if congruent g (msubt (along_axis l (- ik)) k) then RtoC A * (Ci / RtoC 2) else RtoC 0))%C.
Proof.
  intros Hg HL Hl Hk. unfold kolmogorov_fft.
  set (a := fun p => if mode_eq_dec p (along_axis l ik) then (RtoC A * (- Ci / RtoC 2))%C
                else (RtoC A * (Ci / RtoC 2))%C).
  transitivity (dft g (idft g [along_axis l ik; along_axis l (- ik)] a) k).
  - unfold dft. f_equal. apply nsum_ext. intros jx _. apply nsum_ext. intros jy _. apply nsum_ext. intros jz _.
    destruct (kolmogorov_field_modes g A L ik l jx jy jz Hg HL Hl) as [E|E]; [|contradiction]. rewrite E. reflexivity.
  - rewrite dft_modes by exact Hg. unfold lsum, a. cbn [fold_right].
    destruct (mode_eq_dec (along_axis l ik) (along_axis l ik)) as [_|E]; [|congruence].
    destruct (mode_eq_dec (along_axis l (- ik)) (along_axis l ik)) as [E|_].
    { exfalso. destruct l; cbn [along_axis] in E; try congruence; injection E; lia. }
    ring.
Qed.

Lemma mod_small n d : (0 < n)%nat -> (- Z.of_nat n < d < Z.of_nat n)%Z -> (d mod Z.of_nat n =? 0)%Z = (d =? 0)%Z.
Proof.
  intros Hn Hd. destruct (Z.eqb_spec d 0) as [->|N]; [rewrite Zmod_0_l; reflexivity|].
  apply Z.eqb_neq. intros E. apply Z.mod_divide in E; [|lia]. destruct E as [q ->].
  assert (q = 0%Z \/ (q <= -1 \/ 1 <= q)%Z) as [?|[?|?]] by lia; nia.
Qed.

Lemma congruent_axis g l c k : grid_pos g -> l <> OtherLetter -> resolved g k ->
  (2 * Z.abs c < Z.of_nat (points g l))%Z ->
  congruent g (msubt (along_axis l c) k) = if mode_eq_dec k (along_axis l c) then true else false.
Proof.
  intros (Hx & Hy & Hz) Hl (Rx & Ry & Rz) Hc. destruct k as [[kx ky] kz].
  unfold resolved1, congruent, msubt in *. cbn [mx my mz fst snd] in *.
  destruct l; cbn [along_axis points mx my mz fst snd] in *; try congruence;
    rewrite !mod_small by lia;
    match goal with |- _ = (if ?b then _ else _) => destruct b as [E|N] end;
    try (injection E as -> -> ->; rewrite ?Z.sub_diag; reflexivity);
    match goal with |- (?a && ?b && ?c)%bool = false =>
      destruct a eqn:A; [|reflexivity]; destruct b eqn:B; [|reflexivity]; destruct c eqn:Cc; [|reflexivity] end;
    exfalso; apply N; apply Z.eqb_eq in A, B, Cc; repeat f_equal; lia.
Qed.

(** below the Nyquist wavenumber of the grid (the one of oper_coarse for the normalized forcing) *)
Theorem c121_wavenumber_partial :
  forall g A L ik l k, grid_pos g -> 0 < L -> l <> OtherLetter -> resolved g k ->
  (0 < ik)%Z -> (2 * ik < Z.of_nat (points g l))%Z ->
  kolmogorov_fft g A L ik l k
  = if mode_eq_dec k (along_axis l ik) then (- Ci * RtoC (A / 2))%C
    else if mode_eq_dec k (along_axis l (- ik)) then (Ci * RtoC (A / 2))%C else RtoC 0.
Proof.
  intros g A L ik l k Hg HL Hl Hk Hp Hn. rewrite kolmogorov_coefficients by (assumption || lra || lia).
  rewrite !congruent_axis by (assumption || lia).
  destruct (mode_eq_dec k (along_axis l ik)) as [E1|N1], (mode_eq_dec k (along_axis l (- ik))) as [E2|N2].
  - exfalso. rewrite E1 in E2. destruct l; cbn [along_axis] in E2; try congruence; injection E2; lia.
  - apply C_eq; unfold Cdiv, Cinv, Cmult, Cplus, Copp, Ci, RtoC; cbn; field.
  - apply C_eq; unfold Cdiv, Cinv, Cmult, Cplus, Copp, Ci, RtoC; cbn; field.
  - ring.
Qed.
Print Assumptions c121_wavenumber_partial.

(** the default axis: z in 3D, y in 2D *)
Theorem c121_axis :
  get_axis true None = Some Z /\ get_axis false None = Some Y /\ get_axis false (Some Z) = None
  /\ forall b l l', get_axis b (Some l) = Some l' -> l' = l /\ l' <> OtherLetter.
Proof.
  split; [reflexivity|]. split; [reflexivity|]. split; [reflexivity|].
  intros b l l' H. destruct l; cbn in H; try discriminate; try (injection H as <-; split; [reflexivity|discriminate]).
  destruct b; [|discriminate]. injection H as <-. split; [reflexivity|discriminate].
Qed.
Print Assumptions c121_axis.

(** at the Nyquist wavenumber of the grid of the forcing nothing is forced, whatever the amplitude *)
Theorem c121_nothing_forced_refuted :
  exists g L ik l, grid_pos g /\ 0 < L /\ l <> OtherLetter /\ (0 < ik)%Z
  /\ forall A k, kolmogorov_fft g A L ik l k = RtoC 0.
Proof.
  exists (mkGrid 10 10 1), 1, 5%Z, Y. split; [split; cbn; lia|]. split; [lra|]. split; [discriminate|]. split; [lia|].
  intros A k. rewrite kolmogorov_coefficients by (try lra; try lia; try discriminate; split; cbn; lia).
  replace (congruent (mkGrid 10 10 1) (msubt (along_axis Y (- (5))) k))
    with (congruent (mkGrid 10 10 1) (msubt (along_axis Y 5) k)).
  - destruct (congruent _ _); apply C_eq; unfold Cdiv, Cinv, Cmult, Cplus, Copp, Ci, RtoC; cbn; field.
  - unfold congruent, msubt. cbn [along_axis mx my mz fst snd gx gy gz].
    replace (5 - my k)%Z with (- (5) - my k + 1 * Z.of_nat 10)%Z by lia.
    rewrite Z_mod_plus_full. reflexivity.
Qed.
Print Assumptions c121_nothing_forced_refuted.

(** above, another wavenumber is forced: with 10 points in each direction in oper_coarse and ik = 7, this is
    the wavenumber 3, with the opposite sign *)
Theorem c121_other_wavenumber_refuted :
  exists g L ik l, grid_pos g /\ 0 < L /\ l <> OtherLetter /\ (0 < ik)%Z
  /\ forall A k, resolved g k -> kolmogorov_fft g A L ik l k
     = if mode_eq_dec k (along_axis l 3) then (Ci * RtoC (A / 2))%C
       else if mode_eq_dec k (along_axis l (- 3)) then (- Ci * RtoC (A / 2))%C else RtoC 0.
Proof.
  exists (mkGrid 10 10 1), 1, 7%Z, Y. assert (Hg : grid_pos (mkGrid 10 10 1)) by (split; cbn; lia).
  split; [exact Hg|]. split; [lra|]. split; [discriminate|]. split; [lia|].
  intros A k Hk. rewrite kolmogorov_coefficients by (try lra; try lia; try discriminate; assumption).
  assert (E : forall c, congruent (mkGrid 10 10 1) (msubt (along_axis Y c) k)
                      = congruent (mkGrid 10 10 1) (msubt (along_axis Y (c - 10)) k)).
  { intros c. unfold congruent, msubt. cbn [along_axis mx my mz fst snd gx gy gz].
    replace (c - my k)%Z with (c - 10 - my k + 1 * Z.of_nat 10)%Z by lia. rewrite Z_mod_plus_full. reflexivity. }
  rewrite (E 7%Z). rewrite <- (E 3%Z : congruent _ (msubt (along_axis Y 3) k) = congruent _ (msubt (along_axis Y (- (7))) k)).
  change (7 - 10)%Z with (-3)%Z.
  rewrite !congruent_axis by (assumption || discriminate || (cbn; lia)).
  destruct (mode_eq_dec k (along_axis Y (-3))) as [E1|N1], (mode_eq_dec k (along_axis Y 3)) as [E2|N2].
  - exfalso. rewrite E1 in E2. discriminate E2.
  - apply C_eq; unfold Cdiv, Cinv, Cmult, Cplus, Copp, Ci, RtoC; cbn; field.
  - apply C_eq; unfold Cdiv, Cinv, Cmult, Cplus, Copp, Ci, RtoC; cbn; field.
  - ring.
Qed.
Print Assumptions c121_other_wavenumber_refuted.

Example c121_example :
  kolmogorov_fft (mkGrid 10 10 1) 2 1 3 Y (0, 3, 0)%Z = (- Ci)%C
  /\ kolmogorov_fft (mkGrid 10 10 1) 2 1 3 Y (3, 0, 0)%Z = RtoC 0.
Proof.
  assert (Hg : grid_pos (mkGrid 10 10 1)) by (split; cbn; lia).
  split; rewrite c121_wavenumber_partial
    by (first [assumption | discriminate | lra | lia | (cbn; lia) | (unfold resolved, resolved1; cbn; lia)]).
  - destruct (mode_eq_dec _ _) as [_|N]; [|exfalso; apply N; reflexivity].
    apply C_eq; unfold Cmult, Copp, Ci, RtoC; cbn; field.
  - repeat (destruct (mode_eq_dec _ _) as [E|_]; [discriminate E|]). reflexivity.
Qed.

(** ** C122: the normalized Kolmogorov forcing does not depend on its past *)

Import Forcing_Model Forcing_Spec Forcing_Proofs Forcing_Props.

Definition scaled (s : R) (l : list C) : list C := map (fun z => (RtoC s * z)%C) l.

Lemma with_forcing_scaled s state fs :
  with_forcing state (scaled s fs) = map (fun m => mkMode (Forcing_Model.w m) (u m) (RtoC s * f m)%C) (with_forcing state fs).
Proof.
  unfold with_forcing, scaled. revert fs. induction state as [|p r IH]; intros fs; [reflexivity|].
  destruct fs as [|z fs]; [reflexivity|]. cbn. rewrite IH. reflexivity.
Qed.

Lemma scaled_scaled s t l : scaled s (scaled t l) = scaled (s * t) l.
Proof. unfold scaled. rewrite map_map. apply map_ext. intros z. rewrite RtoC_mult. ring. Qed.

Lemma scaled_1 l : scaled 1 l = l.
Proof. unfold scaled. rewrite <- (map_id l) at 2. apply map_ext. intros z. ring. Qed.

Lemma coef_a_scaled s dt l :
  coef_a dt (map (fun m => mkMode (Forcing_Model.w m) (u m) (RtoC s * f m)%C) l) = s * s * coef_a dt l.
Proof.
  unfold coef_a, Forcing_Model.sum_wavenumbers. induction l as [|m l IH]; cbn [map fold_right Forcing_Model.w f]; [ring|].
  set (x := fold_right _ 0 (map _ l)) in *. set (y := fold_right _ 0 l) in *.
  assert (E : dt / 2 * (Forcing_Model.w m * abs2 (RtoC s * f m)%C + x) = dt / 2 * (Forcing_Model.w m * abs2 (RtoC s * f m)%C) + dt / 2 * x) by ring.
  rewrite E, IH. unfold abs2. destruct (f m). cbn. ring.
Qed.

Lemma coef_b_scaled s l :
  coef_b (map (fun m => mkMode (Forcing_Model.w m) (u m) (RtoC s * f m)%C) l) = s * coef_b l.
Proof.
  unfold coef_b, Forcing_Model.sum_wavenumbers. induction l as [|m l IH]; cbn [map fold_right Forcing_Model.w u f]; [ring|].
  rewrite IH. unfold dotc. destruct (f m), (u m). cbn. ring.
Qed.

Lemma with_forcing_f state fs : length state = length fs -> map f (with_forcing state fs) = fs.
Proof.
  unfold with_forcing. revert fs. induction state as [|p r IH]; intros [|z fs] H; try discriminate; [reflexivity|].
  cbn. f_equal. apply IH. cbn in H. lia.
Qed.

Lemma with_forcing_before state fs : length state = length fs -> before (with_forcing state fs) = state.
Proof.
  unfold before, with_forcing. revert fs. induction state as [|p r IH]; intros [|z fs] H; try discriminate; [reflexivity|].
  cbn. destruct p as [a b]. cbn [fst snd]. f_equal. apply IH. cbn in H. lia.
Qed.

(** a call whose state has the size of the forcing and non-negative weights; the sine is seen *)
Definition valid_call (fs : list C) (c : R * list (R * C)) : Prop :=
  0 < fst c /\ length (snd c) = length fs
  /\ weights_nonneg (with_forcing (snd c) fs) /\ forcing_not_zero (with_forcing (snd c) fs).

Lemma compute_scaled order which P dt st fs s : 0 < P -> s <> 0 -> valid_call fs (dt, st) ->
  let l := with_forcing st fs in
  exists r, kolmogorov_normalized_compute order which P dt st (scaled s fs) = Some (scaled (r * s) fs)
    /\ 0 < coef_a dt l /\ is_root (coef_a dt l) (coef_b l) (- P) (r * s)
    /\ (which = Positive -> 0 < r)
    /\ (which = MinAbs -> forall x, is_root (coef_a dt l) (coef_b l) (- P) x -> Rabs (r * s) <= Rabs x).
Proof.
  intros HP Hs (Hd & Hlen & HW & HF) l. cbn [fst snd] in *. fold l in HW, HF.
  pose proof (coef_a_pos dt l Hd HW HF) as A0.
  unfold kolmogorov_normalized_compute, normalize_2nd_degree_eq.
  rewrite with_forcing_scaled. fold l. rewrite coef_a_scaled, coef_b_scaled.
  set (a := coef_a dt l) in *. set (b := coef_b l).
  assert (A1 : 0 < s * s * a) by (apply Rmult_lt_0_compat; [nra|exact A0]).
  destruct (coef_normalization_from_abc order which (s * s * a) (s * b) (- P)) as [r|] eqn:E.
  2:{ exfalso. unfold coef_normalization_from_abc in E. destruct (eqb_spec (s * s * a) 0); [lra|].
      unfold np_roots in E. pose proof (disc_nonneg (s * s * a) (s * b) P A1 ltac:(lra)).
      destruct (ltb_spec (s * b * (s * b) - 4 * (s * s * a) * - P) 0); [lra|].
      destruct (order _ _ _); discriminate. }
  exists r.
  assert (Rr : is_root (s * s * a) (s * b) (- P) r).
  { unfold coef_normalization_from_abc in E. destruct (eqb_spec (s * s * a) 0); [lra|].
    destruct (np_roots order (s * s * a) (s * b) (- P)) as [[r1 r2]|] eqn:R; [|discriminate].
    destruct (np_roots_spec _ _ _ _ _ _ (Rgt_not_eq _ _ A1) R) as (R1 & R2 & _).
    injection E as <-. destruct which; auto.
    - destruct (ltb (Rabs r2) (Rabs r1)); assumption.
    - destruct (ltb 0 r2); assumption. }
  split.
  { f_equal. transitivity (scaled (r * s) (map f l)); [|unfold l; rewrite with_forcing_f by exact Hlen; reflexivity].
    unfold scaled. rewrite !map_map. cbn [f]. apply map_ext. intros m. rewrite RtoC_mult. ring. }
  split; [exact A0|]. split; [unfold is_root in *; rewrite <- Rr; ring|]. split.
  - intros ->. destruct (c32_positive _ _ _ _ _ A1 HP E) as [_ Q]. exact Q.
  - intros -> x Hx. destruct (c32_minabs _ _ _ _ _ A1 (Rlt_le _ _ HP) E) as [_ Q].
    assert (Hq : is_root (s * s * a) (s * b) (- P) (x / s)).
    { unfold is_root in *. rewrite <- Hx. field. exact Hs. }
    specialize (Q _ Hq). rewrite Rabs_mult. unfold Rdiv in Q. rewrite Rabs_mult, Rabs_inv in Q.
    pose proof (Rabs_pos_lt s Hs) as S0. apply (Rmult_le_compat_r (Rabs s)) in Q; [|lra].
    replace (Rabs x * / Rabs s * Rabs s) with (Rabs x) in Q by (field; lra). exact Q.
Qed.

Lemma root_not_0 a b P x : 0 < P -> is_root a b (- P) x -> x <> 0.
Proof. intros HP H ->. unfold is_root in H. lra. Qed.

Lemma run_scaled order which P fs calls : 0 < P -> Forall (valid_call fs) calls -> forall s, s <> 0 ->
  exists t, kolmogorov_normalized_run order which P calls (scaled s fs) = Some (scaled t fs) /\ t <> 0
    /\ (which = Positive -> 0 < s -> 0 < t).
Proof.
  intros HP H. induction H as [|[dt st] calls Hc H IH]; intros s Hs.
  - exists s. split; [reflexivity|]. split; [exact Hs|auto].
  - destruct (compute_scaled order which P dt st fs s HP Hs Hc) as (r & E & _ & Rr & Rp & _).
    cbn [kolmogorov_normalized_run]. rewrite E.
    destruct (IH (r * s) (root_not_0 _ _ _ _ HP Rr)) as (t & Et & Nt & Pt).
    exists t. split; [exact Et|]. split; [exact Nt|]. intros W S. apply Pt; [exact W|].
    apply Rmult_lt_0_compat; auto.
Qed.

Lemma run_app order which P c1 c2 fs :
  kolmogorov_normalized_run order which P (c1 ++ c2) fs
  = match kolmogorov_normalized_run order which P c1 fs with
    | None => None | Some fs' => kolmogorov_normalized_run order which P c2 fs' end.
Proof.
  revert fs. induction c1 as [|[dt st] c1 IH]; intros fs; [reflexivity|].
  cbn [app kolmogorov_normalized_run]. destruct (kolmogorov_normalized_compute _ _ _ _ _ _); [apply IH|reflexivity].
Qed.

(** after any calls the forcing is the one that would be computed from the sine itself *)
Theorem c122_positive :
  forall order P fs calls dt st, 0 < P -> Forall (valid_call fs) calls -> valid_call fs (dt, st) ->
  kolmogorov_normalized_run order Positive P (calls ++ [(dt, st)]) fs
  = kolmogorov_normalized_compute order Positive P dt st fs
  /\ exists f', kolmogorov_normalized_compute order Positive P dt st fs = Some f'.
Proof.
  intros order P fs calls dt st HP Hc Hl.
  destruct (run_scaled order Positive P fs calls HP Hc 1 ltac:(lra)) as (t & Et & Nt & Pt). rewrite scaled_1 in Et.
  specialize (Pt eq_refl ltac:(lra)).
  rewrite run_app, Et. cbn [kolmogorov_normalized_run].
  destruct (compute_scaled order Positive P dt st fs t HP Nt Hl) as (r & E & A & Rr & Rp & _).
  destruct (compute_scaled order Positive P dt st fs 1 HP ltac:(lra) Hl) as (r1 & E1 & _ & Rr1 & Rp1 & _).
  rewrite scaled_1 in E1. rewrite E, E1. split; [|eexists; reflexivity].
  f_equal. f_equal. specialize (Rp eq_refl). specialize (Rp1 eq_refl).
  pose proof (Rmult_lt_0_compat _ _ Rp Pt) as Q. set (x := r * t) in *. set (y := r1 * 1) in *.
  assert (Qy : 0 < y) by (unfold y; lra). clearbody x y. unfold is_root in *.
  set (a := coef_a dt (with_forcing st fs)) in *. set (b := coef_b (with_forcing st fs)) in *.
  assert (D : (x - y) * (a * (x + y) + b) = 0) by lra.
  apply Rmult_integral in D. destruct D as [D|D]; [lra|]. exfalso.
  assert (B : b = - a * (x + y)) by lra. rewrite B in Rr. 
  assert (a * (x * y) = - P) by lra. pose proof (Rmult_lt_0_compat _ _ A (Rmult_lt_0_compat _ _ Q Qy)). lra.
Qed.
Print Assumptions c122_positive.

Theorem c122_minabs :
  forall order P fs calls dt st, 0 < P -> Forall (valid_call fs) calls -> valid_call fs (dt, st) ->
  coef_b (with_forcing st fs) <> 0 ->
  kolmogorov_normalized_run order MinAbs P (calls ++ [(dt, st)]) fs
  = kolmogorov_normalized_compute order MinAbs P dt st fs
  /\ exists f', kolmogorov_normalized_compute order MinAbs P dt st fs = Some f'.
Proof.
  intros order P fs calls dt st HP Hc Hl HB.
  destruct (run_scaled order MinAbs P fs calls HP Hc 1 ltac:(lra)) as (t & Et & Nt & _). rewrite scaled_1 in Et.
  rewrite run_app, Et. cbn [kolmogorov_normalized_run].
  destruct (compute_scaled order MinAbs P dt st fs t HP Nt Hl) as (r & E & A & Rr & _ & Rp).
  destruct (compute_scaled order MinAbs P dt st fs 1 HP ltac:(lra) Hl) as (r1 & E1 & _ & Rr1 & _ & Rp1).
  rewrite scaled_1 in E1. rewrite E, E1. split; [|eexists; reflexivity].
  f_equal. f_equal. specialize (Rp eq_refl _ Rr1). specialize (Rp1 eq_refl _ Rr).
  set (x := r * t) in *. set (y := r1 * 1) in *. clearbody x y.
  assert (D : Rabs x = Rabs y) by lra.
  assert (Q : x = y \/ x = - y).
  { unfold Rabs in D. destruct (Rcase_abs x), (Rcase_abs y); [left|right|right|left]; lra. }
  destruct Q as [Q|Q]; [exact Q|]. exfalso. subst x. unfold is_root in *.
  set (b := coef_b _) in *. assert (b * y = 0) by lra.
  apply Rmult_integral in H. destruct H as [H|H]; [contradiction|]. subst y. lra.
Qed.
Print Assumptions c122_minabs.

(** in particular each call gives the requested rate *)
Theorem c122_rate :
  forall order which P fs calls dt st f', 0 < P -> Forall (valid_call fs) calls -> valid_call fs (dt, st) ->
  kolmogorov_normalized_run order which P (calls ++ [(dt, st)]) fs = Some f' ->
  energy (map (fun p => (fst (fst p), snd (fst p) + RtoC dt * snd p)%C) (combine st f')) - energy st = P * dt.
Proof.
  intros order which P fs calls dt st f' HP Hc Hl H.
  destruct (run_scaled order which P fs calls HP Hc 1 ltac:(lra)) as (t & Et & Nt & _). rewrite scaled_1 in Et.
  rewrite run_app, Et in H. cbn [kolmogorov_normalized_run] in H.
  destruct (compute_scaled order which P dt st fs t HP Nt Hl) as (r & E & A & Rr & _). rewrite E in H.
  injection H as <-. destruct Hl as (_ & Hlen & _). cbn [snd] in Hlen.
  pose proof (energy_step dt (r * t) (with_forcing st fs)) as S.
  rewrite <- with_forcing_scaled in S.
  unfold after, with_forcing at 1 in S. rewrite map_map in S. cbn [Forcing_Model.w u f] in S.
  rewrite (with_forcing_before st fs Hlen) in S. rewrite S.
  unfold is_root in Rr. replace (coef_a dt (with_forcing st fs) * (r * t * (r * t)) + coef_b (with_forcing st fs) * (r * t)) with P by lra.
  ring.
Qed.
Print Assumptions c122_rate.

Example c122_example :
  let fs := [(- Ci)%C; Ci] in let st := [(1, Ci); (1, (- Ci)%C)] in
  valid_call fs (1, st) /\ coef_b (with_forcing st fs) <> 0.
Proof.
  cbv zeta. split; [split; [cbn; lra|]; split; [reflexivity|]; split|].
  - repeat constructor; cbn; lra.
  - exists (mkMode 1 Ci (- Ci)%C). split; [left; reflexivity|]. cbn. split; [lra|].
    intros E. apply (f_equal snd) in E. cbn in E. lra.
  - unfold coef_b, Forcing_Model.sum_wavenumbers, dotc. cbn. lra.
Qed.
