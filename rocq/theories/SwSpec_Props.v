(** * Properties of plot1d and of the linear modes of plot2d for sw1l *)

From Coq Require Import String List Reals Bool Lra Lia.
From Verif Require Import SwSpec_Model.
Import ListNotations.
Local Open Scope R_scope.

(** ** Specification *)

Fixpoint total (l : list R) : R := match l with [] => 0 | x :: r => x + total r end.
(** the point number i of a curve *)
Definition point (l : list (R * R)) (i : nat) (k v : R) : Prop := nth_error l i = Some (k, v).
Definition value (l : list R) (i : nat) (v : R) : Prop := nth_error l i = Some v.
(** the record is on n wave numbers along x and along y *)
Definition same_sizes (n : nat) (kh : list R) (r : rec1d) : Prop :=
  List.length kh = n /\ List.length (kxEK r) = n /\ List.length (kyEK r) = n /\ List.length (kxEA r) = n /\ List.length (kyEA r) = n.

(** ** Lemmas *)

Lemma map2_length : forall f a b, List.length a = List.length b -> List.length (map2 f a b) = List.length a.
Proof. induction a as [|x a IH]; intros [|y b] H; simpl in *; try congruence. rewrite IH; congruence. Qed.

Lemma map2_nth : forall f a b i x y, value a i x -> value b i y -> value (map2 f a b) i (f x y).
Proof.
  unfold value. induction a as [|u a IH]; intros [|v b] [|i] x y Ha Hb; simpl in *; try discriminate.
  - congruence.
  - apply IH; assumption.
Qed.

Lemma broadcast_same : forall f a b, List.length a = List.length b -> broadcast f a b = Some (map2 f a b).
Proof. intros f a b H. unfold broadcast. rewrite H, Nat.eqb_refl. reflexivity. Qed.

Lemma broadcast_diff : forall f a b, List.length a <> List.length b -> (2 <= List.length a)%nat -> (2 <= List.length b)%nat ->
  broadcast f a b = None.
Proof.
  intros f a b H Ha Hb. unfold broadcast. apply Nat.eqb_neq in H. rewrite H.
  destruct a as [|x [|x' a]]; simpl in Ha; try lia. destruct b as [|y [|y' b]]; simpl in Hb; try lia. reflexivity.
Qed.

Lemma coef_length : forall c kh, List.length (coef_norm c kh) = List.length kh.
Proof. intros c kh. apply map_length. Qed.

Lemma combine_nth_error : forall (a b : list R) i x y, value a i x -> value b i y -> nth_error (combine a b) i = Some (x, y).
Proof.
  unfold value. induction a as [|u a IH]; intros [|v b] [|i] x y Ha Hb; simpl in *; try discriminate.
  - congruence.
  - apply IH; assumption.
Qed.

Lemma curve_same : forall c kh y, List.length y = List.length kh ->
  curve kh (coef_norm c kh) y = Some (combine kh (map2 Rmult y (coef_norm c kh))).
Proof.
  intros c kh y H. unfold curve. rewrite broadcast_same by (rewrite coef_length; exact H). simpl. unfold line.
  rewrite map2_length by (rewrite coef_length; exact H). rewrite H, Nat.eqb_refl. reflexivity.
Qed.

Lemma curves_same : forall c n kh r, same_sizes n kh r ->
  let EK := map2 Rplus (kxEK r) (kyEK r) in let EA := map2 Rplus (kxEA r) (kyEA r) in
  let draw y := combine kh (map2 Rmult y (coef_norm c kh)) in
  curves c kh r = Some (draw (map2 Rplus EK EA), draw EK, draw EA).
Proof.
  intros c n kh r [Hk [H1 [H2 [H3 H4]]]] EK EA draw. unfold curves.
  rewrite (broadcast_same _ (kxEK r)) by congruence. simpl. rewrite (broadcast_same _ (kxEA r)) by congruence. simpl.
  assert (LK : List.length EK = n) by (unfold EK; rewrite map2_length; congruence).
  assert (LA : List.length EA = n) by (unfold EA; rewrite map2_length; congruence).
  fold EK EA. rewrite broadcast_same by congruence. simpl.
  rewrite !curve_same by (try (rewrite map2_length); congruence). reflexivity.
Qed.

Lemma total_map2 : forall a b, List.length a = List.length b -> total (map2 Rplus a b) = total a + total b.
Proof. induction a as [|x a IH]; intros [|y b] H; simpl in *; try discriminate; [lra|]. rewrite IH by congruence. lra. Qed.

Lemma coef0 : forall kh y, List.length y = List.length kh -> map2 Rmult y (coef_norm 0 kh) = y.
Proof. induction kh as [|k kh IH]; intros [|x y] H; simpl in *; try discriminate; [reflexivity|]. rewrite Rmult_1_r. f_equal. apply IH. congruence. Qed.

Lemma snd_combine : forall (a b : list R), List.length a = List.length b -> map snd (combine a b) = b.
Proof. induction a as [|x a IH]; intros [|y b] H; simpl in *; try discriminate; [reflexivity|]. f_equal. apply IH. congruence. Qed.

(** ** C291 *)

(** with as many wave numbers along x and y: the points of the three curves *)
Theorem c291_curves_partial : forall c n kh r i k a b d e, same_sizes n kh r ->
  value kh i k -> value (kxEK r) i a -> value (kyEK r) i b -> value (kxEA r) i d -> value (kyEA r) i e ->
  exists t kk aa, curves c kh r = Some (t, kk, aa) /\ List.length t = n /\ List.length kk = n /\ List.length aa = n /\
    point t i k ((a + b + d + e) * k ^ c) /\ point kk i k ((a + b) * k ^ c) /\ point aa i k ((d + e) * k ^ c).
Proof.
  intros c n kh r i k a b d e S Hk Ha Hb Hd He. do 3 eexists. split; [exact (curves_same c n kh r S)|].
  destruct S as [Lk [L1 [L2 [L3 L4]]]].
  assert (V : value (coef_norm c kh) i (k ^ c)). { unfold value, coef_norm. apply (map_nth_error (fun k => k ^ c)). exact Hk. }
  assert (LL : forall y, List.length y = n -> List.length (combine kh (map2 Rmult y (coef_norm c kh))) = n).
  { intros y Hy. rewrite combine_length, map2_length by (rewrite coef_length; congruence). rewrite Lk, Hy. apply Nat.min_id. }
  assert (LK : List.length (map2 Rplus (kxEK r) (kyEK r)) = n) by (rewrite map2_length; congruence).
  assert (LA : List.length (map2 Rplus (kxEA r) (kyEA r)) = n) by (rewrite map2_length; congruence).
  assert (LT : List.length (map2 Rplus (map2 Rplus (kxEK r) (kyEK r)) (map2 Rplus (kxEA r) (kyEA r))) = n) by (rewrite map2_length; congruence).
  split; [apply LL; exact LT|]. split; [apply LL; exact LK|]. split; [apply LL; exact LA|].
  assert (VK := map2_nth Rplus _ _ _ _ _ Ha Hb). assert (VA := map2_nth Rplus _ _ _ _ _ Hd He).
  assert (VT := map2_nth Rplus _ _ _ _ _ VK VA).
  split; [|split].
  - replace (a + b + d + e) with (a + b + (d + e)) by ring. apply combine_nth_error; [exact Hk | apply map2_nth; assumption].
  - apply combine_nth_error; [exact Hk | apply map2_nth; assumption].
  - apply combine_nth_error; [exact Hk | apply map2_nth; assumption].
Qed.

(** another number of wave numbers along y: error *)
Theorem c291_sizes_partial : forall c kh r, List.length (kxEK r) <> List.length (kyEK r) ->
  (2 <= List.length (kxEK r))%nat -> (2 <= List.length (kyEK r))%nat -> curves c kh r = None.
Proof. intros c kh r H H1 H2. unfold curves. rewrite broadcast_diff by assumption. reflexivity. Qed.

(** the sum of the curve is twice the energy *)
Theorem c291_twice_partial : forall n kh r dk EK EA, same_sizes n kh r ->
  total (kxEK r) * dk = EK -> total (kyEK r) * dk = EK -> total (kxEA r) * dk = EA -> total (kyEA r) * dk = EA ->
  exists t kk aa, curves 0 kh r = Some (t, kk, aa) /\
    total (map snd kk) * dk = 2 * EK /\ total (map snd aa) * dk = 2 * EA /\ total (map snd t) * dk = 2 * (EK + EA).
Proof.
  intros n kh r dk EK EA S HxK HyK HxA HyA. do 3 eexists. split; [exact (curves_same 0 n kh r S)|].
  destruct S as [Lk [L1 [L2 [L3 L4]]]].
  assert (LK : List.length (map2 Rplus (kxEK r) (kyEK r)) = n) by (rewrite map2_length; congruence).
  assert (LA : List.length (map2 Rplus (kxEA r) (kyEA r)) = n) by (rewrite map2_length; congruence).
  assert (LT : List.length (map2 Rplus (map2 Rplus (kxEK r) (kyEK r)) (map2 Rplus (kxEA r) (kyEA r))) = n) by (rewrite map2_length; congruence).
  rewrite !coef0 by congruence. rewrite !snd_combine by congruence. rewrite !total_map2 by congruence.
  split; [lra|]. split; lra.
Qed.

Definition rec_example : rec1d := mkRec [1; 1] [1; 1] [0; 0] [0; 0].

Theorem c291_energy_refuted : exists n kh r dk EK, same_sizes n kh r /\ total (kxEK r) * dk = EK /\ total (kyEK r) * dk = EK /\
  exists t kk aa, curves 0 kh r = Some (t, kk, aa) /\ total (map snd kk) * dk <> EK.
Proof.
  exists 2%nat, [0; 1], rec_example, 1, 2.
  assert (S : same_sizes 2 [0; 1] rec_example) by (repeat split; reflexivity).
  split; [exact S|]. split; [simpl; lra|]. split; [simpl; lra|].
  destruct (c291_twice_partial 2 [0; 1] rec_example 1 2 0 S) as [t [kk [aa [E [H _]]]]]; try (simpl; lra).
  exists t, kk, aa. split; [exact E|]. rewrite H. lra.
Qed.

Theorem c291_rectangular_refuted : exists c kh r, List.length kh = List.length (kxEK r) /\ List.length (kxEA r) = List.length (kxEK r) /\
  List.length (kyEA r) = List.length (kyEK r) /\ curves c kh r = None.
Proof. exists 3%nat, [0; 1; 2], (mkRec [1; 1; 1] [1; 1] [1; 1; 1] [1; 1]). repeat split; reflexivity. Qed.

Example c291_example : same_sizes 2 [0; 1] rec_example /\ value [0; 1] 1 1 /\ value (kxEK rec_example) 1 1 /\ value (kyEK rec_example) 1 1.
Proof. repeat split; reflexivity. Qed.

(** ** C292 *)

(** for the file of the run: the asked modes, with the saved energies *)
Theorem c292_lin : forall eg ep em keys, exists l, lin_curves (lin_saved eg ep em) keys = Some l /\
  (In "Ealin"%string keys -> exists v, In ("AGEO", "y", v)%string l /\ Rabs (v - (ep + em)) <= / 10 ^ 15) /\
  (In "Eglin"%string keys -> exists v, In ("GEO", "g", v)%string l /\ Rabs (v - eg) <= / 10 ^ 15) /\
  (forall name c v, In (name, c, v) l ->
     (name = "AGEO" /\ In "Ealin" keys)%string \/ (name = "GEO" /\ In "Eglin" keys)%string).
Proof.
  intros eg ep em keys.
  assert (M : forall x, Rabs (x + machine_zero - x) <= / 10 ^ 15).
  { intros x. replace (x + machine_zero - x) with (/ 10 ^ 15) by (unfold machine_zero; ring).
    rewrite Rabs_pos_eq; [apply Rle_refl|]. left. apply Rinv_0_lt_compat. apply pow_lt. lra. }
  assert (B : forall k, existsb (String.eqb k) keys = true <-> In k keys).
  { intros k. rewrite existsb_exists. split.
    - intros [x [H E]]. apply String.eqb_eq in E. subst. exact H.
    - intros H. exists k. split; [exact H | apply String.eqb_refl]. }
  unfold lin_curves. simpl lookup. unfold bind.
  destruct (existsb (String.eqb "Ealin") keys) eqn:EA; destruct (existsb (String.eqb "Eglin") keys) eqn:EG; cbn [app];
    eexists; (split; [reflexivity|]); (split; [|split]).
  all: try (intros H; apply B in H; congruence).
  all: try (intros _; eexists; split; [simpl; (left; reflexivity) || (right; left; reflexivity) | apply M]).
  - intros name c v [H | [H | []]]; inversion H; subst; [left | right]; split; try reflexivity; apply B; assumption.
  - intros name c v [H | []]; inversion H; subst. left. split; [reflexivity | apply B; assumption].
  - intros name c v [H | []]; inversion H; subst. right. split; [reflexivity | apply B; assumption].
  - intros name c v [].
Qed.

(** a file which contains also Edlin: the curve of Ealin is Edlin *)
Theorem c292_old_file_refuted : exists file ea, lookup file "spectrum2D_Ealin" = Some ea /\
  exists v, lin_curves file ["Ealin"%string] = Some [("AGEO", "y", v)]%string /\ v > 2 * ea + 1.
Proof.
  exists [("spectrum2D_Ealin", 1); ("spectrum2D_Edlin", 4)]%string, 1. split; [reflexivity|].
  eexists. split; [reflexivity|]. unfold machine_zero.
  assert (P : 0 < / 10 ^ 15) by (apply Rinv_0_lt_compat, pow_lt; lra). lra.
Qed.

(** the texts of the guides are at the end of the lines, for the default coefficient *)
Theorem c292_text_partial : forall s c kmax, guide s c None kmax = text s c kmax.
Proof. intros s c kmax. unfold guide, text. rewrite Rpower_plus. reflexivity. Qed.

Theorem c292_text_refuted : exists s c coef kmax, 0 < kmax /\ guide s c (Some coef) kmax <> text s c kmax.
Proof.
  exists 0, 0, (fun _ => 2), 1. split; [lra|]. unfold guide, text. rewrite Rplus_0_r, Rpower_O by lra. lra.
Qed.

Example c292_example : exists l, lin_curves (lin_saved 1 2 3) ["Etot"; "EK"; "Eglin"; "Ealin"]%string = Some l /\ List.length l = 2%nat.
Proof. eexists. split; reflexivity. Qed.

Print Assumptions c291_curves_partial.
Print Assumptions c291_sizes_partial.
Print Assumptions c291_twice_partial.
Print Assumptions c291_energy_refuted.
Print Assumptions c291_rectangular_refuted.
Print Assumptions c292_lin.
Print Assumptions c292_old_file_refuted.
Print Assumptions c292_text_partial.
Print Assumptions c292_text_refuted.
