(** * Rates of change of the spatial means: C275 *)

From Coq Require Import Ascii String List Reals Arith Lia Lra.
From Verif Require Import Rates_Model.
Import ListNotations.
Local Open Scope R_scope.

(** ** Specification *)
(** the indices of the neighbours: i - 1 and i + 1, in the list *)
Definition before (i : nat) : nat := (i - 1)%nat.
Definition next (n i : nat) : nat := if (S i <? n)%nat then S i else i.
(** the difference quotient between the neighbours of the index i *)
Definition quotient (E t : list R) (i : nat) : R :=
  (nth (next (length t) i) E 0 - nth (before i) E 0) / (nth (next (length t) i) t 0 - nth (before i) t 0).
Definition increasing (t : list R) : Prop := forall i j, (i < j < length t)%nat -> nth i t 0 < nth j t 0.

(** ** Lemmas *)
Lemma gradient_from_length : forall l, length (gradient_from l) = (length l - 1)%nat.
Proof.
  induction l as [|x [|y r] IH]; [reflexivity|reflexivity|]. destruct r as [|z r]; [reflexivity|].
  change (gradient_from (x :: y :: z :: r)) with ((z - x) / 2 :: gradient_from (y :: z :: r)).
  cbn [length] in *. rewrite IH. lia.
Qed.
Lemma gradient_from_nth : forall l i, (S i < length l)%nat ->
  nth i (gradient_from l) 0 = if (S (S i) <? length l)%nat then (nth (S (S i)) l 0 - nth i l 0) / 2 else nth (S i) l 0 - nth i l 0.
Proof.
  induction l as [|x [|y r] IH]; intros i H; [cbn in H; lia|cbn in H; lia|]. destruct r as [|z r].
  - cbn in H. assert (i = 0%nat) by lia. subst. reflexivity.
  - change (gradient_from (x :: y :: z :: r)) with ((z - x) / 2 :: gradient_from (y :: z :: r)). destruct i as [|i]; [reflexivity|].
    cbn [nth]. rewrite IH by (cbn [length] in *; lia). reflexivity.
Qed.
Lemma gradient_some l g : gradient l = Some g -> (2 <= length l)%nat /\ length g = length l.
Proof.
  intros H. destruct l as [|x [|y r]]; [discriminate|discriminate|].
  assert (E : g = (y - x) :: gradient_from (x :: y :: r)) by (unfold gradient in H; congruence). rewrite E.
  change (length ((y - x) :: gradient_from (x :: y :: r))) with (S (length (gradient_from (x :: y :: r)))).
  rewrite gradient_from_length. cbn [length]. split; lia.
Qed.
(** twice the half difference between the neighbours *)
Definition factor (n i : nat) : R := if (0 <? i)%nat then if (S i <? n)%nat then / 2 else 1 else 1.
Lemma gradient_nth l g i : gradient l = Some g -> (i < length l)%nat ->
  nth i g 0 = (nth (next (length l) i) l 0 - nth (before i) l 0) * factor (length l) i.
Proof.
  intros H Hi. destruct l as [|x [|y r]]; [discriminate|discriminate|].
  assert (E : g = (y - x) :: gradient_from (x :: y :: r)) by (unfold gradient in H; congruence). rewrite E. clear E H.
  destruct i as [|i].
  - unfold next, before, factor. cbn. ring.
  - set (l := x :: y :: r) in *. change (nth (S i) ((y - x) :: gradient_from l) 0) with (nth i (gradient_from l) 0).
    rewrite gradient_from_nth by exact Hi. unfold next, before, factor. change (0 <? S i)%nat with true. replace (S i - 1)%nat with i by lia.
    destruct (S (S i) <? length l)%nat; [field|ring].
Qed.
Lemma zip_length f : forall a b, length a = length b -> length (zip f a b) = length a.
Proof. induction a as [|x a IH]; intros [|y b] H; cbn in *; [reflexivity|lia|lia|]. rewrite IH; lia. Qed.
Lemma zip_nth f : forall a b i, length a = length b -> (i < length a)%nat -> nth i (zip f a b) 0 = f (nth i a 0) (nth i b 0).
Proof.
  induction a as [|x a IH]; intros [|y b] i H Hi; cbn in *; try lia. destruct i as [|i]; [reflexivity|]. apply IH; lia.
Qed.

Lemma all_curves_spec d dt : forall l cs, all_curves d dt l = inl cs -> Forall2 (fun k c => one_curve d dt k = inl c) l cs.
Proof.
  induction l as [|k l IH]; intros cs H; cbn [all_curves] in H; [injection H as <-; constructor|].
  destruct (one_curve d dt k) as [c|e] eqn:E; [|discriminate]. destruct (all_curves d dt l) as [r|e]; [|discriminate].
  injection H as <-. constructor; [exact E|]. apply IH. reflexivity.
Qed.

Lemma factor_pos n i : 0 < factor n i.
Proof. unfold factor. destruct (0 <? i)%nat; [|lra]. destruct (S i <? n)%nat; lra. Qed.

Lemma step_pos t i : (2 <= length t)%nat -> increasing t -> (i < length t)%nat -> 0 < nth (next (length t) i) t 0 - nth (before i) t 0.
Proof.
  intros L I H. unfold next, before.
  assert (Q : (i - 1 < (if (S i <? length t)%nat then S i else i) < length t)%nat) by (destruct (Nat.ltb_spec (S i) (length t)); lia).
  pose proof (I _ _ Q). lra.
Qed.

(** ** C275 *)
(** one curve for each key, in their order: the absolute values of the difference quotients, with their mean as label *)
Theorem c275_curves_partial : forall d k t cs, lookup d "t" = Some t -> increasing t -> plot_rates d k = inl cs ->
  map ylabel cs = iterate k
  /\ forall c, In c cs -> exists E, lookup d (ylabel c) = Some E
     /\ (length E = length t -> length (dE_dt c) = length t /\ average c = mean (dE_dt c)
         /\ forall i, (i < length t)%nat -> nth i (dE_dt c) 0 = Rabs (quotient E t i)).
Proof.
  intros d k t cs T I H. unfold plot_rates in H. rewrite T in H. destruct (gradient t) as [dt|] eqn:G; [|discriminate].
  assert (A : all_curves d dt (iterate k) = inl cs) by (destruct (iterate k); [discriminate|exact H]).
  apply all_curves_spec in A. destruct (gradient_some t dt G) as [L2 Ld]. clear H. induction A as [|key c l cs O A IH]; [split; [reflexivity|intros c []]|].
  destruct IH as [IH1 IH2]. unfold one_curve in O. destruct (lookup d key) as [E|] eqn:LE; [|discriminate].
  destruct (gradient E) as [g|] eqn:GE; [|discriminate]. injection O as <-. split; [cbn [map ylabel]; rewrite IH1; reflexivity|].
  intros c [<-|Hc]; [|apply IH2; exact Hc]. exists E. split; [exact LE|]. intros LE'. cbn [dE_dt average ylabel].
  destruct (gradient_some E g GE) as [_ Lg]. split; [|split; [reflexivity|]].
  - rewrite zip_length; congruence.
  - intros i Hi. rewrite zip_nth by congruence. rewrite (gradient_nth E g i GE), (gradient_nth t dt i G) by congruence. f_equal.
    unfold quotient. rewrite LE'. pose proof (step_pos t i L2 I Hi). pose proof (factor_pos (length t) i). field. lra.
Qed.

(** a mean which is affine in time: its slope, everywhere, and as average *)
Lemma mean_const l a : l <> [] -> (forall i, (i < length l)%nat -> nth i l 0 = a) -> mean l = a.
Proof.
  intros N H. assert (S : fold_right Rplus 0 l = INR (length l) * a).
  { clear N. induction l as [|x l IH]; [cbn; ring|]. cbn [fold_right length]. rewrite S_INR, IH.
    - pose proof (H 0%nat ltac:(cbn; lia)) as E. cbn in E. rewrite E. ring.
    - intros i Hi. apply (H (S i)). cbn. lia. }
  unfold mean. rewrite S. assert (0 < INR (length l)) by (apply lt_0_INR; destruct l; [congruence|cbn; lia]). field. lra.
Qed.
Theorem c275_affine : forall d t E key a b, lookup d "t" = Some t -> lookup d key = Some E -> increasing t -> (2 <= length t)%nat ->
  length E = length t -> (forall i, (i < length t)%nat -> nth i E 0 = a + b * nth i t 0) ->
  exists c, plot_rates d (Lst [key]) = inl [c] /\ length (dE_dt c) = length t /\ average c = Rabs b
            /\ forall i, (i < length t)%nat -> nth i (dE_dt c) 0 = Rabs b.
Proof.
  intros d t E key a b T K I L2 LE A.
  assert (P : exists c, plot_rates d (Lst [key]) = inl [c] /\ ylabel c = key).
  { unfold plot_rates. rewrite T. destruct (gradient t) as [dt|] eqn:G; [|destruct t as [|? [|? ?]]; cbn in L2; [lia|lia|discriminate]].
    cbn [iterate all_curves]. unfold one_curve. rewrite K.
    destruct (gradient E) as [g|] eqn:GE; [eauto|]. rewrite <- LE in L2. destruct E as [|? [|? ?]]; cbn in L2; [lia|lia|discriminate]. }
  destruct P as (c & P & Y). exists c. split; [exact P|].
  destruct (c275_curves_partial d (Lst [key]) t [c] T I P) as [_ C]. destruct (C c (or_introl eq_refl)) as (E' & LE' & C').
  rewrite Y, K in LE'. injection LE' as <-. destruct (C' LE) as (C1 & C2 & C3).
  assert (V : forall i, (i < length t)%nat -> nth i (dE_dt c) 0 = Rabs b).
  { intros i Hi. rewrite (C3 i Hi). f_equal. unfold quotient. pose proof (step_pos t i L2 I Hi) as SP.
    rewrite !A by (unfold next, before; destruct (Nat.ltb_spec (S i) (length t)); lia). field. lra. }
  split; [exact C1|]. split; [|exact V]. rewrite C2. apply mean_const; [intros Z; rewrite Z in C1; cbn in C1; lia|].
  intros i Hi. apply V. lia.
Qed.

(** a parabola at regular times: the derivative, except at the ends *)
Theorem c275_parabola : forall t E a b c h i, (forall j, (j < length t)%nat -> nth j t 0 = nth 0 t 0 + INR j * h) -> 0 < h ->
  (forall j, (j < length t)%nat -> nth j E 0 = a + b * nth j t 0 + c * nth j t 0 ^ 2) -> (0 < i)%nat -> (S i < length t)%nat ->
  quotient E t i = b + 2 * c * nth i t 0.
Proof.
  intros t E a b c h i T H Q P L. unfold quotient, next, before. rewrite (proj2 (Nat.ltb_lt _ _) L).
  rewrite !Q by lia. rewrite (T (S i) L), (T (i - 1)%nat) by lia. rewrite (T i) by lia. rewrite minus_INR by lia. rewrite S_INR.
  change (INR 1) with 1. field. lra.
Qed.

(** a name with more than one character is not accepted as a string, a name in a list is accepted *)
Theorem c275_refuted : exists d, (exists cs, plot_rates d (Lst ["EK"%string]) = inl cs) /\ plot_rates d (Str "EK") = inr (KeyError "K").
Proof.
  exists [("t"%string, [0; 1]); ("E"%string, [0; 2]); ("EK"%string, [0; 1])]. split; [eexists|]; reflexivity.
Qed.
(** and a string of one character is the list of this name *)
Theorem c275_one_character : forall d c, plot_rates d (Str (String c EmptyString)) = plot_rates d (Lst [String c EmptyString]).
Proof. reflexivity. Qed.

(** the plots are made exactly when there is a key, at least two times, and at least two values for each key *)
Theorem c275_success : forall d k t, lookup d "t" = Some t ->
  ((exists cs, plot_rates d k = inl cs)
   <-> (2 <= length t)%nat /\ iterate k <> [] /\ forall key, In key (iterate k) -> exists E, lookup d key = Some E /\ (2 <= length E)%nat).
Proof.
  assert (G2 : forall l, (2 <= length l)%nat -> exists g, gradient l = Some g).
  { intros [|x [|y r]] H; [cbn in H; lia|cbn in H; lia|]. eexists. reflexivity. }
  intros d k t T. unfold plot_rates. rewrite T. split.
  - intros [cs H]. destruct (gradient t) as [dt|] eqn:G; [|discriminate]. destruct (gradient_some t dt G) as [L2 _]. split; [exact L2|].
    destruct (iterate k) as [|k0 l] eqn:I; [discriminate|]. split; [discriminate|]. apply all_curves_spec in H. clear I.
    induction H as [|key c l' cs' O A IH]; [intros key []|]. intros key' [<-|Hk]; [|apply IH; exact Hk].
    unfold one_curve in O. destruct (lookup d key) as [E|]; [|discriminate]. exists E. split; [reflexivity|].
    destruct (gradient E) as [g|] eqn:GE; [|discriminate]. apply (gradient_some E g GE).
  - intros (L2 & N & A). destruct (G2 t L2) as [dt ->].
    assert (P : exists cs, all_curves d dt (iterate k) = inl cs).
    { clear N. induction (iterate k) as [|key l IH]; [eexists; reflexivity|]. cbn [all_curves].
      destruct (A key (or_introl eq_refl)) as (E & LE & L). destruct (G2 E L) as [g GE]. unfold one_curve. rewrite LE, GE.
      destruct IH as [cs ->]; [intros key' H; apply A; right; exact H|]. eexists. reflexivity. }
    destruct (iterate k); [congruence|exact P].
Qed.

Example c275_ex : increasing [0; 1; 3] /\ (2 <= length [0; 1; 3])%nat /\ lookup [("t"%string, [0; 1; 3])] "t" = Some [0; 1; 3].
Proof.
  split; [|split; [cbn; lia|reflexivity]]. intros i j H. cbn in H.
  destruct i as [|[|[|i]]], j as [|[|[|j]]]; cbn; try lia; lra.
Qed.

Print Assumptions c275_curves_partial.
Print Assumptions c275_affine.
Print Assumptions c275_parabola.
Print Assumptions c275_refuted.
Print Assumptions c275_success.
Print Assumptions c275_one_character.
