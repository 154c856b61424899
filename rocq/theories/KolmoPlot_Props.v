(** C286: the figure of the Kolmogorov law of sw1l. *)
From Coq Require Import String List QArith Bool Lia Lqa.
From Verif Require Import KolmoPlot_Model.
Import ListNotations.

(** ** Specification *)
Definition is_mean (l : list Q) (m : Q) : Prop := m * inject_Z (Z.of_nat (length l)) == fold_right Qplus 0 l.
Definition drawn (name : string) (cs : list (string * option Q)) (v : Q) : Prop := exists w, In (name, Some w) cs /\ w == v.

Lemma mean_spec l m : l <> [] -> is_mean l m -> mean l == m.
Proof.
  intros N M; unfold mean; unfold is_mean in M; rewrite <- M; field; intros Z.
  destruct l; [contradiction |]; unfold Qeq in Z; cbn in Z; lia.
Qed.
Lemma map_ne {A B} (f : A -> B) l : l <> [] -> map f l <> [].
Proof. destruct l; [contradiction | discriminate]. Qed.

(** the records which are saved *)
Definition records (l : list (Q * Q * Q)) : list saved := map (fun t => save (fst (fst t)) (snd (fst t)) (snd t)) l.

Lemma sum_kolmo l : fold_right Qplus 0 (map kolmo (records l))
  == fold_right Qplus 0 (map (fun t => fst (fst t)) l) + fold_right Qplus 0 (map (fun t => snd (fst t)) l) + fold_right Qplus 0 (map snd l).
Proof. induction l as [| t l IH]; cbn -[Qplus]; [reflexivity |]; unfold records in IH; rewrite IH; ring. Qed.

(** ** The curves: the means divided by - 4 r *)
Theorem c286_curves : forall l r deltax a b c, l <> [] -> 0 < r ->
  is_mean (map (fun t => fst (fst t)) l) a -> is_mean (map (fun t => snd (fst t)) l) b -> is_mean (map snd l) c ->
  let cs := curves (records l) r deltax in
  drawn "k" cs (- (a + b + c) / (4 * r)) /\ drawn "y" cs (- (a + b + c) / (4 * r)) /\ drawn "r" cs (- (a + b) / (4 * r))
  /\ drawn "b" cs (- c / (4 * r)) /\ drawn "r--" cs (- a / (4 * r)) /\ drawn "r-." cs (- b / (4 * r)) /\ drawn "k:" cs 1.
Proof.
  intros l r deltax a b c N R A B C cs.
  assert (Ea : average uL2JL (records l) == a).
  { unfold average, records; rewrite map_map; apply mean_spec; [apply map_ne; auto | exact A]. }
  assert (Eb : average uT2JL (records l) == b).
  { unfold average, records; rewrite map_map; apply mean_spec; [apply map_ne; auto | exact B]. }
  assert (Ec : average c2h2uL (records l) == c).
  { unfold average, records; rewrite map_map; apply mean_spec; [apply map_ne; auto | exact C]. }
  assert (Ek : average kolmo (records l) == a + b + c).
  { unfold average; apply mean_spec; [apply map_ne; unfold records; apply map_ne; auto |].
    unfold is_mean; rewrite sum_kolmo; unfold is_mean in A, B, C; rewrite <- A, <- B, <- C; unfold records; rewrite !map_length; ring. }
  assert (Nr : ~ r == 0) by lra.
  unfold cs, curves; cbv zeta; unfold drawn, theo.
  repeat split; eexists; (split; [cbn [In]; eauto 12 |]); try reflexivity; rewrite ?Ea, ?Eb, ?Ec, ?Ek; field; auto.
Qed.

(** where the law holds with the rate eps, the black curve is this rate (and not 1) *)
Theorem c286_law_partial : forall l r deltax a b c eps, l <> [] -> 0 < r ->
  is_mean (map (fun t => fst (fst t)) l) a -> is_mean (map (fun t => snd (fst t)) l) b -> is_mean (map snd l) c ->
  a + b + c == - (4) * eps * r -> drawn "k" (curves (records l) r deltax) eps.
Proof.
  intros l r deltax a b c eps N R A B C E; destruct (c286_curves l r deltax a b c N R A B C) as ((w & I & W) & _).
  exists w; split; auto; rewrite W, E; field; lra.
Qed.

(** the ratio of the lower axes *)
Theorem c286_ratio : forall l a b, l <> [] -> is_mean (map (fun t => fst (fst t)) l) a -> is_mean (map (fun t => snd (fst t)) l) b ->
  ~ b == 0 -> ratio (records l) * b == a.
Proof.
  intros l a b N A B Z; unfold ratio.
  assert (Ea : average uL2JL (records l) == a).
  { unfold average, records; rewrite map_map; apply mean_spec; [apply map_ne; auto | exact A]. }
  assert (Eb : average uT2JL (records l) == b).
  { unfold average, records; rewrite map_map; apply mean_spec; [apply map_ne; auto | exact B]. }
  rewrite Ea, Eb; field; auto.
Qed.
(** it does not depend on the units: the unit of the products of increments is u *)
Theorem c286_ratio_units : forall l a b u, l <> [] -> 0 < u ->
  is_mean (map (fun t => fst (fst t)) l) a -> is_mean (map (fun t => snd (fst t)) l) b -> ~ b == 0 ->
  ratio (records (map (fun t => (u * fst (fst t), u * snd (fst t), u * snd t)) l)) == ratio (records l).
Proof.
  intros l a b u N U A B Z.
  assert (G : forall (f : Q * Q * Q -> Q) m, is_mean (map f l) m -> is_mean (map (fun t => u * f t) l) (u * m)).
  { intros f m M; unfold is_mean in *; rewrite !map_length in *; rewrite <- Qmult_assoc, M; clear; induction l as [| t l IH]; cbn -[Qmult Qplus]; [ring | rewrite <- IH; ring]. }
  assert (Zu : ~ u * b == 0) by (intros K; apply Qmult_integral in K; destruct K; [lra | contradiction]).
  pose proof (c286_ratio l a b N A B Z) as R1.
  assert (R2 : ratio (records (map (fun t => (u * fst (fst t), u * snd (fst t), u * snd t)) l)) * (u * b) == u * a).
  { apply c286_ratio; auto; [apply map_ne; auto | |]; rewrite map_map; cbn [fst snd]; [apply (G (fun t => fst (fst t))) | apply (G (fun t => snd (fst t)))]; auto. }
  assert (E : ratio (records (map (fun t => (u * fst (fst t), u * snd (fst t), u * snd t)) l)) == (u * a) / (u * b)) by (rewrite <- R2; field; split; [auto | lra]).
  assert (E' : ratio (records l) == a / b) by (rewrite <- R1; field; auto).
  rewrite E, E'; field; split; auto; lra.
Qed.

(** the curve of the cube of r is drawn only for the small separations, with negative values: it is out of the limits *)
Theorem c286_cubic : forall l r deltax, 0 < r ->
  (r < 6 * deltax -> drawn "k cubic" (curves l r deltax) (- (r * r) / 4)) /\ (6 * deltax <= r -> forall v, ~ drawn "k cubic" (curves l r deltax) v).
Proof.
  intros l r deltax R; unfold curves; cbv zeta; destruct (Qle_bool (6 * deltax) r) eqn:E; cbn [negb].
  - apply Qle_bool_iff in E; split; [intros K; lra |]; intros _ v (w & I & _); cbn [In] in I; repeat (destruct I as [I | I]; [discriminate I |]); destruct I.
  - split; [| intros K; apply Qle_bool_iff in K; congruence]; intros _; eexists; split; [cbn [In]; eauto 12 |]; unfold theo; field; lra.
Qed.

(** REFUTED: the figure is the same for another unit of length or time; the black curve is 1 where the law holds; the
    curve of the cube is visible; the label of the lower axes *)
Theorem c286_refuted :
  (exists l r deltax eps, 0 < r /\ l <> [] /\ 0 < eps
     /\ (forall t, In t l -> fst (fst t) + snd (fst t) + snd t == - (4) * eps * r) /\ ~ drawn "k" (curves (records l) r deltax) 1)
  /\ (exists l r deltax u v, 0 < u /\ 0 < v /\ drawn "k" (curves (records l) r deltax) 1
      /\ ~ drawn "k" (curves (records (map (fun t => (u * fst (fst t), u * snd (fst t), u * snd t)) l)) (v * r) (v * deltax)) 1)
  /\ (forall l r deltax v, 0 < r -> drawn "k cubic" (curves l r deltax) v -> v < fst ylim)
  /\ ylabel2 = "ratio S_ux3/S_uT2uL"%string.
Proof.
  assert (One : forall l r deltax v w, 0 < r -> drawn "k" (curves l r deltax) v -> average kolmo l / theo r == w -> w == v).
  { intros l r deltax v w R (x & I & X) W; unfold curves in I; cbv zeta in I; cbn [In] in I.
    destruct I as [I | I]; [injection I as I; rewrite <- X, <- I, W; reflexivity |].
    repeat (destruct I as [I | I]; [discriminate I |]); destruct I. }
  split; [| split; [| split]].
  - exists [(- (8), 0, 0)], 1, 1, 2; split; [lra |]; split; [discriminate |]; split; [lra |]; split.
    + intros t [<- | []]; cbn [fst snd]; lra.
    + intros D; apply (One _ _ _ _ 2) in D; [lra | lra | reflexivity].
  - exists [(- (4), 0, 0)], 1, 1, 1, 2; split; [lra |]; split; [lra |]; split.
    + eexists; split; [left; reflexivity | reflexivity].
    + intros D; apply (One _ _ _ _ (1 # 2)) in D; [lra | lra | reflexivity].
  - intros l r deltax v R D; destruct (Qlt_le_dec r (6 * deltax)) as [K | K].
    + destruct D as (w & I & W); unfold curves in I; cbv zeta in I; cbn [In] in I.
      repeat (destruct I as [I | I]; [try discriminate I |]); [| destruct I].
      destruct (negb (Qle_bool (6 * deltax) r)); [| discriminate I]; injection I as I.
      assert (E : w == - (r * r) / 4) by (rewrite <- I; unfold theo; field; lra).
      rewrite <- W, E; change (fst ylim) with (5 # 100); assert (P : 0 <= r * r) by (apply Qmult_le_0_compat; lra); assert (F : - (r * r) / 4 == - (1 # 4) * (r * r)) by field; rewrite F; lra.
    + exfalso; exact (proj2 (c286_cubic l r deltax R) K v D).
  - reflexivity.
Qed.

(** the hypotheses are met *)
Example ex_c286 : let l := [(- (4), - (2), 0); (- (8), 0, - (2))] in
  is_mean (map (fun t => fst (fst t)) l) (- (6)) /\ is_mean (map (fun t => snd (fst t)) l) (- (1)) /\ is_mean (map snd l) (- (1))
  /\ - (6) + - (1) + - (1) == - (4) * 2 * 1.
Proof. repeat (split; [reflexivity |]); reflexivity. Qed.

Print Assumptions c286_curves.
Print Assumptions c286_law_partial.
Print Assumptions c286_ratio.
Print Assumptions c286_ratio_units.
Print Assumptions c286_cubic.
Print Assumptions c286_refuted.
