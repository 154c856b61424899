(** C285: the value shown under the cursor of the figures of the hexahedral files. *)
From Coq Require Import List QArith Bool Lqa.
From Verif Require Import HexaMove_Model.
Import ListNotations.

(** ** Specification *)
Definition dist2 (x y : Q) (p : point) : Q := (px p - x) ^ 2 + (py p - y) ^ 2.
(** the cursor is in the smallest rectangle which contains the points of the element *)
Definition touched (x y : Q) (e : element) : Prop :=
  (exists p, In p e /\ px p <= x) /\ (exists p, In p e /\ x <= px p) /\ (exists p, In p e /\ py p <= y) /\ (exists p, In p e /\ y <= py p).
(** the points of these elements, in their order *)
Inductive touched_points (x y : Q) : list element -> list point -> Prop :=
| tp_nil : touched_points x y [] []
| tp_in e r l : touched x y e -> touched_points x y r l -> touched_points x y (e :: r) (e ++ l)
| tp_out e r l : ~ touched x y e -> touched_points x y r l -> touched_points x y (e :: r) l.
(** the first of the closest ones *)
Definition first_closest (x y : Q) (l : list point) (p : point) : Prop :=
  exists l1 l2, l = l1 ++ p :: l2 /\ (forall q, In q l1 -> dist2 x y p < dist2 x y q) /\ (forall q, In q l2 -> dist2 x y p <= dist2 x y q).

Lemma d2 x y p : distance2 x y p == dist2 x y p.
Proof. unfold distance2, dist2; ring. Qed.

Lemma arr_min_cons x y l : arr_min (x :: y :: l) = let m := arr_min (y :: l) in if Qle_bool x m then x else m.
Proof. reflexivity. Qed.
Lemma arr_max_cons x y l : arr_max (x :: y :: l) = let m := arr_max (y :: l) in if Qle_bool m x then x else m.
Proof. reflexivity. Qed.
Lemma qle_false a b : Qle_bool a b = false -> b < a.
Proof. intros H; apply Qnot_le_lt; intros K; apply Qle_bool_iff in K; congruence. Qed.

Lemma arr_min_spec l : l <> [] -> In (arr_min l) l /\ forall x, In x l -> arr_min l <= x.
Proof.
  induction l as [| a [| b l] IH]; intros N; [contradiction | |].
  - split; [left; reflexivity | intros x [<- | []]; apply Qle_refl].
  - rewrite arr_min_cons; destruct IH as [I M]; [discriminate |]; cbv zeta.
    destruct (Qle_bool a (arr_min (b :: l))) eqn:E.
    + apply Qle_bool_iff in E; split; [left; reflexivity |]; intros x [<- | J]; [apply Qle_refl | specialize (M _ J); lra].
    + apply qle_false in E; split; [right; exact I |]; intros x [<- | J]; [lra | auto].
Qed.
Lemma arr_max_spec l : l <> [] -> In (arr_max l) l /\ forall x, In x l -> x <= arr_max l.
Proof.
  induction l as [| a [| b l] IH]; intros N; [contradiction | |].
  - split; [left; reflexivity | intros x [<- | []]; apply Qle_refl].
  - rewrite arr_max_cons; destruct IH as [I M]; [discriminate |]; cbv zeta.
    destruct (Qle_bool (arr_max (b :: l)) a) eqn:E.
    + apply Qle_bool_iff in E; split; [left; reflexivity |]; intros x [<- | J]; [apply Qle_refl | specialize (M _ J); lra].
    + apply qle_false in E; split; [right; exact I |]; intros x [<- | J]; [lra | auto].
Qed.

Lemma in_lims_spec x l : l <> [] -> (in_lims x l = true <-> (exists a, In a l /\ a <= x) /\ exists a, In a l /\ x <= a).
Proof.
  intros N; destruct (arr_min_spec l N) as [I1 M1], (arr_max_spec l N) as [I2 M2]; unfold in_lims; rewrite andb_true_iff, !Qle_bool_iff; split.
  - intros [A B]; split; [exists (arr_min l) | exists (arr_max l)]; auto.
  - intros [(a & Ia & La) (b & Ib & Lb)]; specialize (M1 _ Ia); specialize (M2 _ Ib); split; lra.
Qed.

Lemma touched_spec x y e : e <> [] -> (in_lims x (map px e) && in_lims y (map py e) = true <-> touched x y e).
Proof.
  intros N.
  assert (N1 : map px e <> []) by (destruct e; [contradiction | discriminate]).
  assert (N2 : map py e <> []) by (destruct e; [contradiction | discriminate]).
  rewrite andb_true_iff, (in_lims_spec x _ N1), (in_lims_spec y _ N2); unfold touched.
  assert (G : forall (f : point -> Q) (P : Q -> Prop), (exists a, In a (map f e) /\ P a) <-> exists p, In p e /\ P (f p)).
  { intros f P; split; [intros (a & I & Pa); apply in_map_iff in I; destruct I as (p & <- & I); eauto | intros (p & I & Pp); exists (f p); split; auto; apply in_map; auto]. }
  rewrite !G with (P := fun a => a <= x), !G with (P := fun a => x <= a), !G with (P := fun a => a <= y), !G with (P := fun a => y <= a); tauto.
Qed.

Lemma first_min_spec x y e : e <> [] -> exists p, first_closest x y e p /\ first_min x y e = Some (distance2 x y p, color p).
Proof.
  induction e as [| a e IH]; intros N; [contradiction |]; destruct e as [| b e].
  - exists a; split; [| reflexivity]; exists [], []; split; auto; split; intros q [].
  - destruct IH as (p & (l1 & l2 & E & L1 & L2) & F); [discriminate |].
    change (first_min x y (a :: b :: e)) with (match first_min x y (b :: e) with Some (d, c) => if Qle_bool (distance2 x y a) d then Some (distance2 x y a, color a) else Some (d, c) | None => Some (distance2 x y a, color a) end).
    rewrite F; destruct (Qle_bool (distance2 x y a) (distance2 x y p)) eqn:C.
    + apply Qle_bool_iff in C; rewrite !d2 in C; exists a; split; [| reflexivity]; exists [], (b :: e); split; auto; split; [intros q [] |].
      intros q I; rewrite E in I; apply in_app_or in I; destruct I as [I | [<- | I]]; [specialize (L1 _ I); lra | lra | specialize (L2 _ I); lra].
    + apply qle_false in C; rewrite !d2 in C; exists p; split; [| reflexivity]; exists (a :: l1), l2; split; [rewrite E; reflexivity |]; split; auto.
      intros q [<- | I]; auto.
Qed.

Lemma sorted_hd t l : match sorted (t :: l) with [] => False | u :: _ => u = match sorted l with [] => t | v :: _ => if Qle_bool (fst t) (fst v) then t else v end end.
Proof. cbn [sorted]; destruct (sorted l) as [| v r]; cbn [insert]; auto; destruct (Qle_bool (fst t) (fst v)); auto. Qed.

Lemma main x y : forall elems, (forall e, In e elems -> e <> []) -> exists l, touched_points x y elems l /\
  match sorted (possibly_touched x y elems) with
  | [] => l = []
  | t :: _ => exists p, first_closest x y l p /\ t = (distance2 x y p, color p)
  end.
Proof.
  induction elems as [| e r IH]; intros N; [exists []; split; [constructor | reflexivity] |].
  destruct IH as (l & T & M); [intros f I; apply N; right; auto |].
  assert (Ne : e <> []) by (apply N; left; auto).
  pose proof (touched_spec x y e Ne) as Te; cbn [possibly_touched]; cbv zeta.
  destruct (in_lims x (map px e) && in_lims y (map py e)) eqn:B.
  - exists (e ++ l); split; [constructor; [apply Te; reflexivity | auto] |].
    destruct (first_min_spec x y e Ne) as (p & (l1 & l2 & E & L1 & L2) & F); rewrite F.
    pose proof (sorted_hd (distance2 x y p, color p) (possibly_touched x y r)) as Hs.
    destruct (sorted ((distance2 x y p, color p) :: possibly_touched x y r)) as [| u s]; [contradiction |].
    destruct (sorted (possibly_touched x y r)) as [| v s'].
    + exists p; split; auto; subst l; exists l1, (l2 ++ []); split; [rewrite E, <- app_assoc; reflexivity |]; split; auto.
      intros q I; rewrite app_nil_r in I; auto.
    + destruct M as (q & (m1 & m2 & Eq & M1 & M2) & ->); cbn [fst] in Hs.
      destruct (Qle_bool (distance2 x y p) (distance2 x y q)) eqn:C.
      * apply Qle_bool_iff in C; rewrite !d2 in C; exists p; split; auto; exists l1, (l2 ++ l); split; [rewrite E, <- app_assoc; reflexivity |]; split; auto.
        intros z I; apply in_app_or in I; destruct I as [I | I]; auto.
        rewrite Eq in I; apply in_app_or in I; destruct I as [I | [<- | I]]; [specialize (M1 _ I); lra | lra | specialize (M2 _ I); lra].
      * apply qle_false in C; rewrite !d2 in C; exists q; split; auto; exists (e ++ m1), m2; split; [rewrite Eq, app_assoc; reflexivity |]; split; auto.
        intros z I; apply in_app_or in I; destruct I as [I | I]; auto.
        rewrite E in I; apply in_app_or in I; destruct I as [I | [<- | I]]; [specialize (L1 _ I); lra | lra | specialize (L2 _ I); lra].
  - exists l; split; auto; apply tp_out; auto; intros K; apply Te in K; discriminate.
Qed.

(** ** The value is the one of the first of the closest points of the elements under the cursor *)
Theorem c285_value : forall x y elems, (forall e, In e elems -> e <> []) -> exists l, touched_points x y elems l
  /\ forall c, on_move x y elems = Some c <-> exists p, first_closest x y l p /\ color p = c.
Proof.
  intros x y elems N; destruct (main x y elems N) as (l & T & M); exists l; split; auto; intros c; unfold on_move.
  destruct (sorted (possibly_touched x y elems)) as [| t s].
  - subst l; split; [discriminate |]; intros (p & (l1 & l2 & E & _) & _); destruct l1; discriminate E.
  - destruct M as (p & P & ->); cbn [snd]; split; [intros K; injection K as <-; eauto |].
    intros (q & Q' & <-); f_equal; f_equal; destruct P as (l1 & l2 & E & A1 & A2), Q' as (m1 & m2 & E' & B1 & B2).
    rewrite E in E'; clear -E' A1 A2 B1 B2; revert m1 E' B1; induction l1 as [| a l1 IH]; intros [| b m1] E' B1; cbn in E'.
    + injection E' as <- _; reflexivity.
    + injection E' as <- E'; exfalso; specialize (B1 p (or_introl eq_refl)).
      assert (I : In q l2) by (rewrite E'; apply in_or_app; right; left; reflexivity); specialize (A2 _ I); lra.
    + injection E' as <- E'; exfalso; specialize (A1 a (or_introl eq_refl)).
      assert (I : In p m2) by (rewrite <- E'; apply in_or_app; right; left; reflexivity); specialize (B2 _ I); lra.
    + injection E' as <- E'; apply (IH (fun q' I => A1 q' (or_intror I)) m1 E'); intros q' I; apply B1; right; exact I.
Qed.

Lemma tp_in_touched x y elems l p : touched_points x y elems l -> (In p l <-> exists e, In e elems /\ touched x y e /\ In p e).
Proof.
  induction 1 as [| e r l T H IH | e r l T H IH].
  - split; [intros [] | intros (e & [] & _)].
  - rewrite in_app_iff, IH; split.
    + intros [I | (f & I & J)]; [exists e; split; [left; auto | auto] | exists f; split; [right; auto | auto]].
    + intros (f & [<- | I] & J & K); [left; auto | right; exists f; auto].
  - rewrite IH; split; [intros (f & I & J); exists f; split; [right; auto | auto] |].
    intros (f & [<- | I] & J & K); [contradiction | exists f; auto].
Qed.

(** no message outside of the rectangles of the elements *)
Theorem c285_none : forall x y elems, (forall e, In e elems -> e <> []) ->
  (on_move x y elems = None <-> forall e, In e elems -> ~ touched x y e).
Proof.
  intros x y elems N; destruct (main x y elems N) as (l & T & M); unfold on_move; split.
  - destruct (sorted (possibly_touched x y elems)) as [| t s]; [| discriminate]; subst l; intros _ e I K.
    destruct e as [| p e]; [apply (N _ I); reflexivity |].
    apply (proj2 (tp_in_touched x y elems [] p T)); exists (p :: e); split; auto; split; auto; left; reflexivity.
  - intros K; destruct (sorted (possibly_touched x y elems)) as [| t s]; auto; exfalso.
    destruct M as (p & (l1 & l2 & E & _) & _).
    assert (I : In p l) by (rewrite E; apply in_or_app; right; left; reflexivity).
    apply (proj1 (tp_in_touched x y elems l p T)) in I; destruct I as (e & I & J & _); exact (K e I J).
Qed.

(** it is the value of one of the closest points if one of them is in an element under the cursor *)
Theorem c285_closest_partial : forall x y elems e p, (forall e, In e elems -> e <> []) -> In e elems -> touched x y e -> In p e ->
  (forall f q, In f elems -> In q f -> dist2 x y p <= dist2 x y q) ->
  exists f q, In f elems /\ In q f /\ dist2 x y q == dist2 x y p /\ on_move x y elems = Some (color q).
Proof.
  intros x y elems e p N I Te Ip Mp; destruct (main x y elems N) as (l & T & M); unfold on_move.
  assert (Il : In p l) by (apply (tp_in_touched x y elems l p T); eauto).
  destruct (sorted (possibly_touched x y elems)) as [| t s]; [subst l; destruct Il |].
  destruct M as (q & (l1 & l2 & E & A1 & A2) & ->); cbn [snd].
  assert (Iq : In q l) by (rewrite E; apply in_or_app; right; left; reflexivity).
  apply (tp_in_touched x y elems l q T) in Iq; destruct Iq as (f & If & _ & Iq).
  exists f, q; split; auto; split; auto; split; auto.
  specialize (Mp f q If Iq); rewrite E in Il; apply in_app_or in Il; destruct Il as [Il | [-> | Il]]; [specialize (A1 _ Il); lra | reflexivity | specialize (A2 _ Il); lra].
Qed.

(** a closer point of a neighbouring element is not seen, and there is no message just outside of the extreme points *)
Theorem c285_refuted : exists elems x y p q, (forall e, In e elems -> e <> []) /\ (exists e, In e elems /\ In q e)
  /\ on_move x y elems = Some (color p) /\ ~ color p == color q
  /\ (forall e r, In e elems -> In r e -> r <> q -> dist2 x y q < dist2 x y r)
  /\ exists x' y', dist2 x' y' q < 1 # 10000 /\ on_move x' y' elems = None.
Proof.
  pose (a := mkPoint 0 0 1); pose (b := mkPoint 2 0 1); pose (c := mkPoint 0 2 1); pose (d := mkPoint 2 2 1); pose (q := mkPoint 1 (21 # 10) 2).
  exists [[a; b; c; d]; [q]], 1, (19 # 10), a, q.
  split; [intros e [<- | [<- | []]]; discriminate |]; split; [exists [q]; split; [right; left | left]; reflexivity |].
  split; [reflexivity |]; split; [discriminate |]; split.
  - intros e r [<- | [<- | []]] I N; cbn in I; repeat (destruct I as [<- | I]; [first [contradiction | reflexivity] |]); destruct I.
  - exists 1, (2101 # 1000); split; reflexivity.
Qed.

(** the hypotheses are met *)
Example ex_c285 : let e := [mkPoint 0 0 5; mkPoint 1 0 6; mkPoint 0 1 7; mkPoint 1 1 8] in
  touched (1 # 4) (3 # 4) e /\ on_move (1 # 4) (3 # 4) [e] = Some 7
  /\ forall q, In q e -> dist2 (1 # 4) (3 # 4) (mkPoint 0 1 7) <= dist2 (1 # 4) (3 # 4) q.
Proof.
  split; [| split; [reflexivity |]].
  - split; [| split; [| split]]; [exists (mkPoint 0 0 5) | exists (mkPoint 1 0 6) | exists (mkPoint 0 0 5) | exists (mkPoint 0 1 7)]; (split; [cbn; tauto | cbn; lra]).
  - intros q I; cbn in I; repeat (destruct I as [<- | I]; [unfold dist2; cbn; lra |]); destruct I.
Qed.

Print Assumptions c285_value.
Print Assumptions c285_none.
Print Assumptions c285_closest_partial.
Print Assumptions c285_refuted.
