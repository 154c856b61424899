(** * Properties of the time of the figures of hexahedral files *)

From Coq Require Import String List QArith Qabs Bool Lia Lqa Permutation.
From Verif Require Import HexaTime_Model.
Import ListNotations.
Arguments plot_hexa {content}.
Arguments times {content}.
Arguments read_hexadata_from_time {content}.

(** ** Specification: the content d of the first file of s at the time t *)
Inductive at_time {A : Type} (t : Q) (d : A) : list (Q * A) -> Prop :=
| at_here : forall u s, u == t -> at_time t d ((u, d) :: s)
| at_next : forall u e s, ~ u == t -> at_time t d s -> at_time t d ((u, e) :: s).

(** t is one of the times of s and no other one is nearer to t0 *)
Definition nearest_time {A : Type} (s : list (Q * A)) (t0 t : Q) : Prop :=
  (exists d, In (t, d) s) /\ forall u d, In (u, d) s -> Qabs (t - t0) <= Qabs (u - t0).
Definition has_time {A : Type} (s : list (Q * A)) (t : Q) : Prop := exists u d, In (u, d) s /\ u == t.

(** ** Lemmas *)

Lemma read_spec : forall A (s : list (Q * A)) t d, read_hexadata_from_time s t = inl d <-> at_time t d s.
Proof.
  intros A s t d. unfold read_hexadata_from_time. induction s as [|[u e] s IH]; simpl.
  - split; [discriminate | intros H; inversion H].
  - destruct (Qeq_bool u t) eqn:E; simpl.
    + apply Qeq_bool_iff in E. split.
      * intros H. inversion H. subst. constructor. exact E.
      * intros H. inversion H; subst; [reflexivity | contradiction].
    + assert (N : ~ u == t). { intros G. apply Qeq_bool_iff in G. congruence. }
      destruct (index (times s) t) as [i|]; simpl.
      * simpl in IH. split.
        -- intros H. constructor; [exact N | apply IH; exact H].
        -- intros H. inversion H; subst; [contradiction | apply IH; assumption].
      * split; [discriminate|]. intros H. inversion H; subst; [contradiction|].
        assert (G : inr ValueErr = inl d) by (apply IH; assumption). discriminate G.
Qed.

Lemma read_found : forall A (s : list (Q * A)) t, has_time s t -> exists d, read_hexadata_from_time s t = inl d.
Proof.
  intros A s t [u [e [Hin Hu]]]. enough (G : exists d, at_time t d s).
  { destruct G as [d G]. exists d. apply read_spec. exact G. }
  induction s as [|[v f] s IH]; [contradiction|]. destruct (Qeq_dec v t) as [E | N].
  - exists f. constructor. exact E.
  - destruct Hin as [Hin | Hin]; [inversion Hin; subst; contradiction|].
    destruct (IH Hin) as [d G]. exists d. constructor; assumption.
Qed.

Lemma at_time_has : forall A (s : list (Q * A)) t d, at_time t d s -> has_time s t.
Proof.
  intros A s t d H. induction H as [u s E | u e s N H IH].
  - exists u, d. split; [left; reflexivity | exact E].
  - destruct IH as [v [f [Hin E]]]. exists v, f. split; [right; exact Hin | exact E].
Qed.

Lemma existsb_time : forall A (s : list (Q * A)) t, existsb (Qeq_bool t) (times s) = true <-> has_time s t.
Proof.
  intros A s t. rewrite existsb_exists. unfold times. split.
  - intros [x [Hx E]]. apply in_map_iff in Hx. destruct Hx as [[u d] [E' Hin]]. simpl in E'. subst u.
    apply Qeq_bool_iff in E. exists x, d. split; [exact Hin | symmetry; exact E].
  - intros [u [d [Hin E]]]. exists u. split; [apply (in_map fst s (u, d)); exact Hin | apply Qeq_bool_iff; symmetry; exact E].
Qed.

Lemma nearest_from_spec : forall l b t, (nearest_from b l t = b \/ In (nearest_from b l t) l) /\
  Qabs (nearest_from b l t - t) <= Qabs (b - t) /\ forall x, In x l -> Qabs (nearest_from b l t - t) <= Qabs (x - t).
Proof.
  induction l as [|y l IH]; intros b t; cbn [nearest_from In].
  - split; [left; reflexivity|]. split; [lra | contradiction].
  - destruct (Qle_bool (Qabs (b - t)) (Qabs (y - t))) eqn:E; cbn [negb].
    + apply Qle_bool_iff in E. destruct (IH b t) as [I [B M]]. split; [destruct I as [I | I]; [left; exact I | right; right; exact I]|]. split; [exact B|].
      intros x [Hx | Hx]; [subst; lra | apply M; exact Hx].
    + assert (G : Qabs (y - t) <= Qabs (b - t)).
      { destruct (Qlt_le_dec (Qabs (y - t)) (Qabs (b - t))) as [L | L]; [lra|]. apply Qle_bool_iff in L. congruence. }
      destruct (IH y t) as [I [B M]]. split; [destruct I as [I | I]; [right; left; congruence | right; right; exact I]|]. split; [lra|].
      intros x [Hx | Hx]; [subst; exact B | apply M; exact Hx].
Qed.

Lemma nearest_spec : forall A (s : list (Q * A)) t0 t, nearest (times s) t0 = inl t -> nearest_time s t0 t.
Proof.
  intros A [|[u e] s] t0 t H; [discriminate|]. simpl in H. inversion H as [H']. clear H.
  fold (@times A s) in *. destruct (nearest_from_spec (times s) u t0) as [I [B M]]. split.
  - destruct I as [I | I].
    + rewrite I. exists e. left. reflexivity.
    + unfold times in I. apply in_map_iff in I. destruct I as [[v d] [E Hin]]. simpl in E. exists d. right. change (In (nearest_from u (map fst s) t0, d) s). rewrite <- E. exact Hin.
  - intros v d [Hin | Hin]; [inversion Hin; subst; exact B|]. apply M. apply (in_map fst s (v, d)). exact Hin.
Qed.

Lemma last_spec : forall A (s : list (Q * A)) f, last_time (times (s ++ [f])) = inl (fst f).
Proof.
  intros A s f. unfold times. rewrite map_app. simpl. destruct s as [|g s]; [reflexivity|]. simpl.
  f_equal. apply last_last.
Qed.

Lemma exact_has : forall A (s : list (Q * A)) t, (exists d, In (t, d) s) -> has_time s t.
Proof. intros A s t [d H]. exists t, d. split; [exact H | reflexivity]. Qed.

(** ** C290 *)

(** a figure shows the arrows and the colors at its time, which is the nearest one of the colored set *)
Theorem c290_same_time : forall A (own color : list (Q * A)) t0 t d c,
  plot_hexa own (Some color) (Some t0) = inl (t, d, c) ->
  nearest_time color t0 t /\ at_time t d own /\ at_time t c color.
Proof.
  intros A own color t0 t d c H. unfold plot_hexa in H.
  destruct (nearest (times color) t0) as [t1|e] eqn:N; [|discriminate H].
  destruct (existsb (Qeq_bool t1) (times own)); [|discriminate H]. simpl in H.
  destruct (read_hexadata_from_time own t1) as [d1|e] eqn:D; [|discriminate H].
  destruct (read_hexadata_from_time color t1) as [c1|e] eqn:C; [|discriminate H].
  inversion H; subst. split; [apply nearest_spec; exact N|]. split; apply read_spec; assumption.
Qed.

(** without prefix there is always a figure, of the nearest time *)
Theorem c290_no_prefix : forall A (own : list (Q * A)) t0, own <> [] ->
  exists t d, plot_hexa own None (Some t0) = inl (t, d, d) /\ nearest_time own t0 t /\ at_time t d own.
Proof.
  intros A own t0 Hn. unfold plot_hexa.
  destruct (nearest (times own) t0) as [t|e] eqn:N. 2:{ destruct own; [congruence | discriminate N]. }
  assert (S := nearest_spec _ _ _ _ N). assert (G := exact_has _ _ _ (proj1 S)).
  rewrite (proj2 (existsb_time _ own t) G). simpl. destruct (read_found _ own t G) as [d D]. rewrite D.
  exists t, d. split; [reflexivity|]. split; [exact S | apply read_spec; exact D].
Qed.

(** without time: the last file of the set *)
Theorem c290_last : forall A (own color : list (Q * A)) t c, has_time own t ->
  exists d c', plot_hexa own (Some (color ++ [(t, c)])) None = inl (t, d, c') /\ at_time t d own /\ at_time t c' (color ++ [(t, c)]).
Proof.
  intros A own color t c G. unfold plot_hexa. rewrite last_spec. simpl fst.
  rewrite (proj2 (existsb_time _ own t) G). cbn [negb].
  destruct (read_found _ own t G) as [d D]. rewrite D.
  assert (G' : has_time (color ++ [(t, c)]) t). { exists t, c. split; [apply in_or_app; right; left; reflexivity | reflexivity]. }
  destruct (read_found _ _ t G') as [c' C]. rewrite C.
  exists d, c'. split; [reflexivity|]. split; apply read_spec; assumption.
Qed.

(** with a prefix: a figure if each colored file has a file of the velocity at the same time *)
Theorem c290_prefix_partial : forall A (own color : list (Q * A)) t0, color <> [] ->
  (forall u d, In (u, d) color -> has_time own u) ->
  exists t d c, plot_hexa own (Some color) (Some t0) = inl (t, d, c).
Proof.
  intros A own color t0 Hn Hs. unfold plot_hexa.
  destruct (nearest (times color) t0) as [t|e] eqn:N. 2:{ destruct color; [congruence | discriminate N]. }
  assert (S := nearest_spec _ _ _ _ N). destruct S as [[f Hf] M].
  assert (G := Hs t f Hf). assert (G' : has_time color t) by (exists t, f; split; [exact Hf | reflexivity]).
  rewrite (proj2 (existsb_time _ own t) G). simpl.
  destruct (read_found _ own t G) as [d D]. destruct (read_found _ color t G') as [c C]. rewrite D, C.
  exists t, d, c. reflexivity.
Qed.

(** otherwise it is an error even if the two sets have a time in common *)
Theorem c290_prefix_error_partial : forall A (own color : list (Q * A)) t0,
  (forall t, nearest_time color t0 t -> ~ has_time own t) -> exists e, plot_hexa own (Some color) (Some t0) = inr e.
Proof.
  intros A own color t0 H. destruct (plot_hexa own (Some color) (Some t0)) as [[[t d] c]|e] eqn:E; [|exists e; reflexivity].
  destruct (c290_same_time _ _ _ _ _ _ _ E) as [N [D _]]. exfalso. apply (H t N). eapply at_time_has. exact D.
Qed.

Theorem c290_refuted : exists (own color : list (Q * nat)) (t0 t : Q),
  has_time own t /\ has_time color t /\ plot_hexa own (Some color) (Some t0) = inr ValueErr /\
  plot_hexa own (Some color) None = inr ValueErr /\ exists r, plot_hexa own (Some color) (Some t) = inl r.
Proof.
  exists [(0, 1%nat); (1, 2%nat)], [(0, 3%nat); (1 # 2, 4%nat)], (1 # 2), 0.
  split. { exists 0, 1%nat. split; [left; reflexivity | reflexivity]. }
  split. { exists 0, 3%nat. split; [left; reflexivity | reflexivity]. }
  split; [reflexivity|]. split; [reflexivity|]. eexists. reflexivity.
Qed.

(** two files at the same time: only the first one can be seen *)
Theorem c290_second_file_refuted : exists (own : list (Q * nat)) (x : nat),
  (exists t, In (t, x) own) /\ forall time t d c, plot_hexa own None time = inl (t, d, c) -> d <> x /\ c <> x.
Proof.
  exists [(1, 1%nat); (1, 2%nat)], 2%nat. split; [exists 1; right; left; reflexivity|].
  assert (R : read_hexadata_from_time [(1, 1%nat); (1, 2%nat)] 1 = inl 1%nat) by reflexivity.
  intros [t0|] t d c H; unfold plot_hexa in H.
  - destruct (nearest (times [(1, 1%nat); (1, 2%nat)]) t0) as [t1|e] eqn:N; [|discriminate H].
    destruct (nearest_spec _ _ _ _ N) as [[f Hf] _].
    assert (t1 = 1) by (destruct Hf as [Hf | [Hf | []]]; inversion Hf; reflexivity). subst t1.
    simpl in H. inversion H. split; discriminate.
  - simpl in H. inversion H. split; discriminate.
Qed.

(** the default key *)
Theorem c290_key : forall vars, 
  key_field vars None = (if in_dec string_dec "T" vars then "temperature" else if in_dec string_dec "P" vars then "pressure" else "scalar")%string /\
  forall k, key_field vars (Some k) = k.
Proof.
  assert (H : forall k l, existsb (String.eqb k) l = if in_dec string_dec k l then true else false).
  { intros k l. destruct (in_dec string_dec k l) as [I | N].
    - apply existsb_exists. exists k. split; [exact I | apply String.eqb_refl].
    - apply not_true_is_false. intros E. apply existsb_exists in E. destruct E as [x [Hx E]].
      apply String.eqb_eq in E. subst. contradiction. }
  intros vars. split; [|reflexivity]. unfold key_field. rewrite !H.
  destruct (in_dec string_dec "T"%string vars), (in_dec string_dec "P"%string vars); reflexivity.
Qed.

Example c290_example : plot_hexa [(0, 1%nat); (1, 2%nat)] (Some [(1, 5%nat)]) (Some (1 # 4)) = inl (1, 2%nat, 5%nat) /\
  has_time [(0, 1%nat); (1, 2%nat)] 1.
Proof. split; [reflexivity | exists 1, 2%nat; split; [right; left; reflexivity | reflexivity]]. Qed.

Print Assumptions c290_same_time.
Print Assumptions c290_no_prefix.
Print Assumptions c290_last.
Print Assumptions c290_prefix_partial.
Print Assumptions c290_refuted.
Print Assumptions c290_second_file_refuted.
Print Assumptions c290_key.
Print Assumptions c290_prefix_error_partial.
