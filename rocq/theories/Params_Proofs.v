(** Lemmas for the parameters and the extensions *)

From Coq Require Import String List Arith Bool ZArith QArith Lia Ascii.
From Verif Require Import Params_Model Params_Spec.
Import ListNotations.
Local Open Scope nat_scope.

(** ** Association lists *)
Lemma assoc_app {A} k (l1 l2 : list (string * A)) :
  assoc k (l1 ++ l2) = match assoc k l1 with Some a => Some a | None => assoc k l2 end.
Proof.
  induction l1 as [|[k' a] l1 IH]; [reflexivity|]. cbn [app assoc]. destruct (String.eqb k k'); [reflexivity|exact IH].
Qed.

Lemma assoc_missing {A B} k (l1 : list (string * A)) (l2 : list (string * B)) :
  assoc k (missing l1 l2) = if has k l1 then None else assoc k l2.
Proof.
  unfold missing. induction l2 as [|[k' b] l2 IH]; cbn [filter assoc fst]; [destruct (has k l1); reflexivity|].
  destruct (has k' l1) eqn:H; cbn [negb assoc].
  - rewrite IH. destruct (String.eqb_spec k k') as [->|N]; [|reflexivity]. rewrite H. reflexivity.
  - destruct (String.eqb_spec k k') as [->|N].
    + rewrite H. reflexivity.
    + exact IH.
Qed.

Lemma assoc_map {A B} (f : A -> B) k (l : list (string * A)) :
  assoc k (map (fun kt => (fst kt, f (snd kt))) l) = option_map f (assoc k l).
Proof.
  induction l as [|[k' a] l IH]; [reflexivity|]. cbn [map assoc fst snd].
  destruct (String.eqb k k'); [reflexivity|exact IH].
Qed.

Lemma assoc_set {A} k k' (v : A) l :
  assoc k (set_assoc k' v l) = if String.eqb k k' then (if has k' l then Some v else None) else assoc k l.
Proof.
  induction l as [|[q a] l IH]; cbn [set_assoc].
  - destruct (String.eqb k k'); reflexivity.
  - unfold has. cbn [assoc]. destruct (String.eqb_spec k' q) as [->|N].
    + cbn [assoc]. destruct (String.eqb k q); reflexivity.
    + cbn [assoc]. unfold has in IH. rewrite IH. destruct (String.eqb_spec k q) as [->|M].
      * destruct (String.eqb_spec q k') as [->|]; [contradiction|reflexivity].
      * reflexivity.
Qed.

Lemma set_assoc_same {A} k (v : A) l : assoc k l = Some v -> set_assoc k v l = l.
Proof.
  induction l as [|[q a] l IH]; cbn [assoc set_assoc]; [discriminate|].
  destruct (String.eqb k q); [intros [= ->]; reflexivity|]. intro H. rewrite IH by exact H. reflexivity.
Qed.

Lemma assoc_in {A} k (v : A) l : assoc k l = Some v -> In (k, v) l.
Proof.
  induction l as [|[q a] l IH]; cbn [assoc]; [discriminate|].
  destruct (String.eqb_spec k q) as [->|]; [intros [= ->]; left; reflexivity|]. intro H. right. apply IH, H.
Qed.

Lemma assoc_none {A} k (l : list (string * A)) : assoc k l = None -> ~ In k (map fst l).
Proof.
  induction l as [|[q a] l IH]; cbn [assoc map fst]; [intros _ []|].
  destruct (String.eqb_spec k q) as [->|N]; [discriminate|]. intros H [E|I]; [congruence|]. exact (IH H I).
Qed.

Lemma in_assoc {A} k (v : A) l : NoDup (map fst l) -> In (k, v) l -> assoc k l = Some v.
Proof.
  induction l as [|[q a] l IH]; [intros _ []|]. cbn [map fst assoc]. intros ND I. inversion ND as [|? ? N ND']; subst.
  destruct I as [E|I].
  - injection E as -> ->. rewrite String.eqb_refl. reflexivity.
  - destruct (String.eqb_spec k q) as [->|M]; [|apply IH; assumption].
    exfalso. apply N. change q with (fst (q, v)). apply in_map. exact I.
Qed.

Lemma has_true {A} k (l : list (string * A)) : has k l = true <-> exists v, assoc k l = Some v.
Proof. unfold has. destruct (assoc k l); split; intro H; try discriminate; eauto. destruct H; discriminate. Qed.

(** ** Induction on the trees *)
Lemma tree_ind' (P : tree -> Prop) :
  (forall a c, (forall k t, In (k, t) c -> P t) -> P (Node a c)) -> forall t, P t.
Proof.
  intro H. fix F 1. intros [a c]. apply H.
  induction c as [|[k t] c IH]; [intros ? ? []|].
  intros k' t' [E|I].
  - injection E as _ <-. apply F.
  - exact (IH k' t' I).
Qed.

(** ** The merge *)
Fixpoint mergec (l c : list (string * tree)) : list (string * tree) :=
  match l with
  | [] => c
  | (k, t2) :: r => mergec r (match assoc k c with Some t1 => set_assoc k (merge t1 t2) c | None => c end)
  end.

Definition with_missing (c1 c2 : list (string * tree)) : list (string * tree) :=
  c1 ++ map (fun kt => (fst kt, Node (attribs_of (snd kt)) [])) (missing c1 c2).

Lemma merge_eq p1 a2 c2 :
  merge p1 (Node a2 c2) = Node (attribs_of p1 ++ missing (attribs_of p1) a2) (mergec c2 (with_missing (children_of p1) c2)).
Proof. reflexivity. Qed.

Lemma assoc_mergec k l : NoDup (map fst l) -> forall c,
  assoc k (mergec l c) = match assoc k l, assoc k c with Some t2, Some t1 => Some (merge t1 t2) | _, o => o end.
Proof.
  induction l as [|[q t2] l IH]; intros ND c; [reflexivity|]. inversion ND as [|? ? N ND']; subst.
  cbn [mergec assoc]. rewrite IH by exact ND'. clear IH.
  destruct (String.eqb_spec k q) as [->|M].
  - destruct (assoc q l) eqn:E.
    + exfalso. apply N. apply assoc_in in E. change q with (fst (q, t)). apply in_map. exact E.
    + destruct (assoc q c) as [t1|] eqn:F; [|rewrite F; reflexivity].
      rewrite assoc_set, String.eqb_refl. unfold has. rewrite F. reflexivity.
  - assert (X : assoc k (match assoc q c with Some t1 => set_assoc q (merge t1 t2) c | None => c end) = assoc k c).
    { destruct (assoc q c); [|reflexivity]. rewrite assoc_set. destruct (String.eqb_spec k q); [contradiction|reflexivity]. }
    rewrite X. reflexivity.
Qed.

Lemma assoc_with_missing k c1 c2 :
  assoc k (with_missing c1 c2)
  = match assoc k c1 with Some t => Some t | None => option_map (fun t => Node (attribs_of t) []) (assoc k c2) end.
Proof.
  unfold with_missing. rewrite assoc_app. destruct (assoc k c1) eqn:E; [reflexivity|].
  rewrite (assoc_map (fun t => Node (attribs_of t) [])), assoc_missing. unfold has. rewrite E. reflexivity.
Qed.

(** child of a merged container *)
Lemma assoc_merge k p1 a2 c2 : NoDup (map fst c2) ->
  assoc k (children_of (merge p1 (Node a2 c2)))
  = match assoc k c2 with
    | Some t2 => Some (merge (match assoc k (children_of p1) with Some t1 => t1 | None => Node (attribs_of t2) [] end) t2)
    | None => assoc k (children_of p1)
    end.
Proof.
  intro ND. rewrite merge_eq. cbn [children_of]. rewrite assoc_mergec by exact ND. rewrite assoc_with_missing.
  destruct (assoc k c2) as [t2|]; destruct (assoc k (children_of p1)); reflexivity.
Qed.

Lemma merge_attrib key p1 p2 :
  assoc key (attribs_of (merge p1 p2))
  = match assoc key (attribs_of p1) with Some v => Some v | None => assoc key (attribs_of p2) end.
Proof.
  destruct p2 as [a2 c2]. rewrite merge_eq. cbn [attribs_of]. rewrite assoc_app.
  destruct (assoc key (attribs_of p1)) eqn:E; [reflexivity|]. rewrite assoc_missing. unfold has. rewrite E. reflexivity.
Qed.

Lemma get_merge p2 : wf p2 -> forall p1 path key,
  get path key (merge p1 p2) = match get path key p1 with Some v => Some v | None => get path key p2 end.
Proof.
  induction p2 as [a2 c2 IH] using tree_ind'. intros W p1 path key. inversion W as [a c ND Wc]; subst.
  destruct path as [|k path]; unfold get; cbn [node].
  - rewrite merge_attrib. reflexivity.
  - rewrite assoc_merge by exact ND. cbn [children_of]. destruct (assoc k c2) as [t2|] eqn:E.
    + pose proof (assoc_in _ _ _ E) as I. specialize (IH k t2 I (Wc k t2 I)).
      destruct (assoc k (children_of p1)) as [t1|].
      * exact (IH t1 path key).
      * specialize (IH (Node (attribs_of t2) []) path key). unfold get in IH. rewrite IH.
        destruct path as [|q path]; cbn [node children_of assoc attribs_of]; [|reflexivity].
        destruct (assoc key (attribs_of t2)); reflexivity.
    + destruct (assoc k (children_of p1)) as [t1|]; [|reflexivity].
      destruct (node path t1) as [n|]; [|reflexivity]. destruct (assoc key (attribs_of n)); reflexivity.
Qed.

Lemma node_merge p2 : wf p2 -> forall p1 path,
  node path (merge p1 p2) <> None <-> node path p1 <> None \/ node path p2 <> None.
Proof.
  induction p2 as [a2 c2 IH] using tree_ind'. intros W p1 path. inversion W as [a c ND Wc]; subst.
  destruct path as [|k path]; cbn [node].
  - split; [intros _; left; discriminate|discriminate].
  - rewrite assoc_merge by exact ND. cbn [children_of]. destruct (assoc k c2) as [t2|] eqn:E.
    + pose proof (assoc_in _ _ _ E) as I. specialize (IH k t2 I (Wc k t2 I)).
      destruct (assoc k (children_of p1)) as [t1|].
      * exact (IH t1 path).
      * specialize (IH (Node (attribs_of t2) []) path). rewrite IH.
        destruct path as [|q path]; cbn [node children_of assoc].
        -- split; [intros _; right; discriminate|intros _; left; discriminate].
        -- tauto.
    + destruct (assoc k (children_of p1)) as [t1|]; tauto.
Qed.

(** all the names of [p2] are in [p1] *)
Inductive sub : tree -> tree -> Prop :=
| sub_node : forall a2 c2 p1,
    (forall k v, In (k, v) a2 -> has k (attribs_of p1) = true) ->
    (forall k t2, In (k, t2) c2 -> exists t1, assoc k (children_of p1) = Some t1 /\ sub t2 t1) ->
    sub (Node a2 c2) p1.

Lemma missing_nil {A B} (l1 : list (string * A)) (l2 : list (string * B)) :
  (forall k v, In (k, v) l2 -> has k l1 = true) -> missing l1 l2 = [].
Proof.
  unfold missing. induction l2 as [|[k v] l2 IH]; intro H; [reflexivity|]. cbn [filter fst].
  rewrite (H k v (or_introl eq_refl)). cbn [negb]. apply IH. intros k' v' I. apply (H k' v'). right. exact I.
Qed.

Lemma merge_sub p2 : forall p1, sub p2 p1 -> merge p1 p2 = p1.
Proof.
  induction p2 as [a2 c2 IH] using tree_ind'. intros p1 S. inversion S as [a c q Ha Hc]; subst.
  rewrite merge_eq. rewrite missing_nil by exact Ha. rewrite app_nil_r.
  unfold with_missing. rewrite missing_nil.
  2: { intros k t I. destruct (Hc k t I) as (t1 & E & _). unfold has. rewrite E. reflexivity. }
  cbn [map]. rewrite app_nil_r.
  assert (M : forall l, (forall k t, In (k, t) l -> In (k, t) c2) -> mergec l (children_of p1) = children_of p1).
  { induction l as [|[k t2] l IHl]; intro Hl; [reflexivity|]. cbn [mergec].
    pose proof (Hl k t2 (or_introl eq_refl)) as I. destruct (Hc k t2 I) as (t1 & E & S1). rewrite E.
    rewrite (IH k t2 I t1 S1), (set_assoc_same _ _ _ E). apply IHl. intros k' t' I'. apply Hl. right. exact I'. }
  rewrite M by auto. destruct p1; reflexivity.
Qed.

Lemma sub_merge p2 : wf p2 -> forall p1, sub p2 (merge p1 p2).
Proof.
  induction p2 as [a2 c2 IH] using tree_ind'. intros W p1. inversion W as [a c ND Wc]; subst. constructor.
  - intros k v I. unfold has. rewrite merge_attrib. destruct (assoc k (attribs_of p1)); [reflexivity|].
    cbn [attribs_of]. destruct (assoc k a2) eqn:E; [reflexivity|]. apply assoc_none in E.
    exfalso. apply E. change k with (fst (k, v)). apply in_map. exact I.
  - intros k t2 I. rewrite assoc_merge by exact ND. rewrite (in_assoc _ _ _ ND I).
    eexists. split; [reflexivity|]. apply (IH k t2 I (Wc k t2 I)).
Qed.

(** ** Assignments *)
Definition path_eqb (a b : list string) : bool := if list_eq_dec string_dec a b then true else false.

Lemma assign_get path key v : forall t t', assign path key v t = Some t' -> forall path' key',
  get path' key' t' = if path_eqb path' path && String.eqb key' key then Some v else get path' key' t.
Proof.
  induction path as [|k path IH]; intros t t' H path' key'; cbn [assign] in H.
  - destruct (has key (attribs_of t)) eqn:Hk; [|discriminate]. injection H as <-.
    destruct path' as [|q path'].
    + unfold get. cbn [node attribs_of]. rewrite assoc_set, Hk. unfold path_eqb.
      destruct (list_eq_dec string_dec [] []) as [_|N]; [|contradiction]. cbn [andb]. destruct (String.eqb key' key); reflexivity.
    + unfold path_eqb. destruct (list_eq_dec string_dec (q :: path') []) as [N|_]; [discriminate|]. reflexivity.
  - destruct (assoc k (children_of t)) as [c|] eqn:E; [|discriminate].
    destruct (assign path key v c) as [c'|] eqn:A; [|discriminate]. injection H as <-.
    destruct path' as [|q path'].
    + unfold path_eqb. destruct (list_eq_dec string_dec [] (k :: path)) as [N|_]; [discriminate|]. reflexivity.
    + unfold get. cbn [node children_of]. rewrite assoc_set. destruct (String.eqb_spec q k) as [->|N].
      * unfold has. rewrite E. specialize (IH c c' A path' key'). unfold get in IH. rewrite IH.
        unfold path_eqb. destruct (list_eq_dec string_dec path' path) as [->|N];
          destruct (list_eq_dec string_dec (k :: _) (k :: path)) as [N'|N']; try congruence; reflexivity.
      * unfold path_eqb. destruct (list_eq_dec string_dec (q :: path') (k :: path)) as [N'|_]; [congruence|]. reflexivity.
Qed.

Lemma assign_some path key v : forall t, (exists t', assign path key v t = Some t') <-> get path key t <> None.
Proof.
  induction path as [|k path IH]; intro t; cbn [assign]; unfold get; cbn [node].
  - unfold has. destruct (assoc key (attribs_of t)); split.
    + discriminate.
    + eauto.
    + intros [? H]; discriminate.
    + intro H; contradiction.
  - destruct (assoc k (children_of t)) as [c|].
    + specialize (IH c). unfold get in IH. rewrite <- IH. destruct (assign path key v c); split; intros [t' H]; try discriminate; eauto.
    + split; [intros [? H]; discriminate|]. intro H; contradiction.
Qed.

Lemma try_assign_get path key v t path' key' :
  get path' key' (try_assign path key v t)
  = if path_eqb path' path && String.eqb key' key then (match get path key t with Some _ => Some v | None => None end)
    else get path' key' t.
Proof.
  unfold try_assign. destruct (assign path key v t) as [t'|] eqn:A.
  - rewrite (assign_get _ _ _ _ _ A). destruct (path_eqb path' path && String.eqb key' key); [|reflexivity].
    destruct (get path key t) eqn:G; [reflexivity|].
    assert (get path key t <> None) by (apply (assign_some path key v); eauto). contradiction.
  - destruct (path_eqb path' path && String.eqb key' key) eqn:B; [|reflexivity].
    apply andb_prop in B. destruct B as [B1 B2]. apply String.eqb_eq in B2. subst key'.
    unfold path_eqb in B1. destruct (list_eq_dec string_dec path' path) as [->|]; [|discriminate].
    destruct (get path key t) eqn:G; [|reflexivity].
    destruct (proj2 (assign_some path key v t)) as [t' X]; [rewrite G; discriminate|]. congruence.
Qed.

(** ** Classes *)
Section Classes.
Context {E : Type}.
Implicit Types (w : @world E).

Lemma lookup_app (l x : list cls) fuel : forall c,
  (forall c k, nth_error l c = Some k -> forall p, parent k = Some p -> p < c) ->
  c < List.length l -> lookup fuel (l ++ x) c = lookup fuel l c.
Proof.
  induction fuel as [|n IH]; intros c W L; [reflexivity|]. cbn [lookup].
  rewrite nth_error_app1 by exact L. destruct (nth_error l c) as [k|] eqn:N; [|reflexivity].
  destruct (own k); [reflexivity|]. destruct (parent k) as [p|] eqn:P; [|reflexivity].
  apply IH; [exact W|]. pose proof (W c k N p P). lia.
Qed.

Lemma lookup_fuel (l : list cls) : (forall c k, nth_error l c = Some k -> forall p, parent k = Some p -> p < c) ->
  forall f c f', c < f -> c < f' -> lookup f l c = lookup f' l c.
Proof.
  intros W. induction f as [|f IH]; intros c f' L L'; [lia|]. destruct f' as [|f']; [lia|]. cbn [lookup].
  destruct (nth_error l c) as [k|] eqn:N; [|reflexivity]. destruct (own k); [reflexivity|].
  destruct (parent k) as [p|] eqn:P; [|reflexivity]. pose proof (W c k N p P). apply IH; lia.
Qed.

Lemma lookup_bound w : wf_world w -> forall f c r, lookup f (classes w) c = Some r -> r < List.length (heap w).
Proof.
  intros W. induction f as [|f IH]; intros c r H; [discriminate|]. cbn [lookup] in H.
  destruct (nth_error (classes w) c) as [k|] eqn:N; [|discriminate].
  destruct (own k) as [q|] eqn:O; [injection H as <-; exact (proj2 (W c k N) q O)|].
  destruct (parent k) as [p|]; [|discriminate]. exact (IH p r H).
Qed.

Lemma nth_append_at (h : list (list E)) : forall r x q,
  nth q (append_at r x h) [] = if Nat.eqb q r then (if Nat.ltb r (List.length h) then nth r h [] ++ x else []) else nth q h [].
Proof.
  induction h as [|l h IH]; intros r x q; cbn [append_at].
  - destruct r; destruct q; cbn; try reflexivity; destruct (Nat.eqb q r); reflexivity.
  - destruct r as [|r]; destruct q as [|q]; try reflexivity.
    cbn [append_at nth]. rewrite IH. reflexivity.
Qed.

Lemma append_at_length (h : list (list E)) : forall r x, List.length (append_at r x h) = List.length h.
Proof. induction h as [|l h IH]; intros [|r] x; cbn [append_at List.length]; auto. Qed.
End Classes.

(** ** Names *)
Lemma rsplit_no_dot s : no_dot s = true -> rsplit_dot s = None.
Proof.
  induction s as [|c s IH]; [reflexivity|]. cbn [no_dot rsplit_dot]. intro H. apply andb_prop in H. destruct H as [A B].
  rewrite (IH B). apply negb_true_iff in A. rewrite A. reflexivity.
Qed.

Lemma rsplit_full_name e : no_dot (snd e) = true -> rsplit_dot (full_name e) = Some e.
Proof.
  destruct e as [m c]. cbn [snd]. unfold full_name. cbn [fst snd]. intro H.
  change (String.append "." c) with (String "."%char c). induction m as [|a m IH].
  - cbn [String.append rsplit_dot]. rewrite (rsplit_no_dot _ H). reflexivity.
  - cbn [String.append rsplit_dot]. rewrite IH. reflexivity.
Qed.
