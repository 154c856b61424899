(** * Reading of the hexadata and vectors of the figures: C268, C269 *)

From Coq Require Import List Bool PeanoNat Lia Reals Lra.
From Verif Require Import HexaRead_Model.
Import ListNotations.

(** ** C268 *)
Section C268.
Context {D : Type}.
Notation files := (@files D).
Notation cache := (@cache D).

(** what a call should return with the files [content]: the content of the file which is asked, the last one by default *)
Definition asked (path_files : list key) (path : option key) (i : option index) : option key :=
  match path, i with
  | Some _, Some _ => None
  | Some k, None => Some k
  | None, Some (Pos n) => nth_error path_files n
  | None, Some (Neg n) => nth_error (rev path_files) n
  | None, None => nth_error (rev path_files) 0
  end.
Definition expected (content : files) path_files path i : option D :=
  match asked path_files path i with Some k => content k | None => None end.

(** the entries of the cache are those of the files *)
Definition agrees (content : files) (c : cache) : Prop := forall k d, In (k, d) c -> content k = Some d.

Lemma lookup_in k (c : cache) d : lookup k c = Some d -> In (k, d) c.
Proof.
  induction c as [|(k', d') c IH]; [discriminate|]. cbn. destruct (Nat.eqb_spec k' k) as [->|_]; [intros E; injection E as ->; left; reflexivity|intros H; right; apply IH; exact H].
Qed.

Lemma lookup_none k (c : cache) : lookup k c = None -> ~ In k (map fst c).
Proof.
  induction c as [|(k', d') c IH]; [intros _ []|]. cbn. destruct (Nat.eqb_spec k' k) as [->|N]; [discriminate|]. intros H [E|I]; [exact (N E)|exact (IH H I)].
Qed.

Lemma remove_length k (c : cache) d : In (k, d) c -> (S (length (remove_key k c)) <= length c)%nat.
Proof.
  induction c as [|(k', d') c IH]; [intros []|]. intros I. unfold remove_key. cbn [filter fst]. assert (L : (length (filter (fun e : nat * D => negb (Nat.eqb (fst e) k)) c) <= length c)%nat).
  { clear. induction c as [|x c IH]; [cbn; lia|]. cbn [filter]. destruct (negb _); cbn [length]; lia. }
  destruct (Nat.eqb_spec k' k) as [->|N]; cbn [negb length]; [apply le_n_S, L|]. destruct I as [E|I]; [injection E as -> _; congruence|]. apply le_n_S. exact (IH I).
Qed.

Lemma read_right content k (c : cache) : agrees content c -> (length c <= 2)%nat ->
  fst (read_from_path content k c) = content k /\ agrees content (snd (read_from_path content k c)) /\ (length (snd (read_from_path content k c)) <= 2)%nat.
Proof.
  intros A L. unfold read_from_path. destruct (lookup k c) as [d|] eqn:E.
  - apply lookup_in in E. cbn. split; [symmetry; apply A; exact E|]. split.
    + intros k' d' [X|X]; [injection X as <- <-; apply A; exact E|]. apply filter_In in X. apply A. apply X.
    + pose proof (remove_length k c d E). cbn [length]. lia.
  - destruct (content k) as [d|] eqn:C; cbn [fst snd]; [|split; [reflexivity|split; assumption]]. split; [reflexivity|]. split; [|apply firstn_le_length].
    intros k' d' X. assert (In (k', d') ((k, d) :: c)) as [Y|Y] by (rewrite <- (firstn_skipn 2 ((k, d) :: c)); apply in_or_app; left; exact X).
    + injection Y as <- <-. exact C.
    + apply A. exact Y.
Qed.

Lemma hexa_right content pf path i (c : cache) : agrees content c -> (length c <= 2)%nat ->
  fst (read_hexadata content pf path i c) = expected content pf path i
  /\ agrees content (snd (read_hexadata content pf path i c)) /\ (length (snd (read_hexadata content pf path i c)) <= 2)%nat.
Proof.
  intros A L. unfold read_hexadata, expected, asked, get_path.
  destruct path as [p|]; destruct i as [[n|n]|]; cbn [fst snd]; try (split; [reflexivity|split; assumption]).
  - destruct (content p) as [d|] eqn:E; [rewrite <- E; apply read_right; assumption|split; [reflexivity|split; assumption]].
  - destruct (nth_error pf n) as [p|]; [|split; [reflexivity|split; assumption]].
    destruct (content p) as [d|] eqn:E; [rewrite <- E; apply read_right; assumption|split; [reflexivity|split; assumption]].
  - destruct (nth_error (rev pf) n) as [p|]; [|split; [reflexivity|split; assumption]].
    destruct (content p) as [d|] eqn:E; [rewrite <- E; apply read_right; assumption|split; [reflexivity|split; assumption]].
  - destruct (nth_error (rev pf) 0) as [p|]; [|split; [reflexivity|split; assumption]].
    destruct (content p) as [d|] eqn:E; [rewrite <- E; apply read_right; assumption|split; [reflexivity|split; assumption]].
Qed.

(** files which are not modified: each call returns the content of the file which is asked; at most two files are kept *)
Theorem c268_constant_partial : forall (content : files) pf (l : list (option key * option index)),
  fst (calls pf (map (fun x => (content, fst x, snd x)) l) []) = map (fun x => expected content pf (fst x) (snd x)) l
  /\ (length (snd (calls pf (map (fun x => (content, fst x, snd x)) l) [])) <= 2)%nat.
Proof.
  intros content pf l. assert (G : forall c, agrees content c -> (length c <= 2)%nat ->
    fst (calls pf (map (fun x => (content, fst x, snd x)) l) c) = map (fun x => expected content pf (fst x) (snd x)) l
    /\ (length (snd (calls pf (map (fun x => (content, fst x, snd x)) l) c)) <= 2)%nat).
  { induction l as [|(p, i) l IH]; intros c A L; [split; [reflexivity|exact L]|]. cbn [map calls fst snd].
    destruct (hexa_right content pf p i c A L) as (E & A' & L'). destruct (read_hexadata content pf p i c) as (d, c'). cbn [fst snd] in *. specialize (IH c' A' L').
    destruct (calls pf _ c') as (ds, c''). cbn [fst snd] in *. destruct IH as [IH1 IH2]. rewrite E, IH1. split; [reflexivity|exact IH2]. }
  apply G; [intros k d []|cbn; lia].
Qed.

(** a missing file, or a path and an index: an exception, whatever was read before *)
Theorem c268_errors : forall (content : files) pf (c : cache),
  (forall k i, fst (read_hexadata content pf (Some k) (Some i) c) = None) /\ (forall k, content k = None -> fst (read_hexadata content pf (Some k) None c) = None).
Proof. intros content pf c. split; [reflexivity|]. intros k H. cbn. rewrite H. reflexivity. Qed.
End C268.

(** a file which was modified between two calls: the old content is returned *)
Theorem c268_refuted : exists (content content' : files) pf, content' 0%nat = Some 2%nat
  /\ fst (calls pf [(content, None, None); (content', None, None)] []) = [Some 1%nat; Some 1%nat].
Proof. exists (fun _ => Some 1%nat), (fun _ => Some 2%nat), [0%nat]. split; reflexivity. Qed.

Example c268_example : fst (calls [3%nat; 4%nat; 5%nat] (map (fun x => (fun k => Some k, fst x, snd x)) [(None, None); (None, Some (Pos 0)); (Some 4%nat, None); (None, None)]) [])
  = [Some 5%nat; Some 3%nat; Some 4%nat; Some 5%nat].
Proof. reflexivity. Qed.

(** ** C269 *)
Local Open Scope R_scope.
Lemma fold_max r : forall x, (x <= fold_left Rmax r x /\ (forall y, In y r -> y <= fold_left Rmax r x) /\ (fold_left Rmax r x = x \/ In (fold_left Rmax r x) r)).
Proof.
  induction r as [|y r IH]; intros x; [split; [apply Rle_refl|split; [intros ? []|left; reflexivity]]|]. cbn [fold_left]. destruct (IH (Rmax x y)) as (A & B & C). split; [|split].
  - eapply Rle_trans; [apply Rmax_l|exact A].
  - intros z [->|I]; [eapply Rle_trans; [apply Rmax_r|exact A]|apply B; exact I].
  - destruct C as [C|C]; [|right; right; exact C]. rewrite C. unfold Rmax. destruct (Rle_dec x y); [right; left; reflexivity|left; reflexivity].
Qed.

(** [m] is the largest value of [l] *)
Definition is_max (m : R) (l : list R) : Prop := In m l /\ forall x, In x l -> x <= m.

Lemma np_max_spec l : l <> [] -> exists m, np_max l = Some m /\ is_max m l.
Proof.
  destruct l as [|x r]; [congruence|]. intros _. exists (fold_left Rmax r x). split; [reflexivity|]. destruct (fold_max r x) as (A & B & C). split.
  - destruct C as [C|C]; [left; symmetry; exact C|right; exact C].
  - intros y [<-|I]; [exact A|apply B; exact I].
Qed.

(** the length of a vector *)
Definition speed (v : R * R) : R := sqrt (Rsqr (fst v) + Rsqr (snd v)).

(** the lengths of the vectors of all the points *)
Definition all_norms (l : list elem) : list R := map speed (flat_map snd l).

Lemma norm_speed l : map norm l = map speed l.
Proof. apply map_ext. reflexivity. Qed.

Lemma vmax_spec l : (forall e, In e l -> snd e <> []) -> forall seen v, (v = None /\ seen = [] \/ exists m, v = Some m /\ is_max m seen) ->
  (fold_left update_vmax l v = None /\ seen ++ all_norms l = [] \/ exists m, fold_left update_vmax l v = Some m /\ is_max m (seen ++ all_norms l)).
Proof.
  induction l as [|e l IH]; intros H seen v V; [unfold all_norms; cbn; rewrite app_nil_r; exact V|]. unfold all_norms. cbn [flat_map fold_left]. rewrite map_app, app_assoc, <- norm_speed.
  apply (IH (fun x I => H x (or_intror I)) (seen ++ map norm (snd e))). right. destruct (np_max_spec (map norm (snd e))) as (m & E & (M1 & M2)).
  { intros Z. apply map_eq_nil in Z. apply (H e (or_introl eq_refl)). exact Z. }
  unfold update_vmax. rewrite E. destruct V as [(-> & ->)|(m' & -> & (A & B))].
  - exists m. split; [reflexivity|]. split; assumption.
  - destruct (Rlt_dec m' m) as [L|L].
    + exists m. split; [reflexivity|]. split; [apply in_or_app; right; exact M1|]. intros x I. apply in_app_or in I. destruct I as [I|I]; [apply B in I; lra|apply M2; exact I].
    + exists m'. split; [reflexivity|]. split; [apply in_or_app; left; exact A|]. intros x I. apply in_app_or in I. destruct I as [I|I]; [apply B; exact I|apply M2 in I; lra].
Qed.

(** the vectors are those of the chosen points, element by element; vmax is the largest norm over all the points of the elements *)
Theorem c269_vectors : forall l, l <> [] -> (forall e, In e l -> snd e <> [] /\ forall i, In i (fst e) -> (i < length (snd e))%nat) ->
  let (vs, vmax) := compute_vectors_quiver l in
  length vs = length (flat_map fst l)
  /\ (forall v, In v vs <-> exists e i, In e l /\ In i (fst e) /\ nth_error (snd e) i = Some v)
  /\ exists m, vmax = Some m /\ is_max m (all_norms l) /\ (forall v, In v vs -> speed v <= m).
Proof.
  intros l N H. unfold compute_vectors_quiver.
  assert (P : forall v, In v (flat_map (fun e => map (fun i => nth i (snd e) (0, 0)) (fst e)) l) <-> exists e i, In e l /\ In i (fst e) /\ nth_error (snd e) i = Some v).
  { intros v. rewrite in_flat_map. split.
    - intros (e & I & J). apply in_map_iff in J. destruct J as (i & <- & J). exists e, i. split; [exact I|]. split; [exact J|]. apply nth_error_nth'. apply (proj2 (H e I)). exact J.
    - intros (e & i & I & J & E). exists e. split; [exact I|]. apply in_map_iff. exists i. split; [apply nth_error_nth; exact E|exact J]. }
  split; [|split; [exact P|]].
  - clear. induction l as [|e l IH]; [reflexivity|]. cbn [flat_map]. rewrite !app_length, map_length, IH. reflexivity.
  - destruct (vmax_spec l (fun e I => proj1 (H e I)) [] None (or_introl (conj eq_refl eq_refl))) as [(_ & Z)|(m & E & M)].
    + exfalso. destruct l as [|e l]; [congruence|]. unfold all_norms in Z. cbn in Z. rewrite map_app in Z. apply app_eq_nil in Z. destruct Z as [Z _]. apply map_eq_nil in Z.
      exact (proj1 (H e (or_introl eq_refl)) Z).
    + exists m. split; [exact E|]. split; [exact M|]. intros v V. apply P in V. destruct V as (e & i & I & _ & X). apply M. cbn [app]. unfold all_norms. apply in_map. apply in_flat_map.
      exists e. split; [exact I|]. apply nth_error_In with i. exact X.
Qed.

Example c269_example : exists l : list elem, l <> [] /\ forall e, In e l -> snd e <> [] /\ forall i, In i (fst e) -> (i < length (snd e))%nat.
Proof.
  exists [([1%nat], [(1, 2); (3, 4)])]. split; [discriminate|]. intros e [<-|[]]. split; [discriminate|]. intros i [<-|[]]. cbn. lia.
Qed.

Print Assumptions c268_constant_partial.
Print Assumptions c268_errors.
Print Assumptions c268_refuted.
Print Assumptions c269_vectors.
