(** * The information on a solver, the default parameters and the extended classes: C249, C250, C251 *)

From Coq Require Import NArith Ascii String List Bool Arith Lia Sorting.Permutation Sorting.Sorted.
From Verif Require Import Info_Model.
Import ListNotations.
Local Open Scope nat_scope.

(** ** C249: extended classes *)
Definition valid (m : memory) (s : simul_class) : Prop := match lists_at s with None => True | Some a => a < length m end.

Lemma append_at_length a l m : length (append_at a l m) = length m.
Proof. revert a. induction m as [|x m IH]; intros [|a]; cbn; try reflexivity. rewrite IH. reflexivity. Qed.

Lemma append_at_same a l m : a < length m -> nth a (append_at a l m) [] = nth a m [] ++ l.
Proof. revert a. induction m as [|x m IH]; intros [|a] H; cbn in *; try lia; [reflexivity|]. apply IH. lia. Qed.

Lemma append_at_other a b l m : a <> b -> nth b (append_at a l m) [] = nth b m [].
Proof. revert a b. induction m as [|x m IH]; intros [|a] [|b] H; cbn; try reflexivity; try lia. apply IH. lia. Qed.

(** the new class has the extenders of the given class, followed by the new ones, and the same base class *)
Theorem c249_new_class : forall m s l, valid m s ->
  let '(s', m') := extend_simul_class s l m in
  extenders_of m' s' = extenders_of m s ++ l /\ base s' = base s /\ valid m' s'.
Proof.
  intros m [b [a|]] l H; unfold extend_simul_class, extenders_of, valid in *; cbn [lists_at base] in *.
  - rewrite append_at_same, append_at_length by exact H. auto.
  - rewrite append_at_same by (rewrite app_length; cbn; lia). rewrite app_nth2 by lia. rewrite Nat.sub_diag.
    cbn [nth app]. rewrite append_at_length, app_length. cbn. split; [reflexivity|]. split; [reflexivity|lia].
Qed.

(** partial: only for a class without extender; then no other class is changed *)
Theorem c249_others_partial : forall m s t l, lists_at s = None -> valid m t ->
  extenders_of (snd (extend_simul_class s l m)) t = extenders_of m t.
Proof.
  intros m [b o] [b' [a|]] l H V; cbn in H; subst o; unfold extend_simul_class, extenders_of, valid in *; cbn [lists_at snd] in *;
    [|reflexivity].
  rewrite append_at_other by lia. apply app_nth1. exact V.
Qed.

(** a class which is extended again is itself modified, with all the other classes which were made from it *)
Theorem c249_aliased : forall m s l, valid m s -> lists_at s <> None ->
  extenders_of (snd (extend_simul_class s l m)) s = extenders_of m s ++ l
  /\ forall l', let '(s1, m1) := extend_simul_class s l m in
       let '(s2, m2) := extend_simul_class s l' m1 in
       extenders_of m2 s1 = extenders_of m s ++ l ++ l' /\ extenders_of m2 s2 = extenders_of m s ++ l ++ l'.
Proof.
  intros m [b [a|]] l H N; [|contradiction]. unfold extend_simul_class, extenders_of, valid in *; cbn [lists_at snd] in *.
  split; [apply append_at_same; exact H|]. intros l'. cbn [lists_at].
  rewrite append_at_same by (rewrite append_at_length; exact H). rewrite append_at_same by exact H. rewrite app_assoc. split; reflexivity.
Qed.

Definition ns3d : simul_class := mkSimulClass "fluidsim.solvers.ns3d" None.

(** an extension of SimulA = extend_simul_class(Simul, A) by B changes SimulA; the files of a simulation of SimulA then
    say that it was extended by B *)
Theorem c249_refuted : exists sA mA sB mB,
  extend_simul_class ns3d ["HorizontalMeans"%string] [] = (sA, mA)
  /\ extenders_of mA sA = ["HorizontalMeans"%string]
  /\ extend_simul_class sA ["KolmogorovFlow"%string] mA = (sB, mB)
  /\ extenders_of mB sA = ["HorizontalMeans"%string; "KolmogorovFlow"%string]
  /\ saved_extenders mB sA <> saved_extenders mA sA.
Proof.
  eexists _, _, _, _. split; [reflexivity|]. split; [reflexivity|]. split; [reflexivity|]. split; [reflexivity|].
  cbn. discriminate.
Qed.

(** a saved simulation is loaded with the extenders it was run with (those which can be imported, in the same order) *)
Theorem c249_loaded : forall importable m s saved, lists_at s = None ->
  let '(s', m') := extend_from_path importable s saved m in
  extenders_of m' s' = filter importable saved /\ base s' = base s
  /\ (forall t, valid m t -> extenders_of m' t = extenders_of m t).
Proof.
  intros importable m s saved H. unfold extend_from_path.
  destruct (filter importable saved) as [|x l] eqn:F.
  - split; [|split; reflexivity]. unfold extenders_of. rewrite H. reflexivity.
  - pose proof (c249_new_class m s (x :: l)) as A. pose proof (fun t => c249_others_partial m s t (x :: l) H) as B.
    destruct (extend_simul_class s (x :: l) m) as [s' m']. cbn [snd] in B.
    destruct A as (A1 & A2 & _); [unfold valid; rewrite H; exact I|].
    split; [|split; [exact A2|exact B]]. rewrite A1. unfold extenders_of. rewrite H. reflexivity.
Qed.

Example c249_ex : let '(s', m') := extend_from_path (fun e => negb (String.eqb e "mine")) ns3d ["A"; "mine"; "B"]%string [] in
  extenders_of m' s' = ["A"; "B"]%string /\ valid [] ns3d.
Proof. cbn. auto. Qed.

(** ** C250: the classes of a solver *)
Lemma find_put {A} (l : list (string * A)) k x k' : find (put l k x) k' = if String.eqb k' k then Some x else find l k'.
Proof.
  induction l as [|[k0 y] l IH]; [cbn; destruct (String.eqb k' k); reflexivity|]. cbn [put].
  destruct (String.eqb_spec k k0) as [->|N]; cbn [find].
  - destruct (String.eqb k' k0); reflexivity.
  - rewrite IH. destruct (String.eqb_spec k' k0) as [->|]; [|reflexivity].
    destruct (String.eqb_spec k0 k); [congruence|reflexivity].
Qed.

Lemma find_named l k c : (forall e, find l k = Some e -> impl e = Some c) -> find l k <> None -> NoDup (map fst l) -> find (named l) k = Some c.
Proof.
  induction l as [|[k0 e] l IH]; intros H N D; [contradiction|]. cbn in *. inversion D as [|? ? D1 D2]; subst.
  destruct (String.eqb_spec k k0) as [->|Hk].
  - rewrite (H e eq_refl). cbn. rewrite String.eqb_refl. reflexivity.
  - destruct (impl e); [cbn; destruct (String.eqb_spec k k0); [contradiction|]|]; apply IH; assumption.
Qed.

(** the classes which are imported are those of the object at the first call *)
Theorem c250_first_call_partial : forall i k c, cache i = None -> NoDup (map fst (classes i)) ->
  (exists e, find (classes i) k = Some e /\ impl e = Some c) ->
  let '(d, i') := import_classes i in
  find d k = Some c /\ classes i' = classes i /\ fst (import_classes i') = d.
Proof.
  intros i k c H D (e & E & C). unfold import_classes. rewrite H. cbn [classes cache fst].
  split; [|split; reflexivity]. apply find_named; [|rewrite E; discriminate|exact D].
  intros e' E'. rewrite E in E'. injection E' as <-. exact C.
Qed.

(** a class added by an extender in a container (Forcing, Output...) is imported if the classes of this container were
    not already imported, and the other containers are unchanged *)
Theorem c250_extender_partial : forall tag name c i e, find (classes i) tag = Some e -> sub_cache e = None ->
  exists i', add_sub_class tag name c i = Some i'
  /\ (exists d i'', import_sub_classes tag i' = Some (d, i'') /\ find d name = Some c
       /\ forall n, n <> name -> find d n = find (sub e) n)
  /\ (forall t, t <> tag -> find (classes i') t = find (classes i) t) /\ cache i' = cache i.
Proof.
  intros tag name c i e E N. unfold add_sub_class. rewrite E. eexists. split; [reflexivity|]. split; [|split].
  - unfold import_sub_classes. cbn [classes]. rewrite find_put, String.eqb_refl. cbn [sub_cache impl sub]. rewrite N.
    eexists _, _. split; [reflexivity|]. split; [rewrite find_put, String.eqb_refl; reflexivity|].
    intros n H. rewrite find_put. destruct (String.eqb_spec n name); [contradiction|reflexivity].
  - intros t H. cbn [classes]. rewrite find_put. destruct (String.eqb_spec t tag); [contradiction|reflexivity].
  - reflexivity.
Qed.

(** the models of turbulence can be added by extenders, in any number: the class TurbModel and the models are imported
    (the cache is reset) *)
Lemma put_nodup {A} (l : list (string * A)) k x : NoDup (map fst l) -> NoDup (map fst (put l k x)).
Proof.
  assert (G : forall l k' , In k' (map fst (put l k x)) -> k' = k \/ In k' (map fst l)).
  { clear. induction l as [|[k0 y] l IH]; intros k' H; cbn in *; [destruct H as [<-|[]]; auto|].
    destruct (String.eqb_spec k k0); cbn in *; subst.
    - destruct H; auto.
    - destruct H as [H|H]; [auto|]. apply IH in H. destruct H; auto. }
  induction l as [|[k0 y] l IH]; intros D; cbn in *; [constructor; [intros []|constructor]|].
  inversion D as [|? ? D1 D2]; subst. destruct (String.eqb_spec k k0); cbn; constructor; subst; auto.
  intros H. apply G in H. destruct H; [congruence|contradiction].
Qed.

Theorem c250_turb_model : forall tag c i, find (classes i) "TurbModel" = None -> NoDup (map fst (classes i)) ->
  exists i', modif_turb_model tag c i = Some i'
  /\ find (fst (import_classes i')) "TurbModel" = Some ("fluidsim.base.turb_model.base"%string, "TurbModel"%string)
  /\ (exists d i'', import_sub_classes "TurbModel" i' = Some (d, i'') /\ d = [(tag, c)]).
Proof.
  intros tag c i H D. unfold modif_turb_model, modif_infosolver_turb_model. rewrite H.
  unfold add_sub_class, set_class. cbn [classes]. rewrite find_put, String.eqb_refl. cbn [impl sub sub_cache put cache].
  eexists. split; [reflexivity|]. split.
  - unfold import_classes. cbn [cache fst classes]. apply find_named.
    + intros e. rewrite find_put, String.eqb_refl. intros E. injection E as <-. reflexivity.
    + rewrite find_put, String.eqb_refl. discriminate.
    + apply put_nodup, put_nodup, D.
  - unfold import_sub_classes. cbn [classes]. rewrite find_put, String.eqb_refl. cbn. eexists _, _. split; reflexivity.
Qed.

(** a first-level class replaced by an extender (or by the user) is ignored: the classes were imported by
    complete_with_classes and are cached, for all the modifications which do not reset the cache *)
Lemma complete_cached f root : cache root = None -> (forall c i, cache (f c i) = cache i) ->
  cache (complete_with_classes f root) = Some (named (classes root)).
Proof.
  intros H F. unfold complete_with_classes, import_classes. rewrite H.
  set (d := named (classes root)). set (i := mkInfo (classes root) (Some d)).
  assert (G : forall (l : list (string * cls)) j, cache (fold_left (fun i kc => f (snd kc) i) l j) = cache j).
  { induction l as [|x l IH]; intros j; [reflexivity|]. cbn. rewrite IH. apply F. }
  rewrite G. reflexivity.
Qed.

Theorem c250_ignored : forall f root tag c, cache root = None -> (forall c i, cache (f c i) = cache i) ->
  exists i, create_info f root [fun i => Some (set_class tag c i)] = Some i
  /\ (exists e, find (classes i) tag = Some e /\ impl e = Some c)
  /\ fst (import_classes i) = named (classes root).
Proof.
  intros f root tag c H F. eexists. split; [reflexivity|]. split.
  - exists (mkEntry (Some c) [] None). unfold set_class. cbn [classes]. rewrite find_put, String.eqb_refl. split; reflexivity.
  - unfold import_classes, set_class. cbn [cache]. rewrite complete_cached by assumption. reflexivity.
Qed.

Theorem c250_refuted : exists root tag c i,
  create_info (fun _ i => i) root [fun i => Some (set_class tag c i)] = Some i
  /\ (exists e, find (classes i) tag = Some e /\ impl e = Some c)
  /\ find (fst (import_classes i)) tag = Some ("fluidsim.solvers.ns2d.state"%string, "StateNS2D"%string)
  /\ c = ("mine"%string, "MyState"%string).
Proof.
  exists (mkInfo [("State"%string, mkEntry (Some ("fluidsim.solvers.ns2d.state"%string, "StateNS2D"%string)) [] None)] None),
    "State"%string, ("mine"%string, "MyState"%string).
  eexists. split; [reflexivity|]. split; [eexists; split; reflexivity|]. split; reflexivity.
Qed.

Example c250_ex_extender : exists e, find (classes (mkInfo [("Forcing"%string, mkEntry None [] None)] None)) "Forcing" = Some e /\ sub_cache e = None.
Proof. eexists. split; reflexivity. Qed.

Example c250_ex_first : let i := mkInfo [("Forcing"%string, mkEntry (Some ("m", "c")%string) [] None)] None in
  cache i = None /\ NoDup (map fst (classes i)) /\ find (classes i) "TurbModel" = None
  /\ (exists e, find (classes i) "Forcing" = Some e /\ impl e = Some ("m", "c")%string)
  /\ (forall (c : cls) (i : info), cache ((fun _ i => i) c i) = cache i).
Proof. cbn. split; [reflexivity|]. split; [repeat constructor; intros []|]. split; [reflexivity|]. split; [eexists; split; reflexivity|reflexivity]. Qed.

(** ** C251: the default parameters *)
Section Params.
Variable P : Type.
Variable method_of : cls -> option (method P).

(** what a class does, when nothing fails *)
Definition completes (i : info) (g : cls -> P -> P) : Prop :=
  forall c p, match method_of c with
              | None => g c p = p
              | Some (One f) => f p = Done (g c p)
              | Some (Two f) => f p i = Done (g c p)
              end.

(** each class completes the parameters exactly once, in the order of the list, whatever the arguments of its method *)
Theorem c251_once : forall i g l p, completes i g ->
  iter_complete_params P method_of l i p = Done (fold_left (fun p c => g c p) l p).
Proof.
  intros i g l. induction l as [|c l IH]; intros p H; [reflexivity|]. cbn [iter_complete_params fold_left].
  specialize (H c p) as E. destruct (method_of c) as [[f|f]|]; cbn [call1 call2].
  - rewrite E. apply IH, H.
  - rewrite E. apply IH, H.
  - rewrite E. apply IH, H.
Qed.

(** for a dictionary: in the order of the sorted keys, so that the order of insertion does not matter *)
Lemma insert_perm {A} (x : string * A) l : Permutation (insert_key x l) (x :: l).
Proof.
  induction l as [|y l IH]; [reflexivity|]. cbn. destruct (String.leb _ _); [reflexivity|].
  rewrite IH. apply perm_swap.
Qed.

Lemma sorted_perm {A} (l : list (string * A)) : Permutation (sorted_items l) l.
Proof. induction l as [|x l IH]; [reflexivity|]. cbn. rewrite insert_perm, IH. reflexivity. Qed.

Definition key_le {A} (x y : string * A) : Prop := String.leb (fst x) (fst y) = true.

Lemma leb_compare a b : String.leb a b = match String.compare a b with Gt => false | _ => true end.
Proof. reflexivity. Qed.

Lemma compare_refl_eq a b : String.compare a b = Eq -> a = b.
Proof. apply String.compare_eq_iff. Qed.

Lemma leb_total a b : String.leb a b = false -> String.leb b a = true.
Proof.
  rewrite !leb_compare, (String.compare_antisym a b). destruct (String.compare b a) eqn:E; cbn; congruence.
Qed.

Lemma ascii_compare_trans a b c : Ascii.compare a b = Lt -> Ascii.compare b c = Lt -> Ascii.compare a c = Lt.
Proof. unfold Ascii.compare. rewrite !N.compare_lt_iff. apply N.lt_trans. Qed.

Lemma compare_trans a : forall b c, String.compare a b = Lt -> String.compare b c = Lt -> String.compare a c = Lt.
Proof.
  induction a as [|x a IH]; intros [|y b] [|z c]; cbn; try congruence.
  destruct (Ascii.compare x y) eqn:E; [|intros _|congruence].
  - apply Ascii.compare_eq_iff in E. subst. destruct (Ascii.compare y z); eauto; congruence.
  - destruct (Ascii.compare y z) eqn:F; [|intros _|congruence].
    + apply Ascii.compare_eq_iff in F. subst. rewrite E. reflexivity.
    + rewrite (ascii_compare_trans x y z E F). reflexivity.
Qed.

Lemma leb_trans a b c : String.leb a b = true -> String.leb b c = true -> String.leb a c = true.
Proof.
  rewrite !leb_compare. destruct (String.compare a b) eqn:E; [|intros _|discriminate].
  - apply compare_refl_eq in E. subst. auto.
  - destruct (String.compare b c) eqn:F; [|intros _|discriminate].
    + apply compare_refl_eq in F. subst. rewrite E. auto.
    + rewrite (compare_trans a b c E F). reflexivity.
Qed.

Lemma insert_sorted {A} (x : string * A) l : StronglySorted key_le l -> StronglySorted key_le (insert_key x l).
Proof.
  induction l as [|y l IH]; intros H; [repeat constructor|]. cbn. inversion H as [|? ? H1 H2]; subst.
  destruct (String.leb (fst x) (fst y)) eqn:E.
  - constructor; [exact H|]. constructor; [exact E|].
    apply Forall_forall. intros z Hz. rewrite Forall_forall in H2. eapply leb_trans; [exact E|]. apply H2. exact Hz.
  - constructor; [apply IH, H1|]. apply Forall_forall. intros z Hz.
    apply (Permutation_in _ (insert_perm x l)) in Hz. destruct Hz as [<-|Hz].
    + apply leb_total. exact E.
    + rewrite Forall_forall in H2. apply H2. exact Hz.
Qed.

Lemma sorted_sorted {A} (l : list (string * A)) : StronglySorted key_le (sorted_items l).
Proof. induction l as [|x l IH]; [constructor|]. cbn. apply insert_sorted, IH. Qed.

Lemma leb_antisym a b : String.leb a b = true -> String.leb b a = true -> a = b.
Proof.
  rewrite !leb_compare, (String.compare_antisym a b). destruct (String.compare b a) eqn:E; cbn; try discriminate.
  intros _ _. symmetry. apply compare_refl_eq. exact E.
Qed.

Lemma sorted_unique {A} (l l' : list (string * A)) : NoDup (map fst l) -> Permutation l l' ->
  StronglySorted key_le l -> StronglySorted key_le l' -> l = l'.
Proof.
  revert l'. induction l as [|x l IH]; intros l' N H S S'.
  - apply Permutation_nil in H. congruence.
  - destruct l' as [|y l']; [apply Permutation_sym, Permutation_nil in H; discriminate|].
    inversion S as [|? ? S1 S2]; inversion S' as [|? ? S1' S2']; subst. rewrite Forall_forall in S2, S2'.
    assert (x = y).
    { assert (A1 : In y (x :: l)) by (apply (Permutation_in _ (Permutation_sym H)); left; reflexivity).
      assert (A2 : In x (y :: l')) by (apply (Permutation_in _ H); left; reflexivity).
      destruct A1 as [|A1]; [assumption|]. destruct A2 as [|A2]; [congruence|].
      pose proof (leb_antisym _ _ (S2 y A1) (S2' x A2)) as E.
      exfalso. cbn in N. inversion N as [|? ? N1 N2]; subst. apply N1. rewrite E. apply in_map. exact A1. }
    subst y. f_equal. apply IH; auto.
    + cbn in N. inversion N; assumption.
    + apply Permutation_cons_inv in H. exact H.
Qed.

Theorem c251_sorted : forall i d d' p, NoDup (map fst d) -> Permutation d d' ->
  iter_complete_params_dict P method_of d i p = iter_complete_params_dict P method_of d' i p
  /\ StronglySorted key_le (sorted_items d) /\ Permutation (sorted_items d) d.
Proof.
  intros i d d' p N H. split; [|split; [apply sorted_sorted|apply sorted_perm]].
  unfold iter_complete_params_dict. f_equal. f_equal. apply sorted_unique.
  - eapply Permutation_NoDup; [apply Permutation_map, Permutation_sym, sorted_perm|exact N].
  - rewrite !sorted_perm. exact H.
  - apply sorted_sorted.
  - apply sorted_sorted.
Qed.

(** the default parameters: the solver first, then each of its classes *)
Theorem c251_create_partial : forall i g c0 p, cache i = None -> completes (snd (import_classes i)) g ->
  create_params P method_of p (AnInfo i c0) = Params _ (Done (fold_left (fun p c => g c p) (c0 :: map snd (named (classes i))) p)).
Proof.
  intros i g c0 p H G. unfold create_params, import_classes in *. rewrite H in *. cbn [snd] in G. cbn [put app map].
  rewrite (c251_once _ g _ _ G). reflexivity.
Qed.

(** a TypeError of a method which takes one argument is always an error, and the other classes are not called *)
Theorem c251_error : forall i c l p p' f, method_of c = Some (One f) -> f p = TypeError p' ->
  iter_complete_params P method_of (c :: l) i p = TypeError p'.
Proof. intros i c l p p' f M F. cbn. rewrite M. cbn. rewrite F. reflexivity. Qed.
End Params.

(** an object with an attribute Simul is accepted, but always an error *)
Theorem c251_module_refuted : exists (default : nat),
  create_params nat (fun _ => None) 0 (AModule default) = AttributeError _
  /\ forall P method_of (empty : P) x, create_params P method_of empty (AModule x) = AttributeError _.
Proof. exists 5. split; [reflexivity|]. intros. reflexivity. Qed.

Example c251_ex : create_params (list string)
    (fun c => if String.eqb (snd c) "Solver" then Some (One (fun p => Done (p ++ ["nx"%string])))
              else if String.eqb (snd c) "Forcing" then Some (Two (fun p i => Done (p ++ ["forcing"%string]))) else None) []
    (AnInfo (mkInfo [("Forcing"%string, mkEntry (Some ("m", "Forcing")%string) [] None); ("State"%string, mkEntry (Some ("m", "State")%string) [] None)] None) ("m", "Solver")%string)
  = Params _ (Done ["nx"; "forcing"]%string).
Proof. reflexivity. Qed.

Example c251_ex_completes : completes (list string) (fun c => Some (One (fun p => Done (p ++ [snd c])))) (mkInfo [] None) (fun c p => p ++ [snd c]).
Proof. intros c p. reflexivity. Qed.

Print Assumptions c249_new_class.
Print Assumptions c249_others_partial.
Print Assumptions c249_aliased.
Print Assumptions c249_refuted.
Print Assumptions c249_loaded.
Print Assumptions c250_first_call_partial.
Print Assumptions c250_extender_partial.
Print Assumptions c250_turb_model.
Print Assumptions c250_ignored.
Print Assumptions c250_refuted.
Print Assumptions c251_once.
Print Assumptions c251_sorted.
Print Assumptions c251_create_partial.
Print Assumptions c251_error.
Print Assumptions c251_module_refuted.
