(** * State variables: vocabulary and lemmas *)

From Coq Require Import String List Bool Arith Lia.
From Verif Require Import StateVars_Model.
Import ListNotations.
Open Scope string_scope.

(** ** Vocabulary: histories *)

Section Histories.

Variable V : Type.
Variable fn : string -> list V -> V.
Variable sol : solver.

Notation st := (st V).

Inductive op :=
| Step (sp ph : key -> V)     (* a time step: new arrays, it increases *)
| Get (k : key)
| Clear
| Set_ (k : key) (v : V).     (* state[k] = v *)

Definition do (o : op) (s : st) : st :=
  match o with
  | Step a b => mkSt V a b (vars V s) (S (it V s))
  | Get k => snd (get_var V fn sol k s)
  | Clear => clear_computed V s
  | Set_ k v => match setitem V sol k v s with Some s' => s' | None => s end
  end.

Definition run (h : list op) (s : st) : st := fold_left (fun s o => do o s) h s.

(** [safe r h]: no assignment after a read without a step or a clear between them; r tells whether
    something has already been read *)
Fixpoint safe (r : bool) (h : list op) : Prop :=
  match h with
  | [] => True
  | Step _ _ :: h' => safe false h'
  | Clear :: h' => safe false h'
  | Get _ :: h' => safe true h'
  | Set_ _ _ :: h' => r = false /\ safe r h'
  end.

(** a new simulation *)
Definition new_state (a b : key -> V) : st := mkSt V a b (no_cache V) 0.

(** the value which would be obtained without any cache *)
Definition up_to_date (k : key) (s : st) : option V :=
  fst (get_var V fn sol k (clear_computed V s)).

End Histories.

(** ** Static checks on the rules of a solver *)

Fixpoint comps (e : expr) : list key :=
  match e with
  | Comp k | Getv k => [k]
  | F1 _ a => comps a
  | F2 _ a b => comps a ++ comps b
  | F3 _ a b c => comps a ++ comps b ++ comps c
  | _ => []
  end.

(** the depth of the calls: every called key has a smaller rank *)
Definition ranked (sol : solver) (rank : key -> nat) : Prop :=
  forall k e xs, rules sol k = Some (e, xs) ->
    rank k < fuel - 1 /\
    forall e', e' = e \/ In e' (map snd xs) -> forall j, In j (comps e') -> rank j < rank k.

(** no attribute error in an expression *)
Fixpoint total (sol : solver) (e : expr) : bool :=
  match e with
  | Spect k => mem k (keys_state_spect sol)
  | Phys k => mem k (keys_state_phys sol)
  | Missing => false
  | F1 _ a => total sol a
  | F2 _ a b => total sol a && total sol b
  | F3 _ a b c => total sol a && total sol b && total sol c
  | _ => true
  end.

(** when a branch records another key, it records what the branch of this key computes *)
Definition coherent (sol : solver) : Prop :=
  forall k e xs k2 e2, rules sol k = Some (e, xs) -> In (k2, e2) xs ->
    (exists xs2, rules sol k2 = Some (e2, xs2)) /\ total sol e2 = true /\
    forall j, In j (comps e2) -> In j (comps e).

Section Cache.

Variable V : Type.
Variable fn : string -> list V -> V.
Variable sol : solver.
Variable rank : key -> nat.
Hypothesis Hrank : ranked sol rank.
Hypothesis Hcoh : coherent sol.

Variable s : st V.

(** ** Values without cache *)

Fixpoint den (D : key -> option V) (e : expr) : option V :=
  match e with
  | Spect k => if mem k (keys_state_spect sol) then Some (sp V s k) else None
  | Phys k => if mem k (keys_state_phys sol) then Some (ph V s k) else None
  | Comp k => D k
  | Getv k =>
      if mem k (keys_state_spect sol) then Some (sp V s k)
      else if mem k (keys_state_phys sol) then Some (ph V s k) else D k
  | Missing => None
  | F0 f => Some (fn f [])
  | F1 f a => match den D a with Some x => Some (fn f [x]) | None => None end
  | F2 f a b =>
      match den D a with
      | Some x => match den D b with Some y => Some (fn f [x; y]) | None => None end
      | None => None
      end
  | F3 f a b c =>
      match den D a with
      | Some x =>
          match den D b with
          | Some y => match den D c with Some z => Some (fn f [x; y; z]) | None => None end
          | None => None
          end
      | None => None
      end
  end.

Fixpoint D (n : nat) (k : key) : option V :=
  match n with
  | O => None
  | S n' => match rules sol k with Some (e, _) => den (D n') e | None => None end
  end.

Lemma den_ext D1 D2 e : (forall j, In j (comps e) -> D1 j = D2 j) -> den D1 e = den D2 e.
Proof.
  induction e as [k|k|k|k| |f|f a IHa|f a IHa b IHb|f a IHa b IHb c IHc]; simpl; intros H;
    try reflexivity.
  - apply H. left. reflexivity.
  - rewrite H by (left; reflexivity). reflexivity.
  - rewrite IHa by exact H. reflexivity.
  - rewrite IHa, IHb by (intros; apply H, in_or_app; auto). reflexivity.
  - rewrite IHa, IHb, IHc; [reflexivity|..]; intros; apply H; rewrite !in_app_iff; auto.
Qed.

Lemma D_stable n : forall k m, rank k < n -> rank k < m -> D n k = D m k.
Proof.
  induction n as [|n IH]; intros k m Hn Hm; [lia|]. destruct m as [|m]; [lia|]. simpl.
  destruct (rules sol k) as [[e xs]|] eqn:R; [|reflexivity].
  apply den_ext. intros j Hj. destruct (Hrank _ _ _ R) as [_ Hr].
  specialize (Hr e (or_introl eq_refl) j Hj). apply IH; lia.
Qed.

Definition val (k : key) : option V := D (S (rank k)) k.

Lemma val_rule k e xs : rules sol k = Some (e, xs) -> val k = den val e.
Proof.
  intros R. unfold val at 1. simpl. rewrite R. apply den_ext. intros j Hj.
  destruct (Hrank _ _ _ R) as [_ Hr]. specialize (Hr e (or_introl eq_refl) j Hj).
  unfold val. apply D_stable; lia.
Qed.

(** ** A cache is valid if what it contains for the current it is up to date *)

Definition valid (c : cache V) : Prop :=
  forall k v i, c k = Some (v, i) -> i <= it V s /\ (i = it V s -> val k = Some v).

Lemma valid_no : valid (no_cache V).
Proof. intros k v i H. discriminate. Qed.

Lemma valid_store c k v : valid c -> val k = Some v -> valid (store_in V c k v (it V s)).
Proof.
  intros Hc Hv k' v' i. unfold store_in. destruct (String.eqb_spec k k') as [<-|_]; [|apply Hc].
  intros E. injection E as <- <-. split; [lia|intros _; exact Hv].
Qed.

Lemma lookup_valid c k v : valid c -> lookup V s c k = Some v -> val k = Some v.
Proof.
  intros Hc. unfold lookup. destruct (c k) as [[w i]|] eqn:E; [|discriminate].
  destruct (Nat.eqb_spec (it V s) i) as [Ei|_]; [|discriminate]. intros X. injection X as ->.
  apply (Hc k v i E). symmetry. exact Ei.
Qed.

Definition good (comp : key -> cache V -> option V * cache V) (k : key) : Prop :=
  forall c, valid c -> fst (comp k c) = val k /\ valid (snd (comp k c)).

Lemma eval_good comp e : (forall j, In j (comps e) -> good comp j) ->
  forall c, valid c -> fst (eval V fn sol s comp e c) = den val e
                    /\ valid (snd (eval V fn sol s comp e c)).
Proof.
  induction e as [k|k|k|k| |f|f a IHa|f a IHa b IHb|f a IHa b IHb d IHd]; simpl; intros H c Hc;
    try (split; [reflexivity|exact Hc]).
  - apply H; [left; reflexivity|exact Hc].
  - destruct (mem k (keys_state_spect sol)); [split; [reflexivity|exact Hc]|].
    destruct (mem k (keys_state_phys sol)); [split; [reflexivity|exact Hc]|].
    destruct (lookup V s c k) as [v|] eqn:L.
    + split; [symmetry; apply (lookup_valid c); assumption|exact Hc].
    + destruct (H k (or_introl eq_refl) c Hc) as [E Hv].
      destruct (comp k c) as [[v|] c']; simpl in *.
      * split; [exact E|]. apply valid_store; [exact Hv|]. symmetry. exact E.
      * auto.
  - destruct (IHa H c Hc) as [Ea Va]. destruct (eval V fn sol s comp a c) as [[x|] c1]; simpl in *;
      rewrite <- Ea; auto.
  - destruct (IHa (fun j Hj => H j (in_or_app _ _ _ (or_introl Hj))) c Hc) as [Ea Va].
    destruct (eval V fn sol s comp a c) as [[x|] c1]; simpl in *; rewrite <- Ea; [|auto].
    destruct (IHb (fun j Hj => H j (in_or_app _ _ _ (or_intror Hj))) c1 Va) as [Eb Vb].
    destruct (eval V fn sol s comp b c1) as [[y|] c2]; simpl in *; rewrite <- Eb; auto.
  - assert (Ha : forall j, In j (comps a) -> good comp j) by (intros; apply H; rewrite !in_app_iff; auto).
    assert (Hb : forall j, In j (comps b) -> good comp j) by (intros; apply H; rewrite !in_app_iff; auto).
    assert (Hd : forall j, In j (comps d) -> good comp j) by (intros; apply H; rewrite !in_app_iff; auto).
    destruct (IHa Ha c Hc) as [Ea Va].
    destruct (eval V fn sol s comp a c) as [[x|] c1]; simpl in *; rewrite <- Ea; [|auto].
    destruct (IHb Hb c1 Va) as [Eb Vb].
    destruct (eval V fn sol s comp b c1) as [[y|] c2]; simpl in *; rewrite <- Eb; [|auto].
    destruct (IHd Hd c2 Vb) as [Ed Vd].
    destruct (eval V fn sol s comp d c2) as [[z|] c3]; simpl in *; rewrite <- Ed; auto.
Qed.

(** a total expression has a value if the computed keys it uses have one *)
Lemma den_total D1 e : total sol e = true -> (forall j, In j (comps e) -> D1 j <> None) ->
  den D1 e <> None.
Proof.
  induction e as [k|k|k|k| |f|f a IHa|f a IHa b IHb|f a IHa b IHb d IHd]; simpl; intros T H;
    try congruence.
  - rewrite T. congruence.
  - rewrite T. congruence.
  - apply H. left. reflexivity.
  - destruct (mem k _); [congruence|]. destruct (mem k _); [congruence|]. apply H. left. reflexivity.
  - specialize (IHa T H). destruct (den D1 a); congruence.
  - apply andb_true_iff in T. destruct T as [Ta Tb].
    assert (A := IHa Ta (fun j Hj => H j (in_or_app _ _ _ (or_introl Hj)))).
    assert (B := IHb Tb (fun j Hj => H j (in_or_app _ _ _ (or_intror Hj)))).
    destruct (den D1 a); [|congruence]. destruct (den D1 b); congruence.
  - rewrite !andb_true_iff in T. destruct T as [[Ta Tb] Td].
    assert (A := IHa Ta). assert (B := IHb Tb). assert (C := IHd Td).
    assert (den D1 a <> None) by (apply A; intros; apply H; rewrite !in_app_iff; auto).
    assert (den D1 b <> None) by (apply B; intros; apply H; rewrite !in_app_iff; auto).
    assert (den D1 d <> None) by (apply C; intros; apply H; rewrite !in_app_iff; auto).
    destruct (den D1 a); [|congruence]. destruct (den D1 b); [|congruence].
    destruct (den D1 d); congruence.
Qed.

(** the computed keys used by an expression which has a value, have one (not those of get_var,
    which may be state variables) *)
Fixpoint only_comp (e : expr) : bool :=
  match e with
  | Getv _ => false
  | F1 _ a => only_comp a
  | F2 _ a b => only_comp a && only_comp b
  | F3 _ a b c => only_comp a && only_comp b && only_comp c
  | _ => true
  end.

Lemma den_some D1 e : only_comp e = true -> den D1 e <> None ->
  forall j, In j (comps e) -> D1 j <> None.
Proof.
  induction e as [k|k|k|k| |f|f a IHa|f a IHa b IHb|f a IHa b IHb d IHd]; simpl;
    intros O H j Hj; try contradiction; try discriminate.
  - destruct Hj as [<-|[]]. exact H.
  - apply IHa; auto. destruct (den D1 a); congruence.
  - apply andb_true_iff in O. destruct O as [Oa Ob]. apply in_app_or in Hj. destruct Hj as [Hj|Hj].
    + apply IHa; auto. destruct (den D1 a); congruence.
    + apply IHb; auto. destruct (den D1 a); [|congruence]. destruct (den D1 b); congruence.
  - rewrite !andb_true_iff in O. destruct O as [[Oa Ob] Od]. rewrite !in_app_iff in Hj.
    destruct (den D1 a) eqn:Ea; [|congruence]. destruct (den D1 b) eqn:Eb; [|congruence].
    destruct (den D1 d) eqn:Ed; [|congruence]. destruct Hj as [Hj|[Hj|Hj]].
    + apply IHa; auto; congruence.
    + apply IHb; auto; congruence.
    + apply IHd; auto; congruence.
Qed.

Hypothesis Honly : forall k e xs, rules sol k = Some (e, xs) -> xs <> [] -> only_comp e = true.

Lemma extras_good comp xs : forall c, valid c ->
  (forall k2 e2, In (k2, e2) xs -> val k2 = den val e2 /\ den val e2 <> None /\
     forall j, In j (comps e2) -> good comp j) ->
  fst (extras V fn sol s comp xs c) = true /\ valid (snd (extras V fn sol s comp xs c)).
Proof.
  induction xs as [|[k2 e2] xs IH]; intros c Hc H; simpl; [auto|].
  destruct (H k2 e2 (or_introl eq_refl)) as (Ev & En & Hg).
  destruct (eval_good comp e2 Hg c Hc) as [E Hv].
  destruct (eval V fn sol s comp e2 c) as [[v|] c1]; simpl in *; [|congruence].
  apply IH.
  - apply valid_store; [exact Hv|congruence].
  - intros k3 e3 Hin. apply H. right. exact Hin.
Qed.

Lemma compute_good n : forall k, rank k < n -> good (compute V fn sol s n) k.
Proof.
  induction n as [|n IH]; intros k Hk c Hc; [lia|]. simpl.
  destruct (lookup V s c k) as [v|] eqn:L.
  { split; [symmetry; apply (lookup_valid c); assumption|exact Hc]. }
  destruct (rules sol k) as [[e xs]|] eqn:R.
  - destruct (Hrank _ _ _ R) as [_ Hr].
    assert (G : forall e', e' = e \/ In e' (map snd xs) ->
       forall j, In j (comps e') -> good (compute V fn sol s n) j).
    { intros e' He' j Hj. apply IH. specialize (Hr e' He' j Hj). lia. }
    destruct (eval_good _ e (G e (or_introl eq_refl)) c Hc) as [E Hv].
    pose proof (val_rule _ _ _ R) as VR.
    destruct (eval V fn sol s (compute V fn sol s n) e c) as [[v|] c1]; simpl in *.
    + destruct (extras_good (compute V fn sol s n) xs c1 Hv) as [X Hx].
      { intros k2 e2 Hin. destruct (Hcoh _ _ _ _ _ R Hin) as ([xs2 R2] & T2 & C2).
        split; [apply (val_rule _ _ _ R2)|]. split.
        - apply den_total; [exact T2|]. intros j Hj.
          apply (den_some val e).
          + apply (Honly _ _ _ R). intros ->. destruct Hin.
          + rewrite <- E. congruence.
          + apply C2. exact Hj.
        - intros j Hj. apply (G e2); [right; apply in_map_iff; exists (k2, e2); auto|exact Hj]. }
      destruct (extras V fn sol s (compute V fn sol s n) xs c1) as [[|] c2]; simpl in *; [|discriminate].
      split; [congruence|]. apply valid_store; [exact Hx|congruence].
    + split; [congruence|exact Hv].
  - simpl. split; [|exact Hc]. unfold val. simpl. rewrite R. reflexivity.
Qed.

End Cache.
