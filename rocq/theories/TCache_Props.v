(** C142: the saved periodograms are those asked for. *)
From Coq Require Import String Ascii QArith List Bool Lia ZArith.
From Verif Require Import TCache_Model.
Import ListNotations.
Local Open Scope string_scope.

(** ** Specification *)

Fixpoint has_char (c : ascii) (s : string) : bool :=
  match s with EmptyString => false | String c' s' => Ascii.eqb c c' || has_char c s' end.

(** formatting and parsing of the floats *)
Definition formats (str_float : Q -> string) (float_str : string -> option Q) : Prop :=
  (forall x, exists y, float_str (str_float x) = Some y /\ x == y)
  /\ (forall x y, x == y -> str_float x = str_float y)
  /\ (forall x, has_char "_"%char (str_float x) = false)
  /\ float_str "temporal" = None.

Definition word (d : string) : Prop :=
  has_char "_"%char d = false /\ has_char "*"%char d = false /\ d <> "urud".

(** dtype: not given or a word like complex64 *)
Definition good_dtype (dt : option string) : Prop := match dt with None => True | Some d => word d end.

Definition same_call (c c' : call) : Prop :=
  let '(a, b, dt, ur) := c in let '(a', b', dt', ur') := c' in a == a' /\ b == b' /\ dt = dt' /\ ur = ur'.

(** what the calls of save_spectra_kzkhomega leave on the disk, starting from nothing *)
Inductive saved (str_float : Q -> string) (float_str : string -> option Q) (P : call -> Prop) : disk -> Prop :=
| saved_nothing : saved str_float float_str P []
| saved_one d c d' : saved str_float float_str P d -> P c -> save_spectra str_float float_str d c = Some d' ->
    saved str_float float_str P d'.

Lemma some_inj {A} (a b : A) : Some a = Some b -> a = b.
Proof. congruence. Qed.

(** ** Strings *)

Lemma append_assoc' (a b c : string) : (a ++ b) ++ c = a ++ b ++ c.
Proof. induction a as [|x a IH]; [reflexivity|]. cbn. now rewrite IH. Qed.

Lemma append_nil (a : string) : a ++ "" = a.
Proof. induction a as [|x a IH]; [reflexivity|]. cbn. now rewrite IH. Qed.

Lemma length_append' (a b : string) : String.length (a ++ b) = (String.length a + String.length b)%nat.
Proof. induction a as [|x a IH]; [reflexivity|]. cbn. now rewrite IH. Qed.

Lemma append_cancel_r (a b c : string) : a ++ c = b ++ c -> a = b.
Proof.
  revert b. induction a as [|x a IH]; intros [|y b] E; [reflexivity| | |].
  - exfalso. apply (f_equal String.length) in E. cbn in E. rewrite length_append' in E. lia.
  - exfalso. apply (f_equal String.length) in E. cbn in E. rewrite length_append' in E. lia.
  - cbn in E. injection E as -> E. f_equal. now apply IH.
Qed.

Lemma append_cancel_l (a b c : string) : c ++ a = c ++ b -> a = b.
Proof. induction c as [|x c IH]; [easy|]. cbn. intros E. injection E as E. auto. Qed.

Lemma has_char_append c (a b : string) : has_char c (a ++ b) = has_char c a || has_char c b.
Proof. induction a as [|x a IH]; [reflexivity|]. cbn. now rewrite IH, orb_assoc. Qed.

Lemma split_nonempty s : split_underscore s <> [].
Proof. destruct s as [|c s]; [discriminate|]. cbn [split_underscore]. destruct (Ascii.eqb c "_"); [discriminate|]. destruct (split_underscore s); discriminate. Qed.

Lemma split_word s : has_char "_"%char s = false -> split_underscore s = [s].
Proof.
  induction s as [|c s IH]; [reflexivity|]. cbn [has_char split_underscore]. intros H. apply orb_false_elim in H as [H1 H2].
  rewrite Ascii.eqb_sym, H1, (IH H2). reflexivity.
Qed.

Lemma split_append a b : split_underscore (a ++ String "_" b) = (split_underscore a ++ split_underscore b)%list.
Proof.
  induction a as [|c a IH]; [reflexivity|]. cbn [append split_underscore]. destruct (Ascii.eqb c "_"); [now rewrite IH|].
  rewrite IH. pose proof (split_nonempty a) as N. destruct (split_underscore a); [contradiction|reflexivity].
Qed.

Lemma glob_star p s : glob (String "*" p) s = true <-> exists a b, s = a ++ b /\ glob p b = true.
Proof.
  change (glob (String "*" p)) with (fix star (s : string) : bool := glob p s || match s with EmptyString => false | String _ s' => star s' end).
  induction s as [|c s IH].
  - cbn. rewrite orb_false_r. split.
    + intros H. exists "", "". auto.
    + intros ([|x a] & b & E & H); [cbn in E; now subst|discriminate].
  - cbn [orb]. rewrite orb_true_iff, IH. split.
    + intros [H|(a & b & -> & H)]; [exists "", (String c s); auto|exists (String c a), b; auto].
    + intros ([|x a] & b & E & H); [left; cbn in E; now subst|].
      right. cbn in E. injection E as <- ->. exists a, b. auto.
Qed.

Lemma glob_char c p s : Ascii.eqb c "*"%char = false -> glob (String c p) s = true <-> exists b, s = String c b /\ glob p b = true.
Proof.
  intros N. cbn [glob]. rewrite N. destruct s as [|x s]; [split; [discriminate|intros (b & E & _); discriminate]|].
  rewrite andb_true_iff. split.
  - intros [E H]. apply Ascii.eqb_eq in E. subst. exists s. auto.
  - intros (b & E & H). injection E as -> ->. split; [apply Ascii.eqb_refl|exact H].
Qed.

Lemma glob_lit l p s : has_char "*"%char l = false -> glob (l ++ p) s = true <-> exists b, s = l ++ b /\ glob p b = true.
Proof.
  revert s. induction l as [|c l IH]; intros s H.
  - cbn [append]. split; [intros G; exists s; auto|intros (b & -> & G); exact G].
  - cbn [has_char] in H. apply orb_false_elim in H as [H1 H2]. change (String c l ++ p) with (String c (l ++ p)).
    rewrite glob_char by (rewrite Ascii.eqb_sym; exact H1). split.
    + intros (b & -> & G). apply IH in G; [|exact H2]. destruct G as (b' & -> & G). exists b'. auto.
    + intros (b & -> & G). exists (l ++ b). split; [reflexivity|]. apply IH; [exact H2|]. exists b. auto.
Qed.

Lemma glob_exact l s : has_char "*"%char l = false -> glob l s = true -> s = l.
Proof.
  intros H G. rewrite <- (append_nil l) in G. apply glob_lit in G; [|exact H]. destruct G as (b & -> & G).
  cbn in G. apply String.eqb_eq in G. subst b. apply append_nil.
Qed.

Lemma before_last_dot_h5 s : before_last_dot (s ++ ".h5") = Some s.
Proof. induction s as [|c s IH]; [reflexivity|]. cbn [append before_last_dot]. now rewrite IH. Qed.

Lemma stem_h5 s : stem (s ++ ".h5") = s.
Proof. unfold stem. now rewrite before_last_dot_h5. Qed.

Lemma prefix_append a b : String.prefix a (a ++ b) = true.
Proof. induction a as [|c a IH]; [destruct b; reflexivity|]. cbn. destruct (ascii_dec c c); [exact IH|contradiction]. Qed.

Lemma contains_sub_mid sub a b : contains_sub sub (a ++ sub ++ b) = true.
Proof.
  induction a as [|c a IH].
  - cbn [append]. destruct (sub ++ b) eqn:E; cbn [contains_sub]; rewrite <- E, prefix_append; reflexivity.
  - cbn [append contains_sub]. rewrite IH. apply orb_true_r.
Qed.

(** ** Names *)

Definition suffix (dt : option string) (ur : bool) : string :=
  (match dt with Some d => "_" ++ d | None => "" end) ++ (if ur then "_urud" else "").

Definition suffix_fields (dt : option string) (ur : bool) : list string :=
  ((match dt with Some d => [d] | None => [] end) ++ (if ur then ["urud"] else []))%list.

Lemma complete_name_eq name dt ur : complete_name name dt ur = (name ++ suffix dt ur) ++ ".h5".
Proof. reflexivity. Qed.

Lemma split_suffix s dt ur : good_dtype dt ->
  split_underscore (s ++ suffix dt ur) = (split_underscore s ++ suffix_fields dt ur)%list.
Proof.
  intros G. unfold suffix, suffix_fields. destruct dt as [d|]; cbn [good_dtype] in G.
  - destruct G as (G & _). destruct ur; cbn [append app].
    + change (s ++ String "_" (d ++ "_urud")) with (s ++ String "_" (d ++ String "_" "urud")).
      rewrite split_append, split_append, (split_word d G), (split_word "urud" eq_refl). reflexivity.
    + rewrite append_nil, split_append, (split_word d G). reflexivity.
  - destruct ur; cbn [append app]; [|rewrite append_nil, app_nil_r; reflexivity].
    change "_urud" with (String "_" "urud"). rewrite split_append, (split_word "urud" eq_refl). reflexivity.
Qed.

Definition base_fields (temporal : bool) : list string := if temporal then ["periodogram"; "temporal"] else ["periodogram"].

Lemma split_base temporal s : split_underscore (base temporal ++ s) = (base_fields temporal ++ split_underscore s)%list.
Proof.
  destruct temporal; unfold base, base_fields.
  - change ("periodogram_temporal_" ++ s) with ("periodogram" ++ String "_" ("temporal" ++ String "_" s)).
    rewrite split_append, split_append. reflexivity.
  - change ("periodogram_" ++ s) with ("periodogram" ++ String "_" s). rewrite split_append. reflexivity.
Qed.

Lemma suffix_no_star dt ur : good_dtype dt -> has_char "*"%char (suffix dt ur) = false.
Proof.
  intros G. unfold suffix. rewrite has_char_append. destruct dt as [d|]; cbn in G |- *.
  - destruct G as (_ & G & _). rewrite G. destruct ur; reflexivity.
  - destruct ur; reflexivity.
Qed.

(** what a pattern accepts *)
Lemma glob_pattern temporal dt ur s : good_dtype dt ->
  glob (complete_name (base temporal ++ "*_*") dt ur) s = true ->
  exists x y, s = (base temporal ++ x ++ String "_" y ++ suffix dt ur) ++ ".h5".
Proof.
  intros G H. rewrite complete_name_eq in H. rewrite !append_assoc' in H. apply glob_lit in H; [|destruct temporal; reflexivity].
  destruct H as (b & -> & H). cbn [append] in H. apply glob_star in H. destruct H as (x & b1 & -> & H).
  apply glob_char in H; [|reflexivity]. destruct H as (b2 & -> & H). apply glob_star in H. destruct H as (y & b3 & -> & H).
  apply glob_exact in H; [|rewrite has_char_append, suffix_no_star by exact G; reflexivity]. subst b3.
  exists x, y. rewrite !append_assoc'. reflexivity.
Qed.

Section Proofs.
  Variable str_float : Q -> string.
  Variable float_str : string -> option Q.
  Hypothesis F : formats str_float float_str.

  Definition name_of (temporal : bool) (c : call) : string :=
    let '(a, b, dt, ur) := c in complete_name (base temporal ++ str_float a ++ "_" ++ str_float b) dt ur.

  Definition good (c : call) : Prop := let '(a, b, dt, ur) := c in good_dtype dt.

  Lemma name_of_fields temporal a b dt ur : good_dtype dt ->
    split_underscore (stem (name_of temporal (a, b, dt, ur))) = (base_fields temporal ++ [str_float a; str_float b] ++ suffix_fields dt ur)%list.
  Proof.
    intros G. destruct F as (_ & _ & Fu & _). unfold name_of. rewrite complete_name_eq, stem_h5, split_suffix by exact G.
    rewrite split_base. change ("_" ++ str_float b) with (String "_" (str_float b)). rewrite split_append.
    rewrite (split_word (str_float a)), (split_word (str_float b)) by apply Fu. rewrite <- app_assoc. reflexivity.
  Qed.

  Lemma pattern_fields temporal dt ur x y : good_dtype dt ->
    split_underscore (stem ((base temporal ++ x ++ String "_" y ++ suffix dt ur) ++ ".h5"))
    = (base_fields temporal ++ split_underscore x ++ split_underscore y ++ suffix_fields dt ur)%list.
  Proof.
    intros G. rewrite stem_h5, split_base. change (String "_" y ++ suffix dt ur) with (String "_" (y ++ suffix dt ur)).
    rewrite split_append, split_suffix by exact G. reflexivity.
  Qed.

  (** a pattern accepts the name of a call: the kind is the same and the suffix of the pattern ends the one of the name *)
  Lemma glob_name temporal temporal' dt ur a b dt' ur' : good_dtype dt -> good_dtype dt' ->
    glob (complete_name (base temporal ++ "*_*") dt ur) (name_of temporal' (a, b, dt', ur')) = true ->
    temporal = temporal' /\ (exists l, suffix_fields dt' ur' = l ++ suffix_fields dt ur)%list \/ temporal = false /\ temporal' = true.
  Proof.
    intros G G' H. apply glob_pattern in H; [|exact G]. destruct H as (x & y & H).
    assert (E := f_equal (fun s => split_underscore (stem s)) H). cbn beta in E.
    rewrite name_of_fields, pattern_fields in E by assumption.
    destruct temporal, temporal'; [left|exfalso|right; split; reflexivity|left]; try (split; [reflexivity|]).
    - cbn [base_fields app] in E. injection E as E.
      pose proof (split_nonempty x) as Nx. pose proof (split_nonempty y) as Ny.
      destruct (split_underscore x) as [|x0 x'] eqn:Ex; [contradiction|]. destruct (split_underscore y) as [|y0 y'] eqn:Ey; [contradiction|].
      destruct x' as [|x1 x'].
      + cbn in E. injection E as _ _ E. exists y'. rewrite E. reflexivity.
      + cbn in E. injection E as _ _ E. exists (x' ++ y0 :: y')%list. rewrite E, <- app_assoc. reflexivity.
    - cbn [base_fields app] in E. injection E as E _. destruct F as (F1 & _ & _ & F4). destruct (F1 a) as (z & Fa & _).
      rewrite E, F4 in Fa. discriminate.
    - cbn [base_fields app] in E. injection E as E.
      pose proof (split_nonempty x) as Nx. pose proof (split_nonempty y) as Ny.
      destruct (split_underscore x) as [|x0 x'] eqn:Ex; [contradiction|]. destruct (split_underscore y) as [|y0 y'] eqn:Ey; [contradiction|].
      destruct x' as [|x1 x'].
      + cbn in E. injection E as _ _ E. exists y'. rewrite E. reflexivity.
      + cbn in E. injection E as _ _ E. exists (x' ++ y0 :: y')%list. rewrite E, <- app_assoc. reflexivity.
  Qed.

  Lemma suffix_end dt ur dt' ur' : good_dtype dt -> good_dtype dt' -> (exists l, suffix_fields dt' ur' = l ++ suffix_fields dt ur)%list ->
    (dt <> None -> dt = dt' /\ ur = ur') /\ (ur = true -> ur' = true).
  Proof.
    intros G G' (l & E). assert (E2 := f_equal (@rev string) E). rewrite rev_app_distr in E2. unfold suffix_fields in E2.
    destruct dt as [d|], dt' as [d'|], ur, ur'; cbn in G, G', E2; try discriminate;
      try (injection E2; intros; subst); unfold word in G, G'; (split; [intros N; try contradiction|intros HH; try discriminate HH]); try tauto; try discriminate;
      try (split; congruence).
  Qed.

  Lemma name_same (temporal : bool) (c c' : call) : same_call c c' -> name_of temporal c = name_of temporal c'.
  Proof.
    destruct c as [[[a b] dt] ur], c' as [[[a' b'] dt'] ur']. intros (E1 & E2 & -> & ->). destruct F as (_ & F2 & _).
    cbn. now rewrite (F2 _ _ E1), (F2 _ _ E2).
  Qed.

  Definition wf (files : list string) : Prop :=
    forall n, In n files -> exists (temporal : bool) (c : call), good c /\ n = name_of temporal c.

  Lemma floats_name (temporal : bool) a b dt ur : good_dtype dt ->
    exists a' b', floats float_str (slice (if temporal then 2 else 1) 2 (split_underscore (stem (name_of temporal (a, b, dt, ur))))) = Some [a'; b']
      /\ a == a' /\ b == b'.
  Proof.
    intros G. rewrite name_of_fields by exact G. destruct F as (F1 & _).
    destruct (F1 a) as (a' & Fa & Ea). destruct (F1 b) as (b' & Fb & Eb). exists a', b'. split; [|split; assumption].
    destruct temporal; unfold slice; cbn [base_fields app skipn firstn floats]; rewrite Fa, Fb; reflexivity.
  Qed.

  (** the file found is the one of a call with the same times, of the same kind *)
  Lemma search_sound (temporal : bool) tmin tmax dt ur files : good_dtype dt -> wf files ->
    exists r, search float_str temporal tmin tmax (complete_name (base temporal ++ "*_*") dt ur) files = Some r
    /\ match r with
       | None => True
       | Some path => In path files /\ exists a b dt' ur', good_dtype dt' /\ path = name_of temporal (a, b, dt', ur')
           /\ tmin == a /\ tmax == b /\ (dt <> None -> dt = dt' /\ ur = ur') /\ (ur = true -> ur' = true)
       end.
  Proof.
    intros G. induction files as [|path r IH]; intros W; [exists None; split; [reflexivity|exact I]|].
    assert (Wr : wf r) by (intros n Hn; apply W; right; exact Hn). destruct (IH Wr) as (o & Eo & Ho).
    assert (Next : exists r0, search float_str temporal tmin tmax (complete_name (base temporal ++ "*_*") dt ur) r = Some r0
      /\ match r0 with
       | None => True
       | Some path0 => In path0 (path :: r) /\ exists a b dt' ur', good_dtype dt' /\ path0 = name_of temporal (a, b, dt', ur')
           /\ tmin == a /\ tmax == b /\ (dt <> None -> dt = dt' /\ ur = ur') /\ (ur = true -> ur' = true)
       end).
    { exists o. split; [exact Eo|]. destruct o as [p|]; [|exact I]. destruct Ho as (Ho1 & Ho2). split; [right; exact Ho1|exact Ho2]. }
    cbn [search]. destruct (glob _ path) eqn:Gp; cbn [negb]; [|exact Next].
    destruct (W path (or_introl eq_refl)) as (temporal' & [[[a b] dt'] ur'] & G' & ->). cbn [good] in G'.
    destruct (negb temporal && contains_sub "_temporal" (name_of temporal' (a, b, dt', ur'))) eqn:T; [exact Next|].
    apply glob_name in Gp; [|exact G|exact G'].
    destruct Gp as [(-> & S)|(-> & ->)].
    2:{ exfalso. cbn [negb andb] in T. unfold name_of in T. rewrite complete_name_eq in T.
        change (base true) with ("periodogram" ++ "_temporal" ++ "_") in T. rewrite !append_assoc' in T. rewrite contains_sub_mid in T. discriminate. }
    destruct (floats_name temporal' a b dt' ur' G') as (a' & b' & Ef & Ea & Eb). rewrite Ef. unfold same_times.
    destruct (Qeq_bool tmin a' && Qeq_bool tmax b') eqn:Q; [|exact Next].
    apply andb_prop in Q as [Q1 Q2]. apply Qeq_bool_iff in Q1, Q2.
    eexists. split; [reflexivity|]. split; [left; reflexivity|]. exists a, b, dt', ur'.
    split; [exact G'|]. split; [reflexivity|]. split; [rewrite Q1; symmetry; exact Ea|]. split; [rewrite Q2; symmetry; exact Eb|].
    apply suffix_end; assumption.
  Qed.

  Lemma get_path_dtype (temporal : bool) files tmin tmax d ur : word d -> wf files ->
    get_path str_float float_str temporal files tmin tmax (Some d) ur = Some (name_of temporal (tmin, tmax, Some d, ur)).
  Proof.
    intros G W. unfold get_path. destruct (search_sound temporal tmin tmax (Some d) ur files G W) as (r & -> & H).
    destruct r as [path|]; [|reflexivity]. destruct H as (_ & a & b & dt' & ur' & _ & -> & E1 & E2 & H & _).
    destruct H as [<- <-]; [discriminate|]. f_equal. apply name_same. cbn. repeat split; symmetry; assumption.
  Qed.

  Lemma map_fst_write d n c : incl (map fst d) (map fst (write d n c)) /\ forall m, In m (map fst (write d n c)) -> m = n \/ In m (map fst d).
  Proof.
    induction d as [|[m c'] d (IH1 & IH2)].
    - split; [intros x []|]. cbn. intros m [<-|[]]. left. reflexivity.
    - cbn. destruct (String.eqb m n) eqn:E.
      + split; [intros x Hx; exact Hx|]. cbn. intros x [<-|Hx]; [right; left; reflexivity|right; right; exact Hx].
      + cbn. split.
        * intros x [<-|Hx]; [left; reflexivity|right; apply IH1; exact Hx].
        * intros x [<-|Hx]; [right; left; reflexivity|]. destruct (IH2 x Hx) as [->|H]; [left; reflexivity|right; right; exact H].
  Qed.

  Lemma read_write d n c m : read (write d n c) m = if String.eqb n m then Some c else read d m.
  Proof.
    induction d as [|[k c'] d IH]; [reflexivity|]. cbn [write]. destruct (String.eqb k n) eqn:E.
    - apply String.eqb_eq in E. subst k. cbn [read]. destruct (String.eqb n m); reflexivity.
    - cbn [read]. rewrite IH. destruct (String.eqb k m) eqn:E2; [|reflexivity].
      apply String.eqb_eq in E2. subst k. rewrite String.eqb_sym, E. reflexivity.
  Qed.

  Lemma wf_write (d : disk) n (c : call) (temporal : bool) (c' : call) : wf (map fst d) -> good c' -> n = name_of temporal c' -> wf (map fst (write d n c)).
  Proof.
    intros W G E m Hm. destruct (map_fst_write d n c) as [_ H]. destruct (H m Hm) as [->|Hm']; [exists temporal, c'; auto|apply W; exact Hm'].
  Qed.

  Lemma get_path_sound (temporal : bool) files tmin tmax dt ur : good_dtype dt -> wf files ->
    exists a b dt' ur', get_path str_float float_str temporal files tmin tmax dt ur = Some (name_of temporal (a, b, dt', ur'))
    /\ good_dtype dt' /\ tmin == a /\ tmax == b /\ (dt <> None -> dt = dt' /\ ur = ur') /\ (ur = true -> ur' = true).
  Proof.
    intros G W. unfold get_path. destruct (search_sound temporal tmin tmax dt ur files G W) as (r & -> & H).
    destruct r as [path|].
    - destruct H as (_ & a & b & dt' & ur' & H1 & -> & H2). exists a, b, dt', ur'. split; [reflexivity|]. split; [exact H1|exact H2].
    - exists tmin, tmax, dt, ur. repeat split; try reflexivity; auto.
  Qed.

  Lemma saved_wf (P : call -> Prop) d : (forall c, P c -> good c) -> saved str_float float_str P d -> wf (map fst d).
  Proof.
    intros HP S. induction S as [|d c d' S IH Pc E]; [intros n []|].
    specialize (HP c Pc). destruct c as [[[tmin tmax] dt] ur]. cbn [good] in HP. unfold save_spectra in E.
    destruct (get_path_sound false (map fst d) tmin tmax dt ur HP IH) as (a & b & dt' & ur' & E1 & G1 & _). rewrite E1 in E.
    assert (W1 : wf (map fst (write d (name_of false (a, b, dt', ur')) (tmin, tmax, dt, ur)))) by (eapply wf_write; [exact IH| |reflexivity]; exact G1).
    destruct (get_path_sound true _ tmin tmax dt ur HP W1) as (a2 & b2 & dt2 & ur2 & E2 & G2 & _). rewrite E2 in E.
    apply some_inj in E. subst d'. eapply wf_write; [exact W1| |reflexivity]. exact G2.
  Qed.

  Lemma name_of_inj (temporal temporal' : bool) (c c' : call) : good c -> good c' -> name_of temporal c = name_of temporal' c' -> temporal = temporal' /\ same_call c c'.
  Proof.
    destruct c as [[[a b] dt] ur], c' as [[[a' b'] dt'] ur']. intros G G' E. cbn [good] in G, G'.
    assert (E' := f_equal (fun s => split_underscore (stem s)) E). cbn beta in E'. rewrite !name_of_fields in E' by assumption.
    destruct F as (F1 & _ & _ & F4).
    assert (Inj : forall x y, str_float x = str_float y -> x == y).
    { intros x y H. destruct (F1 x) as (x' & Hx & Ex). destruct (F1 y) as (y' & Hy & Ey). rewrite H, Hy in Hx. injection Hx as <-.
      rewrite Ex, Ey. reflexivity. }
    assert (NT : forall x, str_float x <> "temporal").
    { intros x H. destruct (F1 x) as (x' & Hx & _). rewrite H, F4 in Hx. discriminate. }
    assert (Suf : suffix_fields dt ur = suffix_fields dt' ur' -> dt = dt' /\ ur = ur').
    { intros Es. unfold suffix_fields in Es. destruct dt as [d|], dt' as [d'|], ur, ur'; cbn in Es, G, G'; try discriminate;
        try (injection Es; intros; subst); unfold word in G, G'; try tauto; split; congruence. }
    destruct temporal, temporal'; cbn [base_fields app] in E'.
    - injection E' as Ea Eb Es. destruct (Suf Es) as [-> ->]. split; [reflexivity|]. cbn. auto.
    - injection E' as Ea _. exfalso. apply (NT a'). symmetry. exact Ea.
    - injection E' as Ea _. exfalso. apply (NT a). exact Ea.
    - injection E' as Ea Eb Es. destruct (Suf Es) as [-> ->]. split; [reflexivity|]. cbn. auto.
  Qed.
End Proofs.

(** ** C142 *)

(** if a dtype is always given, what is loaded is what the last call of save_spectra_kzkhomega with the same arguments
    computed, whatever else is saved *)
Theorem c142_dtype_partial : forall str_float float_str (d : disk) (c : call), formats str_float float_str ->
  let given := fun c : call => exists a b t ur, c = (a, b, Some t, ur) /\ word t in
  saved str_float float_str given d -> given c ->
  exists d', save_spectra str_float float_str d c = Some d'
  /\ load_spectra str_float float_str d' c = Some c
  /\ forall c', given c' -> ~ same_call c c' -> load_spectra str_float float_str d' c' = load_spectra str_float float_str d c'.
Proof.
  intros str_float float_str d c F given S Gc.
  assert (W : wf str_float (map fst d)).
  { apply (saved_wf str_float float_str F given d); [|exact S]. intros c0 (a & b & t & ur & -> & H). exact H. }
  destruct Gc as (a & b & t & ur & -> & Ht). unfold save_spectra.
  rewrite (get_path_dtype str_float float_str F false (map fst d) a b t ur Ht W).
  set (c := (a, b, Some t, ur)). set (d1 := write d (name_of str_float false c) c).
  assert (W1 : wf str_float (map fst d1)) by (apply (wf_write str_float d _ c false c W); [exact Ht|reflexivity]).
  rewrite (get_path_dtype str_float float_str F true (map fst d1) a b t ur Ht W1). fold c.
  assert (W2 : wf str_float (map fst (write d1 (name_of str_float true c) c)))
    by (apply (wf_write str_float d1 _ c true c W1); [exact Ht|reflexivity]).
  eexists. split; [reflexivity|]. split.
  - set (D := write d1 (name_of str_float true c) c) in *. unfold load_spectra, c.
    rewrite (get_path_dtype str_float float_str F false _ a b t ur Ht W2). fold c. unfold D.
    rewrite read_write. destruct (String.eqb (name_of str_float true c) (name_of str_float false c)) eqn:E; [reflexivity|].
    unfold d1. rewrite read_write, String.eqb_refl. reflexivity.
  - intros c' (a' & b' & t' & ur' & -> & Ht') N. unfold load_spectra.
    rewrite (get_path_dtype str_float float_str F false _ a' b' t' ur' Ht' W2), (get_path_dtype str_float float_str F false _ a' b' t' ur' Ht' W).
    set (c' := (a', b', Some t', ur')) in *. rewrite read_write.
    destruct (String.eqb (name_of str_float true c) (name_of str_float false c')) eqn:E.
    + apply String.eqb_eq in E. apply (name_of_inj str_float float_str F true false c c') in E; [|exact Ht|exact Ht']. destruct E; discriminate.
    + unfold d1. rewrite read_write. destruct (String.eqb (name_of str_float false c) (name_of str_float false c')) eqn:E2; [|reflexivity].
      apply String.eqb_eq in E2. apply (name_of_inj str_float float_str F false false c c') in E2; [|exact Ht|exact Ht']. destruct E2 as [_ E2].
      contradiction.
Qed.

(** with or without dtype: what is loaded after a save has the right times, and the spectra of ur and ud if asked for *)
Theorem c142_times : forall str_float float_str (files : list string) (temporal : bool) tmin tmax dt ur, formats str_float float_str ->
  good_dtype dt -> wf str_float files ->
  exists a b dt' ur', get_path str_float float_str temporal files tmin tmax dt ur = Some (name_of str_float temporal (a, b, dt', ur'))
  /\ tmin == a /\ tmax == b /\ (dt <> None -> dt = dt' /\ ur = ur') /\ (ur = true -> ur' = true).
Proof.
  intros str_float float_str files temporal tmin tmax dt ur F G W.
  destruct (get_path_sound str_float float_str F temporal files tmin tmax dt ur G W) as (a & b & dt' & ur' & E & _ & H).
  exists a, b, dt', ur'. split; [exact E|exact H].
Qed.

(** a format: numerator and denominator in base one *)
Fixpoint ones (n : nat) : string := match n with O => "" | S n => String "i" (ones n) end.
Definition str_ex (x : Q) : string :=
  let q := Qred x in
  (if (Qnum q <? 0)%Z then "m" else "p") ++ ones (Z.abs_nat (Qnum q)) ++ "/" ++ ones (Pos.to_nat (Qden q)).
Fixpoint count_ones (s : string) : nat * string :=
  match s with
  | EmptyString => (O, "")
  | String c s' => if Ascii.eqb c "i"%char then let '(n, r) := count_ones s' in (S n, r) else (O, s')
  end.
Definition float_ex (s : string) : option Q :=
  match s with
  | EmptyString => None
  | String c s' =>
      let '(n, r) := count_ones s' in
      let '(m, _) := count_ones r in
      if Ascii.eqb c "m"%char then Some (Qmake (- Z.of_nat n) (Pos.of_nat m))
      else if Ascii.eqb c "p"%char then Some (Qmake (Z.of_nat n) (Pos.of_nat m))
      else None
  end.

Lemma count_ones_slash n s : count_ones (ones n ++ String "/" s) = (n, s).
Proof. induction n as [|n IH]; [reflexivity|]. cbn. now rewrite IH. Qed.
Lemma count_ones_end n : count_ones (ones n) = (n, "").
Proof. induction n as [|n IH]; [reflexivity|]. cbn. now rewrite IH. Qed.
Lemma ones_no_underscore n : has_char "_"%char (ones n) = false.
Proof. induction n as [|n IH]; [reflexivity|]. cbn. exact IH. Qed.

Lemma formats_ex : formats str_ex float_ex.
Proof.
  split; [|split; [|split]].
  - intros x. exists (Qred x). split; [|symmetry; apply Qred_correct]. unfold str_ex.
    destruct (Qred x) as [n d] eqn:E. cbn [Qnum Qden]. destruct (Z.ltb_spec n 0) as [L|L].
    + cbn [append float_ex]. rewrite count_ones_slash, count_ones_end. cbn -[Pos.of_nat]. rewrite Pos2Nat.id. do 2 f_equal. lia.
    + cbn [append float_ex]. rewrite count_ones_slash, count_ones_end. cbn -[Pos.of_nat]. rewrite Pos2Nat.id. do 2 f_equal. lia.
  - intros x y E. unfold str_ex. now rewrite (Qred_complete x y E).
  - intros x. unfold str_ex. rewrite !has_char_append, !ones_no_underscore. destruct (_ <? _)%Z; reflexivity.
  - reflexivity.
Qed.

(** the spectra with ur and ud are saved, then those without: the first ones are lost *)
Theorem c142_overwritten_refuted : exists str_float float_str (c c' : call) (d d' : disk), formats str_float float_str
  /\ save_spectra str_float float_str [] c = Some d /\ load_spectra str_float float_str d c = Some c
  /\ ~ same_call c c' /\ save_spectra str_float float_str d c' = Some d' /\ load_spectra str_float float_str d' c = Some c'.
Proof.
  exists str_ex, float_ex, (0, 1, None, true), (0, 1, None, false).
  eexists. eexists. split; [exact formats_ex|]. split; [vm_compute; reflexivity|]. split; [vm_compute; reflexivity|].
  split; [intros (_ & _ & _ & E); discriminate|]. split; [vm_compute; reflexivity|]. vm_compute. reflexivity.
Qed.

(** the spectra in single precision are saved: those in double precision are taken for saved *)
Theorem c142_precision_refuted : exists str_float float_str (c c' : call) (d : disk), formats str_float float_str
  /\ save_spectra str_float float_str [] c = Some d
  /\ ~ same_call c c' /\ load_spectra str_float float_str d c' = Some c.
Proof.
  exists str_ex, float_ex, (0, 1, Some "complex64", false), (0, 1, None, false).
  eexists. split; [exact formats_ex|]. split; [vm_compute; reflexivity|].
  split; [intros (_ & _ & E & _); discriminate|]. vm_compute. reflexivity.
Qed.

Example c142_example : word "complex64" /\ wf str_ex [name_of str_ex true (0, 1, Some "complex64", true)].
Proof.
  split; [split; [reflexivity|split; [reflexivity|discriminate]]|].
  intros n [<-|[]]. exists true, (0, 1, Some "complex64", true). split; [|reflexivity]. split; [reflexivity|split; [reflexivity|discriminate]].
Qed.

Print Assumptions c142_dtype_partial.
Print Assumptions c142_times.
Print Assumptions c142_overwritten_refuted.
Print Assumptions c142_precision_refuted.
