(** * Names of the functions in the pie chart of a profile: C276 *)

From Coq Require Import Ascii String List Arith Bool Lia.
From Verif Require Import ShortName_Model.
Import ListNotations.

(** ** Specification *)
Definition occurs (p l : txt) : Prop := exists a b, l = a ++ p ++ b.
Notation "'T' s" := (of_string s%string) (at level 9, s at level 8).
(** neither a function of fft nor a function of Pythran, nor of a solver *)
Definition other (key kind : txt) : Prop :=
  kind <> T "fft_as" /\ ~ (kind = T "pythran" /\ occurs (T "pythran") key) /\ ~ occurs (T "fluidsim.solvers.") key.

(** ** Lemmas *)
Lemma prefixb_spec : forall p l, prefixb p l = true <-> exists b, l = p ++ b.
Proof.
  induction p as [|a p IH]; intros l; [cbn; split; [intros _; exists l; reflexivity|reflexivity]|].
  destruct l as [|b l]; cbn [prefixb]; [split; [discriminate|intros [x E]; discriminate]|].
  rewrite andb_true_iff, IH, Ascii.eqb_eq. split.
  - intros [-> [x ->]]. exists x. reflexivity.
  - intros [x E]. cbn in E. injection E as -> ->. split; [reflexivity|exists x; reflexivity].
Qed.
Lemma contains_spec : forall p l, contains p l = true <-> occurs p l.
Proof.
  intros p. induction l as [|c l IH]; cbn [contains]; rewrite orb_true_iff, prefixb_spec.
  - split; [intros [[b E]|H]; [exists [], b; exact E|discriminate]|]. intros (a & b & E). left. exists b.
    destruct a; [exact E|discriminate].
  - rewrite IH. split.
    + intros [[b E]|(a & b & E)]; [exists [], b; exact E|]. exists (c :: a), b. cbn. rewrite E. reflexivity.
    + intros (a & b & E). destruct a as [|x a]; [left; exists b; exact E|]. right. cbn in E. injection E as _ E. exists a, b. exact E.
Qed.
Lemma contains_false p l : ~ occurs p l -> contains p l = false.
Proof. intros H. destruct (contains p l) eqn:E; [|reflexivity]. apply contains_spec in E. contradiction. Qed.
Lemma prefixb_false p l : ~ (exists b, l = p ++ b) -> prefixb p l = false.
Proof. intros H. destruct (prefixb p l) eqn:E; [|reflexivity]. apply prefixb_spec in E. contradiction. Qed.
Lemma occurs_cons p c l : occurs p l -> occurs p (c :: l).
Proof. intros (a & b & E). exists (c :: a), b. rewrite E. reflexivity. Qed.
Lemma occurs_app p a l : occurs p l -> occurs p (a ++ l).
Proof. intros (x & b & E). exists (a ++ x), b. rewrite E, app_assoc. reflexivity. Qed.
Lemma occurs_app_r p l a : occurs p l -> occurs p (l ++ a).
Proof. intros (x & b & E). exists x, (b ++ a). rewrite E, <- !app_assoc. reflexivity. Qed.
Lemma occurs_in p l c : occurs p l -> In c p -> In c l.
Proof. intros (a & b & ->) H. rewrite !in_app_iff. auto. Qed.

(** no separator: one part *)
Lemma split_no sep : forall l cur, ~ occurs sep l -> split sep l 0 cur = [rev cur ++ l].
Proof.
  induction l as [|c l IH]; intros cur N; cbn [split]; [rewrite app_nil_r; reflexivity|].
  rewrite prefixb_false by (intros [b E]; apply N; exists [], b; exact E).
  rewrite IH by (intros O; apply N, occurs_cons, O). cbn [rev]. rewrite <- app_assoc. reflexivity.
Qed.
Lemma split_skip sep : forall a l cur, split sep (a ++ l) (length a) cur = split sep l 0 cur.
Proof. induction a as [|c a IH]; intros l cur; [reflexivity|]. cbn [app length split]. apply IH. Qed.
(** the first separator *)
Lemma split_at sep : sep <> [] -> forall l r cur, ~ occurs sep (l ++ removelast sep) ->
  split sep (l ++ sep ++ r) 0 cur = (rev cur ++ l) :: split sep r 0 [].
Proof.
  intros NE. induction l as [|c l IH]; intros r cur N.
  - destruct sep as [|s sep]; [congruence|]. cbn [app]. cbn [split].
    assert (P : prefixb (s :: sep) (s :: sep ++ r) = true) by (apply prefixb_spec; exists r; reflexivity).
    rewrite P. cbn [length]. rewrite Nat.sub_succ, Nat.sub_0_r, split_skip, app_nil_r. reflexivity.
  - cbn [app split]. rewrite prefixb_false.
    + rewrite IH by (intros O; apply N; cbn [app]; apply occurs_cons, O). cbn [rev]. rewrite <- app_assoc. reflexivity.
    + intros [b E]. apply N. clear IH N.
      (* the separator is a prefix of l ++ removelast sep *)
      assert (L : length sep <= length ((c :: l) ++ removelast sep)).
      { rewrite app_length. destruct (exists_last NE) as (s' & z & ->). rewrite removelast_last, app_length. cbn. lia. }
      assert (E2 : firstn (length sep) ((c :: l) ++ removelast sep) = sep).
      { assert (E3 : exists t, c :: l ++ sep ++ r = ((c :: l) ++ removelast sep) ++ t).
        { exists ([last sep " "%char] ++ r). rewrite (app_removelast_last " "%char NE) at 1. cbn [app]. rewrite <- !app_assoc. reflexivity. }
        destruct E3 as [t E3]. rewrite E3 in E. apply (f_equal (firstn (length sep))) in E.
        rewrite firstn_app, (firstn_app (length sep) sep) in E. rewrite Nat.sub_diag in E. cbn [firstn] in E.
        rewrite app_nil_r, firstn_all in E. replace (length sep - length ((c :: l) ++ removelast sep)) with 0 in E by lia.
        cbn [firstn] in E. rewrite app_nil_r in E. exact E. }
      exists [], (skipn (length sep) ((c :: l) ++ removelast sep)). cbn [app]. rewrite <- E2 at 2.
      change (c :: l ++ removelast sep) with ((c :: l) ++ removelast sep). symmetry. apply firstn_skipn.
Qed.
Lemma split_last_at sep l r : sep <> [] -> ~ occurs sep (l ++ removelast sep) -> ~ occurs sep r -> split_last sep (l ++ sep ++ r) = r.
Proof.
  intros NE N1 N2. unfold split_last. rewrite split_at, split_no by assumption. reflexivity.
Qed.
Lemma no_first_char c sep : forall a, ~ In c a -> ~ occurs (c :: sep) (a ++ removelast (c :: sep)).
Proof.
  induction a as [|d a IH]; intros A (x & y & E).
  - apply (f_equal (@length ascii)) in E. rewrite (app_length x), (app_length (c :: sep)) in E.
    assert (L : length (removelast (c :: sep)) = length sep).
    { destruct (@exists_last _ (c :: sep) ltac:(discriminate)) as (s' & z & Q). rewrite Q, removelast_last.
      apply (f_equal (@length ascii)) in Q. rewrite app_length in Q. cbn [length] in Q. lia. }
    change ([] ++ removelast (c :: sep)) with (removelast (c :: sep)) in E. rewrite L in E. cbn [length] in E. lia.
  - destruct x as [|x0 x].
    + cbn [app] in E. injection E as E _. apply A. left. exact E.
    + cbn [app] in E. injection E as _ E. apply IH; [intros H; apply A; right; exact H|exists x, y; exact E].
Qed.
Lemma split_last_no sep l : ~ occurs sep l -> split_last sep l = l.
Proof. intros N. unfold split_last. rewrite split_no by exact N. reflexivity. Qed.

Lemma lstrip_id c l : hd_error l <> Some c -> lstrip c l = l.
Proof.
  intros H. destruct l as [|d l]; [reflexivity|]. cbn [lstrip]. destruct (Ascii.eqb_spec d c) as [->|]; [cbn in H; congruence|reflexivity].
Qed.
Lemma rstrip_last c l : ~ In c l -> rstrip c (l ++ [c]) = l.
Proof.
  intros N. unfold rstrip. rewrite rev_app_distr. cbn [rev app lstrip]. rewrite Ascii.eqb_refl.
  rewrite lstrip_id, rev_involutive; [reflexivity|]. intros H. apply N. apply in_rev.
  destruct (rev l); cbn in H; [discriminate|]. injection H as ->. left. reflexivity.
Qed.
Lemma strip_both c l : ~ In c l -> strip c (c :: l ++ [c]) = l.
Proof.
  intros N. unfold strip. cbn [lstrip]. rewrite Ascii.eqb_refl. destruct l as [|d l].
  - cbn [app lstrip]. rewrite Ascii.eqb_refl. reflexivity.
  - rewrite lstrip_id; [apply rstrip_last, N|]. cbn. intros H. injection H as ->. apply N. left. reflexivity.
Qed.
Lemma rstrip_id c l : ~ In c l -> rstrip c l = l.
Proof.
  intros N. unfold rstrip. rewrite lstrip_id; [apply rev_involutive|]. intros H. apply N. apply in_rev.
  destruct (rev l); cbn in H; [discriminate|]. injection H as ->. left. reflexivity.
Qed.

(** the first branches do not apply *)
Lemma other_branches key kind : other key kind ->
  shorter_name key kind =
  if prefixb (T "<built-in method ") key then Some (removelast (split_last (T "<built-in method ") key))
  else if prefixb (T "<method ") key then Some (strip "'" (split_first (T " ") (removelast (split_last (T "<method ") key))))
  else Some key.
Proof.
  intros (K1 & K2 & K3). unfold shorter_name. destruct (list_eq_dec ascii_dec kind (T "fft_as")); [contradiction|].
  rewrite (contains_false _ _ K3).
  destruct (list_eq_dec ascii_dec kind (T "pythran")) as [E|]; [|reflexivity].
  rewrite contains_false; [reflexivity|]. intros O. apply K2. split; assumption.
Qed.

Ltac not_occurs_in c N := let O := fresh in intros O; apply N; apply (occurs_in _ _ c O); cbn; tauto.

(** ** C276 *)
(** a method of a type written in C: the name of the method *)
Theorem c276_method_partial : forall n rest kind, let key := T "<method '" ++ n ++ T "' of " ++ rest ++ T ">" in
  other key kind -> ~ In " "%char n -> ~ In "'"%char n -> ~ In "<"%char n -> ~ In "<"%char rest -> shorter_name key kind = Some n.
Proof.
  intros n rest kind key O S Q L1 L2. rewrite (other_branches _ _ O).
  change (prefixb (T "<built-in method ") key) with false. change (prefixb (T "<method ") key) with true. cbv iota.
  assert (E : key = [] ++ T "<method " ++ (("'"%char :: n ++ ["'"%char]) ++ T " " ++ (T "of " ++ rest ++ T ">"))).
  { unfold key. cbn. rewrite <- !app_assoc. reflexivity. }
  rewrite E, split_last_at.
  - f_equal. replace (removelast (("'"%char :: n ++ ["'"%char]) ++ T " " ++ T "of " ++ rest ++ T ">"))
      with (("'"%char :: n ++ ["'"%char]) ++ T " " ++ T "of " ++ rest).
    + unfold split_first. rewrite split_at; [cbn [hd rev app]; apply strip_both, Q|discriminate|].
      cbn [removelast of_string]. rewrite app_nil_r. intros H. apply (occurs_in _ _ " "%char) in H; [|cbn; tauto].
      cbn [In] in H. rewrite in_app_iff in H. cbn in H. destruct H as [H|[H|[H|[]]]]; [discriminate| |discriminate]. apply S, H.
    + symmetry. replace (("'"%char :: n ++ ["'"%char]) ++ T " " ++ T "of " ++ rest ++ T ">")
        with ((("'"%char :: n ++ ["'"%char]) ++ T " " ++ T "of " ++ rest) ++ [">"%char]) by (rewrite <- !app_assoc; reflexivity).
      apply removelast_last.
  - discriminate.
  - rewrite <- contains_spec. vm_compute. discriminate.
  - intros H. apply (occurs_in _ _ "<"%char) in H; [|cbn; tauto].
    repeat (cbn [app In of_string] in H || rewrite in_app_iff in H). intuition discriminate.
Qed.

(** a function written in C *)
Theorem c276_builtin_partial : forall n kind, let key := T "<built-in method " ++ n ++ T ">" in
  other key kind -> ~ In "<"%char n -> shorter_name key kind = Some n.
Proof.
  intros n kind key O L. rewrite (other_branches _ _ O). change (prefixb (T "<built-in method ") key) with true. cbv iota.
  assert (E : key = [] ++ T "<built-in method " ++ (n ++ T ">")) by reflexivity.
  rewrite E, split_last_at.
  - f_equal. apply removelast_last.
  - discriminate.
  - rewrite <- contains_spec. vm_compute. discriminate.
  - intros H. apply (occurs_in _ _ "<"%char) in H; [|cbn; tauto]. rewrite in_app_iff in H. cbn in H. intuition discriminate.
Qed.

(** a function of a solver: the name without the package *)
Theorem c276_solver_partial : forall a n kind, let key := a ++ T "fluidsim.solvers." ++ n ++ T ">" in
  kind <> T "fft_as" -> kind <> T "pythran" -> ~ In "f"%char a -> ~ occurs (T "fluidsim.solvers.") n ->
  shorter_name key kind = Some n.
Proof.
  intros a n kind key K1 K2 A N. unfold shorter_name. destruct (list_eq_dec ascii_dec kind (T "fft_as")); [contradiction|].
  destruct (list_eq_dec ascii_dec kind (T "pythran")) as [E|]; [contradiction|].
  assert (C : contains (T "fluidsim.solvers.") key = true) by (apply contains_spec; exists a, (n ++ T ">"); reflexivity).
  rewrite C. unfold key. rewrite split_last_at.
  - f_equal. apply removelast_last.
  - discriminate.
  - apply no_first_char, A.
  - intros (x & y & E). apply N. destruct (list_eq_dec ascii_dec y []) as [->|Y].
    + exfalso. rewrite app_nil_r in E.
      assert (E2 : n ++ [">"%char] = (x ++ T "fluidsim.solvers") ++ ["."%char]) by (rewrite <- app_assoc; exact E).
      apply app_inj_tail in E2. destruct E2 as [_ E2]. discriminate.
    + destruct (exists_last Y) as (y' & z & ->).
      assert (E2 : n ++ [">"%char] = (x ++ T "fluidsim.solvers." ++ y') ++ [z]) by (rewrite <- !app_assoc; exact E).
      apply app_inj_tail in E2. destruct E2 as [E2 _]. exists x, y'. exact E2.
Qed.

(** a function of a module compiled with Pythran: the name of the function *)
Theorem c276_pythran_partial : forall a n, let key := a ++ T "_pythran." ++ n ++ T ">" in
  ~ occurs (T "_pythran.") (a ++ T "_pythran") -> ~ In "."%char n -> ~ In ">"%char n ->
  shorter_name key (T "pythran") = Some (n ++ T " (pythran)").
Proof.
  intros a n key A D G. unfold shorter_name. destruct (list_eq_dec ascii_dec (T "pythran") (T "fft_as")) as [E|_]; [discriminate|].
  destruct (list_eq_dec ascii_dec (T "pythran") (T "pythran")) as [_|E]; [|congruence].
  assert (C1 : contains (T "pythran") key = true).
  { apply contains_spec. exists (a ++ T "_"), (T "." ++ n ++ T ">"). unfold key. rewrite <- !app_assoc. reflexivity. }
  assert (C2 : contains (T "_pythran.") key = true) by (apply contains_spec; exists a, (n ++ T ">"); reflexivity).
  rewrite C1, C2. unfold key. rewrite split_last_at.
  - f_equal. f_equal. apply rstrip_last, G.
  - discriminate.
  - exact A.
  - intros H. apply (occurs_in _ _ "."%char) in H; [|cbn; tauto]. rewrite in_app_iff in H. cbn in H. intuition discriminate.
Qed.
(** a function of Pythran in another module: the complete name *)
Theorem c276_pythran_other_partial : forall n, let key := T "<built-in method " ++ n ++ T ">" in
  occurs (T "pythran") n -> ~ occurs (T "_pythran.") key -> ~ In "<"%char n -> ~ In ">"%char n ->
  shorter_name key (T "pythran") = Some n.
Proof.
  intros n key P A L G. unfold shorter_name. destruct (list_eq_dec ascii_dec (T "pythran") (T "fft_as")) as [E|_]; [discriminate|].
  destruct (list_eq_dec ascii_dec (T "pythran") (T "pythran")) as [_|E]; [|congruence].
  assert (C1 : contains (T "pythran") key = true) by (apply contains_spec, occurs_app, occurs_app_r, P).
  rewrite C1, (contains_false _ _ A).
  assert (E : key = [] ++ T "<built-in method " ++ (n ++ T ">")) by reflexivity.
  rewrite E, split_last_at.
  - f_equal. apply rstrip_last, G.
  - discriminate.
  - apply no_first_char. intros [].
  - intros H. apply (occurs_in _ _ "<"%char) in H; [|cbn; tauto]. rewrite in_app_iff in H. cbn in H. intuition discriminate.
Qed.

(** the words *)
Lemma words_one : forall l cur, Forall (fun c => is_space c = false) l -> words l cur = flush (rev l ++ cur).
Proof.
  induction l as [|c l IH]; intros cur H; [reflexivity|]. inversion H as [|? ? Hc Hl]; subst. cbn [words]. rewrite Hc, IH by exact Hl.
  cbn [rev]. rewrite <- app_assoc. reflexivity.
Qed.
Lemma words_app : forall l c r cur, Forall (fun c => is_space c = false) l -> is_space c = true ->
  words (l ++ c :: r) cur = flush (rev l ++ cur) ++ words r [].
Proof.
  induction l as [|d l IH]; intros c r cur H Hc; cbn [app words]; [rewrite Hc; reflexivity|].
  inversion H as [|? ? Hd Hl]; subst. rewrite Hd, IH by assumption. cbn [rev]. rewrite <- app_assoc. reflexivity.
Qed.
Lemma flush_rev l : l <> [] -> flush (rev l ++ []) = [l].
Proof.
  intros N. rewrite app_nil_r. unfold flush. destruct (rev l) eqn:E.
  - apply (f_equal (@length ascii)) in E. rewrite rev_length in E. destruct l; [congruence|discriminate].
  - rewrite <- E, rev_involutive. reflexivity.
Qed.
(** the methods fft_as_arg and ifft_as_arg of the classes of fft *)
Theorem c276_fft_partial : forall n rest, Forall (fun c => is_space c = false) n ->
  shorter_name (T "<method '" ++ n ++ T "' of " ++ rest) (T "fft_as") = Some n.
Proof.
  intros n rest H. unfold shorter_name. destruct (list_eq_dec ascii_dec (T "fft_as") (T "fft_as")) as [_|E]; [|congruence].
  replace (T "<method '" ++ n ++ T "' of " ++ rest) with (T "<method" ++ " "%char :: (("'"%char :: n ++ ["'"%char]) ++ " "%char :: T "of " ++ rest))
    by (cbn; rewrite <- !app_assoc; reflexivity).
  rewrite words_app by (repeat constructor). rewrite words_app.
  - rewrite !flush_rev by discriminate. cbn [app tl]. rewrite removelast_last. reflexivity.
  - constructor; [reflexivity|]. apply Forall_app. split; [exact H|repeat constructor].
  - reflexivity.
Qed.

(** a function written in Python: its name, for all the kinds *)
Theorem c276_python : forall n kind, n <> [] -> Forall (fun c => is_space c = false) n -> ~ In "<"%char n -> ~ In ">"%char n ->
  ~ In "."%char n -> shorter_name n kind = Some n.
Proof.
  intros n kind NE S L G D. unfold shorter_name. destruct (list_eq_dec ascii_dec kind (T "fft_as")) as [_|_].
  - rewrite words_one, app_nil_r by exact S. destruct n as [|c n]; [congruence|]. unfold flush.
    destruct (rev (c :: n)) eqn:E; [|reflexivity]. apply (f_equal (@length ascii)) in E. rewrite rev_length in E. discriminate.
  - assert (P : ~ occurs (T "_pythran.") n) by (intros H; apply D; apply (occurs_in _ _ "."%char H); cbn; tauto).
    assert (B : ~ occurs (T "<built-in method ") n) by (intros H; apply L; apply (occurs_in _ _ "<"%char H); cbn; tauto).
    assert (M : ~ occurs (T "<method ") n) by (intros H; apply L; apply (occurs_in _ _ "<"%char H); cbn; tauto).
    assert (F : ~ occurs (T "fluidsim.solvers.") n) by (intros H; apply D; apply (occurs_in _ _ "."%char H); cbn; tauto).
    assert (Q : forall p, ~ occurs p n -> prefixb p n = false).
    { intros p Hp. apply prefixb_false. intros [b E]. apply Hp. exists [], b. exact E. }
    rewrite (contains_false _ _ P), (contains_false _ _ F), (Q _ B), (Q _ M), (split_last_no _ _ B), (rstrip_id _ _ G).
    destruct (list_eq_dec ascii_dec kind (T "pythran")); [destruct (contains (T "pythran") n)|]; reflexivity.
Qed.

(** a name is always computed, except for a function of fft with an empty name *)
Theorem c276_error : forall key kind, shorter_name key kind = None <-> kind = T "fft_as" /\ Forall (fun c => is_space c = true) key.
Proof.
  assert (W : forall l, words l [] = [] <-> Forall (fun c => is_space c = true) l).
  { assert (W2 : forall l cur, cur <> [] -> words l cur <> []).
    { induction l as [|c l IH]; intros cur N; cbn [words]; [destruct cur; [congruence|discriminate]|].
      destruct (is_space c); [destruct cur; [congruence|discriminate]|]. apply IH. discriminate. }
    induction l as [|c l IH]; [split; [constructor|reflexivity]|]. cbn [words]. destruct (is_space c) eqn:E.
    - cbn [flush app]. rewrite IH. split; [intros H; constructor; assumption|intros H; inversion H; assumption].
    - split; [intros H; exfalso; apply (W2 l [c]) in H; [exact H|discriminate]|intros H; inversion H; congruence]. }
  intros key kind. unfold shorter_name. destruct (list_eq_dec ascii_dec kind (T "fft_as")) as [E|E].
  - rewrite <- W. destruct (words key []) as [|w [|w2 r]]; split; try discriminate; try (intros [_ H]; discriminate); auto.
  - split; [|tauto]. repeat match goal with |- context [if ?b then _ else _] => destruct b; try discriminate end.
Qed.

(** strip and rstrip remove all the characters at the ends, and only these *)
Lemma lstrip_spec c : forall l, exists a, l = a ++ lstrip c l /\ Forall (eq c) a /\ hd_error (lstrip c l) <> Some c.
Proof.
  induction l as [|d l IH]; [exists []; repeat split; [constructor|discriminate]|]. cbn [lstrip].
  destruct (Ascii.eqb_spec d c) as [->|N].
  - destruct IH as (a & E & F & H). exists (c :: a). split; [cbn [app]; rewrite <- E; reflexivity|]. split; [constructor; [reflexivity|exact F]|exact H].
  - exists []. split; [reflexivity|]. split; [constructor|]. cbn. congruence.
Qed.
Theorem c276_strip : forall c l,
  (exists b, l = rstrip c l ++ b /\ Forall (eq c) b /\ hd_error (rev (rstrip c l)) <> Some c)
  /\ (exists a b, l = a ++ strip c l ++ b /\ Forall (eq c) a /\ Forall (eq c) b
                  /\ hd_error (strip c l) <> Some c /\ hd_error (rev (strip c l)) <> Some c).
Proof.
  assert (R : forall c l, exists b, l = rstrip c l ++ b /\ Forall (eq c) b /\ hd_error (rev (rstrip c l)) <> Some c).
  { intros c l. destruct (lstrip_spec c (rev l)) as (a & E & F & H). exists (rev a). unfold rstrip. rewrite rev_involutive.
    split; [rewrite <- rev_app_distr, <- E, rev_involutive; reflexivity|]. split; [apply Forall_rev, F|exact H]. }
  intros c l. split; [apply R|]. destruct (lstrip_spec c l) as (a & E & F & H). destruct (R c (lstrip c l)) as (b & E2 & F2 & H2).
  fold (strip c l) in E2, H2. exists a, b. split; [rewrite <- E2; exact E|]. split; [exact F|]. split; [exact F2|]. split; [|exact H2].
  rewrite E2 in H. destruct (strip c l) as [|d r]; [discriminate|exact H].
Qed.

(** two functions with the same name in the chart *)
Theorem c276_refuted : exists key1 key2 kind, key1 <> key2 /\ shorter_name key1 kind = shorter_name key2 kind
  /\ shorter_name key1 kind = Some (T "copy").
Proof.
  exists (T "<method 'copy' of 'numpy.ndarray' objects>"), (T "<method 'copy' of 'dict' objects>"), (T "numpy").
  split; [discriminate|]. split; reflexivity.
Qed.

Example c276_ex : other (T "<method 'reduce' of 'numpy.ufunc' objects>") (T "numpy")
  /\ ~ occurs (T "_pythran.") (T "<built-in method operators2d" ++ T "_pythran").
Proof.
  split; [|rewrite <- contains_spec; vm_compute; discriminate]. split; [discriminate|].
  split; [intros [E _]; discriminate|]. rewrite <- contains_spec. vm_compute. discriminate.
Qed.

Print Assumptions c276_method_partial.
Print Assumptions c276_builtin_partial.
Print Assumptions c276_solver_partial.
Print Assumptions c276_pythran_partial.
Print Assumptions c276_pythran_other_partial.
Print Assumptions c276_fft_partial.
Print Assumptions c276_python.
Print Assumptions c276_error.
Print Assumptions c276_strip.
Print Assumptions c276_refuted.
