(** * Last estimated remaining duration: C248 *)

From Coq Require Import Ascii String List Bool Arith Lia.
From Verif Require Import Repr_Model Repr_Props LastDuration_Model.
Import ListNotations.
Local Open Scope nat_scope.

(** ** Specification *)
(** the line is the one of an estimation *)
Definition is_estimation (l : list ascii) : Prop := exists d, strip l = beginning ++ d.

(** a printed duration: one line, not surrounded by white spaces, without equal sign *)
Definition good_duration (d : list ascii) : Prop :=
  has newline d = false /\ has "=" d = false
  /\ (exists c r, d = c :: r /\ is_space c = false) /\ (exists c r, d = r ++ [c] /\ is_space c = false).

(** a line which comes after: without end of line, not an estimation *)
Definition other_line (l : list ascii) : Prop := has newline l = false /\ ~ is_estimation l.

(** ** Texts *)
Lemma after_app p t : after p (p ++ t) = Some t.
Proof. induction p as [|a p IH]; [destruct t; reflexivity|]. cbn. rewrite Ascii.eqb_refl. exact IH. Qed.

Lemma after_spec p : forall t r, after p t = Some r -> t = p ++ r.
Proof.
  induction p as [|a p IH]; intros t r H; [destruct t; cbn in H; injection H as <-; reflexivity|].
  destruct t as [|c t]; [discriminate|]. cbn in H. destruct (Ascii.eqb_spec a c) as [->|]; [|discriminate].
  cbn. f_equal. apply IH. exact H.
Qed.

Lemma lstrip_nospace c r : is_space c = false -> lstrip (c :: r) = c :: r.
Proof. intros H. cbn. rewrite H. reflexivity. Qed.

Lemma lstrip_spaces s t : forallb is_space s = true -> lstrip (s ++ t) = lstrip t.
Proof.
  induction s as [|c s IH]; intros H; [reflexivity|]. cbn in *. apply andb_true_iff in H as [A B]. rewrite A. auto.
Qed.

Lemma forallb_rev {A} (p : A -> bool) l : forallb p (rev l) = forallb p l.
Proof.
  induction l as [|a l IH]; [reflexivity|]. cbn. rewrite forallb_app, IH. cbn. destruct (p a), (forallb p l); reflexivity.
Qed.

Lemma strip_spaces s t s' : forallb is_space s = true -> forallb is_space s' = true ->
  (exists c r, t = c :: r /\ is_space c = false) -> (exists c r, t = r ++ [c] /\ is_space c = false) ->
  strip (s ++ t ++ s') = t.
Proof.
  intros S S' (c & r & E & C) (e & q & F & C'). unfold strip.
  rewrite lstrip_spaces by exact S. replace (lstrip (t ++ s')) with (t ++ s').
  2:{ rewrite E. cbn [app]. rewrite lstrip_nospace by exact C. reflexivity. }
  rewrite rev_app_distr, lstrip_spaces by (rewrite forallb_rev; exact S').
  rewrite F, rev_app_distr. cbn [rev app]. rewrite lstrip_nospace by exact C'.
  cbn [rev]. rewrite rev_involutive. reflexivity.
Qed.

Lemma strip_id t : (exists c r, t = c :: r /\ is_space c = false) -> (exists c r, t = r ++ [c] /\ is_space c = false) -> strip t = t.
Proof. intros A B. rewrite <- (strip_spaces [] t [] eq_refl eq_refl A B) at 2. rewrite app_nil_r. reflexivity. Qed.

Lemma cut_cons sep c r : cut sep (c :: r) =
  match after sep (c :: r) with Some r => ([], Some r) | None => let '(a, b) := cut sep r in (c :: a, b) end.
Proof. reflexivity. Qed.

Lemma after_equal_none t : has "=" t = false -> after equal_sign t = None.
Proof.
  intros H. destruct (after equal_sign t) as [r|] eqn:E; [|reflexivity].
  apply after_spec in E. rewrite E in H. exfalso. cbn in H. discriminate.
Qed.

Lemma cut_none t : has "=" t = false -> cut equal_sign t = (t, None).
Proof.
  induction t as [|c t IH]; intros H; [reflexivity|].
  rewrite cut_cons, (after_equal_none (c :: t) H). rewrite has_cons in H. apply orb_false_iff in H as [_ H].
  rewrite (IH H). reflexivity.
Qed.

Lemma cut_line d : cut equal_sign (beginning ++ equal_sign ++ d) = (beginning, Some d).
Proof. reflexivity. Qed.

Lemma split_cons_sep c a b : has c a = false -> split c (a ++ c :: b) = a :: split c b.
Proof.
  induction a as [|x a IH]; intros H.
  - cbn. rewrite Ascii.eqb_refl. reflexivity.
  - rewrite has_cons in H. apply orb_false_iff in H as [A B]. cbn [app split].
    rewrite Ascii.eqb_sym in A. rewrite A, (IH B). reflexivity.
Qed.

(** the lines of a text made of lines *)
Lemma split_join c l x : (forall y, In y (x :: l) -> has c y = false) -> split c (join [c] (x :: l)) = x :: l.
Proof.
  revert x. induction l as [|y l IH]; intros x H.
  - cbn [join]. apply split_none. apply H. left; reflexivity.
  - change (join [c] (x :: y :: l)) with (x ++ c :: join [c] (y :: l)).
    rewrite split_cons_sep by (apply H; left; reflexivity). rewrite IH; [reflexivity|].
    intros z Hz. apply H. right. exact Hz.
Qed.

Lemma split_last c p t : exists q w, forall x, has c x = false -> split c (p ++ c :: t) = split c p ++ split c t /\ split c p = q ++ [w].
Proof.
  exists (removelast (split c p)), (last (split c p) []). intros x _. split.
  - induction p as [|y p IH].
    + cbn. rewrite Ascii.eqb_refl. reflexivity.
    + cbn [app split]. rewrite IH. destruct (Ascii.eqb y c); [reflexivity|].
      destruct (split c p) as [|w l] eqn:E; [destruct (split_nonempty c p E)|reflexivity].
  - apply app_removelast_last. apply split_nonempty.
Qed.

Lemma split_mid c p t : split c (p ++ c :: t) = split c p ++ split c t.
Proof. destruct (split_last c p t) as (q & w & H). exact (proj1 (H [] eq_refl)). Qed.

Lemma search_skip l r : Forall other_line l -> search (l ++ r) = search r.
Proof.
  induction l as [|x l IH]; intros H; [reflexivity|]. inversion H as [|? ? [_ A] B]; subst.
  cbn [app search]. destruct (after beginning (strip x)) as [d|] eqn:E; [|auto].
  exfalso. apply A. exists d. apply after_spec. exact E.
Qed.

Lemma search_estimation s d s' r : forallb is_space s = true -> forallb is_space s' = true -> good_duration d ->
  search ((s ++ (beginning ++ equal_sign ++ d) ++ s') :: r) = Value d.
Proof.
  intros S S' (N & Q & (c & q & E & C) & (e & q' & F & C')). cbn [search].
  rewrite strip_spaces.
  - rewrite after_app. unfold second_part. rewrite cut_line. rewrite (cut_none d Q). cbn [fst].
    rewrite strip_id; [reflexivity|exists c, q; auto|exists e, q'; auto].
  - exact S.
  - exact S'.
  - eexists _, _. split; [reflexivity|reflexivity].
  - exists e, (beginning ++ equal_sign ++ q'). split; [rewrite F, !app_assoc; reflexivity|exact C'].
Qed.

(** the end of the file: an estimation and the lines which come after *)
Definition last_lines (s d s' : list ascii) (others : list (list ascii)) : list ascii :=
  join [newline] ((s ++ (beginning ++ equal_sign ++ d) ++ s') :: others).

Definition blanks (s : list ascii) : Prop := forallb is_space s = true /\ has newline s = false.

Lemma has_newline_line s d s' : blanks s -> blanks s' -> good_duration d ->
  has newline (s ++ (beginning ++ equal_sign ++ d) ++ s') = false.
Proof.
  intros [_ A] [_ B] (C & _). rewrite !has_app, A, B, C. reflexivity.
Qed.

Lemma split_last_lines s d s' others : blanks s -> blanks s' -> good_duration d -> Forall other_line others ->
  split newline (last_lines s d s' others) = (s ++ (beginning ++ equal_sign ++ d) ++ s') :: others.
Proof.
  intros A B C D. apply split_join. intros y [<-|H].
  - apply has_newline_line; assumption.
  - rewrite Forall_forall in D. apply D. exact H.
Qed.

Lemma search_lines s d s' others before : blanks s -> blanks s' -> good_duration d -> Forall other_line others ->
  search (rev (before ++ (s ++ (beginning ++ equal_sign ++ d) ++ s') :: others)) = Value d.
Proof.
  intros A B C D. rewrite rev_app_distr. cbn [rev]. rewrite <- app_assoc.
  rewrite search_skip by (apply Forall_rev; exact D). cbn [app]. apply search_estimation; [apply A|apply B|exact C].
Qed.

(** the duration which is returned is the one of the last estimation, if it is in the 3000 last characters *)
Theorem c248_last_partial : forall before s d s' others,
  blanks s -> blanks s' -> good_duration d -> Forall other_line others ->
  length (last_lines s d s' others) <= 3000 ->
  get_last_estimated_remaining_duration (Some (before ++ newline :: last_lines s d s' others)) = Value d
  /\ get_last_estimated_remaining_duration (Some (last_lines s d s' others)) = Value d.
Proof.
  intros before s d s' others A B C D L. split; unfold get_last_estimated_remaining_duration.
  - set (t := before ++ newline :: last_lines s d s' others).
    set (n := length t - min (length t) 3000).
    assert (E : length t = length before + S (length (last_lines s d s' others))) by (unfold t; rewrite app_length; reflexivity).
    destruct (le_lt_dec n (length before)) as [G|G].
    + unfold t. rewrite skipn_app. replace (n - length before) with 0 by lia. cbn [skipn].
      rewrite split_mid, split_last_lines by assumption. apply search_lines; assumption.
    + assert (n = S (length before)) by (unfold n in *; lia).
      unfold t. rewrite skipn_app, skipn_all2 by lia. replace (n - length before) with 1 by lia. cbn [skipn app].
      rewrite split_last_lines by assumption. apply (search_lines s d s' others []); assumption.
  - rewrite Nat.min_l by exact L. rewrite Nat.sub_diag. cbn [skipn].
    rewrite split_last_lines by assumption. apply (search_lines s d s' others []); assumption.
Qed.

(** the errors: no file; no estimation in the 3000 last characters *)
Theorem c248_errors : get_last_estimated_remaining_duration None = ValueError
  /\ forall t, (forall l, In l (split newline (last_n (min (length t) 3000) t)) -> ~ is_estimation l) ->
     get_last_estimated_remaining_duration (Some t) = RuntimeError.
Proof.
  split; [reflexivity|]. intros t H. unfold get_last_estimated_remaining_duration.
  fold (last_n (min (length t) 3000) t). set (l := split _ _) in *.
  assert (G : forall l, (forall x, In x l -> ~ is_estimation x) -> search l = RuntimeError).
  { clear. induction l as [|x l IH]; intros H; [reflexivity|]. cbn [search].
    destruct (after beginning (strip x)) as [d|] eqn:E.
    - exfalso. apply (H x (or_introl eq_refl)). exists d. apply after_spec. exact E.
    - apply IH. intros y Hy. apply H. right. exact Hy. }
  apply G. intros x Hx. apply H. apply in_rev. exact Hx.
Qed.

(** when more than 3000 characters have been printed after the last estimation, it is not found *)
Theorem c248_refuted : exists t d others,
  t = last_lines (txt "              ") d [] others /\ good_duration d /\ Forall other_line others
  /\ get_last_estimated_remaining_duration (Some t) = RuntimeError.
Proof.
  exists (last_lines (txt "              ") (txt "0:12:00") [] [repeat "x"%char 3000]), (txt "0:12:00"), [repeat "x"%char 3000].
  assert (O : other_line (repeat "x"%char 3000)).
  { split.
    - generalize 3000. induction n; [reflexivity|]. cbn [repeat]. rewrite has_cons, IHn. reflexivity.
    - intros [d E]. change (repeat "x"%char 3000) with ("x"%char :: repeat "x"%char 2999) in E. rewrite strip_id in E.
      + discriminate.
      + exists "x"%char, (repeat "x"%char 2999). split; reflexivity.
      + exists "x"%char, (repeat "x"%char 2999). split; [|reflexivity]. apply (repeat_cons 2999 "x"%char). }
  split; [reflexivity|]. split; [|split].
  - split; [reflexivity|]. split; [reflexivity|]. split; [exists "0"%char, (txt ":12:00")|exists "0"%char, (txt "0:12:0")]; split; reflexivity.
  - constructor; [exact O|constructor].
  - apply c248_errors. set (t := last_lines _ _ _ _).
    assert (L : length t = 53 + 3000) by (unfold t; vm_compute; reflexivity).
    rewrite Nat.min_r by (rewrite L; lia). unfold last_n. rewrite L. replace (53 + 3000 - 3000) with 53 by lia.
    assert (E : skipn 53 t = repeat "x"%char 3000) by reflexivity. rewrite E.
    rewrite split_none by apply O. intros l [<-|[]]. apply O.
Qed.

Example c248_ex : get_last_estimated_remaining_duration
  (Some (txt "it = 1" ++ newline :: printed (txt "1 day, 0:12:00") ++ newline :: txt "save state_phys" ++ [newline]))
  = Value (txt "1 day, 0:12:00").
Proof. vm_compute. reflexivity. Qed.

Example c248_ex_hypotheses : good_duration (txt "1 day, 0:12:00") /\ blanks (txt "              ") /\ other_line (txt "save state_phys")
  /\ other_line [] /\ (forall d, printed d = txt "              " ++ (beginning ++ equal_sign ++ d) ++ []).
Proof.
  split; [|split; [|split; [|split]]].
  - split; [reflexivity|]. split; [reflexivity|]. split; [exists "1"%char, (txt " day, 0:12:00")|exists "0"%char, (txt "1 day, 0:12:0")]; split; reflexivity.
  - split; reflexivity.
  - split; [reflexivity|]. intros [d E]. vm_compute in E. discriminate.
  - split; [reflexivity|]. intros [d E]. vm_compute in E. discriminate.
  - intros d. rewrite app_nil_r. reflexivity.
Qed.

(** the white spaces are those of Python (ASCII), the lines are separated by line feeds *)
Theorem c248_characters : (forall c, is_space c = true <-> In (nat_of_ascii c) [9; 10; 11; 12; 13; 28; 29; 30; 31; 32]) /\ newline = "010"%char.
Proof.
  split; [|reflexivity]. intros c. unfold is_space. rewrite orb_true_iff, !andb_true_iff, !Nat.leb_le. split.
  - intros [[A B]|[A B]]; cbn; lia.
  - intros I. repeat (destruct I as [E|I]; [lia|]). destruct I.
Qed.

Print Assumptions c248_characters.
Print Assumptions c248_last_partial.
Print Assumptions c248_errors.
Print Assumptions c248_refuted.
