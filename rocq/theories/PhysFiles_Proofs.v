(** Lemmas on the files of the physical state *)

From Coq Require Import String Ascii List Arith Bool QArith Qabs Lqa Lia Permutation ZifyNat.
From Verif Require Import PhysFiles_Model PhysFiles_Spec.
From Coq Require Import Qminmax.
Import ListNotations.
Local Open Scope nat_scope.

(** ** digits *)

Lemma pow10_pos k : 0 < 10 ^ k.
Proof. induction k; simpl; lia. Qed.

Lemma mod_pow_S n k : n mod 10 ^ S k = ((n / 10 ^ k) mod 10) * 10 ^ k + n mod 10 ^ k.
Proof.
  pose proof (pow10_pos k).
  replace (10 ^ S k) with (10 ^ k * 10) by (simpl; lia).
  rewrite Nat.mod_mul_r by lia. lia.
Qed.

Lemma digits_cons k n : digits (S k) n = (48 + (n / 10 ^ k) mod 10) :: digits k n.
Proof.
  revert n. induction k; intro n.
  - cbn [digits app Nat.pow]. rewrite Nat.div_1_r. reflexivity.
  - change (digits (S (S k)) n) with (digits (S k) (n / 10) ++ [48 + n mod 10]).
    rewrite IHk. cbn [app]. rewrite Nat.div_div by (pose proof (pow10_pos k); lia). reflexivity.
Qed.

Lemma digits_length k n : length (digits k n) = k.
Proof. induction k; [reflexivity|]. rewrite digits_cons. cbn [length]. auto. Qed.

Lemma digits_are_digits k n : Forall (fun c => is_digit c = true) (digits k n).
Proof.
  induction k; [constructor|]. rewrite digits_cons. constructor; auto.
  unfold is_digit. pose proof (Nat.mod_upper_bound (n / 10 ^ k) 10).
  rewrite Bool.andb_true_iff, !Nat.leb_le. lia.
Qed.

Lemma value_digits_acc k n acc :
  fold_left (fun a c => a * 10 + (c - 48)) (digits k n) acc = acc * 10 ^ k + n mod 10 ^ k.
Proof.
  revert acc. induction k; intro acc.
  - cbn [digits fold_left Nat.pow]. rewrite Nat.mod_1_r. lia.
  - rewrite digits_cons. cbn [fold_left]. rewrite IHk, mod_pow_S.
    replace (48 + (n / 10 ^ k) mod 10 - 48) with ((n / 10 ^ k) mod 10) by lia.
    replace (10 ^ S k) with (10 * 10 ^ k) by reflexivity. ring.
Qed.

Lemma value_digits k n : n < 10 ^ k -> value (digits k n) = n.
Proof. intro H. unfold value. rewrite value_digits_acc, Nat.mod_small by exact H. reflexivity. Qed.

Lemma ndig_pos f n : 1 <= ndig_fuel f n.
Proof. destruct f; cbn [ndig_fuel]; [lia|destruct (Nat.ltb n 10); lia]. Qed.

Lemma ndig_bound_fuel f n : n <= f -> n < 10 ^ ndig_fuel f n.
Proof.
  revert n. induction f; intros n H.
  - assert (n = 0) by lia. subst. cbn. lia.
  - cbn [ndig_fuel]. destruct (Nat.ltb_spec n 10) as [L|L].
    + cbn. lia.
    + assert (Q : n / 10 <= f) by (apply Nat.lt_succ_r; apply Nat.lt_le_trans with n; [apply Nat.div_lt; lia|lia]).
      specialize (IHf _ Q). rewrite Nat.pow_succ_r'.
      pose proof (Nat.div_mod n 10 ltac:(lia)). pose proof (Nat.mod_upper_bound n 10 ltac:(lia)). lia.
Qed.

Lemma ndig_bound n : n < 10 ^ ndig n.
Proof. apply ndig_bound_fuel. lia. Qed.

Lemma ndig_minimal_fuel f n k : 1 <= k -> n < 10 ^ k -> n <= f -> ndig_fuel f n <= k.
Proof.
  revert n k. induction f; intros n k K H L; cbn [ndig_fuel]; [lia|].
  destruct (Nat.ltb_spec n 10) as [D|D]; [lia|].
  destruct k as [|k]; [lia|].
  destruct k as [|k]; [cbn in H; lia|].
  assert (ndig_fuel f (n / 10) <= S k); [|lia].
  apply IHf; [lia| |].
  - apply Nat.div_lt_upper_bound; [lia|]. rewrite <- Nat.pow_succ_r'. exact H.
  - apply Nat.lt_succ_r. apply Nat.lt_le_trans with n; [apply Nat.div_lt; lia|lia].
Qed.

Lemma ndig_minimal n k : 1 <= k -> n < 10 ^ k -> ndig n <= k.
Proof. intros. apply ndig_minimal_fuel; auto. Qed.

Lemma ndig_max_bound n k : n < 10 ^ Nat.max (ndig n) k.
Proof.
  eapply Nat.lt_le_trans; [apply ndig_bound|]. apply Nat.pow_le_mono_r; lia.
Qed.

Lemma value_dec n : value (dec n) = n.
Proof. apply value_digits, ndig_bound. Qed.

(** lexicographic order of digits of the same length *)
Lemma lex_app p a b : lex_ltb (p ++ a) (p ++ b) = lex_ltb a b.
Proof.
  induction p as [|x p IH]; [reflexivity|]. cbn [app lex_ltb].
  rewrite Nat.ltb_irrefl, Nat.eqb_refl. exact IH.
Qed.

Lemma lex_digits k n1 n2 s1 s2 :
  n1 mod 10 ^ k < n2 mod 10 ^ k -> lex_ltb (digits k n1 ++ s1) (digits k n2 ++ s2) = true.
Proof.
  induction k; intro H.
  - cbn [Nat.pow] in H. rewrite !Nat.mod_1_r in H. lia.
  - rewrite !mod_pow_S in H. rewrite !digits_cons. cbn [app lex_ltb].
    pose proof (Nat.mod_upper_bound n1 (10 ^ k) ltac:(pose proof (pow10_pos k); lia)).
    pose proof (Nat.mod_upper_bound n2 (10 ^ k) ltac:(pose proof (pow10_pos k); lia)).
    destruct (Nat.lt_trichotomy ((n1 / 10 ^ k) mod 10) ((n2 / 10 ^ k) mod 10)) as [L|[E|L]].
    + replace (Nat.ltb _ _) with true; [reflexivity|]. symmetry. apply Nat.ltb_lt. lia.
    + rewrite E. rewrite Nat.ltb_irrefl, Nat.eqb_refl. cbn [orb andb]. apply IHk. rewrite E in H. lia.
    + exfalso.
      assert ((n2 / 10 ^ k) mod 10 * 10 ^ k + 10 ^ k <= (n1 / 10 ^ k) mod 10 * 10 ^ k).
      { replace ((n2 / 10 ^ k) mod 10 * 10 ^ k + 10 ^ k) with (((n2 / 10 ^ k) mod 10 + 1) * 10 ^ k) by ring.
        apply Nat.mul_le_mono_r. lia. }
      lia.
Qed.

Lemma digits_mod_eq k n1 n2 : n1 mod 10 ^ k = n2 mod 10 ^ k -> digits k n1 = digits k n2.
Proof.
  induction k; intro H; [reflexivity|].
  rewrite !mod_pow_S in H.
  pose proof (Nat.mod_upper_bound n1 (10 ^ k) ltac:(pose proof (pow10_pos k); lia)).
  pose proof (Nat.mod_upper_bound n2 (10 ^ k) ltac:(pose proof (pow10_pos k); lia)).
  assert (E : (n1 / 10 ^ k) mod 10 = (n2 / 10 ^ k) mod 10 /\ n1 mod 10 ^ k = n2 mod 10 ^ k).
  { rewrite (Nat.mul_comm _ (10 ^ k)), (Nat.mul_comm ((n2 / _) mod _) (10 ^ k)) in H.
    pose proof (Nat.div_mod_unique (10 ^ k) _ _ _ _ H0 H1 H). tauto. }
  rewrite !digits_cons. destruct E as [-> E]. f_equal. auto.
Qed.

(** the text of a time *)
Definition text (k ms : nat) : name := digits k (ms / 1000) ++ [dot] ++ digits 3 ms.

Definition kdig (w ms : nat) : nat := Nat.max (ndig (ms / 1000)) (w - 4).

Lemma time_text_text w ms : time_text w ms = text (kdig w ms) ms.
Proof. reflexivity. Qed.

Lemma text_length k ms : length (text k ms) = k + 4.
Proof. unfold text. rewrite !app_length, !digits_length. cbn [length]. lia. Qed.

Lemma lex_text k m1 m2 s1 s2 :
  m1 / 1000 < 10 ^ k -> m2 / 1000 < 10 ^ k -> m1 < m2 ->
  lex_ltb (text k m1 ++ s1) (text k m2 ++ s2) = true.
Proof.
  intros B1 B2 H. unfold text. rewrite <- !app_assoc.
  destruct (Nat.lt_ge_cases (m1 / 1000) (m2 / 1000)) as [L|L].
  - apply lex_digits. rewrite !Nat.mod_small by assumption. exact L.
  - assert (E : m1 / 1000 = m2 / 1000).
    { pose proof (Nat.div_le_mono m1 m2 1000 ltac:(lia)). lia. }
    rewrite E, lex_app, lex_app. apply lex_digits. change (10 ^ 3) with 1000.
    pose proof (Nat.div_mod m1 1000 ltac:(lia)). pose proof (Nat.div_mod m2 1000 ltac:(lia)). lia.
Qed.

(** ** reading names *)

Lemma take_digits_app l c r :
  Forall (fun x => is_digit x = true) l -> is_digit c = false ->
  take_digits (l ++ c :: r) = (l, c :: r).
Proof.
  intros H C. induction l as [|x l IH]; cbn [app take_digits].
  - rewrite C. reflexivity.
  - inversion H; subst. rewrite H2, IH by assumption. reflexivity.
Qed.

Lemma take_digits_all l : Forall (fun x => is_digit x = true) l -> take_digits l = (l, []).
Proof.
  induction l as [|x l IH]; intro H; [reflexivity|]. inversion H; subst. cbn [take_digits].
  rewrite H2, IH by assumption. reflexivity.
Qed.

Lemma value_text k ms : ms / 1000 < 10 ^ k -> value (digits k (ms / 1000)) * 1000 + value (digits 3 ms) = ms.
Proof.
  intro H. rewrite value_digits by exact H. unfold value. rewrite value_digits_acc.
  change (10 ^ 3) with 1000. pose proof (Nat.div_mod ms 1000 ltac:(lia)). lia.
Qed.

Lemma before_digits n sep l r :
  Forall (fun x => is_digit x = true) l -> is_digit sep = false ->
  before n sep (l ++ r) = l ++ before n sep r.
Proof.
  intros H S. induction l as [|x l IH]; [reflexivity|]. inversion H; subst. cbn [app before].
  replace (Nat.eqb x sep) with false. { rewrite IH by assumption. reflexivity. }
  symmetry. apply Nat.eqb_neq. intros ->. congruence.
Qed.

Lemma it_text_split it :
  exists tl, it_text it = tl /\ before 0 dot tl = tl /\ before 0 underscore tl = [].
Proof.
  exists (it_text it). split; [reflexivity|]. destruct it as [i|]; [|split; reflexivity].
  unfold it_text. split; [|reflexivity].
  change (lit "_it=") with [95; 105; 116; 61]. cbn [app before Nat.eqb dot].
  rewrite <- (app_nil_r (dec i)) at 1. unfold dec.
  rewrite before_digits; [|apply digits_are_digits|reflexivity].
  cbn [before]. rewrite app_nil_r. reflexivity.
Qed.

Lemma before_app_stop n sep a r :
  before 0 sep a = a -> before n sep (a ++ r) = a ++ before n sep r.
Proof.
  induction a as [|x a IH]; intro H; [reflexivity|]. cbn [app before] in *.
  destruct (Nat.eqb x sep); [discriminate|]. injection H as H. rewrite IH by exact H. reflexivity.
Qed.

Lemma digits_S k n : k <> 0 -> exists c r, digits k n = c :: r.
Proof. destruct k; [congruence|]. intros _. rewrite digits_cons. eauto. Qed.

Lemma kdig_pos w ms : kdig w ms <> 0.
Proof. unfold kdig. pose proof (ndig_pos (ms / 1000) (ms / 1000)). unfold ndig. lia. Qed.

Lemma kdig_bound w ms : ms / 1000 < 10 ^ kdig w ms.
Proof. apply ndig_max_bound. Qed.

Lemma float_text k ms : k <> 0 -> ms / 1000 < 10 ^ k -> float_ms (text k ms) = Some ms.
Proof.
  intros K B. unfold float_ms, text. cbn [app].
  rewrite take_digits_app; [|apply digits_are_digits|reflexivity].
  destruct (digits_S k (ms / 1000) K) as (c & r & E). rewrite E.
  rewrite take_digits_all by apply digits_are_digits. rewrite digits_length.
  cbn [Nat.eqb dot length andb]. rewrite <- E. f_equal. apply value_text; exact B.
Qed.

Lemma skip_prefix r : skipn 12 (lit "state_phys_t" ++ r) = r.
Proof. reflexivity. Qed.

Lemma time_of_state_name w ms it : time_of_name (state_name w ms it) = Some ms.
Proof.
  unfold time_of_name, state_name. rewrite skip_prefix, time_text_text.
  destruct (it_text_split it) as (tl & E & D & U). rewrite E.
  assert (T : before 1 dot (text (kdig w ms) ms ++ tl ++ lit ".nc") = text (kdig w ms) ms ++ tl).
  { unfold text. rewrite <- !app_assoc.
    rewrite before_digits; [|apply digits_are_digits|reflexivity].
    cbn [app before]. rewrite Nat.eqb_refl.
    rewrite before_digits; [|apply digits_are_digits|reflexivity].
    rewrite before_app_stop by exact D. change (before 0 dot (lit ".nc")) with (@nil nat).
    rewrite app_nil_r. reflexivity. }
  rewrite T.
  assert (F : before 0 underscore (text (kdig w ms) ms ++ tl) = text (kdig w ms) ms).
  { unfold text. rewrite <- !app_assoc.
    rewrite before_digits; [|apply digits_are_digits|reflexivity].
    cbn [app before]. change (Nat.eqb dot underscore) with false. cbv iota.
    rewrite before_digits; [|apply digits_are_digits|reflexivity].
    rewrite U, app_nil_r. reflexivity. }
  rewrite F. apply float_text; [apply kdig_pos|apply kdig_bound].
Qed.

(** regular expression *)
Lemma search_skip c l : is_digit c = false -> search (c :: l) = search l.
Proof. intro H. cbn [search take_digits]. rewrite H. reflexivity. Qed.

Lemma search_state_name w ms it : search (state_name w ms it) = Some ms.
Proof.
  unfold state_name. change (lit "state_phys_t") with [115;116;97;116;101;95;112;104;121;115;95;116].
  cbn [app]. do 12 (rewrite search_skip by reflexivity).
  rewrite time_text_text. unfold text. rewrite <- !app_assoc. cbn [app].
  set (k := kdig w ms).
  assert (R : exists c r, it_text it ++ lit ".nc" = c :: r /\ is_digit c = false).
  { destruct it; cbn; eauto. }
  destruct R as (c & r & R & C). rewrite R.
  destruct (digits_S k (ms / 1000) (kdig_pos w ms)) as (x & y & E).
  assert (T1 : take_digits (digits k (ms / 1000) ++ dot :: digits 3 ms ++ c :: r)
               = (digits k (ms / 1000), dot :: digits 3 ms ++ c :: r)).
  { apply take_digits_app; [apply digits_are_digits|reflexivity]. }
  assert (T2 : take_digits (digits 3 ms ++ c :: r) = (digits 3 ms, c :: r)).
  { apply take_digits_app; [apply digits_are_digits|exact C]. }
  pose proof (value_text k ms (kdig_bound w ms)) as Vt.
  rewrite E in *. cbn [app] in T1 |- *.
  cbn [search]. rewrite T1. rewrite T2. rewrite digits_length. cbn [Nat.eqb dot negb andb].
  rewrite Vt. reflexivity.
Qed.

(** the iteration in a name *)
Definition it_of_name (n : name) : option nat :=
  let rest := skipn (length (before 0 underscore (skipn 12 n))) (skipn 12 n) in
  match rest with
  | [] => None
  | _ => Some (value (fst (take_digits (skipn 4 rest))))
  end.

Lemma skipn_length_app {A} (a b : list A) : skipn (length a) (a ++ b) = b.
Proof. induction a; auto. Qed.

Lemma it_of_state_name w ms it : it_of_name (state_name w ms it) = it.
Proof.
  unfold it_of_name, state_name. rewrite skip_prefix, time_text_text.
  assert (F : forall tl, before 0 underscore (text (kdig w ms) ms ++ tl)
                         = text (kdig w ms) ms ++ before 0 underscore tl).
  { intro tl. unfold text. rewrite <- !app_assoc.
    rewrite before_digits; [|apply digits_are_digits|reflexivity].
    cbn [app before]. change (Nat.eqb dot underscore) with false. cbv iota.
    rewrite before_digits; [|apply digits_are_digits|reflexivity]. reflexivity. }
  rewrite F. destruct it as [i|].
  - unfold it_text. change (before 0 underscore ((lit "_it=" ++ dec i) ++ lit ".nc")) with (@nil nat).
    rewrite app_nil_r, skipn_length_app, <- app_assoc.
    change (lit "_it=" ++ dec i ++ lit ".nc") with (95 :: 105 :: 116 :: 61 :: dec i ++ lit ".nc").
    cbn [skipn]. unfold dec at 1. change (lit ".nc") with (dot :: [110; 99]).
    rewrite take_digits_app; [|apply digits_are_digits|reflexivity].
    cbn [fst]. f_equal. apply value_dec.
  - cbn [it_text app]. change (before 0 underscore (lit ".nc")) with (lit ".nc").
    rewrite <- (app_nil_r (text (kdig w ms) ms ++ lit ".nc")) at 2.
    rewrite skipn_length_app. reflexivity.
Qed.

Lemma it_of_state_name_inj w ms w' ms' it it' :
  state_name w ms it = state_name w' ms' it' -> it = it'.
Proof. intro H. rewrite <- (it_of_state_name w ms it), H. apply it_of_state_name. Qed.

(** ** directories *)

Section Dir.
Variable V : Type.
Notation dir := (list (name * file V)).

Lemma name_eqb_spec a b : reflect (a = b) (name_eqb a b).
Proof. unfold name_eqb. destruct (list_eq_dec Nat.eq_dec a b); constructor; auto. Qed.

Lemma lookup_write_same d n f : lookup V (write V d n f) n = Some f.
Proof. cbn [write lookup]. destruct (name_eqb_spec n n); congruence. Qed.

Lemma lookup_write_other d n f m : m <> n -> lookup V (write V d n f) m = lookup V d m.
Proof.
  intro H. unfold write. cbn [lookup]. destruct (name_eqb_spec m n) as [E|_]; [congruence|].
  induction d as [|[k g] d IH]; [reflexivity|].
  cbn [filter fst]. destruct (name_eqb_spec n k) as [E|E]; cbn [negb lookup].
  - subst k. destruct (name_eqb_spec m n); [congruence|exact IH].
  - destruct (name_eqb_spec m k); [reflexivity|exact IH].
Qed.

Variable ms : Q -> nat.

(** the file written by a save, if any *)
Lemma save_cases wi w t it v d :
  names_tell d ->
  let d' := save V ms wi w t it v d in
  (d' = d /\ exists n f, lookup V d n = Some f /\ f_it V f = it)
  \/ (exists w' i, d' = write V d (state_name w' (ms t) i) (mkFile V it t v)
      /\ (i = None \/ i = Some it)
      /\ match lookup V d (state_name w' (ms t) i) with None => True | Some f => f_it V f = it end).
Proof.
  intros T d'. unfold d', save.
  set (i := if wi then Some it else None).
  assert (I : i = None \/ i = Some it) by (unfold i; destruct wi; auto).
  destruct (lookup V d (state_name w (ms t) i)) as [f|] eqn:E.
  - destruct (Nat.eqb_spec (f_it V f) it) as [H|H].
    + left. split; [reflexivity|]. eauto.
    + right. exists 7, (Some it). split; [reflexivity|]. split; [auto|].
      destruct (lookup V d (state_name 7 (ms t) (Some it))) as [g|] eqn:G; [|exact Logic.I].
      exact (T _ _ _ _ G).
  - right. exists w, i. split; [reflexivity|]. split; [auto|]. rewrite E. exact Logic.I.
Qed.

Lemma save_names_tell wi w t it v d : names_tell d -> names_tell (save V ms wi w t it v d).
Proof.
  intros T. destruct (save_cases wi w t it v d T) as [[-> _]|(w' & i & -> & I & _)]; [exact T|].
  intros w2 m2 i2 f H.
  destruct (list_eq_dec Nat.eq_dec (state_name w2 m2 (Some i2)) (state_name w' (ms t) i)) as [E|E].
  - rewrite E, lookup_write_same in H. injection H as <-. cbn [f_it].
    apply it_of_state_name_inj in E. destruct I as [-> | ->]; congruence.
  - rewrite lookup_write_other in H by exact E. exact (T _ _ _ _ H).
Qed.

Lemma save_keeps wi w t it v d n f :
  names_tell d -> lookup V d n = Some f ->
  lookup V (save V ms wi w t it v d) n = Some f
  \/ (f_it V f = it /\ lookup V (save V ms wi w t it v d) n = Some (mkFile V it t v)).
Proof.
  intros T L. destruct (save_cases wi w t it v d T) as [[-> _]|(w' & i & -> & I & P)]; [auto|].
  destruct (list_eq_dec Nat.eq_dec n (state_name w' (ms t) i)) as [E|E].
  - right. subst n. rewrite L in P. split; [exact P|apply lookup_write_same].
  - left. rewrite lookup_write_other by exact E. exact L.
Qed.

Lemma save_there wi w t it v d :
  names_tell d ->
  exists n f, lookup V (save V ms wi w t it v d) n = Some f /\ f_it V f = it
              /\ (f = mkFile V it t v \/ lookup V d n = Some f).
Proof.
  intros T. destruct (save_cases wi w t it v d T) as [[-> (n & f & L & I)]|(w' & i & -> & I & P)].
  - exists n, f. auto.
  - exists (state_name w' (ms t) i), (mkFile V it t v). rewrite lookup_write_same. auto.
Qed.

End Dir.

(** ** sort *)

Lemma insert_perm n l : Permutation (n :: l) (insert n l).
Proof.
  induction l as [|m l IH]; cbn [insert]; [auto|].
  destruct (lex_ltb m n); [|auto].
  apply perm_trans with (m :: n :: l); [apply perm_swap|apply perm_skip; exact IH].
Qed.

Lemma sorted_perm l : Permutation l (sorted l).
Proof.
  induction l as [|n l IH]; cbn [sorted fold_right]; [auto|].
  apply perm_trans with (n :: sorted l); [auto|apply insert_perm].
Qed.

Lemma sorted_in l n : In n (sorted l) <-> In n l.
Proof. split; apply Permutation_in; [apply Permutation_sym|]; apply sorted_perm. Qed.

Lemma lex_trans a b c : lex_ltb a b = true -> lex_ltb b c = true -> lex_ltb a c = true.
Proof.
  revert b c. induction a as [|x a IH]; intros [|y b] [|z c]; cbn [lex_ltb]; try congruence.
  rewrite !Bool.orb_true_iff, !Bool.andb_true_iff, !Nat.ltb_lt, !Nat.eqb_eq.
  intros [H1|[H1 H1']] [H2|[H2 H2']]; try (left; lia). right. split; [lia|]. eauto.
Qed.

Lemma lex_total a b : lex_ltb a b = false -> lex_ltb b a = false -> a = b.
Proof.
  revert b. induction a as [|x a IH]; intros [|y b]; cbn [lex_ltb]; try congruence.
  rewrite !Bool.orb_false_iff, !Bool.andb_false_iff, !Nat.ltb_ge, !Nat.eqb_neq.
  intros [H1 H2] [H3 H4]. assert (x = y) by lia. subst. f_equal.
  apply IH; [destruct H2|destruct H4]; congruence.
Qed.

(** no element is after the last one *)
Fixpoint ordered (l : list name) : Prop :=
  match l with
  | x :: r => (forall y, In y r -> lex_ltb y x = false) /\ ordered r
  | [] => True
  end.

Lemma insert_ordered n l : ordered l -> ordered (insert n l).
Proof.
  induction l as [|m l IH]; intro H; cbn [insert].
  - cbn. split; [tauto|auto].
  - destruct H as [H1 H2]. destruct (lex_ltb m n) eqn:E.
    + split; [|auto]. intros y Y. apply (Permutation_in _ (Permutation_sym (insert_perm n l))) in Y.
      destruct Y as [<-|Y]; [|auto].
      destruct (lex_ltb n m) eqn:F; [|reflexivity].
      exfalso. pose proof (lex_trans _ _ _ E F) as G. clear -G.
      induction m as [|x m IH]; cbn [lex_ltb] in G; [discriminate|].
      rewrite Nat.ltb_irrefl, Nat.eqb_refl in G. cbn [orb andb] in G. auto.
    + split; [|split; auto]. intros y [<-|Y]; [exact E|].
      destruct (lex_ltb y n) eqn:F; [|reflexivity].
      destruct (lex_ltb n m) eqn:G.
      * specialize (H1 y Y).
        pose proof (lex_trans _ _ _ F G). congruence.
      * assert (n = m) by (apply lex_total; auto). subst. specialize (H1 y Y). congruence.
Qed.

Lemma sorted_ordered l : ordered (sorted l).
Proof. induction l; cbn [sorted fold_right]; [exact I|]. apply insert_ordered. exact IHl. Qed.

Lemma last_in {A} (l : list A) d : l <> [] -> In (last l d) l.
Proof.
  intro H. rewrite (app_removelast_last d H) at 2. apply in_or_app. right. left. reflexivity.
Qed.

Lemma lex_irrefl m : lex_ltb m m = false.
Proof.
  induction m as [|x m IH]; cbn [lex_ltb]; [reflexivity|].
  rewrite Nat.ltb_irrefl, Nat.eqb_refl. exact IH.
Qed.

Lemma ordered_last l d y : ordered l -> In y l -> lex_ltb (last l d) y = false.
Proof.
  induction l as [|x l IH]; intros O Y; [contradiction|].
  destruct O as [O1 O2]. destruct l as [|z l].
  - destruct Y as [<-|[]]. cbn [last]. apply lex_irrefl.
  - change (last (x :: z :: l) d) with (last (z :: l) d).
    destruct Y as [<-|Y]; [|apply IH; auto].
    apply O1. apply last_in. discriminate.
Qed.

(** ** argmin *)

Lemma argmin_lt l : l <> [] -> argmin l < length l.
Proof.
  induction l as [|x l IH]; intro H; [congruence|]. destruct l as [|y l]; [cbn; lia|].
  specialize (IH ltac:(discriminate)). set (r := y :: l) in *.
  change (argmin (x :: r)) with (if Qle_bool x (nth (argmin r) r 0%Q) then 0 else S (argmin r)).
  cbn [length]. destruct (Qle_bool x _); lia.
Qed.

Lemma argmin_min l i : i < length l -> (nth (argmin l) l 0 <= nth i l 0)%Q.
Proof.
  revert i. induction l as [|x l IH]; intros i H; [cbn in H; lia|].
  destruct l as [|y l].
  - cbn in H. assert (i = 0) by lia. subst. apply Qle_refl.
  - set (r := y :: l) in *.
    change (argmin (x :: r)) with (if Qle_bool x (nth (argmin r) r 0%Q) then 0 else S (argmin r)).
    destruct (Qle_bool x (nth (argmin r) r 0%Q)) eqn:E.
    + apply Qle_bool_iff in E. destruct i as [|i]; [apply Qle_refl|].
      cbn [nth]. eapply Qle_trans; [exact E|]. apply IH. cbn [length] in H. lia.
    + assert (L : (nth (argmin r) r 0 <= x)%Q).
      { apply Qlt_le_weak, Qnot_le_lt. intro F. apply Qle_bool_iff in F. congruence. }
      destruct i as [|i]; cbn [nth]; [exact L|]. apply IH. cbn [length] in H. lia.
Qed.

Lemma collect_map {A B} (f : A -> option B) l r :
  collect (map f l) = Some r -> length r = length l /\ forall i d d', i < length l -> f (nth i l d) = Some (nth i r d').
Proof.
  revert r. induction l as [|x l IH]; intros r H; cbn [map collect] in H.
  - injection H as <-. split; [reflexivity|]. cbn. lia.
  - destruct (f x) eqn:F; [|discriminate]. destruct (collect (map f l)) as [r'|]; [|discriminate].
    injection H as <-. destruct (IH _ eq_refl) as [H1 H2]. split; [cbn; congruence|].
    intros [|i] d d' L; cbn [nth]; [exact F|]. apply H2. cbn in L. lia.
Qed.

Lemma collect_some {A B} (f : A -> option B) l :
  (forall x, In x l -> f x <> None) -> exists r, collect (map f l) = Some r.
Proof.
  induction l as [|x l IH]; intro H; cbn [map collect]; [eauto|].
  destruct (f x) eqn:F; [|exfalso; apply (H x); [left; reflexivity|exact F]].
  destruct IH as [r ->]; [intros; apply H; right; assumption|]. eauto.
Qed.

Lemma max_list_in l : l <> [] -> In (max_list l) l.
Proof.
  induction l as [|x l IH]; intro H; [congruence|]. cbn [max_list fold_right].
  fold (max_list l). destruct l as [|y l]; [left; cbn; lia|].
  destruct (Nat.max_spec x (max_list (y :: l))) as [[_ ->]|[_ ->]]; [right; apply IH; discriminate|left; auto].
Qed.

Lemma max_list_ge l x : In x l -> x <= max_list l.
Proof.
  induction l as [|y l IH]; intro H; [contradiction|]. cbn [max_list fold_right]. fold (max_list l).
  destruct H as [<-|H]; [lia|]. specialize (IH H). lia.
Qed.

(** ** interpolation *)

Local Open Scope Q_scope.

Lemma increasing_nth ts i j :
  increasing ts -> (i < j)%nat -> (j < length ts)%nat -> nth i ts 0 < nth j ts 0.
Proof.
  revert i j. induction ts as [|x ts IH]; intros i j H L B; [cbn in B; lia|].
  destruct H as [H1 H2]. destruct j as [|j]; [lia|]. cbn [length] in B.
  destruct i as [|i]; cbn [nth]; [|apply IH; auto; lia].
  destruct ts as [|y ts]; [cbn in B; lia|].
  destruct j as [|j]; [exact H1|]. eapply Qlt_trans; [exact H1|].
  apply (IH 0%nat (S j)); auto; lia.
Qed.

Lemma closest_index ts t j :
  (j < length ts)%nat ->
  Qabs (nth (get_closest_time_file ts t) ts 0 - t) <= Qabs (nth j ts 0 - t).
Proof.
  intro H. unfold get_closest_time_file.
  set (g := fun x => Qabs (x - t)).
  assert (L : forall k, (k < length ts)%nat -> nth k (map g ts) 0 = g (nth k ts 0)).
  { intros k K. rewrite (nth_indep _ _ (g 0)) by (rewrite map_length; exact K). apply map_nth. }
  pose proof (argmin_min (map g ts) j ltac:(rewrite map_length; exact H)) as M.
  rewrite (L j H) in M. rewrite L in M.
  - exact M.
  - pose proof (argmin_lt (map g ts)) as A. rewrite map_length in A. apply A.
    intro E. apply map_eq_nil in E. subst. cbn in H. lia.
Qed.

Lemma closest_lt ts t : ts <> [] -> (get_closest_time_file ts t < length ts)%nat.
Proof.
  intro H. unfold get_closest_time_file.
  pose proof (argmin_lt (map (fun x => Qabs (x - t)) ts)) as A. rewrite map_length in A. apply A.
  intro E. apply map_eq_nil in E. congruence.
Qed.

Lemma weights_linear t0 t1 f0 f1 t :
  t0 < t1 -> t0 <= t <= t1 ->
  f0 * (1 - Qabs (t - t0) / (t1 - t0)) + f1 * (1 - Qabs (t - t1) / (t1 - t0))
  == linear t0 f0 t1 f1 t.
Proof.
  intros H [A B]. unfold linear.
  rewrite (Qabs_pos (t - t0)) by lra. rewrite (Qabs_neg (t - t1)) by lra. field. lra.
Qed.

Lemma nth_error_nth2 {A} (l : list A) i d : (i < length l)%nat -> nth_error l i = Some (nth i l d).
Proof. intro H. apply nth_error_nth'. exact H. Qed.

(** the two files which are used *)
Lemma get_field_pair ts fs t i0 i1 :
  (i0 < length ts)%nat -> (i1 < length ts)%nat -> length fs = length ts ->
  nth i0 ts 0 < nth i1 ts 0 ->
  match nth_error ts i0, nth_error ts i1, nth_error fs i0, nth_error fs i1 with
  | Some t0, Some t1, Some f0, Some f1 =>
      let dt := (t1 - t0)%Q in
      if Qeq_bool dt 0 then None
      else Some (f0 * (1 - Qabs (t - t0) / dt) + f1 * (1 - Qabs (t - t1) / dt))%Q
  | _, _, _, _ => None
  end = Some (nth i0 fs 0 * (1 - Qabs (t - nth i0 ts 0) / (nth i1 ts 0 - nth i0 ts 0))
              + nth i1 fs 0 * (1 - Qabs (t - nth i1 ts 0) / (nth i1 ts 0 - nth i0 ts 0))).
Proof.
  intros H0 H1 L D.
  rewrite (nth_error_nth2 ts i0 0), (nth_error_nth2 ts i1 0), (nth_error_nth2 fs i0 0),
    (nth_error_nth2 fs i1 0) by (rewrite ?L; assumption).
  cbv zeta. replace (Qeq_bool _ 0) with false; [reflexivity|].
  symmetry. apply Bool.not_true_iff_false. rewrite Qeq_bool_iff. lra.
Qed.

Lemma Qle_bool_false a b : Qle_bool a b = false <-> b < a.
Proof.
  rewrite <- Bool.not_true_iff_false, Qle_bool_iff. split; [apply Qnot_le_lt|apply Qlt_not_le].
Qed.

Lemma isclose_refl t : isclose t t = true.
Proof.
  unfold isclose. apply Qle_bool_iff.
  assert (E : Qabs (t - t) == 0). { setoid_replace (t - t) with 0 by ring. reflexivity. }
  rewrite E. pose proof (Q.le_max_l (Qabs t) (Qabs t)). pose proof (Qabs_nonneg t). lra.
Qed.
