From Coq Require Import String Ascii.
From Coq Require Import List Arith NArith ZArith Bool Reals Lia Lra.
From Coq Require Import DecimalString DecimalFacts DecimalPos DecimalN.
From Verif Require Import PrintOut_Model PrintOut_Spec.
Import ListNotations.
Local Open Scope string_scope.

(** ** Text *)
Lemma app_s_assoc (a b c : string) : (a ++ b) ++ c = a ++ b ++ c.
Proof. induction a; cbn; congruence. Qed.
Lemma app_s_nil (a : string) : a ++ "" = a.
Proof. induction a; cbn; congruence. Qed.

Fixpoint all_chars (p : ascii -> bool) (s : string) : bool :=
  match s with EmptyString => true | String c s => p c && all_chars p s end.

Lemma all_chars_app p a b : all_chars p (a ++ b) = all_chars p a && all_chars p b.
Proof. induction a as [|c a IH]; cbn; [reflexivity|]. rewrite IH, Bool.andb_assoc. reflexivity. Qed.

Definition is_digit (c : ascii) : bool := (48 <=? nat_of_ascii c)%nat && (nat_of_ascii c <=? 57)%nat.

Lemma digits_uint d : all_chars is_digit (NilEmpty.string_of_uint d) = true.
Proof. induction d; cbn [NilEmpty.string_of_uint all_chars]; try reflexivity; rewrite IHd; reflexivity. Qed.

Lemma digits_dec n : all_chars is_digit (dec n) = true.
Proof. apply digits_uint. Qed.

Lemma digits_dec2 n : all_chars is_digit (dec2 n) = true.
Proof. unfold dec2. destruct (n <? 10)%N; [cbn [append all_chars]|]; rewrite digits_dec; reflexivity. Qed.

Lemma all_weaken (p q : ascii -> bool) s : (forall c, p c = true -> q c = true) -> all_chars p s = true -> all_chars q s = true.
Proof.
  intros H. induction s as [|c s IH]; cbn; [reflexivity|]. intros E. apply andb_prop in E as [E1 E2]. rewrite H, IH; auto.
Qed.

Lemma dec_nonempty n : dec n <> "".
Proof.
  unfold dec. destruct n as [|p]; [discriminate|].
  intros E. assert (F : NilEmpty.uint_of_string (NilEmpty.string_of_uint (N.to_uint (N.pos p))) = Some Decimal.Nil) by (rewrite E; reflexivity).
  rewrite NilEmpty.usu in F. injection F as F.
  assert (G : N.of_uint (N.to_uint (N.pos p)) = N.pos p) by apply DecimalN.Unsigned.of_to.
  change (N.to_uint (N.pos p)) with (Pos.to_uint p) in G. cbn [N.to_uint] in F. rewrite F in G. discriminate.
Qed.

Lemma int_of_dec n : int_of (dec n) = Some n.
Proof.
  unfold int_of. destruct (dec n) eqn:E; [destruct (dec_nonempty n E)|]. rewrite <- E. unfold dec.
  rewrite NilEmpty.usu. cbn [option_map]. rewrite DecimalN.Unsigned.of_to. reflexivity.
Qed.

Lemma int_of_dec2 n : int_of (dec2 n) = Some n.
Proof.
  unfold dec2. destruct (n <? 10)%N; [|apply int_of_dec].
  unfold int_of. cbn [append]. cbn [NilEmpty.uint_of_string]. unfold dec.
  cbn. rewrite NilEmpty.usu. cbn. f_equal. apply DecimalN.Unsigned.of_to.
Qed.

Lemma words_aux_app cur w s : all_chars (fun c => negb (is_space c)) w = true -> words_aux cur (w ++ s) = words_aux (cur ++ w) s.
Proof.
  revert cur. induction w as [|c w IH]; intros cur H; cbn [append].
  - rewrite app_s_nil. reflexivity.
  - cbn [all_chars] in H. apply andb_prop in H as [H1 H2]. cbn [words_aux].
    destruct (is_space c); [discriminate|]. rewrite IH by assumption. rewrite app_s_assoc. reflexivity.
Qed.

Lemma split_aux_app sep cur w s : all_chars (fun c => negb (Ascii.eqb c sep)) w = true ->
  split_aux sep cur (w ++ s) = split_aux sep (cur ++ w) s.
Proof.
  revert cur. induction w as [|c w IH]; intros cur H; cbn [append].
  - rewrite app_s_nil. reflexivity.
  - cbn [all_chars] in H. apply andb_prop in H as [H1 H2]. cbn [split_aux].
    destruct (Ascii.eqb c sep); [discriminate|]. rewrite IH by assumption. rewrite app_s_assoc. reflexivity.
Qed.

Definition hms_char (c : ascii) : bool := is_digit c || Ascii.eqb c ":".

Lemma digit_hms c : is_digit c = true -> hms_char c = true.
Proof. unfold hms_char. intros ->. reflexivity. Qed.

Lemma char_facts c : hms_char c = true -> negb (is_space c) = true /\ Ascii.eqb c "d" = false.
Proof. destruct c as [[] [] [] [] [] [] [] []]; cbn; intros H; try discriminate; split; reflexivity. Qed.

Lemma digit_colon c : is_digit c = true -> negb (Ascii.eqb c ":") = true.
Proof. destruct c as [[] [] [] [] [] [] [] []]; cbn; intros H; try discriminate; reflexivity. Qed.

Lemma contains_no_d s : all_chars hms_char s = true -> contains "day" s = false.
Proof.
  induction s as [|c s IH]; intros H; [reflexivity|].
  cbn [all_chars] in H. apply andb_prop in H as [H1 H2]. cbn [contains]. rewrite (IH H2), Bool.orb_false_r.
  cbn [prefix]. destruct (char_facts c H1) as [_ E]. destruct (ascii_dec "d" c) as [<-|]; [cbn in E; discriminate | reflexivity].
Qed.

Lemma contains_app a b : contains "day" (a ++ "day" ++ b) = true.
Proof.
  induction a as [|c a IH].
  - cbn [append contains]. replace (prefix "day" _) with true; [reflexivity|]. cbn. destruct b; reflexivity.
  - change (prefix "day" (String c (a ++ "day" ++ b)) || contains "day" (a ++ "day" ++ b) = true).
    rewrite IH. apply Bool.orb_true_r.
Qed.

Definition hms_text (h m s : N) : string := dec h ++ ":" ++ dec2 m ++ ":" ++ dec2 s.

Lemma hms_chars h m s : all_chars hms_char (hms_text h m s) = true.
Proof.
  unfold hms_text. rewrite !all_chars_app.
  rewrite (all_weaken is_digit hms_char (dec h)), (all_weaken is_digit hms_char (dec2 m)), (all_weaken is_digit hms_char (dec2 s));
    auto using digit_hms, digits_dec, digits_dec2.
Qed.

Lemma hms_split h m s : map int_of (split_aux ":" "" (hms_text h m s)) = [Some h; Some m; Some s].
Proof.
  unfold hms_text.
  rewrite split_aux_app by (apply (all_weaken is_digit); [exact digit_colon | apply digits_dec]).
  cbn [append split_aux Ascii.eqb Bool.eqb].
  rewrite split_aux_app by (apply (all_weaken is_digit); [exact digit_colon | apply digits_dec2]).
  cbn [append split_aux Ascii.eqb Bool.eqb].
  rewrite <- (app_s_nil (dec2 s)).
  rewrite split_aux_app by (apply (all_weaken is_digit); [exact digit_colon | apply digits_dec2]).
  cbn [append split_aux map]. rewrite int_of_dec, int_of_dec2, int_of_dec2. reflexivity.
Qed.

Lemma hms_nonempty h m s : hms_text h m s <> "".
Proof. unfold hms_text. pose proof (dec_nonempty h). destruct (dec h); [congruence | discriminate]. Qed.

Lemma last_word w : w <> "" -> all_chars hms_char w = true -> words_aux "" w = [w].
Proof.
  intros Hn H. rewrite <- (app_s_nil w) at 1. rewrite words_aux_app.
  - cbn [append words_aux]. destruct w; [congruence | reflexivity].
  - apply (all_weaken hms_char); [|assumption]. intros c Hc. apply char_facts, Hc.
Qed.

Lemma seconds_parts n :
  (86400 * (n / 86400) + 3600 * (n mod 86400 / 3600) + 60 * (n mod 86400 mod 3600 / 60) + n mod 86400 mod 60 = n)%N.
Proof.
  pose proof (N.div_mod n 86400 ltac:(lia)) as H1. pose proof (N.div_mod (n mod 86400) 3600 ltac:(lia)) as H2.
  pose proof (N.div_mod (n mod 86400 mod 3600) 60 ltac:(lia)) as H3.
  assert (H4 : (n mod 86400 mod 60 = n mod 86400 mod 3600 mod 60)%N).
  { set (x := (n mod 86400)%N) in *. rewrite (N.div_mod x 3600) at 1 by lia.
    replace (3600 * (x / 3600) + x mod 3600)%N with (x mod 3600 + (60 * (x / 3600)) * 60)%N by lia.
    apply N.mod_add. lia. }
  lia.
Qed.

Lemma read_duration_line n : read_duration (duration_line n) = Some n.
Proof.
  unfold duration_line, str_timedelta. cbv zeta.
  set (days := (n / 86400)%N).
  fold (hms_text (n mod 86400 / 3600) (n mod 86400 mod 3600 / 60) (n mod 86400 mod 60)).
  set (hms := hms_text _ _ _).
  assert (Hc : all_chars hms_char hms = true) by apply hms_chars.
  assert (Hn : hms <> "") by apply hms_nonempty.
  assert (Hs : map int_of (split_aux ":" "" hms)
    = [Some (n mod 86400 / 3600)%N; Some (n mod 86400 mod 3600 / 60)%N; Some (n mod 86400 mod 60)%N]) by apply hms_split.
  pose proof (seconds_parts n) as Hparts. fold days in Hparts.
  destruct (N.eqb_spec days 0) as [E0|E0].
  - unfold read_duration.
    assert (C : contains "day" ("              estimated remaining duration = " ++ hms) = false).
    { cbn. apply contains_no_d. assumption. }
    rewrite C.
    assert (W : words ("              estimated remaining duration = " ++ hms) = ["estimated"; "remaining"; "duration"; "="; hms]).
    { unfold words. cbn [append words_aux is_space Ascii.eqb Bool.eqb]. rewrite last_word by assumption. reflexivity. }
    rewrite W. cbn [nth_error]. rewrite Hs. f_equal. rewrite E0 in Hparts. exact Hparts.
  - unfold read_duration.
    set (tl := (if (days =? 1)%N then "" else "s") ++ ", " ++ hms).
    assert (C : contains "day" ("              estimated remaining duration = " ++ dec days ++ " day" ++ tl) = true).
    { replace ("              estimated remaining duration = " ++ dec days ++ " day" ++ tl)
        with (("              estimated remaining duration = " ++ dec days ++ " ") ++ "day" ++ tl); [apply contains_app|].
      rewrite app_s_assoc. f_equal. rewrite app_s_assoc. reflexivity. }
    rewrite C.
    assert (W : exists d, words ("              estimated remaining duration = " ++ dec days ++ " day" ++ tl)
                = ["estimated"; "remaining"; "duration"; "="; dec days; d; hms]).
    { unfold words. cbn [append words_aux is_space Ascii.eqb Bool.eqb].
      rewrite words_aux_app.
      - cbn [append words_aux is_space Ascii.eqb Bool.eqb].
        destruct (dec days) eqn:Ed; [destruct (dec_nonempty days Ed)|]. rewrite <- Ed.
        unfold tl. destruct (days =? 1)%N; cbn [append words_aux is_space Ascii.eqb Bool.eqb]; rewrite last_word by assumption; eauto.
      - apply (all_weaken is_digit); [|apply digits_dec]. intros c Hd. apply char_facts, digit_hms, Hd. }
    destruct W as [d W]. rewrite W. cbn [nth_error]. rewrite int_of_dec, Hs. f_equal. exact Hparts.
Qed.

(** ** Clock times *)
Local Close Scope string_scope.

Lemma load_printed round t_end it_end l : forall a st rest,
  r_time st = Some (time a) -> r_it st = Some (steps a) -> r_t_end st = Some t_end ->
  load_times_aux st (printed round true t_end it_end (Some (clock a)) (time a) l ++ rest)
  = option_map (app (map (expected round t_end) (filter (estimated t_end) (consecutive (a :: l)))))
      (load_times_aux (fold_left (fun st b => {| r_time_last := r_time st; r_time := Some (time b); r_it_last := r_it st;
                                                  r_it := Some (steps b); r_t_end := r_t_end st; r_dt := Some (snd b) |}) l st) rest).
Proof.
  induction l as [|b l IH]; intros a st rest Ht Hi He.
  - cbn. destruct (load_times_aux st rest); reflexivity.
  - destruct b as [[[cb tb] ib] db].
    change (consecutive (a :: (cb, tb, ib, db) :: l)) with ((a, (cb, tb, ib, db)) :: consecutive ((cb, tb, ib, db) :: l)).
    cbn [printed evaluate_duration_left filter]. unfold estimated at 1. cbn [fst snd].
    change (time (cb, tb, ib, db)) with tb.
    cbn [app load_times_aux fold_left].
    set (st1 := {| r_time_last := r_time st; r_time := Some tb; r_it_last := r_it st; r_it := Some ib; r_t_end := r_t_end st; r_dt := Some db |}).
    pose proof (IH (cb, tb, ib, db) st1 rest eq_refl eq_refl He) as IH1.
    change (clock (cb, tb, ib, db)) with cb in IH1. change (time (cb, tb, ib, db)) with tb in IH1.
    change (time (cb, tb, ib, db)) with tb. change (steps (cb, tb, ib, db)) with ib. change (snd (cb, tb, ib, db)) with db. fold st1.
    destruct (Req_EM_T (tb - time a) 0) as [E|E].
    + destruct (Req_EM_T tb (time a)) as [E'|E']; [|exfalso; lra].
      cbn [app]. exact IH1.
    + destruct (Req_EM_T tb (time a)) as [E'|E']; [exfalso; lra|].
      destruct (Rlt_dec (t_end - tb) 0) as [L|L].
      * destruct (Rlt_dec t_end tb) as [L'|L']; [|exfalso; lra]. cbn [app]. exact IH1.
      * destruct (Rlt_dec t_end tb) as [L'|L']; [exfalso; lra|].
        cbn [app load_times_aux map]. unfold st1 at 1 2 3 4 5. cbn [r_time r_time_last r_it r_it_last r_t_end].
        rewrite Ht, Hi, He. rewrite IH1.
        destruct (load_times_aux _ rest); cbn [option_map]; reflexivity.
Qed.

Lemma load_run round t_end it_end period l st rest :
  exists st', load_times_aux st (stdout_of_run round true t_end it_end period l ++ rest)
    = option_map (app (map (expected round t_end) (filter (estimated t_end) (consecutive l)))) (load_times_aux st' rest).
Proof.
  unfold stdout_of_run. cbn [app load_times_aux].
  set (st0 := {| r_time_last := _ |}).
  destruct l as [|a l].
  - exists st0. cbn. destruct (load_times_aux st0 rest); reflexivity.
  - destruct a as [[[ca ta] ia] da]. cbn [printed evaluate_duration_left app load_times_aux].
    set (st1 := {| r_time_last := _ |}).
    pose proof (load_printed round t_end it_end l (ca, ta, ia, da) st1 rest eq_refl eq_refl eq_refl) as H.
    change (clock (ca, ta, ia, da)) with ca in H. change (time (ca, ta, ia, da)) with ta in H.
    rewrite H. eauto.
Qed.

Lemma delta_clock_close round t_end a b :
  (forall x, Rabs (IZR (round x) - x) <= 1 / 2)%R ->
  (time a < time b)%R -> (time b < t_end)%R ->
  (Rabs (delta_clock_time (expected round t_end (a, b)) - (clock b - clock a)) <= 1 / 2 * ((time b - time a) / (t_end - time b)))%R.
Proof.
  intros Hr H1 H2. unfold delta_clock_time, expected. cbn [c_delta c_remaining c_end c_time].
  set (d := (time b - time a)%R). set (r := (t_end - time b)%R). set (c := (clock b - clock a)%R).
  assert (Hd : (0 < d)%R) by (unfold d; lra). assert (Hr0 : (0 < r)%R) by (unfold r; lra).
  specialize (Hr (r / d * c)%R).
  replace (d * IZR (round (r / d * c)) / r - c)%R with ((IZR (round (r / d * c)) - r / d * c) * (d / r))%R by (field; lra).
  rewrite Rabs_mult. rewrite (Rabs_pos_eq (d / r)) by (apply Rlt_le, Rdiv_lt_0_compat; assumption).
  apply Rmult_le_compat_r; [apply Rlt_le, Rdiv_lt_0_compat; assumption | assumption].
Qed.
