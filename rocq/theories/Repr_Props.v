(** * Properties of the representations of a simulation *)

From Coq Require Import Ascii String List Bool Arith ZArith QArith Lia Permutation.
From Verif Require Import Repr_Model.
Import ListNotations.
Local Open Scope nat_scope.

(** ** Specification: decimal writing of numbers *)

Inductive esign := ENone | EPlus | EMinus.
Record number := { neg : bool; ipart : list nat; fpart : option (list nat); expo : option (bool * esign * list nat) }.

Definition digit (d : nat) : ascii := ascii_of_nat (48 + d).
Definition digits (l : list nat) : list ascii := map digit l.

Definition show (n : number) : list ascii :=
  (if neg n then ["-"%char] else []) ++ digits (ipart n)
  ++ match fpart n with None => [] | Some f => "."%char :: digits f end
  ++ match expo n with
     | None => []
     | Some (upper, s, e) =>
         (if upper then "E"%char else "e"%char)
           :: match s with ENone => [] | EPlus => ["+"%char] | EMinus => ["-"%char] end ++ digits e
     end.

Definition is_digit (d : nat) : Prop := d < 10.
Definition wf (n : number) : Prop :=
  Forall is_digit (ipart n)
  /\ match fpart n with None => True | Some f => Forall is_digit f end
  /\ match expo n with None => True | Some (_, _, e) => Forall is_digit e end.

Definition dec (l : list nat) : Z := fold_left (fun a d => 10 * a + Z.of_nat d)%Z l 0%Z.
Definition ten_to (k : nat) : Q := inject_Z (10 ^ Z.of_nat k)%Z.

Definition value (n : number) : Q :=
  ((if neg n then -1 else 1)
   * (inject_Z (dec (ipart n)) + match fpart n with None => 0 | Some f => inject_Z (dec f) / ten_to (length f) end)
   * match expo n with
     | None => 1
     | Some (_, s, e) =>
         match s with
         | EMinus => 1 / ten_to (Z.to_nat (dec e))
         | _ => ten_to (Z.to_nat (dec e))
         end
     end)%Q.

Definition lower (n : number) : Prop := match expo n with Some (true, _, _) => False | _ => True end.

(** ** Lemmas *)

Lemma digit_neq d c : is_digit d -> In c ["e"; "."; "+"; "-"; "E"]%char -> digit d <> c.
Proof.
  unfold is_digit. intros H Hc.
  do 10 (destruct d as [|d]; [simpl in Hc; unfold digit; cbn; intuition (subst; discriminate)|]). lia.
Qed.

Lemma digit_zero d : is_digit d -> digit d = "0"%char -> d = 0.
Proof.
  unfold is_digit. intros H.
  destruct d as [|d]; [reflexivity|].
  do 9 (destruct d as [|d]; [cbn; discriminate|]). lia.
Qed.

Lemma has_app c a b : has c (a ++ b) = has c a || has c b.
Proof. apply existsb_app. Qed.

Lemma has_digits c l : Forall is_digit l -> In c ["e"; "."; "+"; "-"; "E"]%char -> has c (digits l) = false.
Proof.
  intros H Hc. induction H as [|d l Hd _ IH]; [reflexivity|].
  cbn. unfold has in IH. fold (digits l). rewrite IH, orb_false_r. apply Ascii.eqb_neq. intros E. exact (digit_neq d c Hd Hc (eq_sym E)).
Qed.

Lemma has2_cons a b x y r : has2 a b (x :: y :: r) = (Ascii.eqb x a && Ascii.eqb y b) || has2 a b (y :: r).
Proof. reflexivity. Qed.

Lemma remove_after_cons a b x y r :
  remove_after a b (x :: y :: r) = if Ascii.eqb x a && Ascii.eqb y b then x :: remove_after a b r else x :: remove_after a b (y :: r).
Proof. reflexivity. Qed.

Lemma has_cons c x r : has c (x :: r) = Ascii.eqb c x || has c r.
Proof. reflexivity. Qed.

Lemma has2_has a b t : has a t = false -> has2 a b t = false.
Proof.
  induction t as [|x [|y r] IH]; intros H; [reflexivity|reflexivity|].
  rewrite has2_cons. rewrite has_cons in H. apply orb_false_iff in H. destruct H as [Ha Hr].
  rewrite IH by exact Hr. rewrite Ascii.eqb_sym, Ha. reflexivity.
Qed.

Lemma has2_has_r a b t : has b t = false -> has2 a b t = false.
Proof.
  induction t as [|x [|y r] IH]; intros H; [reflexivity|reflexivity|].
  rewrite has2_cons. rewrite has_cons in H. apply orb_false_iff in H. destruct H as [_ Hr].
  rewrite IH by exact Hr. rewrite has_cons in Hr. apply orb_false_iff in Hr. destruct Hr as [Hy _].
  rewrite (Ascii.eqb_sym y b), Hy, andb_false_r. reflexivity.
Qed.

(** no a in the prefix *)
Lemma has2_app a b p t : has a p = false -> has2 a b (p ++ a :: t) = has2 a b (a :: t).
Proof.
  induction p as [|x p IH]; intros H; [reflexivity|].
  rewrite has_cons in H. apply orb_false_iff in H. destruct H as [Hx Hp].
  rewrite <- IH by exact Hp. destruct p as [|y p]; cbn [app]; rewrite has2_cons, (Ascii.eqb_sym x a), Hx; reflexivity.
Qed.

Lemma remove_after_app a b p t : has a p = false -> remove_after a b (p ++ a :: t) = p ++ remove_after a b (a :: t).
Proof.
  induction p as [|x p IH]; intros H; [reflexivity|].
  cbn [has existsb] in H. apply orb_false_iff in H. destruct H as [Hx Hp].
  cbn [app]. rewrite <- IH by exact Hp.
  destruct p as [|y p]; cbn [app]; rewrite remove_after_cons, (Ascii.eqb_sym x a), Hx; reflexivity.
Qed.

Lemma remove_after_none a b t : has a t = false -> remove_after a b t = t.
Proof.
  induction t as [|x [|y r] IH]; intros H; [reflexivity|reflexivity|].
  cbn [has existsb] in H. apply orb_false_iff in H. destruct H as [Hx Hr].
  rewrite remove_after_cons, (Ascii.eqb_sym x a), Hx. cbn [andb]. f_equal. apply IH. exact Hr.
Qed.

Lemma rstrip_snoc_same c t : rstrip_char c (t ++ [c]) = rstrip_char c t.
Proof. unfold rstrip_char. rewrite rev_app_distr. cbn. rewrite Ascii.eqb_refl. reflexivity. Qed.

Lemma rstrip_repeat c t k : rstrip_char c (t ++ repeat c k) = rstrip_char c t.
Proof.
  induction k as [|k IH]; [rewrite app_nil_r; reflexivity|].
  cbn [repeat]. rewrite repeat_cons, app_assoc, rstrip_snoc_same. exact IH.
Qed.

Lemma rstrip_snoc c t x : x <> c -> rstrip_char c (t ++ [x]) = t ++ [x].
Proof.
  intros H. unfold rstrip_char. rewrite rev_app_distr. cbn.
  apply Ascii.eqb_neq in H. rewrite H. cbn. rewrite rev_involutive. reflexivity.
Qed.

Lemma ends_with_snoc c t x : ends_with c (t ++ [x]) = Ascii.eqb x c.
Proof. unfold ends_with. rewrite rev_app_distr. reflexivity. Qed.

Lemma ends_with_has c t : has c t = false -> ends_with c t = false.
Proof.
  intros H. destruct (rev t) as [|x r] eqn:E; [unfold ends_with; rewrite E; reflexivity|].
  assert (T : t = rev r ++ [x]) by (rewrite <- (rev_involutive t), E; reflexivity).
  subst t. rewrite ends_with_snoc. rewrite has_app in H. apply orb_false_iff in H. destruct H as [_ H].
  cbn in H. rewrite orb_false_r in H. rewrite Ascii.eqb_sym. exact H.
Qed.

Lemma trailing f : exists g k, f = g ++ repeat 0 k /\ (g = [] \/ exists h d, g = h ++ [d] /\ d <> 0).
Proof.
  induction f as [|x f IH] using rev_ind; [exists [], 0; auto|].
  destruct x as [|x].
  - destruct IH as [g [k [E H]]]. exists g, (S k). split; [|exact H].
    rewrite E, <- app_assoc. f_equal. cbn [repeat]. rewrite repeat_cons. reflexivity.
  - exists (f ++ [S x]), 0. split; [rewrite app_nil_r; reflexivity|]. right. exists f, (S x). auto.
Qed.

Lemma dec_snoc l d : dec (l ++ [d]) = (10 * dec l + Z.of_nat d)%Z.
Proof. unfold dec. rewrite fold_left_app. reflexivity. Qed.

Lemma dec_repeat l k : dec (l ++ repeat 0 k) = (dec l * 10 ^ Z.of_nat k)%Z.
Proof.
  induction k as [|k IH]; [rewrite app_nil_r; lia|].
  cbn [repeat]. rewrite repeat_cons, app_assoc, dec_snoc, IH, Nat2Z.inj_succ, Z.pow_succ_r by lia. lia.
Qed.

Lemma ten_to_nz k : ~ (ten_to k == 0)%Q.
Proof.
  unfold ten_to. intros H. change 0%Q with (inject_Z 0) in H. rewrite inject_Z_injective in H.
  assert (0 < 10 ^ Z.of_nat k)%Z by (apply Z.pow_pos_nonneg; lia). lia.
Qed.

Lemma frac_repeat g k :
  (inject_Z (dec (g ++ repeat 0%nat k)) / ten_to (length (g ++ repeat 0%nat k)) == inject_Z (dec g) / ten_to (length g))%Q.
Proof.
  rewrite dec_repeat, app_length, repeat_length.
  assert (E : (ten_to (length g + k) == ten_to (length g) * inject_Z (10 ^ Z.of_nat k))%Q).
  { unfold ten_to. rewrite <- inject_Z_mult, Nat2Z.inj_add, Z.pow_add_r by lia. reflexivity. }
  rewrite E, inject_Z_mult. field. split; [apply ten_to_nz|exact (ten_to_nz k)].
Qed.

(** ** C238: the text of a parameter reads as the formatted number *)

Definition no_useless (n : number) : Prop :=
  expo n = None ->
  match fpart n with
  | None => True
  | Some f => exists h d, f = h ++ [d] /\ d <> 0
  end.

Lemma has_sign c (b : bool) : c <> "-"%char -> has c (if b then ["-"%char] else []) = false.
Proof. intros H. destruct b; [|reflexivity]. cbn. rewrite orb_false_r. apply Ascii.eqb_neq. exact H. Qed.

Lemma In_has c t : In c t -> has c t = true.
Proof. intros H. unfold has. apply existsb_exists. exists c. split; [exact H|apply Ascii.eqb_refl]. Qed.

Definition ends_eg (fmt : list ascii) : Prop := exists p, fmt = p ++ ["e"%char] \/ fmt = p ++ ["g"%char].

Lemma ends_eg_spec fmt : ends_eg fmt ->
  match rev fmt with [] => false | c :: _ => Ascii.eqb c "e" || Ascii.eqb c "g" end = true.
Proof. intros [p [E|E]]; subst fmt; rewrite rev_app_distr; reflexivity. Qed.

Lemma digits_app a b : digits (a ++ b) = digits a ++ digits b.
Proof. apply map_app. Qed.

Theorem c238_number_kept_partial : forall fmt n,
  wf n -> lower n ->
  exists n', show n' = clean fmt (show n) /\ (value n' == value n)%Q /\ wf n' /\ no_useless n'
             /\ (ends_eg fmt -> ~ In "+"%char (clean fmt (show n))).
Proof.
  intros fmt [sg ip fp ex] [W1 [W2 W3]] L. cbn [neg ipart fpart expo] in *.
  destruct ex as [[[up s] e]|].
  - destruct up; [contradiction|].
    (* the mantissa has no e *)
    set (p := (if sg then ["-"%char] else []) ++ digits ip ++ match fp with None => [] | Some f => "."%char :: digits f end).
    assert (Hp : has "e" p = false).
    { unfold p. rewrite !has_app, has_sign by discriminate. rewrite has_digits by (auto; simpl; tauto).
      destruct fp as [f|]; [|reflexivity]. cbn [orb has existsb]. fold (has "e" (digits f)). rewrite has_digits by (auto; simpl; tauto). reflexivity. }
    assert (Hplus : has "+" p = false).
    { unfold p. rewrite !has_app, has_sign by discriminate. rewrite has_digits by (auto; simpl; tauto).
      destruct fp as [f|]; [|reflexivity]. cbn [orb has existsb]. fold (has "+" (digits f)). rewrite has_digits by (auto; simpl; tauto). reflexivity. }
    assert (Sh : forall s', show {| neg := sg; ipart := ip; fpart := fp; expo := Some (false, s', e) |}
                 = p ++ "e"%char :: match s' with ENone => [] | EPlus => ["+"%char] | EMinus => ["-"%char] end ++ digits e).
    { intros s'. unfold show, p. cbn [neg ipart fpart expo]. rewrite <- !app_assoc. reflexivity. }
    assert (He : has "e" (digits e) = false) by (apply has_digits; simpl; auto).
    assert (Hpe : has "+" (digits e) = false) by (apply has_digits; simpl; tauto).
    (* after the first step *)
    assert (End : forall t, has "." t = false -> ends_with "." (p ++ "e"%char :: t) = false).
    { intros t Ht. destruct (rev t) as [|x r] eqn:E.
      - apply (f_equal (@rev ascii)) in E. rewrite rev_involutive in E. cbn in E. subst t. rewrite ends_with_snoc. reflexivity.
      - assert (T : t = rev r ++ [x]) by (rewrite <- (rev_involutive t), E; reflexivity).
        subst t. rewrite app_comm_cons, app_assoc, ends_with_snoc. rewrite has_app in Ht. apply orb_false_iff in Ht. destruct Ht as [_ Ht].
        cbn in Ht. rewrite orb_false_r in Ht. rewrite Ascii.eqb_sym. exact Ht. }
    assert (Hdot : has "." (digits e) = false) by (apply has_digits; simpl; tauto).
    assert (Keep : forall s', clean [] (show {| neg := sg; ipart := ip; fpart := fp; expo := Some (false, s', e) |})
                   = show {| neg := sg; ipart := ip; fpart := fp; expo := Some (false, s', e) |}).
    { intros s'. unfold clean. cbn [rev andb]. rewrite Sh, has_app.
      replace (has "e" ("e"%char :: match s' with ENone => [] | EPlus => ["+"%char] | EMinus => ["-"%char] end ++ digits e)) with true by reflexivity.
      rewrite orb_true_r. cbn [negb andb]. rewrite End; [reflexivity|]. rewrite has_app, Hdot. destruct s'; reflexivity. }
    assert (Step : forall s', clean fmt (show {| neg := sg; ipart := ip; fpart := fp; expo := Some (false, s', e) |})
       = let t := if match rev fmt with [] => false | c :: _ => Ascii.eqb c "e" || Ascii.eqb c "g" end
                     && has2 "e" "+" (show {| neg := sg; ipart := ip; fpart := fp; expo := Some (false, s', e) |})
                  then remove_after "e" "+" (show {| neg := sg; ipart := ip; fpart := fp; expo := Some (false, s', e) |})
                  else show {| neg := sg; ipart := ip; fpart := fp; expo := Some (false, s', e) |} in clean [] t).
    { intros s'. unfold clean. cbn [rev andb]. reflexivity. }
    assert (H2 : has2 "e" "+" (show {| neg := sg; ipart := ip; fpart := fp; expo := Some (false, s, e) |})
                 = match s with EPlus => true | _ => false end).
    { rewrite Sh, has2_app by exact Hp. destruct s.
      - apply has2_has_r. cbn [app has existsb]. fold (has "+" (digits e)). rewrite Hpe. reflexivity.
      - reflexivity.
      - apply has2_has_r. cbn [app has existsb]. fold (has "+" (digits e)). rewrite Hpe. reflexivity. }
    rewrite Step, H2. destruct s.
    + rewrite andb_false_r. cbn zeta. rewrite Keep. eexists. split; [reflexivity|]. split; [reflexivity|].
      split; [exact (conj W1 (conj W2 W3))|]. split; [discriminate|].
      intros _ I. apply In_has in I. rewrite Sh, has_app, Hplus in I. cbn [app has existsb orb] in I. fold (has "+" (digits e)) in I. rewrite Hpe in I. discriminate.
    + rewrite andb_true_r.
      destruct (match rev fmt with [] => false | c :: _ => Ascii.eqb c "e" || Ascii.eqb c "g" end) eqn:Eg.
      * cbn zeta. exists {| neg := sg; ipart := ip; fpart := fp; expo := Some (false, ENone, e) |}.
        assert (R : remove_after "e" "+" (show {| neg := sg; ipart := ip; fpart := fp; expo := Some (false, EPlus, e) |})
                    = show {| neg := sg; ipart := ip; fpart := fp; expo := Some (false, ENone, e) |}).
        { rewrite !Sh, remove_after_app by exact Hp. cbn [app remove_after Ascii.eqb Bool.eqb andb].
          rewrite remove_after_none by exact He. reflexivity. }
        rewrite R, Keep. split; [reflexivity|]. split; [reflexivity|].
        split; [exact (conj W1 (conj W2 W3))|]. split; [discriminate|].
        intros _ I. apply In_has in I. rewrite Sh, has_app, Hplus in I. cbn [app has existsb orb] in I. fold (has "+" (digits e)) in I. rewrite Hpe in I. discriminate.
      * cbn zeta. rewrite Keep. eexists. split; [reflexivity|]. split; [reflexivity|].
        split; [exact (conj W1 (conj W2 W3))|]. split; [discriminate|].
        intros Hg. apply ends_eg_spec in Hg. congruence.
    + rewrite andb_false_r. cbn zeta. rewrite Keep. eexists. split; [reflexivity|]. split; [reflexivity|].
      split; [exact (conj W1 (conj W2 W3))|]. split; [discriminate|].
      intros _ I. apply In_has in I. rewrite Sh, has_app, Hplus in I. cbn [app has existsb orb] in I. fold (has "+" (digits e)) in I. rewrite Hpe in I. discriminate.
  - set (p := (if sg then ["-"%char] else []) ++ digits ip).
    assert (Hp : forall c, In c ["e"; "."; "+"]%char -> has c p = false).
    { intros c Hc. unfold p. rewrite has_app, has_sign by (simpl in Hc; intuition (subst; discriminate)).
      rewrite has_digits by (auto; simpl in *; tauto). reflexivity. }
    assert (Sh : forall fp', show {| neg := sg; ipart := ip; fpart := fp'; expo := None |}
                 = p ++ match fp' with None => [] | Some f => "."%char :: digits f end).
    { intros fp'. unfold show, p. cbn [neg ipart fpart expo]. rewrite app_nil_r, <- app_assoc. reflexivity. }
    assert (He : has "e" (show {| neg := sg; ipart := ip; fpart := fp; expo := None |}) = false).
    { rewrite Sh, has_app, Hp by (simpl; tauto). destruct fp as [f|]; [|reflexivity].
      cbn [orb has existsb]. fold (has "e" (digits f)). rewrite has_digits by (auto; simpl; tauto). reflexivity. }
    assert (Hplus : has "+" (show {| neg := sg; ipart := ip; fpart := fp; expo := None |}) = false).
    { rewrite Sh, has_app, Hp by (simpl; tauto). destruct fp as [f|]; [|reflexivity].
      cbn [orb has existsb]. fold (has "+" (digits f)). rewrite has_digits by (auto; simpl; tauto). reflexivity. }
    assert (St : clean fmt (show {| neg := sg; ipart := ip; fpart := fp; expo := None |})
      = let s := show {| neg := sg; ipart := ip; fpart := fp; expo := None |} in
        let s2 := if has "." s then rstrip_char "0" s else s in
        if ends_with "." s2 then removelast s2 else s2).
    { unfold clean. rewrite (has2_has "e" "+") by exact He. rewrite andb_false_r, He. reflexivity. }
    rewrite St. cbn zeta.
    destruct fp as [f|].
    + destruct (trailing f) as [g [k [Ef Hg]]].
      assert (Hd : has "." (show {| neg := sg; ipart := ip; fpart := Some f; expo := None |}) = true).
      { rewrite Sh, has_app. rewrite orb_true_r. reflexivity. }
      rewrite Hd.
      assert (Z : digits (repeat 0 k) = repeat "0"%char k).
      { clear. induction k as [|k IH]; [reflexivity|]. cbn. unfold digits in IH. rewrite IH. reflexivity. }
      assert (Wg : Forall is_digit g) by (subst f; apply Forall_app in W2; tauto).
      destruct Hg as [Hg|[h [d [Hg Hd0]]]].
      * (* only zeros *)
        subst g. cbn [app] in Ef.
        assert (R : rstrip_char "0" (show {| neg := sg; ipart := ip; fpart := Some f; expo := None |}) = p ++ ["."%char]).
        { rewrite Sh, Ef, Z. change ("."%char :: repeat "0"%char k) with (["."%char] ++ repeat "0"%char k).
          rewrite app_assoc, rstrip_repeat. apply rstrip_snoc. discriminate. }
        rewrite R, ends_with_snoc. cbn [Ascii.eqb Bool.eqb]. rewrite removelast_last.
        exists {| neg := sg; ipart := ip; fpart := None; expo := None |}.
        split; [rewrite Sh, app_nil_r; reflexivity|]. split; [|split; [exact (conj W1 (conj I I))|split; [intros _; exact I|]]].
        -- unfold value. cbn [neg ipart fpart expo]. rewrite Ef.
           assert (F := frac_repeat [] k). cbn [app] in F. rewrite F.
           replace (dec []) with 0%Z by reflexivity. change (inject_Z 0) with 0%Q.
           assert (D : (0 / ten_to (length (@nil nat)) == 0)%Q) by reflexivity. rewrite D. reflexivity.
        -- intros _ I'. apply In_has in I'. rewrite (Hp "+"%char) in I' by (simpl; tauto). discriminate.
      * assert (Dd : is_digit d) by (rewrite Hg in Wg; apply Forall_app in Wg; destruct Wg as [_ Wg]; inversion Wg; assumption).
        assert (R : rstrip_char "0" (show {| neg := sg; ipart := ip; fpart := Some f; expo := None |})
                    = show {| neg := sg; ipart := ip; fpart := Some g; expo := None |}).
        { rewrite !Sh, Ef, Hg, !digits_app, Z. change (digits [d]) with [digit d].
          replace (p ++ "."%char :: (digits h ++ [digit d]) ++ repeat "0"%char k) with (((p ++ "."%char :: digits h) ++ [digit d]) ++ repeat "0"%char k)
            by (rewrite <- !app_assoc; cbn [app]; rewrite <- ?app_assoc; reflexivity).
          rewrite rstrip_repeat.
          replace (p ++ "."%char :: digits h ++ [digit d]) with ((p ++ "."%char :: digits h) ++ [digit d]) by (rewrite <- app_assoc; reflexivity).
          apply rstrip_snoc. intros E. apply Hd0. apply digit_zero; assumption. }
        rewrite R.
        assert (E0 : ends_with "." (show {| neg := sg; ipart := ip; fpart := Some g; expo := None |}) = false).
        { rewrite Sh, Hg, digits_app. change (digits [d]) with [digit d].
          replace (p ++ "."%char :: digits h ++ [digit d]) with ((p ++ "."%char :: digits h) ++ [digit d]) by (rewrite <- app_assoc; reflexivity).
          rewrite ends_with_snoc. apply Ascii.eqb_neq. apply digit_neq; [exact Dd|simpl; tauto]. }
        rewrite E0. exists {| neg := sg; ipart := ip; fpart := Some g; expo := None |}.
        split; [reflexivity|]. split; [|split; [exact (conj W1 (conj Wg I))|split; [intros _; cbn; exists h, d; auto|]]].
        -- unfold value. cbn [neg ipart fpart expo]. rewrite Ef, frac_repeat. reflexivity.
        -- intros _ I'. apply In_has in I'. rewrite Sh, has_app, Hp in I' by (simpl; tauto). cbn [orb has existsb] in I'.
           fold (has "+" (digits g)) in I'. rewrite has_digits in I' by (auto; simpl; tauto). discriminate.
    + assert (Hd : has "." (show {| neg := sg; ipart := ip; fpart := None; expo := None |}) = false).
      { rewrite Sh, app_nil_r. apply Hp. simpl; tauto. }
      rewrite Hd, ends_with_has by exact Hd.
      eexists. split; [reflexivity|]. split; [reflexivity|].
      split; [exact (conj W1 (conj W2 W3))|]. split; [intros _; exact I|].
      intros _ I'. apply In_has in I'. rewrite Hplus in I'. discriminate.
Qed.

(** "{:.2E}".format(1.5e10) is "1.50E+10": the zero of the exponent is removed *)
Definition n_E : number := {| neg := false; ipart := [1]; fpart := Some [5; 0]; expo := Some (true, EPlus, [1; 0]) |}.

Theorem c238_upper_case_refuted : exists fmt n n',
  wf n /\ show n' = clean fmt (show n) /\ ~ (value n' == value n)%Q.
Proof.
  exists (txt ".2E"), n_E, {| neg := false; ipart := [1]; fpart := Some [5; 0]; expo := Some (true, EPlus, [1]) |}.
  split.
  - unfold wf, n_E, is_digit. cbn. split; [|split]; repeat constructor.
  - split; [vm_compute; reflexivity|]. unfold Qeq. vm_compute. discriminate.
Qed.

Example c238_hyps :
  let n := {| neg := true; ipart := [1; 0]; fpart := Some [5; 0; 0]; expo := None |} in
  wf n /\ lower n /\ show n = txt "-10.500" /\ clean (txt ".3f") (show n) = txt "-10.5" /\ (value n == -21 # 2)%Q.
Proof.
  cbn zeta. split; [unfold wf, is_digit; cbn; split; [|split]; repeat constructor|].
  split; [exact I|]. split; [reflexivity|]. split; [reflexivity|]. reflexivity.
Qed.

(** ** C239: the name of the run *)

Lemma split_nonempty c t : split c t <> [].
Proof. destruct t as [|x t]; [discriminate|]. cbn. destruct (Ascii.eqb x c); [discriminate|]. destruct (split c t); discriminate. Qed.

Lemma split_none c t : has c t = false -> split c t = [t].
Proof.
  induction t as [|x t IH]; intros H; [reflexivity|].
  cbn [has existsb] in H. apply orb_false_iff in H. destruct H as [Hx Ht].
  cbn [split]. rewrite Ascii.eqb_sym, Hx, IH by exact Ht. reflexivity.
Qed.

Lemma split_app c s b : has c b = false -> split c (s ++ c :: b) = split c s ++ [b].
Proof.
  intros Hb. induction s as [|x s IH].
  - cbn [app split]. rewrite Ascii.eqb_refl, split_none by exact Hb. reflexivity.
  - cbn [app split]. rewrite IH. destruct (Ascii.eqb x c); [reflexivity|].
    destruct (split c s) as [|w l] eqn:E; [exfalso; exact (split_nonempty c s E)|]. reflexivity.
Qed.

Lemma last_n_app {A} (l : list A) (a b : A) : last_n 2 ((l ++ [a]) ++ [b]) = [a; b].
Proof.
  unfold last_n. rewrite <- app_assoc. cbn [app]. rewrite app_length. cbn [length].
  replace (length l + 2 - 2) with (length l) by lia. rewrite skipn_app, skipn_all, Nat.sub_diag. reflexivity.
Qed.

Lemma time_of_name p a b : has "_" a = false -> has "_" b = false ->
  time_from_path_run (p ++ "_"%char :: a ++ "_"%char :: b) = a ++ "_"%char :: b.
Proof.
  intros Ha Hb. unfold time_from_path_run.
  replace (p ++ "_"%char :: a ++ "_"%char :: b) with ((p ++ "_"%char :: a) ++ "_"%char :: b) by (rewrite <- app_assoc; reflexivity).
  rewrite split_app, split_app by assumption. rewrite last_n_app. reflexivity.
Qed.

Lemma join_snoc sep l x : l <> [] -> join sep (l ++ [x]) = join sep l ++ sep ++ x.
Proof.
  induction l as [|y l IH]; intros H; [congruence|].
  destruct l as [|z l]; [reflexivity|].
  change (join sep ((y :: z :: l) ++ [x])) with (y ++ sep ++ join sep ((z :: l) ++ [x])).
  rewrite IH by discriminate.
  change (join sep (y :: z :: l)) with (y ++ sep ++ join sep (z :: l)). rewrite <- !app_assoc. reflexivity.
Qed.

(** the simulation is loaded from its directory: same name as when it was created *)
Theorem c239_name_of_a_loaded_simulation_partial : forall l a b parent path0 now,
  l <> [] -> ~ In "_"%char a -> ~ In "_"%char b ->
  let name := name_run true path0 (a ++ txt "_" ++ b) l in
  name_run false (parent ++ name) now l = name
  /\ exists q, name = q ++ txt "_" ++ a ++ txt "_" ++ b.
Proof.
  intros l a b parent path0 now Hl Ha Hb name.
  assert (Ha' : has "_" a = false).
  { destruct (has "_" a) eqn:E; [|reflexivity]. apply existsb_exists in E. destruct E as [x [I E]]. apply Ascii.eqb_eq in E. subst x. contradiction. }
  assert (Hb' : has "_" b = false).
  { destruct (has "_" b) eqn:E; [|reflexivity]. apply existsb_exists in E. destruct E as [x [I E]]. apply Ascii.eqb_eq in E. subst x. contradiction. }
  assert (N : forall t, fst (make_representations l t) = join (txt "_") (map for_name l) ++ txt "_" ++ t).
  { intros t. unfold make_representations. cbn [fst]. rewrite map_app. cbn [map for_name]. apply join_snoc.
    destruct l; [congruence|discriminate]. }
  assert (E : name = join (txt "_") (map for_name l) ++ txt "_" ++ a ++ txt "_" ++ b).
  { unfold name, name_run, get_time_as_str. apply N. }
  split; [|eexists; exact E].
  unfold name_run at 1. unfold get_time_as_str. rewrite N, E.
  change (txt "_" ++ a ++ txt "_" ++ b) with ("_"%char :: a ++ "_"%char :: b).
  rewrite (app_assoc parent), time_of_name by assumption. reflexivity.
Qed.

(** the directory was renamed at the end of the simulation because its name was already used
    (fluidsim/base/output/base.py 385-388): the loaded simulation has another name than its directory
    and the date is lost *)
Theorem c239_renamed_directory_refuted : exists l a b path0 now,
  l <> [] /\ ~ In "_"%char a /\ ~ In "_"%char b /\
  let directory := name_run true path0 (a ++ txt "_" ++ b) l ++ txt "_1" in
  name_run false directory now l <> directory
  /\ name_run false directory now l = txt "ns2d_nx48_12-00-00_1".
Proof.
  exists [IWord (txt "ns2d"); IParam (txt "nx") (txt "48")], (txt "2026-11-17"), (txt "12-00-00"), [], [].
  split; [discriminate|]. split; [cbn; intuition discriminate|]. split; [cbn; intuition discriminate|].
  cbn zeta. split; [vm_compute; discriminate|vm_compute; reflexivity].
Qed.

Example c239_hyps :
  let l := [IWord (txt "ns2d"); IParam (txt "nx") (txt "48")] in
  name_run true [] (txt "2026-11-17_12-00-00") l = txt "ns2d_nx48_2026-11-17_12-00-00"
  /\ name_run false (txt "/my_scratch/ns2d_nx48_2026-11-17_12-00-00") [] l = txt "ns2d_nx48_2026-11-17_12-00-00"
  /\ snd (make_representations l (txt "2026-11-17_12-00-00")) = txt "ns2d, nx=48, 2026-11-17, 12-00-00".
Proof. vm_compute. split; [reflexivity|]. split; reflexivity. Qed.

(** ** C240: the words and the parameters of the name *)

Definition words (l : list key) : list key := filter (fun k => match k with KWord _ => true | KParam _ => false end) l.

Lemma words_app a b : words (a ++ b) = words a ++ words b.
Proof. apply filter_app. Qed.

Lemma words_insert i n l : words (insert i (KParam n) l) = words l.
Proof. unfold insert. rewrite words_app. cbn [words filter]. fold (words (skipn i l)). rewrite <- words_app, firstn_skipn. reflexivity. Qed.

Section C240.
Variable P : Type.
Variable is_float : P -> bool.
Variable format : text -> P -> text.

Lemma lookup_update {A} (d new : list (text * A)) k v :
  In (k, v) new -> NoDup (map fst new) -> lookup (update d new) k = Some v.
Proof.
  intros I N. unfold update.
  assert (G : forall l, In (k, v) l -> NoDup (map fst l) -> lookup (l ++ d) k = Some v).
  { intros l. induction l as [|[k' v'] l IH]; [contradiction|]. intros [E|Il] Nl.
    - injection E as <- <-. cbn. destruct (text_eq_dec k' k'); [reflexivity|congruence].
    - cbn in Nl. inversion Nl as [|? ? Nn Nl']. subst. cbn. destruct (text_eq_dec k k') as [->|_]; [|apply IH; assumption].
      exfalso. apply Nn. apply (in_map fst) in Il. exact Il. }
  apply G; [apply -> in_rev; exact I|]. rewrite map_rev. apply NoDup_rev. exact N.
Qed.

(** every word stays in order, every key is added exactly once and gets its value *)
Theorem c240_keys : forall new fmts indices (m : maker P),
  NoDup (map fst new) ->
  let m' := add_parameters P new fmts indices m in
  words (ordered_keys P m') = words (ordered_keys P m)
  /\ Permutation (ordered_keys P m') (ordered_keys P m ++ map (fun kv => KParam (fst kv)) new)
  /\ (indices = [] -> ordered_keys P m' = ordered_keys P m ++ map (fun kv => KParam (fst kv)) new)
  /\ (forall k v, In (k, v) new -> lookup (parameters P m') k = Some v).
Proof.
  intros new fmts indices m N m'. unfold m', add_parameters. cbn [ordered_keys parameters].
  split; [|split; [|split]].
  - generalize (ordered_keys P m). clear N m'. induction new as [|kv new IH]; intros l; [reflexivity|].
    cbn [fold_left]. rewrite IH. destruct (lookup indices (fst kv)).
    + apply words_insert.
    + rewrite words_app. cbn. apply app_nil_r.
  - generalize (ordered_keys P m). clear N m'. induction new as [|kv new IH]; intros l; [rewrite app_nil_r; apply Permutation_refl|].
    cbn [fold_left map]. eapply Permutation_trans; [apply IH|]. destruct (lookup indices (fst kv)) as [i|].
    + unfold insert. eapply Permutation_trans; [apply Permutation_app_tail; apply Permutation_sym, Permutation_middle|].
      rewrite firstn_skipn. cbn [app]. apply Permutation_middle.
    + rewrite <- app_assoc. apply Permutation_refl.
  - intros ->. generalize (ordered_keys P m). clear N m'. induction new as [|kv new IH]; intros l; [rewrite app_nil_r; reflexivity|].
    cbn [fold_left map lookup]. rewrite IH, <- app_assoc. reflexivity.
  - intros k v I. apply lookup_update; assumption.
Qed.

(** the position of a parameter given with an index *)
Theorem c240_index : forall k v fmts i (m : maker P),
  i <= length (ordered_keys P m) ->
  nth_error (ordered_keys P (add_parameters P [(k, v)] fmts [(k, i)] m)) i = Some (KParam k).
Proof.
  intros k v fmts i m H. unfold add_parameters. cbn [ordered_keys fold_left lookup fst]. destruct (text_eq_dec k k); [|congruence].
  unfold insert. rewrite nth_error_app2; rewrite firstn_length_le by exact H; [|lia]. rewrite Nat.sub_diag. reflexivity.
Qed.

(** with keys of known parameters: one item for each word and each parameter, in order, with the
    default format of the floats or the given one *)
Theorem c240_list : forall (m : maker P) keys,
  (forall n, In (KParam n) keys -> exists p, lookup (parameters P m) n = Some p) ->
  exists l, list_repr_of P is_float format m keys = Some l
    /\ Forall2 (fun k i => match k with
         | KWord w => i = IWord w
         | KParam n => exists p fmt, lookup (parameters P m) n = Some p
              /\ i = IParam n (clean fmt (format fmt p))
              /\ (forall f, lookup (formats P m) n = Some f -> fmt = f)
              /\ (lookup (formats P m) n = None -> is_float p = true -> fmt = txt ".3f")
              /\ (lookup (formats P m) n = None -> is_float p = false -> fmt = [])
         end) keys l.
Proof.
  intros m keys. induction keys as [|k keys IH]; intros H; [exists []; split; [reflexivity|constructor]|].
  destruct IH as [l [E F]]; [intros n I; apply H; right; exact I|].
  cbn [list_repr_of]. rewrite E. destruct k as [w|n].
  - exists (IWord w :: l). split; [reflexivity|]. constructor; [reflexivity|exact F].
  - destruct (H n (or_introl eq_refl)) as [p Ep]. rewrite Ep.
    eexists. split; [reflexivity|]. constructor; [|exact F].
    exists p, (match lookup (formats P m) n with Some f => f | None => if is_float p then txt ".3f" else [] end).
    split; [exact Ep|]. split; [reflexivity|]. split; [intros f Ef; rewrite Ef; reflexivity|].
    split; intros En Ef; rewrite En, Ef; reflexivity.
Qed.
End C240.

Example c240_hyps :
  let m := add_word nat (txt "ns2d") {| ordered_keys := []; parameters := []; formats := [] |} in
  let m' := add_parameters nat [(txt "nx", 48); (txt "ny", 32)] [] [(txt "ny", 0)] m in
  ordered_keys nat m' = [KParam (txt "ny"); KWord (txt "ns2d"); KParam (txt "nx")]
  /\ lookup (parameters nat m') (txt "ny") = Some 32
  /\ NoDup (map fst [(txt "nx", 48); (txt "ny", 32)]).
Proof.
  cbn zeta. split; [vm_compute; reflexivity|]. split; [vm_compute; reflexivity|].
  constructor; [cbn; intuition discriminate|]. constructor; [intros []|constructor].
Qed.

Print Assumptions c238_number_kept_partial.
Print Assumptions c238_upper_case_refuted.
Print Assumptions c239_name_of_a_loaded_simulation_partial.
Print Assumptions c239_renamed_directory_refuted.
Print Assumptions c240_keys.
Print Assumptions c240_index.
Print Assumptions c240_list.
