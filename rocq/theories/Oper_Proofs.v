From Coq Require Import List Arith ZArith Bool Reals Lia Lra.
From Coquelicot Require Import Complex.
From Verif Require Import Oper_Model Oper_Spec.
Import ListNotations.
Local Open Scope nat_scope.

(** ** Loops seen through an observation *)

Lemma fold_obs {S V} (obs : S -> V) body (hit : nat -> bool) (w : nat -> V) l : forall s,
  (forall i s, In i l -> obs (body i s) = if hit i then w i else obs s) ->
  (forall i j, In i l -> In j l -> hit i = true -> hit j = true -> w i = w j) ->
  (forall i, In i l -> hit i = true -> obs (fold_left (fun s i => body i s) l s) = w i)
  /\ ((forall i, In i l -> hit i = false) -> obs (fold_left (fun s i => body i s) l s) = obs s).
Proof.
  induction l as [|a l IH]; intros s HB HU; [split; [intros ? [] | reflexivity]|].
  assert (HB' : forall i s, In i l -> obs (body i s) = if hit i then w i else obs s) by (intros; apply HB; right; assumption).
  assert (HU' : forall i j, In i l -> In j l -> hit i = true -> hit j = true -> w i = w j)
    by (intros; apply HU; auto; right; assumption).
  destruct (IH (body a s) HB' HU') as [I1 I2]. cbn [fold_left]. split.
  - intros i [-> | Hi] HH.
    + destruct (existsb hit l) eqn:E.
      * apply existsb_exists in E as (j & Hj & Ej). rewrite (I1 j Hj Ej). apply HU; auto; [right|left]; auto.
      * rewrite I2.
        -- rewrite (HB i s (or_introl eq_refl)), HH. reflexivity.
        -- intros j Hj. destruct (hit j) eqn:Ej; [|reflexivity].
           assert (existsb hit l = true) by (apply existsb_exists; eauto). congruence.
    + auto.
  - intros HN. rewrite I2 by (intros; apply HN; right; assumption).
    rewrite (HB a s (or_introl eq_refl)), (HN a (or_introl eq_refl)). reflexivity.
Qed.

Lemma loop_obs {S V} (obs : S -> V) body (hit : nat -> bool) (w : nat -> V) n s :
  (forall i s, i < n -> obs (body i s) = if hit i then w i else obs s) ->
  (forall i j, i < n -> j < n -> hit i = true -> hit j = true -> w i = w j) ->
  (forall i, i < n -> hit i = true -> obs (loop n body s) = w i)
  /\ ((forall i, i < n -> hit i = false) -> obs (loop n body s) = obs s).
Proof.
  intros HB HU.
  destruct (fold_obs obs body hit w (seq 0 n) s) as [A B].
  - intros i t Hi. apply HB. apply in_seq in Hi. lia.
  - intros i j Hi Hj. apply in_seq in Hi, Hj. apply HU; lia.
  - split.
    + intros i Hi. apply A. apply in_seq. lia.
    + intros H. apply B. intros i Hi. apply H. apply in_seq in Hi. lia.
Qed.

(** the loop variable is the index which is observed *)
Lemma loop_point {S V} (obs : S -> V) body (c : bool) b (w : nat -> V) n s :
  (forall i s, obs (body i s) = if c && (b =? i) then w i else obs s) ->
  obs (loop n body s) = if c && (b <? n) then w b else obs s.
Proof.
  intros H.
  destruct (loop_obs obs body (fun i => c && (b =? i)) w n s) as [A B].
  - intros; apply H.
  - intros i j _ _ Hi Hj. apply andb_prop in Hi as [_ Hi], Hj as [_ Hj].
    apply Nat.eqb_eq in Hi, Hj. subst. reflexivity.
  - destruct c; cbn [andb] in *.
    + destruct (Nat.ltb_spec b n).
      * apply (A b); [assumption|]. apply Nat.eqb_refl.
      * apply B. intros i Hi. apply Nat.eqb_neq. lia.
    + apply B. reflexivity.
Qed.

(** ** Dealiasing *)

Ltac fin M := subst; rewrite ?M;
  repeat match goal with
  | |- context [Nat.ltb ?x ?y] => destruct (Nat.ltb x y)
  | m : nat -> nat -> bool |- context [?f ?x ?y] => constr_eq m f; destruct (m x y)
  | m : nat -> nat -> nat -> bool |- context [?f ?x ?y ?z] => constr_eq m f; destruct (m x y z)
  end; cbn [andb]; try reflexivity.

Section Dealias.
Context {V : Type}.
Variable zero : V.

Lemma dealias_sov_2d mask nk n0 n1 (sov : nat -> nat -> nat -> V) a b c :
  dealiasing_setofvar_2d zero true mask nk n0 n1 sov a b c
  = if (a <? nk) && ((b <? n0) && (c <? n1)) && mask b c then zero else sov a b c.
Proof.
  unfold dealiasing_setofvar_2d.
  set (obs := fun s : nat -> nat -> nat -> V => s a b c).
  change (obs (loop n0 (fun i0 => loop n1 (fun i1 s =>
     if mask i0 i1 then loop nk (fun ik s => set3 s ik i0 i1 zero) s else s)) sov)
   = if (a <? nk) && ((b <? n0) && (c <? n1)) && mask b c then zero else obs sov).
  rewrite (loop_point obs _ ((a <? nk) && (c <? n1) && mask b c) b (fun _ => zero)).
  - destruct (a <? nk), (b <? n0), (c <? n1), (mask b c); reflexivity.
  - intros i0 s.
    rewrite (loop_point obs _ ((a <? nk) && (b =? i0) && mask b c) c (fun _ => zero)).
    + destruct (a <? nk), (b =? i0), (c <? n1), (mask b c); reflexivity.
    + intros i1 t. destruct (mask i0 i1) eqn:M.
      * rewrite (loop_point obs _ ((b =? i0) && (c =? i1)) a (fun _ => zero)).
        -- destruct (Nat.eqb_spec b i0), (Nat.eqb_spec c i1); fin M.
        -- intros ik u. unfold obs, set3. destruct (a =? ik), (b =? i0), (c =? i1); reflexivity.
      * destruct (Nat.eqb_spec b i0), (Nat.eqb_spec c i1); fin M.
Qed.

Lemma dealias_sov_3d mask nk n0 n1 n2 (sov : nat -> nat -> nat -> nat -> V) a b c d :
  dealiasing_setofvar_3d zero mask nk n0 n1 n2 sov a b c d
  = if (a <? nk) && ((b <? n0) && (c <? n1) && (d <? n2)) && mask b c d then zero else sov a b c d.
Proof.
  unfold dealiasing_setofvar_3d.
  set (obs := fun s : nat -> nat -> nat -> nat -> V => s a b c d).
  match goal with |- ?l a b c d = _ => change (l a b c d) with (obs l) end.
  change (sov a b c d) with (obs sov).
  rewrite (loop_point obs _ ((a <? nk) && (c <? n1) && (d <? n2) && mask b c d) b (fun _ => zero)).
  - destruct (a <? nk), (b <? n0), (c <? n1), (d <? n2), (mask b c d); reflexivity.
  - intros i0 s.
    rewrite (loop_point obs _ ((a <? nk) && (b =? i0) && (d <? n2) && mask b c d) c (fun _ => zero)).
    + destruct (a <? nk), (b =? i0), (c <? n1), (d <? n2), (mask b c d); reflexivity.
    + intros i1 t.
      rewrite (loop_point obs _ ((a <? nk) && (b =? i0) && (c =? i1) && mask b c d) d (fun _ => zero)).
      * destruct (a <? nk), (b =? i0), (c =? i1), (d <? n2), (mask b c d); reflexivity.
      * intros i2 u. destruct (mask i0 i1 i2) eqn:M.
        -- rewrite (loop_point obs _ ((b =? i0) && (c =? i1) && (d =? i2)) a (fun _ => zero)).
           ++ destruct (Nat.eqb_spec b i0), (Nat.eqb_spec c i1), (Nat.eqb_spec d i2); fin M.
           ++ intros ik v. unfold obs, set4. destruct (a =? ik), (b =? i0), (c =? i1), (d =? i2); reflexivity.
        -- destruct (Nat.eqb_spec b i0), (Nat.eqb_spec c i1), (Nat.eqb_spec d i2); fin M.
Qed.

Lemma dealias_var_3d mask n0 n1 n2 (f : nat -> nat -> nat -> V) b c d :
  dealiasing_variable_3d zero mask n0 n1 n2 f b c d
  = if (b <? n0) && (c <? n1) && (d <? n2) && mask b c d then zero else f b c d.
Proof.
  unfold dealiasing_variable_3d.
  set (obs := fun s : nat -> nat -> nat -> V => s b c d).
  match goal with |- ?l b c d = _ => change (l b c d) with (obs l) end.
  change (f b c d) with (obs f).
  rewrite (loop_point obs _ ((c <? n1) && (d <? n2) && mask b c d) b (fun _ => zero)).
  - destruct (b <? n0), (c <? n1), (d <? n2), (mask b c d); reflexivity.
  - intros i0 s.
    rewrite (loop_point obs _ ((b =? i0) && (d <? n2) && mask b c d) c (fun _ => zero)).
    + destruct (b =? i0), (c <? n1), (d <? n2), (mask b c d); reflexivity.
    + intros i1 t.
      rewrite (loop_point obs _ ((b =? i0) && (c =? i1) && mask b c d) d (fun _ => zero)).
      * destruct (b =? i0), (c =? i1), (d <? n2), (mask b c d); reflexivity.
      * intros i2 u. destruct (mask i0 i1 i2) eqn:M; unfold obs, set3;
          destruct (Nat.eqb_spec b i0), (Nat.eqb_spec c i1), (Nat.eqb_spec d i2); fin M.
Qed.

Definition hits (b c d : nat) (p : nat * nat * nat) : bool :=
  (b =? fst (fst p)) && (c =? snd (fst p)) && (d =? snd p).

Lemma hits_nonzero mask n0 n1 n2 b c d :
  existsb (hits b c d) (nonzero mask n0 n1 n2) = (b <? n0) && (c <? n1) && (d <? n2) && mask b c d.
Proof.
  apply eq_true_iff_eq. rewrite existsb_exists. unfold nonzero. split.
  - intros ([[x y] z] & Hi & He). apply filter_In in Hi as [Hi Hm].
    apply in_prod_iff in Hi as [Hi Hz]. apply in_prod_iff in Hi as [Hx Hy].
    apply in_seq in Hx, Hy, Hz. unfold hits in He. cbn [fst snd] in *.
    apply andb_prop in He as [He H3]. apply andb_prop in He as [H1 H2].
    apply Nat.eqb_eq in H1, H2, H3. subst.
    rewrite Hm. rewrite !(proj2 (Nat.ltb_lt _ _)) by lia. reflexivity.
  - intros H. apply andb_prop in H as [H Hm]. apply andb_prop in H as [H H3]. apply andb_prop in H as [H1 H2].
    apply Nat.ltb_lt in H1, H2, H3.
    exists ((b, c), d). split.
    + apply filter_In. split; [|exact Hm]. apply in_prod_iff. split; [apply in_prod_iff; split|]; apply in_seq; lia.
    + unfold hits. cbn [fst snd]. rewrite !Nat.eqb_refl. reflexivity.
Qed.

Lemma dealias_var_numpy mask n0 n1 n2 (f : nat -> nat -> nat -> V) b c d :
  dealiasing_variable_numpy zero mask n0 n1 n2 f b c d
  = if (b <? n0) && (c <? n1) && (d <? n2) && mask b c d then zero else f b c d.
Proof.
  unfold dealiasing_variable_numpy. rewrite <- hits_nonzero.
  generalize (nonzero mask n0 n1 n2) as l. intros l. revert f.
  induction l as [|p l IH]; intros f; [reflexivity|].
  cbn [fold_left existsb]. rewrite IH.
  unfold hits at 2 3. unfold set3.
  destruct ((b =? fst (fst p)) && (c =? snd (fst p)) && (d =? snd p)); cbn [orb]; [|reflexivity].
  destruct (existsb _ l); reflexivity.
Qed.

Lemma dealias_sov_numpy mask nk n0 n1 n2 (sov : nat -> nat -> nat -> nat -> V) a b c d :
  dealiasing_setofvar_numpy zero mask nk n0 n1 n2 sov a b c d
  = if (a <? nk) && ((b <? n0) && (c <? n1) && (d <? n2)) && mask b c d then zero else sov a b c d.
Proof.
  unfold dealiasing_setofvar_numpy.
  set (obs := fun s : nat -> nat -> nat -> nat -> V => s a b c d).
  match goal with |- ?l a b c d = _ => change (l a b c d) with (obs l) end.
  change (sov a b c d) with (obs sov).
  rewrite (loop_point obs _ ((b <? n0) && (c <? n1) && (d <? n2) && mask b c d) a (fun _ => zero)).
  - destruct (a <? nk), (b <? n0), (c <? n1), (d <? n2), (mask b c d); reflexivity.
  - intros i s. rewrite <- hits_nonzero. generalize (nonzero mask n0 n1 n2) as l. intros l. revert s.
    induction l as [|p l IH]; intros s; [reflexivity|].
    cbn [fold_left existsb]. rewrite IH. unfold obs, set4, hits at 2.
    rewrite (Bool.andb_comm _ (a =? i)).
    destruct (a =? i), (existsb (hits b c d) l), (b =? fst (fst p)), (c =? snd (fst p)), (d =? snd p); reflexivity.
Qed.
End Dealias.

(** ** Projection on the real fields *)

Lemma Ceq (a b : C) : Re a = Re b -> Im a = Im b -> a = b.
Proof. destruct a, b. unfold Re, Im. simpl. congruence. Qed.

Lemma half_sum_conj x y : Cconj (half_sum x y) = half_sum y x.
Proof.
  unfold half_sum, Cdiv, Cinv, Cmult, Cplus, Cconj, RtoC, Re, Im. destruct x, y. cbn [fst snd].
  f_equal; field.
Qed.

Lemma half_sum_self x : half_sum x x = real_of x.
Proof.
  unfold half_sum, real_of, Cdiv, Cinv, Cmult, Cplus, Cconj, RtoC, Re, Im. destruct x. cbn [fst snd].
  f_equal; field.
Qed.

Lemma half_sum_id x : half_sum x (Cconj x) = x.
Proof.
  unfold half_sum, Cdiv, Cinv, Cmult, Cplus, Cconj, RtoC, Re, Im. destruct x. cbn [fst snd].
  f_equal; field.
Qed.

Lemma real_of_idem x : real_of (real_of x) = real_of x.
Proof. reflexivity. Qed.

Lemma Cconj_conj x : Cconj (Cconj x) = x.
Proof. unfold Cconj. destruct x. cbn [fst snd]. f_equal. lra. Qed.

Definition edge (kxM c : nat) : bool := (c =? 0) || (c =? kxM).
Definition done_row (n k a : nat) : bool := ((1 <=? a) && (a <=? k)) || ((n - k <=? a) && (a <? n)).

Lemma project_pair_obs n c p f a b :
  p < n -> n - p <> p ->
  project_pair n c p f a b
  = if (b =? c) && ((a =? p) || (a =? n - p)) then half_sum (f a c) (f (n - a) c) else f a b.
Proof.
  intros Hp Hne. unfold project_pair, set2.
  destruct (Nat.eqb_spec b c) as [->|]; rewrite ?Bool.andb_false_r, ?Bool.andb_true_r; [|reflexivity].
  cbn [andb].
  destruct (Nat.eqb_spec a (n - p)) as [->|]; rewrite ?Bool.orb_true_r.
  - rewrite half_sum_conj. replace (n - (n - p)) with p by lia. reflexivity.
  - destruct (Nat.eqb_spec a p) as [->|]; reflexivity.
Qed.

Lemma pairs_loop n kxM f : forall k, 0 < kxM -> 2 * k < n -> forall a b, 
  fold_left (fun s i => project_pair n kxM i (project_pair n 0 i s)) (seq 1 k) f a b
  = if edge kxM b && done_row n k a then half_sum (f a b) (f (n - a) b) else f a b.
Proof.
  intros k Hx. induction k as [|k IH]; intros Hk a b.
  - cbn [seq fold_left]. unfold done_row.
    destruct (Nat.leb_spec 1 a), (Nat.leb_spec a 0), (Nat.leb_spec (n - 0) a), (Nat.ltb_spec a n); try lia;
      cbn; rewrite ?Bool.andb_false_r; reflexivity.
  - rewrite seq_S, fold_left_app. cbn [fold_left].
    set (s := fold_left _ (seq 1 k) f) in *.
    assert (HS : forall a b, s a b = if edge kxM b && done_row n k a then half_sum (f a b) (f (n - a) b) else f a b)
      by (apply IH; lia). clearbody s. clear IH.
    rewrite (project_pair_obs n kxM (1 + k)) by lia. rewrite !(project_pair_obs n 0 (1 + k)) by lia.
    unfold edge in *.
    assert (HD : forall x, x = 1 + k \/ x = n - (1 + k) -> done_row n k x = false).
    { intros x Hxx. unfold done_row.
      destruct (Nat.leb_spec 1 x), (Nat.leb_spec x k), (Nat.leb_spec (n - k) x), (Nat.ltb_spec x n); try lia; reflexivity. }
    assert (HD1 : forall x, x = 1 + k \/ x = n - (1 + k) -> done_row n (S k) x = true).
    { intros x Hxx. unfold done_row.
      destruct (Nat.leb_spec 1 x), (Nat.leb_spec x (S k)), (Nat.leb_spec (n - S k) x), (Nat.ltb_spec x n); try lia; reflexivity. }
    assert (HD2 : forall x, x <> 1 + k -> x <> n - (1 + k) -> done_row n (S k) x = done_row n k x).
    { intros x H1 H2. unfold done_row.
      destruct (Nat.leb_spec 1 x), (Nat.leb_spec x k), (Nat.leb_spec x (S k)), (Nat.leb_spec (n - k) x),
        (Nat.leb_spec (n - S k) x), (Nat.ltb_spec x n); try lia; reflexivity. }
    assert (Hrow : (a = 1 + k \/ a = n - (1 + k)) \/ (a <> 1 + k /\ a <> n - (1 + k))) by lia.
    destruct Hrow as [Hrow | [N1 N2]].
    + assert (HR : (a =? 1 + k) || (a =? n - (1 + k)) = true)
        by (destruct Hrow as [-> | ->]; rewrite Nat.eqb_refl, ?Bool.orb_true_r; reflexivity).
      assert (Hopp : n - a = 1 + k \/ n - a = n - (1 + k)) by lia.
      assert (HR' : (n - a =? 1 + k) || (n - a =? n - (1 + k)) = true)
        by (destruct Hopp as [-> | ->]; rewrite Nat.eqb_refl, ?Bool.orb_true_r; reflexivity).
      rewrite HR, HR', (HD1 a Hrow), !Bool.andb_true_r.
      assert (E0 : (kxM =? 0) = false) by (apply Nat.eqb_neq; lia). rewrite E0.
      rewrite !HS, (HD a Hrow), (HD (n - a)) by lia. rewrite !Bool.andb_false_r.
      destruct (Nat.eqb_spec b kxM) as [->|]; rewrite ?Bool.orb_true_r; [reflexivity|].
      destruct (Nat.eqb_spec b 0) as [->|]; reflexivity.
    + assert (HR : (a =? 1 + k) || (a =? n - (1 + k)) = false)
        by (rewrite !(proj2 (Nat.eqb_neq _ _)) by assumption; reflexivity).
      rewrite HR, !Bool.andb_false_r, HS, HD2 by assumption. reflexivity.
Qed.

Lemma project_closed n nkx f a b : 2 <= nkx -> 1 <= n ->
  project_fft_on_realX_seq n nkx f a b
  = if edge (nkx - 1) b then
      if (a =? 0) || (a =? n / 2) then real_of (f a b)
      else if done_row n (n / 2 - 1) a then half_sum (f a b) (f (n - a) b) else f a b
    else f a b.
Proof.
  intros Hx Hn. unfold project_fft_on_realX_seq. set (kyM := n / 2).
  assert (HM : 2 * kyM <= n) by (unfold kyM; pose proof (Nat.div_mod n 2 ltac:(lia)); lia).
  set (M := nkx - 1).
  set (g := set2 (set2 (set2 (set2 f 0 0 _) 0 M _) kyM 0 _) kyM M _).
  assert (HG : forall x y, g x y = if edge M y && ((x =? 0) || (x =? kyM)) then real_of (f x y) else f x y).
  { intros x y. assert (HM0 : M <> 0) by (unfold M; lia). unfold g. clearbody M. clear g. unfold set2, edge.
    repeat match goal with |- context [?p =? ?q] => destruct (Nat.eqb_spec p q); try lia; subst; cbn [andb orb] end;
      try reflexivity; try congruence; try lia;
      match goal with H : kyM = 0 |- _ => rewrite H; reflexivity end. }
  clearbody g. unfold loop_from.
  destruct (Nat.eq_dec kyM 0) as [Hz | Hz].
  - rewrite Hz in *. cbn [Nat.sub seq fold_left]. rewrite HG.
    unfold done_row. destruct (edge M b); [|reflexivity].
    destruct (Nat.eqb_spec a 0); cbn [andb orb]; [reflexivity|].
    destruct (Nat.leb_spec 1 a), (Nat.leb_spec a 0), (Nat.leb_spec (n - 0) a), (Nat.ltb_spec a n); try lia; reflexivity.
  - rewrite (pairs_loop n M g (kyM - 1)) by (unfold M; lia).
    rewrite !HG. destruct (edge M b); cbn [andb]; [|reflexivity].
    destruct (done_row n (kyM - 1) a) eqn:D.
    + assert (HA : a <> 0 /\ a <> kyM /\ n - a <> 0 /\ n - a <> kyM).
      { unfold done_row in D. apply Bool.orb_prop in D as [D | D]; apply andb_prop in D as [D1 D2].
        - apply Nat.leb_le in D1, D2. lia.
        - apply Nat.leb_le in D1. apply Nat.ltb_lt in D2. lia. }
      rewrite !(proj2 (Nat.eqb_neq _ _)) by apply HA. reflexivity.
    + destruct ((a =? 0) || (a =? kyM)); reflexivity.
Qed.

Lemma edge_cases nkx b : edge (nkx - 1) b = true <-> b = 0 \/ b = nkx - 1.
Proof. unfold edge. rewrite Bool.orb_true_iff, !Nat.eqb_eq. tauto. Qed.

Lemma project_even_edge m nkx f a b : 2 <= nkx -> 1 <= m -> a < 2 * m -> b = 0 \/ b = nkx - 1 ->
  project_fft_on_realX_seq (2 * m) nkx f a b = half_sum (f a b) (f (opposite (2 * m) a) b).
Proof.
  intros Hx Hm Ha Hb. rewrite project_closed by lia.
  rewrite (proj2 (edge_cases _ _) Hb).
  rewrite (Nat.mul_comm 2 m), Nat.div_mul by lia.
  destruct (Nat.eqb_spec a 0) as [->|N0]; [cbn; rewrite half_sum_self; reflexivity|].
  assert (HO : opposite (m * 2) a = m * 2 - a) by (destruct a; [congruence | reflexivity]). rewrite HO.
  destruct (Nat.eqb_spec a m) as [->|N1]; cbn [orb].
  - replace (m * 2 - m) with m by lia. rewrite half_sum_self. reflexivity.
  - replace (done_row (m * 2) (m - 1) a) with true; [reflexivity|].
    symmetry. unfold done_row.
    destruct (Nat.leb_spec 1 a), (Nat.leb_spec a (m - 1)), (Nat.leb_spec (m * 2 - (m - 1)) a), (Nat.ltb_spec a (m * 2));
      try lia; reflexivity.
Qed.

Lemma project_inside n nkx f a b : 2 <= nkx -> 1 <= n -> b <> 0 -> b <> nkx - 1 ->
  project_fft_on_realX_seq n nkx f a b = f a b.
Proof.
  intros Hx Hn H0 H1. rewrite project_closed by lia.
  destruct (edge (nkx - 1) b) eqn:E; [|reflexivity]. apply edge_cases in E. tauto.
Qed.

Lemma opposite_opposite n a : a < n -> opposite n (opposite n a) = a.
Proof.
  intros H. destruct a as [|a]; [reflexivity|]. unfold opposite at 2.
  destruct (n - S a) eqn:E; [lia|]. unfold opposite. lia.
Qed.

Lemma opposite_lt n a : a < n -> opposite n a < n.
Proof. destruct a; unfold opposite; lia. Qed.

Lemma project_idem n nkx f a b : 2 <= nkx -> 1 <= n ->
  project_fft_on_realX_seq n nkx (project_fft_on_realX_seq n nkx f) a b = project_fft_on_realX_seq n nkx f a b.
Proof.
  intros Hx Hn. rewrite project_closed by lia. rewrite (project_closed n nkx f a b) by lia.
  destruct (edge (nkx - 1) b) eqn:E; [|reflexivity].
  destruct ((a =? 0) || (a =? n / 2)) eqn:R; [reflexivity|].
  destruct (done_row n (n / 2 - 1) a) eqn:D; [|reflexivity].
  rewrite project_closed, E by lia.
  assert (HM : 2 * (n / 2) <= n) by (pose proof (Nat.div_mod n 2 ltac:(lia)); lia).
  set (kyM := n / 2) in *. clearbody kyM.
  assert (HA : a <= n /\ a <> 0 /\ n - a <> 0 /\ n - a <> kyM /\ done_row n (kyM - 1) (n - a) = true).
  { unfold done_row in *. apply Bool.orb_prop in D as [D | D]; apply andb_prop in D as [D1 D2].
    - apply Nat.leb_le in D1, D2. repeat split; try lia.
      destruct (Nat.leb_spec (n - (kyM - 1)) (n - a)), (Nat.ltb_spec (n - a) n); try lia; apply Bool.orb_true_r.
    - apply Nat.leb_le in D1. apply Nat.ltb_lt in D2. repeat split; try lia.
      destruct (Nat.leb_spec 1 (n - a)), (Nat.leb_spec (n - a) (kyM - 1)); try lia; reflexivity. }
  destruct HA as (H1 & H2 & H3 & H4 & H5).
  rewrite !(proj2 (Nat.eqb_neq _ _)) by assumption. cbn [orb]. rewrite H5.
  replace (n - (n - a)) with a by lia.
  rewrite <- (half_sum_conj (f a b) (f (n - a) b)), half_sum_id. reflexivity.
Qed.

(** ** Coarse arrays *)

Lemma ikc_x ikc nkc nk : ik_from_ikc ikc nkc nk true = ikc.
Proof. unfold ik_from_ikc. rewrite Bool.orb_true_r. reflexivity. Qed.

Lemma ikc_inj nkc nk i j : nkc <= nk -> i < nkc -> j < nkc ->
  ik_from_ikc i nkc nk false = ik_from_ikc j nkc nk false -> i = j.
Proof.
  intros H Hi Hj. unfold ik_from_ikc. rewrite !Bool.orb_false_r.
  destruct (Nat.leb_spec (2 * i) nkc), (Nat.leb_spec (2 * j) nkc); lia.
Qed.

Lemma ikc_holds nkc nk i k : nkc <= nk -> i < nkc ->
  holds (Z.of_nat nkc) (Z.of_nat i) k -> holds (Z.of_nat nk) (Z.of_nat (ik_from_ikc i nkc nk false)) k.
Proof.
  intros H Hi ([Hk | Hk] & Hb & Hr); unfold holds, ik_from_ikc; rewrite Bool.orb_false_r;
    destruct (Nat.leb_spec (2 * i) nkc); lia.
Qed.

Lemma holds_inj n i j k : holds n i k -> holds n j k -> i = j.
Proof. unfold holds. lia. Qed.

Lemma holds_fun n i k l : holds n i k -> holds n i l -> k = l.
Proof. unfold holds. lia. Qed.

Lemma holds_ex n i : (0 <= i < n)%Z -> exists k, holds n i k.
Proof.
  intros H. unfold holds. destruct (Z_le_gt_dec (2 * i) n).
  - exists i. lia.
  - exists (i - n)%Z. lia.
Qed.

Section Coarse.
Context {V : Type}.

Lemma put_loop_2d nkyc nkxc nky (coarse arr : nat -> nat -> V) :
  nkyc <= nky ->
  let r := loop nkyc (fun ikyc => loop nkxc (fun ikxc a =>
             set2 a (ik_from_ikc ikyc nkyc nky false) ikxc (coarse ikyc ikxc))) arr in
  (forall i j, i < nkyc -> j < nkxc -> r (ik_from_ikc i nkyc nky false) j = coarse i j)
  /\ (forall a b, (forall i, i < nkyc -> b < nkxc -> a <> ik_from_ikc i nkyc nky false) -> r a b = arr a b).
Proof.
  intros Hn r.
  assert (HL : forall a b,
    (forall i, i < nkyc -> (a =? ik_from_ikc i nkyc nky false) && (b <? nkxc) = true -> r a b = coarse i b)
    /\ ((forall i, i < nkyc -> (a =? ik_from_ikc i nkyc nky false) && (b <? nkxc) = false) -> r a b = arr a b)).
  { intros a b.
    refine (loop_obs (fun s : nat -> nat -> V => s a b) _ (fun i => (a =? ik_from_ikc i nkyc nky false) && (b <? nkxc))
              (fun i => coarse i b) nkyc arr _ _).
    - intros i s Hi.
      apply (loop_point (fun s : nat -> nat -> V => s a b) _ (a =? ik_from_ikc i nkyc nky false) b (fun j => coarse i j)).
      intros j t. unfold set2. destruct ((a =? _) && (b =? j)) eqn:E; reflexivity.
    - intros i j Hi Hj H1 H2. apply andb_prop in H1 as [H1 _], H2 as [H2 _]. apply Nat.eqb_eq in H1, H2.
      f_equal. apply (ikc_inj nkyc nky); congruence. }
  split.
  - intros i j Hi Hj. apply HL; [assumption|]. rewrite Nat.eqb_refl. cbn. apply Nat.ltb_lt. assumption.
  - intros a b H. apply HL. intros i Hi. destruct (Nat.ltb_spec b nkxc); [|apply Bool.andb_false_r].
    rewrite (proj2 (Nat.eqb_neq _ _)); [reflexivity|]. auto.
Qed.

Lemma read_loop_2d zero nkyc nkxc nky (f : nat -> nat -> V) i j : i < nkyc -> j < nkxc ->
  coarse_from_2d zero nkyc nkxc nky f i j = f (ik_from_ikc i nkyc nky false) j.
Proof.
  intros Hi Hj. unfold coarse_from_2d.
  set (obs := fun s : nat -> nat -> V => s i j).
  match goal with |- ?l i j = _ => change (l i j) with (obs l) end.
  rewrite (loop_point obs _ (j <? nkxc) i (fun i => f (ik_from_ikc i nkyc nky false) j)).
  - rewrite !(proj2 (Nat.ltb_lt _ _)) by assumption. reflexivity.
  - intros a s. rewrite (loop_point obs _ (i =? a) j (fun j => f (ik_from_ikc a nkyc nky false) j)).
    + rewrite Bool.andb_comm. reflexivity.
    + intros b t. reflexivity.
Qed.

Lemma put_loop_3d nkzc nkyc nkxc nkz nky (coarse arr : nat -> nat -> nat -> V) :
  nkyc <= nky -> nkzc <= nkz ->
  let r := put_coarse_3d nkzc nkyc nkxc nkz nky coarse arr in
  (forall h i j, h < nkzc -> i < nkyc -> j < nkxc ->
     r (ik_from_ikc h nkzc nkz false) (ik_from_ikc i nkyc nky false) j = coarse h i j)
  /\ (forall z a b, (forall h i, h < nkzc -> i < nkyc -> b < nkxc ->
                       z <> ik_from_ikc h nkzc nkz false \/ a <> ik_from_ikc i nkyc nky false) -> r z a b = arr z a b).
Proof.
  intros Hy Hz r.
  assert (HL : forall z a b, (* inner loops of one ikzc *)
    forall h s, (forall i, i < nkyc -> (z =? ik_from_ikc h nkzc nkz false) && ((a =? ik_from_ikc i nkyc nky false) && (b <? nkxc)) = true ->
       loop nkyc (fun ikyc => loop nkxc (fun ikxc t =>
         set3 t (ik_from_ikc h nkzc nkz false) (ik_from_ikc ikyc nkyc nky false) ikxc (coarse h ikyc ikxc))) s z a b = coarse h i b)
    /\ ((forall i, i < nkyc -> (z =? ik_from_ikc h nkzc nkz false) && ((a =? ik_from_ikc i nkyc nky false) && (b <? nkxc)) = false) ->
       loop nkyc (fun ikyc => loop nkxc (fun ikxc t =>
         set3 t (ik_from_ikc h nkzc nkz false) (ik_from_ikc ikyc nkyc nky false) ikxc (coarse h ikyc ikxc))) s z a b = s z a b)).
  { intros z a b h s.
    refine (loop_obs (fun s : nat -> nat -> nat -> V => s z a b) _
              (fun i => (z =? ik_from_ikc h nkzc nkz false) && ((a =? ik_from_ikc i nkyc nky false) && (b <? nkxc)))
              (fun i => coarse h i b) nkyc s _ _).
    - intros i t Hi.
      rewrite (loop_point (fun s : nat -> nat -> nat -> V => s z a b) _
               ((z =? ik_from_ikc h nkzc nkz false) && (a =? ik_from_ikc i nkyc nky false)) b (fun j => coarse h i j)).
      + rewrite Bool.andb_assoc. reflexivity.
      + intros j u. unfold set3. destruct ((z =? _) && (a =? _) && (b =? j)) eqn:E; reflexivity.
    - intros i j Hi Hj H1 H2. apply andb_prop in H1 as [_ H1], H2 as [_ H2].
      apply andb_prop in H1 as [H1 _], H2 as [H2 _]. apply Nat.eqb_eq in H1, H2.
      f_equal. apply (ikc_inj nkyc nky); congruence. }
  assert (HH : forall a b, exists hit : bool, exists wi,
      ((hit = true /\ wi < nkyc /\ a = ik_from_ikc wi nkyc nky false /\ b < nkxc)
       \/ (hit = false /\ forall i, i < nkyc -> (a =? ik_from_ikc i nkyc nky false) && (b <? nkxc) = false))).
  { intros a b.
    destruct (existsb (fun i => (a =? ik_from_ikc i nkyc nky false) && (b <? nkxc)) (seq 0 nkyc)) eqn:E.
    - apply existsb_exists in E as (i & Hi & E). apply in_seq in Hi. apply andb_prop in E as [E1 E2].
      apply Nat.eqb_eq in E1. apply Nat.ltb_lt in E2. exists true, i. left. repeat split; auto; lia.
    - exists false, 0. right. split; [reflexivity|]. intros i Hi.
      destruct ((a =? _) && (b <? nkxc)) eqn:F; [|reflexivity].
      assert (existsb (fun i => (a =? ik_from_ikc i nkyc nky false) && (b <? nkxc)) (seq 0 nkyc) = true).
      { apply existsb_exists. exists i. split; [apply in_seq; lia | exact F]. }
      congruence. }
  assert (HO : forall z a b,
    (forall h wi, h < nkzc -> wi < nkyc -> b < nkxc -> z = ik_from_ikc h nkzc nkz false -> a = ik_from_ikc wi nkyc nky false ->
       r z a b = coarse h wi b)
    /\ ((forall h i, h < nkzc -> i < nkyc -> b < nkxc ->
                       z <> ik_from_ikc h nkzc nkz false \/ a <> ik_from_ikc i nkyc nky false) -> r z a b = arr z a b)).
  { intros z a b. destruct (HH a b) as (hit & wi & Hhit).
    assert (HB : forall h s, h < nkzc ->
       loop nkyc (fun ikyc => loop nkxc (fun ikxc t =>
         set3 t (ik_from_ikc h nkzc nkz false) (ik_from_ikc ikyc nkyc nky false) ikxc (coarse h ikyc ikxc))) s z a b
       = if hit && (z =? ik_from_ikc h nkzc nkz false) then coarse h wi b else s z a b).
    { intros h s Hh. destruct (HL z a b h s) as [A B].
      destruct Hhit as [(-> & Hw & Ea & Eb) | (-> & Hno)]; cbn [andb].
      - destruct (z =? ik_from_ikc h nkzc nkz false) eqn:Ez.
        + apply A; [assumption|]. rewrite Ea, Nat.eqb_refl. cbn. apply Nat.ltb_lt. assumption.
        + apply B. intros; reflexivity.
      - apply B. intros i Hi. rewrite Hno by assumption. apply Bool.andb_false_r. }
    destruct (loop_obs (fun s : nat -> nat -> nat -> V => s z a b)
                (fun ikzc => loop nkyc (fun ikyc => loop nkxc (fun ikxc t =>
                   set3 t (ik_from_ikc ikzc nkzc nkz false) (ik_from_ikc ikyc nkyc nky false) ikxc (coarse ikzc ikyc ikxc))))
                (fun h => hit && (z =? ik_from_ikc h nkzc nkz false)) (fun h => coarse h wi b) nkzc arr HB) as [A B].
    { intros i j Hi Hj H1 H2. apply andb_prop in H1 as [_ H1], H2 as [_ H2]. apply Nat.eqb_eq in H1, H2.
      f_equal. apply (ikc_inj nkzc nkz); congruence. }
    split.
    - intros h w Hh Hw Hb Ez Ea.
      destruct Hhit as [(-> & Hw' & Ea' & Eb) | (-> & Hno)].
      + assert (w = wi) by (apply (ikc_inj nkyc nky); congruence). subst w.
        apply (A h Hh). rewrite Ez, Nat.eqb_refl. reflexivity.
      + exfalso. specialize (Hno w Hw). rewrite Ea, Nat.eqb_refl in Hno. cbn in Hno.
        apply Nat.ltb_ge in Hno. lia.
    - intros Hno. apply B. intros h Hh. destruct Hhit as [(-> & Hw' & Ea' & Eb) | (-> & _)]; [|reflexivity].
      cbn [andb]. apply Nat.eqb_neq. destruct (Hno h wi Hh Hw' Eb); [assumption | contradiction]. }
  split.
  - intros h i j Hh Hi Hj. apply HO; auto.
  - intros z a b. apply HO.
Qed.

Lemma read_loop_3d zero nkzc nkyc nkxc nkz nky (f : nat -> nat -> nat -> V) h i j : h < nkzc -> i < nkyc -> j < nkxc ->
  coarse_from_3d zero nkzc nkyc nkxc nkz nky f h i j = f (ik_from_ikc h nkzc nkz false) (ik_from_ikc i nkyc nky false) j.
Proof.
  intros Hh Hi Hj. unfold coarse_from_3d.
  set (obs := fun s : nat -> nat -> nat -> V => s h i j).
  match goal with |- ?l h i j = _ => change (l h i j) with (obs l) end.
  rewrite (loop_point obs _ ((i <? nkyc) && (j <? nkxc)) h (fun h => f (ik_from_ikc h nkzc nkz false) (ik_from_ikc i nkyc nky false) j)).
  - rewrite !(proj2 (Nat.ltb_lt _ _)) by assumption. reflexivity.
  - intros z s.
    rewrite (loop_point obs _ ((h =? z) && (j <? nkxc)) i (fun i => f (ik_from_ikc z nkzc nkz false) (ik_from_ikc i nkyc nky false) j)).
    + destruct (h =? z), (j <? nkxc), (i <? nkyc); reflexivity.
    + intros a t. rewrite (loop_point obs _ ((h =? z) && (i =? a)) j (fun j => f (ik_from_ikc z nkzc nkz false) (ik_from_ikc a nkyc nky false) j)).
      * destruct (h =? z), (j <? nkxc), (i =? a); reflexivity.
      * intros b u. reflexivity.
Qed.
End Coarse.

(** ** Indices *)

Lemma kadim_holds nk ik : (0 <= ik < nk)%Z -> holds nk ik (kadim_from_ik ik nk false).
Proof.
  intros H. unfold holds, kadim_from_ik. cbn [orb].
  pose proof (Z.div_mod nk 2 ltac:(lia)). pose proof (Z.mod_pos_bound nk 2 ltac:(lia)).
  destruct (Z.leb_spec ik (nk / 2)); lia.
Qed.

Lemma ik_holds nk k : (- nk < 2 * k <= nk)%Z -> (2 <= nk)%Z -> holds nk (ik_from_kadim k nk false) k.
Proof.
  intros H Hn. unfold holds, ik_from_kadim. cbn [orb]. destruct (Z.leb_spec 0 k); lia.
Qed.

(** ** Owners *)

Lemma start_rank_S c counts r : start_rank (c :: counts) (S r) = c + start_rank counts r.
Proof. reflexivity. Qed.

Lemma starts_cons c counts : starts_of (c :: counts) = 0 :: map (fun s => c + s) (starts_of counts).
Proof.
  unfold starts_of. cbn [length seq map]. f_equal. rewrite <- seq_shift, !map_map.
  apply map_ext. intros r. apply start_rank_S.
Qed.

Lemma total_start counts : start_rank counts (length counts) = total counts.
Proof. unfold start_rank. rewrite firstn_all. induction counts; cbn; [reflexivity|]. rewrite IHcounts. reflexivity. Qed.

Lemma search_3d_shift c starts : forall i rank, c <= i ->
  search_3d i (map (fun s => c + s) starts) rank = search_3d (i - c) starts rank.
Proof.
  induction starts as [|s l IH]; intros i rank H; [reflexivity|]. cbn [map search_3d].
  destruct (Nat.ltb_spec i (c + s)), (Nat.ltb_spec (i - c) s); try lia. apply IH. assumption.
Qed.

Lemma search_3d_before starts : forall i rank, (forall s, In s starts -> i < s) ->
  starts <> [] -> search_3d i starts rank = (rank - 1)%Z.
Proof.
  intros i rank H N. destruct starts as [|s l]; [congruence|]. cbn [search_3d].
  rewrite (proj2 (Nat.ltb_lt _ _)) by (apply H; left; reflexivity). reflexivity.
Qed.

Lemma search_3d_owns counts : forall i rank, i < total counts ->
  exists r j, search_3d i (starts_of counts) rank = (rank + Z.of_nat r)%Z /\ owns counts i r j
    /\ i = start_rank counts r + j /\ r < length counts.
Proof.
  induction counts as [|c counts IH]; intros i rank H; [cbn in H; lia|].
  rewrite starts_cons. cbn [search_3d]. destruct (Nat.ltb_spec i 0); [lia|].
  destruct (Nat.lt_ge_cases i c) as [Hc | Hc].
  - exists 0, i. split; [|cbn; repeat split; lia].
    destruct counts as [|c' counts]; [cbn; lia|].
    rewrite search_3d_before.
    + lia.
    + intros s Hs. apply in_map_iff in Hs as (x & <- & _). lia.
    + rewrite starts_cons. discriminate.
  - cbn [total] in H. destruct (IH (i - c) (rank + 1)%Z) as (r & j & E & O & S1 & L); [lia|].
    exists (S r), j. rewrite search_3d_shift by assumption. rewrite E. split; [lia|].
    split; [cbn; split; assumption|]. rewrite start_rank_S. cbn [length]. split; lia.
Qed.

Lemma same_size_owns c : forall n i, 0 < c -> i < total (repeat c n) ->
  owns (repeat c n) i (i / c) (i - start_rank (repeat c n) (i / c))
  /\ start_rank (repeat c n) (i / c) <= i.
Proof.
  induction n as [|n IH]; intros i Hc H; [cbn in H; lia|]. cbn [repeat total] in *.
  destruct (Nat.lt_ge_cases i c) as [Hi | Hi].
  - rewrite Nat.div_small by assumption. cbn. split; [split|]; lia.
  - destruct (IH (i - c) Hc) as [O L]; [lia|].
    assert (E : i / c = S ((i - c) / c)).
    { replace i with ((i - c) + 1 * c) at 1 by lia. rewrite Nat.div_add by lia. lia. }
    rewrite E, start_rank_S. split; [|lia]. cbn [owns]. split; [assumption|].
    replace (i - (c + start_rank (repeat c n) ((i - c) / c))) with (i - c - start_rank (repeat c n) ((i - c) / c)) by lia.
    exact O.
Qed.

Lemma search_2d_shift c starts : forall i rank,
  search_2d i (map (fun s => c + s)%Z starts) rank = search_2d (i - c) starts rank.
Proof.
  induction starts as [|s l IH]; intros i rank; [reflexivity|].
  destruct l as [|s' l]; [reflexivity|]. specialize (IH i (S rank)).
  cbn [map search_2d] in *.
  destruct (Z.leb_spec (c + s) i), (Z.leb_spec s (i - c)), (Z.ltb_spec i (c + s')), (Z.ltb_spec (i - c) s'); try lia;
    cbn [andb]; try reflexivity; exact IH.
Qed.

Lemma search_2d_owns counts : forall i rank, i < total counts ->
  exists r j, search_2d (Z.of_nat i) (map Z.of_nat (starts_of counts)) rank = rank + r /\ owns counts i r j
    /\ i = start_rank counts r + j /\ r < length counts.
Proof.
  induction counts as [|c counts IH]; intros i rank H; [cbn in H; lia|].
  rewrite starts_cons. destruct counts as [|c' counts].
  - cbn in *. exists 0, i. repeat split; lia.
  - rewrite starts_cons in *. cbn [map search_2d].
    destruct (Nat.lt_ge_cases i c) as [Hc | Hc].
    + exists 0, i. rewrite (proj2 (Z.leb_le _ _)) by lia. rewrite (proj2 (Z.ltb_lt _ _)) by lia. cbn.
      repeat split; lia.
    + rewrite (proj2 (Z.leb_le _ _)) by lia. rewrite (proj2 (Z.ltb_ge _ _)) by lia. cbn [andb].
      change (total (c :: c' :: counts)) with (c + total (c' :: counts)) in H.
      destruct (IH (i - c) (S rank)) as (r & j & E & O & S1 & L); [lia|].
      exists (S r), j. split.
      * rewrite Nat2Z.inj_sub in E by assumption. rewrite <- search_2d_shift in E.
        rewrite !map_map in *. cbn [map] in E. rewrite !map_map in E.
        transitivity (S rank + r); [|lia]. rewrite <- E.
        rewrite <- Nat2Z.inj_add.
        rewrite (map_ext (fun x => (Z.of_nat c + Z.of_nat (c' + x))%Z) (fun x => Z.of_nat (c + (c' + x)))) by (intros; lia).
        reflexivity.
      * split; [cbn [owns]; split; assumption|]. rewrite start_rank_S. cbn [length] in *. split; lia.
Qed.

Lemma where_pencil_correct i boxes : forall rank,
  (exists b, In b boxes /\ inside i b = true) ->
  exists r f s j, where_pencil i boxes rank = Some (rank + r, j) /\ nth_error boxes r = Some (f, s)
    /\ inside i (f, s) = true
    /\ j = ((fst (fst i) - fst (fst f))%Z, (snd (fst i) - snd (fst f))%Z, (snd i - snd f)%Z).
Proof.
  induction boxes as [|b boxes IH]; intros rank (b0 & Hin & Hb); [destruct Hin|].
  cbn [where_pencil]. destruct (inside i b) eqn:E.
  - destruct i as [[i0 i1] i2], b as [[[f0 f1] f2] [[s0 s1] s2]].
    exists 0, (f0, f1, f2), (s0, s1, s2), ((i0 - f0)%Z, (i1 - f1)%Z, (i2 - f2)%Z).
    rewrite Nat.add_0_r. repeat split; auto.
  - destruct (IH (S rank)) as (r & f & s & j & E1 & E2 & E3 & E4).
    + destruct Hin as [-> | Hin]; [congruence | eauto].
    + exists (S r), f, s, j. rewrite E1. repeat split; auto. f_equal. f_equal. lia.
Qed.

Lemma where_pencil_none i boxes : forall rank, where_pencil i boxes rank = None ->
  forall b, In b boxes -> inside i b = false.
Proof.
  induction boxes as [|b boxes IH]; intros rank H c Hc; [destruct Hc|].
  cbn [where_pencil] in H. destruct (inside i b) eqn:E.
  - destruct i as [[i0 i1] i2], b as [[[f0 f1] f2] [[s0 s1] s2]]. discriminate.
  - destruct Hc as [<- | Hc]; [assumption | exact (IH _ H c Hc)].
Qed.
