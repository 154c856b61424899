From Coq Require Import List Arith ZArith Bool Lia.
From Verif Require Import Oper_Model Oper_Spec Oper_Proofs Resol_Model.
Import ListNotations.
Local Open Scope nat_scope.

(** ** Loops which write the same value *)
Lemma fold_const {S V} (obs : S -> V) body (hit : nat -> bool) w l : forall s,
  (forall i s, In i l -> obs (body i s) = if hit i then w else obs s) ->
  obs (fold_left (fun s i => body i s) l s) = if existsb hit l then w else obs s.
Proof.
  intros s H. destruct (fold_obs obs body hit (fun _ => w) l s H ltac:(reflexivity)) as [A B].
  destruct (existsb hit l) eqn:E.
  - apply existsb_exists in E as (i & Hi & Ei). apply (A i Hi Ei).
  - apply B. intros i Hi. destruct (hit i) eqn:F; [|reflexivity].
    assert (existsb hit l = true) by (apply existsb_exists; eauto). congruence.
Qed.

Lemma loop_ext {S} (f g : nat -> S -> S) n : forall s,
  (forall i s, i < n -> f i s = g i s) -> loop n f s = loop n g s.
Proof.
  unfold loop. intros s H.
  assert (G : forall l s, (forall i, In i l -> i < n) -> fold_left (fun s i => f i s) l s = fold_left (fun s i => g i s) l s).
  { induction l as [|a l IH]; intros t Hl; [reflexivity|]. cbn [fold_left].
    rewrite H by (apply Hl; left; reflexivity). apply IH. intros; apply Hl; right; assumption. }
  apply G. intros i Hi. apply in_seq in Hi. lia.
Qed.

(** the rows of the output which are written, and the row of the input which is copied there *)
Definition row (m n_out a : nat) : bool := (a <=? m) || ((n_out - m <? a) && (a <? n_out)).
Definition src (m n_in n_out a : nat) : nat := if a <=? m then a else n_in - (n_out - a).

Section Fill.
Context {V : Type}.

Lemma fill_2d_closed n0_in n1_in n0_out n1_out (f out : nat -> nat -> V) a b :
  let m := min n0_out n0_in / 2 in
  fill_field_fft_2d n0_in n1_in n0_out n1_out f out a b
  = if (b <? min n1_out n1_in) && row m n0_out a then f (src m n0_in n0_out a) b else out a b.
Proof.
  intros m. unfold fill_field_fft_2d. fold m.
  assert (Hm : 2 * m <= n0_out /\ 2 * m <= n0_in).
  { unfold m. pose proof (Nat.div_mod (min n0_out n0_in) 2 ltac:(lia)). lia. }
  clearbody m. set (nk1 := min n1_out n1_in).
  set (obs := fun s : nat -> nat -> V => s a b).
  set (o1 := loop nk1 _ out).
  assert (E1 : obs o1 = if (b <? nk1) && ((a =? 0) || (a =? m)) then f a b else obs out).
  { unfold o1. rewrite (loop_point obs _ ((a =? 0) || (a =? m)) b (fun j => f a j)).
    - rewrite Bool.andb_comm. reflexivity.
    - intros j s. unfold obs, set2.
      destruct (Nat.eqb_spec a 0), (Nat.eqb_spec a m), (Nat.eqb_spec b j); subst; cbn; reflexivity. }
  clearbody o1.
  match goal with |- ?l a b = _ => change (l a b) with (obs l) end. change (out a b) with (obs out).
  unfold loop_from.
  rewrite (fold_const obs _ (fun i => ((a =? i) || (a =? n0_out - i)) && (b <? nk1)) (f (src m n0_in n0_out a) b)).
  - rewrite E1.
    replace (existsb (fun i => ((a =? i) || (a =? n0_out - i)) && (b <? nk1)) (seq 1 (m - 1)))
      with ((b <? nk1) && (((1 <=? a) && (a <? m)) || ((n0_out - m <? a) && (a <? n0_out)))).
    + unfold row, src.
      destruct (b <? nk1); cbn [andb]; [|reflexivity].
      destruct (Nat.leb_spec a m), (Nat.leb_spec 1 a), (Nat.ltb_spec a m), (Nat.ltb_spec (n0_out - m) a), (Nat.ltb_spec a n0_out),
        (Nat.eqb_spec a 0), (Nat.eqb_spec a m); try lia; cbn [andb orb]; reflexivity.
    + apply eq_true_iff_eq. rewrite existsb_exists. split.
      * intros H. apply andb_prop in H as [Hb H]. rewrite Hb.
        apply Bool.orb_prop in H as [H | H]; apply andb_prop in H as [H1 H2].
        -- apply Nat.leb_le in H1. apply Nat.ltb_lt in H2. exists a. rewrite Nat.eqb_refl. split; [apply in_seq; lia | reflexivity].
        -- apply Nat.ltb_lt in H1, H2. exists (n0_out - a). split; [apply in_seq; lia|].
           replace (n0_out - (n0_out - a)) with a by lia. rewrite Nat.eqb_refl, Bool.orb_true_r. reflexivity.
      * intros (i & Hi & H). apply in_seq in Hi. apply andb_prop in H as [H Hb]. rewrite Hb. cbn [andb].
        apply Bool.orb_prop in H as [H | H]; apply Nat.eqb_eq in H; subst a.
        -- rewrite (proj2 (Nat.leb_le _ _)), (proj2 (Nat.ltb_lt _ _)) by lia. reflexivity.
        -- rewrite (proj2 (Nat.ltb_lt (n0_out - m) _)), (proj2 (Nat.ltb_lt _ n0_out)) by lia. apply Bool.orb_true_r.
  - intros i s Hi. apply in_seq in Hi.
    rewrite (loop_point obs _ ((a =? i) || (a =? n0_out - i)) b (fun j => f (src m n0_in n0_out a) j)); [reflexivity|].
    intros j t. unfold obs, set2, src.
    destruct (Nat.eqb_spec a i), (Nat.eqb_spec a (n0_out - i)), (Nat.eqb_spec b j), (Nat.leb_spec a m); subst; try lia;
      cbn [andb orb]; try reflexivity.
    replace (n0_out - (n0_out - i)) with i by lia. reflexivity.
Qed.

Definition hit_row (m n_out a i : nat) : bool := (a =? i) || ((0 <? i) && (i <? m) && (a =? n_out - i)).

Lemma hit_row_loop m n_out a : 2 * m <= n_out -> existsb (hit_row m n_out a) (seq 0 (m + 1)) = row m n_out a.
Proof.
  intros Hm. apply eq_true_iff_eq. rewrite existsb_exists. unfold hit_row, row. split.
  - intros (i & Hi & H). apply in_seq in Hi. apply Bool.orb_prop in H as [H | H].
    + apply Nat.eqb_eq in H. rewrite (proj2 (Nat.leb_le _ _)) by lia. reflexivity.
    + apply andb_prop in H as [H H3]. apply andb_prop in H as [H1 H2]. apply Nat.ltb_lt in H1, H2. apply Nat.eqb_eq in H3.
      rewrite (proj2 (Nat.ltb_lt (n_out - m) _)), (proj2 (Nat.ltb_lt _ n_out)) by lia. apply Bool.orb_true_r.
  - intros H. apply Bool.orb_prop in H as [H | H].
    + apply Nat.leb_le in H. exists a. rewrite Nat.eqb_refl. split; [apply in_seq; lia | reflexivity].
    + apply andb_prop in H as [H1 H2]. apply Nat.ltb_lt in H1, H2. exists (n_out - a). split; [apply in_seq; lia|].
      rewrite !(proj2 (Nat.ltb_lt _ _)) by lia. replace (n_out - (n_out - a)) with a by lia.
      rewrite Nat.eqb_refl. apply Bool.orb_true_r.
Qed.

Lemma hit_row_src m n_in n_out a i : 2 * m <= n_out -> i <= m -> hit_row m n_out a i = true ->
  (a = i /\ src m n_in n_out a = i) \/ (0 < i < m /\ a = n_out - i /\ a <> i /\ src m n_in n_out a = n_in - i).
Proof.
  intros Hm Hi H. unfold hit_row, src in *. apply Bool.orb_prop in H as [H | H].
  - apply Nat.eqb_eq in H. left. rewrite (proj2 (Nat.leb_le _ _)) by lia. auto.
  - apply andb_prop in H as [H H3]. apply andb_prop in H as [H1 H2]. apply Nat.ltb_lt in H1, H2. apply Nat.eqb_eq in H3.
    right. rewrite (proj2 (Nat.leb_gt _ _)) by lia. repeat split; try lia.
Qed.

Lemma mini_body n0_in n1_in n0_out n1_out m0 m1 (f out : nat -> nat -> nat -> V) a b c ik0 ik1 ik2 :
  2 * m0 <= n0_out -> 2 * m1 <= n1_out -> ik0 <= m0 -> ik1 <= m1 ->
  (let neg0 := (0 <? ik0) && (ik0 <? m0) in
    let neg1 := (0 <? ik1) && (ik1 <? m1) in
    let out := set3 out ik0 ik1 ik2 (f ik0 ik1 ik2) in
    let out :=
      if neg0 then
        let out := set3 out (n0_out - ik0) ik1 ik2 (f (n0_in - ik0) ik1 ik2) in
        if neg1 then set3 out (n0_out - ik0) (n1_out - ik1) ik2 (f (n0_in - ik0) (n1_in - ik1) ik2) else out
      else out in
    if neg1 then set3 out ik0 (n1_out - ik1) ik2 (f ik0 (n1_in - ik1) ik2) else out) a b c
  = if hit_row m0 n0_out a ik0 && hit_row m1 n1_out b ik1 && (c =? ik2)
    then f (src m0 n0_in n0_out a) (src m1 n1_in n1_out b) ik2 else out a b c.
Proof.
  intros H0 H1 L0 L1. cbv zeta. unfold set3, hit_row, src.
  destruct (Nat.ltb_spec 0 ik0), (Nat.ltb_spec ik0 m0), (Nat.ltb_spec 0 ik1), (Nat.ltb_spec ik1 m1); cbn [andb];
    destruct (Nat.eqb_spec c ik2); subst; rewrite ?Bool.andb_false_r, ?Bool.orb_false_r, ?Bool.andb_true_r; try reflexivity;
    destruct (Nat.eqb_spec a ik0), (Nat.eqb_spec a (n0_out - ik0)), (Nat.eqb_spec b ik1), (Nat.eqb_spec b (n1_out - ik1));
    subst; try lia; cbn [andb orb]; try reflexivity;
    repeat match goal with |- context [?x <=? ?y] => destruct (Nat.leb_spec x y); try lia end; try reflexivity;
    repeat match goal with |- context [?n - (?n - ?i)] => replace (n - (n - i)) with i by lia end; reflexivity.
Qed.

Lemma mini_closed n0_in n1_in n2_in n0_out n1_out n2_out (f out : nat -> nat -> nat -> V) a b c :
  let m0 := min n0_out n0_in / 2 in let m1 := min n1_out n1_in / 2 in
  mini_fill_field_fft_3d n0_in n1_in n2_in n0_out n1_out n2_out f out a b c
  = if row m0 n0_out a && row m1 n1_out b && (c <? min n2_out n2_in)
    then f (src m0 n0_in n0_out a) (src m1 n1_in n1_out b) c else out a b c.
Proof.
  intros m0 m1. unfold mini_fill_field_fft_3d. fold m0. fold m1.
  assert (Hm : 2 * m0 <= n0_out /\ 2 * m1 <= n1_out).
  { unfold m0, m1. pose proof (Nat.div_mod (min n0_out n0_in) 2 ltac:(lia)). pose proof (Nat.div_mod (min n1_out n1_in) 2 ltac:(lia)). lia. }
  clearbody m0 m1. destruct Hm as [H0 H1]. set (nk2 := min n2_out n2_in).
  set (obs := fun s : nat -> nat -> nat -> V => s a b c).
  match goal with |- ?l a b c = _ => change (l a b c) with (obs l) end. change (out a b c) with (obs out).
  unfold loop at 1.
  rewrite (fold_const obs _ (fun i => hit_row m0 n0_out a i && (row m1 n1_out b && (c <? nk2)))
             (f (src m0 n0_in n0_out a) (src m1 n1_in n1_out b) c)).
  - rewrite <- (hit_row_loop m0 n0_out a H0), <- Bool.andb_assoc.
    generalize (row m1 n1_out b && (c <? nk2)). intros q.
    assert (E : forall l, existsb (fun i => hit_row m0 n0_out a i && q) l = existsb (hit_row m0 n0_out a) l && q).
    { induction l as [|x l IH]; [reflexivity|]. cbn [existsb]. rewrite IH. destruct (hit_row m0 n0_out a x), (existsb (hit_row m0 n0_out a) l), q; reflexivity. }
    rewrite E. reflexivity.
  - intros ik0 s Hi. apply in_seq in Hi. unfold loop at 1.
    rewrite (fold_const obs _ (fun i => hit_row m1 n1_out b i && (hit_row m0 n0_out a ik0 && (c <? nk2)))
             (f (src m0 n0_in n0_out a) (src m1 n1_in n1_out b) c)).
    + rewrite <- (hit_row_loop m1 n1_out b H1).
      assert (E : forall q l, existsb (fun i => hit_row m1 n1_out b i && q) l = existsb (hit_row m1 n1_out b) l && q).
      { intros q l. induction l as [|x l IH]; [reflexivity|]. cbn [existsb]. rewrite IH. destruct (hit_row m1 n1_out b x), (existsb (hit_row m1 n1_out b) l), q; reflexivity. }
      rewrite E.
      destruct (hit_row m0 n0_out a ik0), (existsb (hit_row m1 n1_out b) (seq 0 (m1 + 1))), (c <? nk2); reflexivity.
    + intros ik1 t Hj. apply in_seq in Hj.
      rewrite (loop_point obs _ (hit_row m0 n0_out a ik0 && hit_row m1 n1_out b ik1) c
                 (fun k => f (src m0 n0_in n0_out a) (src m1 n1_in n1_out b) k)).
      * destruct (hit_row m0 n0_out a ik0), (hit_row m1 n1_out b ik1), (c <? nk2); reflexivity.
      * intros ik2 u. unfold obs.
        exact (mini_body n0_in n1_in n0_out n1_out m0 m1 f u a b c ik0 ik1 ik2 H0 H1 ltac:(lia) ltac:(lia)).
Qed.

(** towards a finer grid fill_field_fft_3d is the placement of a coarse array *)
Lemma index_up n_in n_out i : n_in <= n_out -> i < n_in -> 2 <= n_in ->
  Z.to_nat (ik_from_kadim (kadim_from_ik (Z.of_nat i) (Z.of_nat n_in) false) (Z.of_nat n_out) false) = ik_from_ikc i n_in n_out false.
Proof.
  intros H Hi Hn. unfold ik_from_kadim, kadim_from_ik, ik_from_ikc. cbn [orb]. rewrite Bool.orb_false_r.
  pose proof (Z.div_mod (Z.of_nat n_in) 2 ltac:(lia)). pose proof (Z.mod_pos_bound (Z.of_nat n_in) 2 ltac:(lia)).
  destruct (Z.leb_spec (Z.of_nat i) (Z.of_nat n_in / 2)), (Nat.leb_spec (2 * i) n_in); try lia.
  - rewrite (proj2 (Z.leb_le _ _)) by lia. lia.
  - rewrite (proj2 (Z.leb_gt _ _)) by lia. lia.
Qed.

Lemma fill_3d_up n0_in n1_in n2_in n0_out n1_out n2_out (f out : nat -> nat -> nat -> V) :
  2 <= n0_in <= n0_out -> 2 <= n1_in <= n1_out -> n2_in <= n2_out ->
  fill_field_fft_3d n0_in n1_in n2_in n0_out n1_out n2_out f out = put_coarse_3d n0_in n1_in n2_in n0_out n1_out f out.
Proof.
  intros H0 H1 H2. unfold fill_field_fft_3d, put_coarse_3d.
  rewrite !Nat.min_r by lia.
  apply loop_ext. intros i s Hi. apply loop_ext. intros j t Hj. apply loop_ext. intros k u Hk.
  unfold kadim_from_ik012, ik012_from_kadim. rewrite !index_up by lia. rewrite Nat2Z.id. reflexivity.
Qed.

(** wavenumbers *)
Lemma row_src_common m n_in n_out i_in i_out k : 2 * m <= n_out -> 2 * m <= n_in ->
  holds (Z.of_nat n_in) (Z.of_nat i_in) k -> holds (Z.of_nat n_out) (Z.of_nat i_out) k -> (Z.abs k < Z.of_nat m)%Z ->
  row m n_out i_out = true /\ src m n_in n_out i_out = i_in.
Proof.
  intros H1 H2 Hi Ho Hk. unfold holds, row, src in *.
  destruct (Nat.leb_spec i_out m), (Nat.ltb_spec (n_out - m) i_out), (Nat.ltb_spec i_out n_out); cbn [andb orb]; split; try reflexivity; try lia.
Qed.

Lemma row_other m n_out i_out k : 2 * m <= n_out ->
  holds (Z.of_nat n_out) (Z.of_nat i_out) k -> (Z.of_nat m < Z.abs k)%Z -> row m n_out i_out = false.
Proof.
  intros H1 Ho Hk. unfold holds, row in *.
  destruct (Nat.leb_spec i_out m), (Nat.ltb_spec (n_out - m) i_out), (Nat.ltb_spec i_out n_out); cbn [andb orb]; try reflexivity; lia.
Qed.
End Fill.
