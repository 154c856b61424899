From Coq Require Import Reals Lra Lia List Bool.
From Coquelicot Require Import Coquelicot.
From Verif Require Import Milestone_Model.
Import ListNotations.
Local Open Scope R_scope.

(** ** Remainder *)
Lemma pymod_bounds x p : 0 < p -> 0 <= pymod x p < p.
Proof.
  intros Hp. unfold pymod. destruct (base_Int_part (x / p)) as [H1 H2].
  set (n := IZR (Int_part (x / p))) in *.
  assert (E : x = p * (x / p)) by (field; lra).
  split.
  - apply (Rmult_le_compat_l p) in H1; lra.
  - assert (p * (x / p - n) < p * 1) by (apply Rmult_lt_compat_l; lra). lra.
Qed.

Lemma Int_part_unique x n : IZR n <= x < IZR n + 1 -> Int_part x = n.
Proof.
  intros [H1 H2]. destruct (base_Int_part x) as [A B].
  assert (IZR (Int_part x) < IZR (n + 1)) by (rewrite plus_IZR; lra).
  assert (IZR n < IZR (Int_part x + 1)) by (rewrite plus_IZR; lra).
  apply lt_IZR in H, H0. lia.
Qed.

Lemma pymod_unique x p (k : Z) : 0 < p -> 0 <= x - p * IZR k < p -> pymod x p = x - p * IZR k.
Proof.
  intros Hp H. unfold pymod. rewrite (Int_part_unique (x / p) k); [reflexivity|].
  assert (E : x = p * (x / p)) by (field; lra).
  split; apply (Rmult_le_reg_l p) || apply (Rmult_lt_reg_l p); lra.
Qed.

Lemma pymod_shift x p : 0 < p -> pymod (x + p) p = pymod x p.
Proof.
  intros Hp. pose proof (pymod_bounds x p Hp) as H. unfold pymod in H.
  rewrite (pymod_unique (x + p) p (Int_part (x / p) + 1)); [unfold pymod; rewrite plus_IZR; ring | assumption|].
  rewrite plus_IZR. lra.
Qed.

(** ** Gluing of derivable functions *)
Lemma glue_at (f g h : R -> R) a l :
  (forall x, x <= a -> f x = g x) -> (forall x, a <= x -> f x = h x) ->
  is_derive g a l -> is_derive h a l -> is_derive f a l.
Proof.
  intros Hg Hh Dg Dh. apply is_derive_Reals in Dg, Dh. apply is_derive_Reals.
  intros eps He. destruct (Dg eps He) as [d1 H1]. destruct (Dh eps He) as [d2 H2].
  assert (Hm : 0 < Rmin d1 d2) by (apply Rmin_pos; [apply d1 | apply d2]).
  exists (mkposreal _ Hm). cbn. intros x Hx Hd.
  destruct (Rle_dec x 0) as [L|L].
  - rewrite (Hg (a + x)), (Hg a) by lra. apply H1; [assumption|]. eapply Rlt_le_trans; [exact Hd | apply Rmin_l].
  - rewrite (Hh (a + x)), (Hh a) by lra. apply H2; [assumption|]. eapply Rlt_le_trans; [exact Hd | apply Rmin_r].
Qed.

Lemma derive_local (f g : R -> R) x l lo hi : lo < x < hi -> (forall y, lo < y < hi -> f y = g y) -> is_derive g x l -> is_derive f x l.
Proof.
  intros Hx He Hg. apply (is_derive_ext_loc g); [|exact Hg].
  assert (Hm : 0 < Rmin (x - lo) (hi - x)) by (apply Rmin_pos; lra).
  exists (mkposreal _ Hm). intros y Hy. cbn in Hy. unfold ball in Hy. cbn in Hy. unfold AbsRing_ball, abs, minus, plus, opp in Hy. cbn in Hy.
  symmetry. apply He. apply Rabs_def2 in Hy.
  pose proof (Rmin_l (x - lo) (hi - x)). pose proof (Rmin_r (x - lo) (hi - x)). lra.
Qed.

Definition pw (a : R) (g h : R -> R) (x : R) : R := if rle x a then g x else h x.

Lemma rle_true x y : x <= y -> rle x y = true.
Proof. unfold rle. destruct (Rle_dec x y); [reflexivity | contradiction]. Qed.
Lemma rle_false x y : y < x -> rle x y = false.
Proof. unfold rle. destruct (Rle_dec x y); [lra | reflexivity]. Qed.
Lemma rlt_true x y : x < y -> rlt x y = true.
Proof. unfold rlt. destruct (Rlt_dec x y); [reflexivity | contradiction]. Qed.
Lemma rlt_false x y : y <= x -> rlt x y = false.
Proof. unfold rlt. destruct (Rlt_dec x y); [lra | reflexivity]. Qed.

Lemma pw_derive a (g h g' h' : R -> R) :
  g a = h a -> g' a = h' a -> (forall x, is_derive g x (g' x)) -> (forall x, is_derive h x (h' x)) ->
  forall x, is_derive (pw a g h) x (pw a g' h' x).
Proof.
  intros E E' Hg Hh x. unfold pw at 2. destruct (Rtotal_order x a) as [L | [L | L]].
  - rewrite rle_true by lra. apply (derive_local _ g x _ (x - 1) a); [lra | | apply Hg].
    intros y Hy. unfold pw. rewrite rle_true by lra. reflexivity.
  - subst x. rewrite rle_true by lra. apply (glue_at _ g h).
    + intros y Hy. unfold pw. rewrite rle_true by lra. reflexivity.
    + intros y Hy. unfold pw. destruct (Req_dec y a) as [-> | N]; [rewrite rle_true by lra; exact E | rewrite rle_false by lra; reflexivity].
    + apply Hg.
    + rewrite E'. apply Hh.
  - rewrite rle_false by lra. apply (derive_local _ h x _ a (x + 1)); [lra | | apply Hh].
    intros y Hy. unfold pw. rewrite rle_false by lra. reflexivity.
Qed.

(** ** The periodic movement, from relations between its attributes *)
Section Movement.
Variable p : periodic_uniform.
Variables ta tu : R.
Hypothesis Hta : 0 < ta.
Hypothesis Htu : 0 <= tu.
Hypothesis Hv : acc p * ta = speed_max p.
Hypothesis H1 : t_1 p = ta.
Hypothesis H2 : t_2 p = ta + tu.
Hypothesis H3 : t_3 p = ta + tu + 2 * ta.
Hypothesis H4 : t_4 p = ta + tu + 2 * ta + tu.
Hypothesis HP : period p = 4 * ta + 2 * tu.
Hypothesis X1 : x_1 p = x_0 p + acc p / 2 * ta ^ 2.
Hypothesis X2 : x_2 p = x_0 p + acc p / 2 * ta ^ 2 + speed_max p * tu.
Hypothesis X3 : x_3 p = x_2 p.
Hypothesis X4 : x_4 p = x_1 p.

Definition p1 t := x_0 p + acc p / 2 * t ^ 2.
Definition p2 t := x_1 p + speed_max p * (t - t_1 p).
Definition p3 t := x_2 p + speed_max p * (t - t_2 p) - acc p / 2 * (t - t_2 p) ^ 2.
Definition p4 t := x_3 p - speed_max p * (t - t_3 p).
Definition p5 t := x_4 p - speed_max p * (t - t_4 p) + acc p / 2 * (t - t_4 p) ^ 2.
Definition s1 t := acc p * t.
Definition s2 (t : R) := speed_max p.
Definition s3 t := speed_max p - acc p * (t - t_2 p).
Definition s4 (t : R) := - speed_max p.
Definition s5 t := - speed_max p + acc p * (t - t_4 p).

Definition loc0 := pw (t_1 p) p1 (pw (t_2 p) p2 (pw (t_3 p) p3 (pw (t_4 p) p4 p5))).
Definition spd0 := pw (t_1 p) s1 (pw (t_2 p) s2 (pw (t_3 p) s3 (pw (t_4 p) s4 s5))).

Lemma loc0_derive t : is_derive loc0 t (spd0 t).
Proof.
  revert t. unfold loc0, spd0.
  apply pw_derive.
  - unfold pw. rewrite rle_true by lra. unfold p1, p2. rewrite X1, H1. ring.
  - unfold pw. rewrite rle_true by lra. unfold s1, s2. rewrite H1, <- Hv. ring.
  - intros x. unfold p1, s1. auto_derive; [exact I | field].
  - apply pw_derive.
    + unfold pw. rewrite rle_true by lra. unfold p2, p3. rewrite X1, X2, H1, H2, <- Hv. ring.
    + unfold pw. rewrite rle_true by lra. unfold s2, s3. ring.
    + intros x. unfold p2, s2. auto_derive; [exact I | ring].
    + apply pw_derive.
      * unfold pw. rewrite rle_true by lra. unfold p3, p4. rewrite X3, H2, H3, <- Hv. field.
      * unfold pw. rewrite rle_true by lra. unfold s3, s4. rewrite H2, H3, <- Hv. ring.
      * intros x. unfold p3, s3. auto_derive; [exact I | field].
      * apply pw_derive.
        -- unfold p4, p5. rewrite X4, X3, X2, X1, H3, H4, <- Hv. ring.
        -- unfold s4, s5. ring.
        -- intros x. unfold p4, s4. auto_derive; [exact I | ring].
        -- intros x. unfold p5, s5. auto_derive; [exact I | field].
Qed.

Lemma get_speed_eq t : get_speed p t = Some (spd0 (pymod t (period p))).
Proof.
  unfold get_speed, spd0, pw. set (u := pymod t (period p)). cbv zeta. clearbody u.
  destruct (Rle_dec u (t_1 p)) as [A|A]; [rewrite !rle_true by lra; reflexivity|]. rewrite (rle_false u (t_1 p)), (rlt_true (t_1 p) u) by lra.
  destruct (Rle_dec u (t_2 p)) as [B|B]; [rewrite !rle_true by lra; reflexivity|]. rewrite (rle_false u (t_2 p)), (rlt_true (t_2 p) u) by lra.
  destruct (Rle_dec u (t_3 p)) as [D|D]; [rewrite !rle_true by lra; reflexivity|]. rewrite (rle_false u (t_3 p)), (rlt_true (t_3 p) u) by lra.
  destruct (Rle_dec u (t_4 p)) as [E|E]; [rewrite !rle_true by lra; reflexivity|]. rewrite (rle_false u (t_4 p)), (rlt_true (t_4 p) u) by lra.
  reflexivity.
Qed.

Lemma get_location_eq t : get_location p t = Some (loc0 (pymod t (period p))).
Proof.
  unfold get_location, loc0, pw. set (u := pymod t (period p)). cbv zeta. clearbody u.
  destruct (Rle_dec u (t_1 p)) as [A|A]; [rewrite !rle_true by lra; reflexivity|]. rewrite (rle_false u (t_1 p)), (rlt_true (t_1 p) u) by lra.
  destruct (Rle_dec u (t_2 p)) as [B|B]; [rewrite !rle_true by lra; reflexivity|]. rewrite (rle_false u (t_2 p)), (rlt_true (t_2 p) u) by lra.
  destruct (Rle_dec u (t_3 p)) as [D|D]; [rewrite !rle_true by lra; reflexivity|]. rewrite (rle_false u (t_3 p)), (rlt_true (t_3 p) u) by lra.
  destruct (Rle_dec u (t_4 p)) as [E|E]; [rewrite !rle_true by lra; reflexivity|]. rewrite (rle_false u (t_4 p)), (rlt_true (t_4 p) u) by lra.
  reflexivity.
Qed.

(** around a multiple of the period *)
Lemma near_multiple k s : - ta < s - period p * IZR k < ta -> loc0 (pymod s (period p)) = p1 (s - period p * IZR k).
Proof.
  intros Hs. destruct (Rle_dec 0 (s - period p * IZR k)) as [L|L].
  - rewrite (pymod_unique s (period p) k) by lra. unfold loc0, pw. rewrite rle_true by lra. reflexivity.
  - assert (E : pymod s (period p) = s - period p * IZR k + period p).
    { rewrite (pymod_unique s (period p) (k - 1)); rewrite ?minus_IZR; lra. }
    rewrite E. unfold loc0, pw.
    rewrite !rle_false by lra. unfold p1, p5. rewrite X4, X1, H4, HP, <- Hv. field.
Qed.

Lemma location_derive t : is_derive (fun s => loc0 (pymod s (period p))) t (spd0 (pymod t (period p))).
Proof.
  assert (Hper : 0 < period p) by lra.
  pose proof (pymod_bounds t (period p) Hper) as B.
  set (k := Int_part (t / period p)).
  assert (E : pymod t (period p) = t - period p * IZR k) by reflexivity.
  destruct (Req_dec (pymod t (period p)) 0) as [Z|Z].
  - assert (S : spd0 (pymod t (period p)) = s1 (t - period p * IZR k)).
    { rewrite Z. unfold spd0, pw. rewrite rle_true by lra. unfold s1. rewrite <- E, Z. reflexivity. }
    rewrite S. apply (derive_local _ (fun s => p1 (s - period p * IZR k)) t _ (t - ta) (t + ta)); [lra| |].
    + intros s Hs. apply near_multiple. lra.
    + unfold p1, s1. auto_derive; [exact I | field].
  - rewrite E.
    apply (derive_local _ (fun s => loc0 (s - period p * IZR k)) t _ (period p * IZR k) (period p * IZR k + period p)); [lra| |].
    + intros s Hs. rewrite (pymod_unique s (period p) k); [reflexivity | assumption | lra].
    + evar_last; [apply (is_derive_comp loc0 (fun s => s - period p * IZR k)); [apply loc0_derive|] | ].
      * instantiate (1 := 1). auto_derive; [exact I | ring].
      * unfold scal. cbn. unfold mult. cbn. ring.
Qed.

Lemma speed_bound u : 0 <= u < period p -> Rabs (spd0 u) <= Rabs (speed_max p).
Proof.
  intros Hu.
  assert (K : forall c, - 1 <= c <= 1 -> Rabs (c * speed_max p) <= Rabs (speed_max p)).
  { intros c Hc. rewrite Rabs_mult. rewrite <- (Rmult_1_l (Rabs (speed_max p))) at 2.
    apply Rmult_le_compat_r; [apply Rabs_pos|]. apply Rabs_le. lra. }
  assert (Ha : acc p = speed_max p / ta) by (rewrite <- Hv; field; lra).
  assert (Q : forall w lo hi, lo * ta <= w <= hi * ta -> lo <= w / ta <= hi).
  { intros w lo hi Hw. split.
    - apply (Rmult_le_reg_r ta); [assumption|]. unfold Rdiv. rewrite Rmult_assoc, Rinv_l by lra. lra.
    - apply (Rmult_le_reg_r ta); [assumption|]. unfold Rdiv. rewrite Rmult_assoc, Rinv_l by lra. lra. }
  unfold spd0, pw, rle.
  destruct (Rle_dec u (t_1 p)).
  { unfold s1. rewrite Ha. replace (speed_max p / ta * u) with (u / ta * speed_max p) by (field; lra).
    apply K. pose proof (Q u 0 1 ltac:(lra)). lra. }
  destruct (Rle_dec u (t_2 p)); [unfold s2; apply Rle_refl|].
  destruct (Rle_dec u (t_3 p)).
  { unfold s3. rewrite Ha. replace (speed_max p - speed_max p / ta * (u - t_2 p)) with ((1 - (u - t_2 p) / ta) * speed_max p) by (field; lra).
    apply K. pose proof (Q (u - t_2 p) 0 2 ltac:(lra)). lra. }
  destruct (Rle_dec u (t_4 p)); [unfold s4; rewrite Rabs_Ropp; apply Rle_refl|].
  unfold s5. rewrite Ha. replace (- speed_max p + speed_max p / ta * (u - t_4 p)) with ((- 1 + (u - t_4 p) / ta) * speed_max p) by (field; lra).
  apply K. pose proof (Q (u - t_4 p) 0 1 ltac:(lra)). lra.
Qed.

(** position from one end, with the direction [sg] *)
Lemma location_bound sg u : 0 < sg * acc p -> 0 <= u < period p ->
  0 <= sg * (loc0 u - x_0 p) <= sg * (acc p * ta ^ 2 + speed_max p * tu).
Proof.
  intros Hs Hu. set (a := sg * acc p) in *.
  assert (Ev : sg * speed_max p = a * ta) by (unfold a; rewrite <- Hv; ring).
  assert (Et : sg * (acc p * ta ^ 2 + speed_max p * tu) = a * ta ^ 2 + a * ta * tu).
  { replace (sg * (acc p * ta ^ 2 + speed_max p * tu)) with (a * ta ^ 2 + (sg * speed_max p) * tu) by (unfold a; ring). rewrite Ev. ring. }
  rewrite Et.
  assert (P0 : 0 <= a * ta) by (apply Rmult_le_pos; lra).
  assert (P1 : 0 <= a * ta * tu) by (apply Rmult_le_pos; lra).
  assert (P2 : 0 <= a * ta ^ 2) by (cbn; apply Rmult_le_pos; nra).
  assert (HQ : forall w, 0 <= w <= ta -> 0 <= a * w ^ 2 <= a * ta ^ 2).
  { intros w Hw. split; [apply Rmult_le_pos; [lra | apply pow2_ge_0]|]. apply Rmult_le_compat_l; [lra|]. apply pow_incr. lra. }
  unfold loc0, pw, rle.
  destruct (Rle_dec u (t_1 p)).
  { unfold p1. replace (sg * (x_0 p + acc p / 2 * u ^ 2 - x_0 p)) with (a * u ^ 2 / 2) by (unfold a; field).
    pose proof (HQ u ltac:(lra)). lra. }
  destruct (Rle_dec u (t_2 p)).
  { unfold p2. rewrite X1.
    replace (sg * (x_0 p + acc p / 2 * ta ^ 2 + speed_max p * (u - t_1 p) - x_0 p)) with (a * ta ^ 2 / 2 + sg * speed_max p * (u - t_1 p)) by (unfold a; field).
    rewrite Ev. assert (0 <= a * ta * (u - t_1 p)) by (apply Rmult_le_pos; lra).
    assert (a * ta * (u - t_1 p) <= a * ta * tu) by (apply Rmult_le_compat_l; lra). lra. }
  destruct (Rle_dec u (t_3 p)).
  { unfold p3. rewrite X2.
    set (w := u - t_2 p).
    replace (sg * (x_0 p + acc p / 2 * ta ^ 2 + speed_max p * tu + speed_max p * w - acc p / 2 * w ^ 2 - x_0 p))
      with (a * ta ^ 2 / 2 + sg * speed_max p * (tu + w) - a * w ^ 2 / 2) by (unfold a; field).
    rewrite Ev.
    replace (a * ta ^ 2 / 2 + a * ta * (tu + w) - a * w ^ 2 / 2) with (a * ta * tu + (a * ta ^ 2 - a * (w - ta) ^ 2 / 2)) by field.
    assert (0 <= a * (w - ta) ^ 2 <= a * ta ^ 2).
    { split; [apply Rmult_le_pos; [lra | apply pow2_ge_0]|]. apply Rmult_le_compat_l; [lra|].
      replace ((w - ta) ^ 2) with (Rabs (w - ta) ^ 2) by (rewrite pow2_abs; reflexivity).
      apply pow_incr. split; [apply Rabs_pos|]. apply Rabs_le. unfold w. lra. }
    lra. }
  destruct (Rle_dec u (t_4 p)).
  { unfold p4. rewrite X3, X2.
    replace (sg * (x_0 p + acc p / 2 * ta ^ 2 + speed_max p * tu - speed_max p * (u - t_3 p) - x_0 p))
      with (a * ta ^ 2 / 2 + sg * speed_max p * (tu - (u - t_3 p))) by (unfold a; field).
    rewrite Ev. assert (0 <= a * ta * (tu - (u - t_3 p))) by (apply Rmult_le_pos; lra).
    assert (a * ta * (tu - (u - t_3 p)) <= a * ta * tu) by (apply Rmult_le_compat_l; lra). lra. }
  unfold p5. rewrite X4, X1. set (w := u - t_4 p).
  replace (sg * (x_0 p + acc p / 2 * ta ^ 2 - speed_max p * w + acc p / 2 * w ^ 2 - x_0 p))
    with (a * ta ^ 2 / 2 - sg * speed_max p * w + a * w ^ 2 / 2) by (unfold a; field).
  rewrite Ev. replace (a * ta ^ 2 / 2 - a * ta * w + a * w ^ 2 / 2) with (a * (ta - w) ^ 2 / 2) by field.
  pose proof (HQ (ta - w) ltac:(unfold w; lra)). lra.
Qed.
End Movement.

(** ** The attributes of the class *)
Lemma sign_cases v : v <> 0 -> (sign v = 1 /\ 0 < v /\ Rabs v = v) \/ (sign v = - 1 /\ v < 0 /\ Rabs v = - v).
Proof.
  intros H. unfold sign. destruct (Rlt_dec 0 v).
  - left. rewrite rlt_true by assumption. rewrite Rabs_pos_eq by lra. auto.
  - right. rewrite rlt_false, (rlt_true v 0) by lra. rewrite Rabs_left by lra. split; [reflexivity | split; [lra | reflexivity]].
Qed.

Lemma attributes v length la lx : v <> 0 -> 0 < la -> 2 * la <= length ->
  let p := make_periodic_uniform v length la lx in
  let ta := 2 * la / Rabs v in let tu := (length - 2 * la) / Rabs v in
  0 < ta /\ 0 <= tu /\ acc p * ta = speed_max p /\ t_1 p = ta /\ t_2 p = ta + tu /\ t_3 p = ta + tu + 2 * ta
  /\ t_4 p = ta + tu + 2 * ta + tu /\ period p = 4 * ta + 2 * tu
  /\ x_1 p = x_0 p + acc p / 2 * ta ^ 2 /\ x_2 p = x_0 p + acc p / 2 * ta ^ 2 + speed_max p * tu
  /\ x_3 p = x_2 p /\ x_4 p = x_1 p
  /\ 0 < sign v * acc p /\ sign v * (acc p * ta ^ 2 + speed_max p * tu) = length /\ x_0 p = lx / 2 - sign v * length / 2 /\ speed_max p = v.
Proof.
  intros Hv Hla Hl. cbv zeta.
  assert (Ha : 0 < Rabs v) by (apply Rabs_pos_lt; assumption).
  assert (Hta : 0 < 2 * la / Rabs v) by (apply Rdiv_lt_0_compat; lra).
  assert (Htu : 0 <= (length - 2 * la) / Rabs v) by (apply Rmult_le_pos; [lra | apply Rlt_le, Rinv_0_lt_compat; assumption]).
  assert (Hacc : 0 < sign v * (sign v * v ^ 2 / (2 * la))).
  { destruct (sign_cases v Hv) as [(S & P & _) | (S & P & _)]; rewrite S.
    - replace (1 * (1 * v ^ 2 / (2 * la))) with (v ^ 2 / (2 * la)) by (field; lra). apply Rdiv_lt_0_compat; [|lra]. cbn. nra.
    - replace (- 1 * (- 1 * v ^ 2 / (2 * la))) with (v ^ 2 / (2 * la)) by (field; lra). apply Rdiv_lt_0_compat; [|lra]. cbn. nra. }
  assert (Et : v / (sign v * v ^ 2 / (2 * la)) = 2 * la / Rabs v).
  { destruct (sign_cases v Hv) as [(S & P & A) | (S & P & A)]; rewrite S, A; field; lra. }
  unfold make_periodic_uniform. cbn [speed_max acc period t_1 t_2 t_3 t_4 x_0 x_1 x_2 x_3 x_4]. rewrite Et.
  split; [assumption|]. split; [assumption|].
  split; [destruct (sign_cases v Hv) as [(S & P & A) | (S & P & A)]; rewrite S, A; field; lra|].
  split; [reflexivity|]. split; [reflexivity|]. split; [reflexivity|]. split; [reflexivity|]. split; [reflexivity|].
  split; [destruct (sign_cases v Hv) as [(S & P & A) | (S & P & A)]; rewrite S, A; field; lra|].
  split; [destruct (sign_cases v Hv) as [(S & P & A) | (S & P & A)]; rewrite S, A; field; lra|].
  split; [reflexivity|]. split; [reflexivity|]. split; [assumption|].
  split; [destruct (sign_cases v Hv) as [(S & P & A) | (S & P & A)]; rewrite S, A; field; lra|].
  split; reflexivity.
Qed.

(** ** The profile of the objects *)
Lemma tanh_bounds x : - 1 < tanh x < 1.
Proof.
  unfold tanh. pose proof (exp_pos x). pose proof (exp_pos (- x)).
  split.
  - apply (Rmult_lt_reg_r (exp x + exp (- x))); [lra|]. unfold Rdiv. rewrite Rmult_assoc, Rinv_l by lra. lra.
  - apply (Rmult_lt_reg_r (exp x + exp (- x))); [lra|]. unfold Rdiv. rewrite Rmult_assoc, Rinv_l by lra. lra.
Qed.

Lemma tanh_incr x y : x < y -> tanh x < tanh y.
Proof.
  intros H. unfold tanh.
  pose proof (exp_pos x). pose proof (exp_pos (- x)). pose proof (exp_pos y). pose proof (exp_pos (- y)).
  assert (exp x < exp y) by (apply exp_increasing; assumption).
  assert (exp (- y) < exp (- x)) by (apply exp_increasing; lra).
  apply (Rmult_lt_reg_r (exp x + exp (- x))); [lra|]. unfold Rdiv at 1. rewrite Rmult_assoc, Rinv_l by lra. rewrite Rmult_1_r.
  apply (Rmult_lt_reg_r (exp y + exp (- y))); [lra|].
  replace ((exp y - exp (- y)) / (exp y + exp (- y)) * (exp x + exp (- x)) * (exp y + exp (- y)))
    with ((exp y - exp (- y)) * (exp x + exp (- x))) by (field; lra).
  nra.
Qed.

Lemma tanh_0 : tanh 0 = 0.
Proof. unfold tanh. rewrite Ropp_0, exp_0. field. Qed.
