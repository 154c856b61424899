(** * The milestone forcing: C51, C81 *)

From Coq Require Import Reals Lra Lia List Bool.
From Coquelicot Require Import Coquelicot.
From Verif Require Import Milestone_Model Milestone_Proofs.
Import ListNotations.
Local Open Scope R_scope.

(** ** Specification: a movement given by a location and a speed *)
Record good_movement (location speed : R -> R) (center length per maximum : R) : Prop := {
  gm_derive : forall t, is_derive location t (speed t);
  gm_period : forall t, location (t + per) = location t;
  gm_range : forall t, Rabs (location t - center) <= length / 2;
  gm_max : forall t, Rabs (speed t) <= maximum }.

(** ** C51 *)

(** the length is at least twice the length of acceleration *)
Theorem c51_periodic_uniform_partial v length la lx :
  v <> 0 -> 0 < la -> 2 * la <= length ->
  let p := make_periodic_uniform v length la lx in
  exists location speed, (forall t, get_location p t = Some (location t)) /\ (forall t, get_speed p t = Some (speed t))
    /\ good_movement location speed (lx / 2) length (period p) (Rabs v)
    /\ location 0 = lx / 2 - sign v * length / 2 /\ location (period p / 2) = lx / 2 + sign v * length / 2
    /\ speed 0 = 0 /\ speed (t_1 p) = v /\ speed (t_4 p) = - v
    /\ period p = 4 * (2 * la / Rabs v) + 2 * ((length - 2 * la) / Rabs v).
Proof.
  intros Hv Hla Hl p. destruct (attributes v length la lx Hv Hla Hl) as
    (A1 & A2 & A3 & A4 & A5 & A6 & A7 & A8 & A9 & A10 & A11 & A12 & A13 & A14 & A15 & A16). fold p in A3, A4, A5, A6, A7, A8, A9, A10, A11, A12, A13, A14, A15, A16.
  set (ta := 2 * la / Rabs v) in *. set (tu := (length - 2 * la) / Rabs v) in *.
  assert (HP : 0 < period p) by lra.
  exists (fun t => loc0 p (pymod t (period p))), (fun t => spd0 p (pymod t (period p))).
  split; [intros t; apply (get_location_eq p ta tu); assumption|]. split; [intros t; apply (get_speed_eq p ta tu); assumption|].
  split; [constructor|].
  - intros t. apply (location_derive p ta tu); assumption.
  - intros t. rewrite pymod_shift by assumption. reflexivity.
  - intros t. pose proof (location_bound p ta tu A1 A2 A3 A4 A5 A6 A7 A8 A9 A10 A11 A12 (sign v) (pymod t (period p)) A13 (pymod_bounds t _ HP)) as B.
    rewrite A14 in B. rewrite A15 in B. apply Rabs_le.
    destruct (sign_cases v Hv) as [(S & _) | (S & _)]; rewrite S in B; lra.
  - intros t. rewrite <- A16. apply (speed_bound p ta tu); try assumption. apply pymod_bounds. assumption.
  - assert (M : forall u, 0 <= u < period p -> pymod u (period p) = u).
    { intros u Hu. rewrite (pymod_unique u (period p) 0); [ring | assumption | lra]. }
    rewrite !M by lra.
    assert (Q : sign v * sign v = 1) by (destruct (sign_cases v Hv) as [(S & _) | (S & _)]; rewrite S; ring).
    split; [|split; [|split; [|split; [|split]]]].
    + unfold loc0, pw. rewrite rle_true by lra. unfold p1. rewrite A15. ring.
    + unfold loc0, pw. rewrite !(rle_false (period p / 2)), (rle_true (period p / 2) (t_3 p)) by lra. unfold p3.
      rewrite A5. replace (period p / 2 - (ta + tu)) with ta by lra. rewrite A10.
      replace (x_0 p + acc p / 2 * ta ^ 2 + speed_max p * tu + speed_max p * ta - acc p / 2 * ta ^ 2)
        with (x_0 p + (acc p * ta ^ 2 + speed_max p * tu)) by (rewrite <- A3; ring).
      rewrite A15.
      assert (E : acc p * ta ^ 2 + speed_max p * tu = sign v * length).
      { rewrite <- A14, <- Rmult_assoc, Q. ring. }
      rewrite E. field.
    + unfold spd0, pw. rewrite rle_true by lra. unfold s1. ring.
    + unfold spd0, pw. rewrite rle_true by lra. unfold s1. rewrite A4, A3. assumption.
    + unfold spd0, pw. destruct (Req_dec tu 0) as [Z|Z].
      * rewrite !(rle_false (t_4 p)) by lra. rewrite (rle_true (t_4 p) (t_3 p)) by lra. unfold s3.
        replace (t_4 p - t_2 p) with (2 * ta) by lra. rewrite <- A16, <- A3. ring.
      * rewrite !(rle_false (t_4 p)) by lra. rewrite (rle_true (t_4 p) (t_4 p)) by lra. unfold s4. rewrite A16. reflexivity.
    + exact A8.
Qed.

(** the default parameters (length = length_acc = 1): the objects jump *)
Lemma default_jumps : forall lx, exists t x, get_location (default_periodic_uniform lx) t = Some x
  /\ forall delta, 0 < delta -> exists s y, Rabs (s - t) < delta /\ get_location (default_periodic_uniform lx) s = Some y /\ 1 / 8 <= Rabs (y - x).
Proof.
  intros lx.
  set (p := default_periodic_uniform lx).
  assert (S1 : sign 1 = 1) by (unfold sign; rewrite rlt_true by lra; reflexivity).
  assert (A1 : Rabs 1 = 1) by (apply Rabs_pos_eq; lra).
  assert (HA : acc p = 1 / 2) by (unfold p, default_periodic_uniform, make_periodic_uniform; cbn [acc]; rewrite S1; field).
  assert (H1 : t_1 p = 2) by (unfold p, default_periodic_uniform, make_periodic_uniform; cbn [t_1]; rewrite S1; field).
  assert (H2 : t_2 p = 1) by (unfold p, default_periodic_uniform, make_periodic_uniform; cbn [t_2]; rewrite S1, A1; field).
  assert (H3 : t_3 p = 5) by (unfold p, default_periodic_uniform, make_periodic_uniform; cbn [t_3]; rewrite S1, A1; field).
  assert (HP : period p = 6) by (unfold p, default_periodic_uniform, make_periodic_uniform; cbn [period]; rewrite S1, A1; field).
  assert (HS : speed_max p = 1) by reflexivity.
  assert (HX : x_2 p = x_0 p) by (unfold p, default_periodic_uniform, make_periodic_uniform; cbn [x_2 x_0]; rewrite S1; field).
  assert (M : forall u, 0 <= u < 6 -> pymod u (period p) = u).
  { intros u Hu. rewrite (pymod_unique u (period p) 0); lra. }
  exists 2, (x_0 p + 1). split.
  - unfold get_location. rewrite M by lra. rewrite rle_true by lra. rewrite HA. f_equal. field.
  - intros delta Hd. set (e := Rmin (delta / 2) (1 / 8)).
    assert (He : 0 < e) by (unfold e; apply Rmin_pos; lra).
    assert (He1 : e <= delta / 2) by apply Rmin_l. assert (He2 : e <= 1 / 8) by apply Rmin_r.
    exists (2 + e), (x_0 p + (1 + e) - (1 + e) ^ 2 / 4). split; [|split].
    + replace (2 + e - 2) with e by ring. rewrite Rabs_pos_eq; lra.
    + unfold get_location. rewrite M by lra. rewrite (rle_false (2 + e) (t_1 p)), (rlt_true (t_1 p)), (rle_false (2 + e) (t_2 p)) by lra. cbn [andb].
      rewrite (rlt_true (t_2 p)), (rle_true (2 + e) (t_3 p)) by lra. cbn [andb].
      rewrite HX, HS, HA, H2. f_equal. field.
    + replace (x_0 p + (1 + e) - (1 + e) ^ 2 / 4 - (x_0 p + 1)) with (e - (1 + e) ^ 2 / 4) by ring.
      assert (e - (1 + e) ^ 2 / 4 <= - (1 / 8)) by nra. rewrite Rabs_left; lra.
Qed.

Theorem c51_default_refuted : exists lx t x, 0 < lx /\ get_location (default_periodic_uniform lx) t = Some x
  /\ forall delta, 0 < delta -> exists s y, Rabs (s - t) < delta /\ get_location (default_periodic_uniform lx) s = Some y /\ 1 / 8 <= Rabs (y - x).
Proof. exists 10. destruct (default_jumps 10) as (t & x & H). exists t, x. split; [lra | exact H]. Qed.

Theorem c51_sinusoidal length per lx : 0 < length -> 0 < per ->
  good_movement (location_sinusoidal length per lx) (speed_sinusoidal length per) (lx / 2) length per (PI * length / per).
Proof.
  intros Hl Hp. pose proof PI_RGT_0 as Hpi. constructor.
  - intros t. unfold location_sinusoidal, speed_sinusoidal. auto_derive; [exact I|].
    unfold Rminus, Rdiv. set (c := cos _). clearbody c. field. lra.
  - intros t. unfold location_sinusoidal. replace (2 * PI / per * (t + per) - PI / 2) with (2 * PI / per * t - PI / 2 + 2 * PI) by (field; lra).
    rewrite sin_plus, cos_2PI, sin_2PI. ring.
  - intros t. unfold location_sinusoidal. set (x := 2 * PI / per * t - PI / 2).
    replace (lx / 2 + length / 2 * sin x - lx / 2) with (length / 2 * sin x) by ring.
    rewrite Rabs_mult, (Rabs_pos_eq (length / 2)) by lra. pose proof (SIN_bound x).
    assert (Rabs (sin x) <= 1) by (apply Rabs_le; lra).
    rewrite <- (Rmult_1_r (length / 2)) at 2. apply Rmult_le_compat_l; lra.
  - intros t. unfold speed_sinusoidal. set (x := 2 * PI / per * t - PI / 2).
    assert (0 < PI * length / per) by (apply Rdiv_lt_0_compat; [apply Rmult_lt_0_compat|]; lra).
    replace (length / 2 * (2 * PI / per) * cos x) with (PI * length / per * cos x) by (field; lra).
    rewrite Rabs_mult, (Rabs_pos_eq (PI * length / per)) by lra. pose proof (COS_bound x).
    assert (Rabs (cos x) <= 1) by (apply Rabs_le; lra).
    rewrite <- (Rmult_1_r (PI * length / per)) at 2. apply Rmult_le_compat_l; lra.
Qed.

(** the uniform movement: in the domain, and at the distance speed * time of the origin up to a number of lengths *)
Theorem c51_uniform speed lx t : 0 < lx ->
  0 <= location_uniform speed lx t < lx /\ exists n : Z, location_uniform speed lx t + lx * IZR n = speed_uniform speed t * t.
Proof.
  intros H. split; [apply pymod_bounds; assumption|].
  unfold location_uniform, speed_uniform, pymod. exists (Int_part (speed * t / lx)). ring.
Qed.

(** the objects: in the domain, at the same distance of each other also through the periodicity *)
Theorem c51_objects ly number i : 0 < ly -> (i < number)%nat ->
  exists y, nth_error (y_coors ly number) i = Some y /\ 0 < y < ly
    /\ ((S i < number)%nat -> nth_error (y_coors ly number) (S i) = Some (y + ly / INR number))
    /\ (S i = number -> nth_error (y_coors ly number) 0 = Some (y + ly / INR number - ly)).
Proof.
  intros Hl Hi. unfold y_coors.
  assert (HN : 0 < INR number) by (apply lt_0_INR; lia).
  assert (E : forall j, (j < number)%nat -> nth_error (map (fun i => ly / INR number * (1 / 2 + INR i)) (seq 0 number)) j
    = Some (ly / INR number * (1 / 2 + INR j))).
  { intros j Hj. rewrite nth_error_map.
    rewrite (nth_error_nth' (seq 0 number) 0%nat) by (rewrite seq_length; lia). rewrite seq_nth by lia. reflexivity. }
  exists (ly / INR number * (1 / 2 + INR i)). split; [apply E; lia|].
  assert (HM : 0 < ly / INR number) by (apply Rdiv_lt_0_compat; lra).
  assert (HT : ly / INR number * INR number = ly) by (field; lra).
  split; [|split].
  - assert (0 <= INR i) by apply pos_INR. assert (INR i + 1 <= INR number) by (rewrite <- S_INR; apply le_INR; lia).
    split; [apply Rmult_lt_0_compat; lra|]. rewrite <- HT at 2. apply Rmult_lt_compat_l; lra.
  - intros H. rewrite E by lia. rewrite S_INR. f_equal. ring.
  - intros H. rewrite E by lia. f_equal. change (INR 0) with 0.
    assert (EN : INR number = INR i + 1) by (rewrite <- H, S_INR; reflexivity).
    set (m := ly / INR number) in *. clearbody m. rewrite EN in HT. lra.
Qed.

Example c51_example : exists p, p = make_periodic_uniform (- 2) 3 (1 / 2) 10 /\ period p = 4 /\ get_speed p 1 = Some (- 2).
Proof.
  eexists. split; [reflexivity|].
  assert (S : sign (- 2) = - 1) by (unfold sign; rewrite rlt_false, rlt_true by lra; reflexivity).
  assert (A : Rabs (- 2) = 2) by (rewrite Rabs_left; lra).
  assert (P : period (make_periodic_uniform (- 2) 3 (1 / 2) 10) = 4).
  { unfold make_periodic_uniform. cbn [period]. rewrite S, A. field. }
  split; [exact P|].
  unfold get_speed. rewrite P. rewrite (pymod_unique 1 4 0) by lra.
  unfold make_periodic_uniform. cbn [t_1 t_2 t_3 t_4 acc speed_max]. rewrite S, A.
  replace (- 2 / (- 1 * (- 2) ^ 2 / (2 * (1 / 2)))) with (1 / 2) by field.
  replace (1 / 2 + (3 - 2 * (1 / 2)) / 2) with (3 / 2) by field.
  rewrite (rle_false (1 - 4 * 0)), (rlt_true (1 / 2)), (rle_true (1 - 4 * 0) (3 / 2)) by lra. reflexivity.
Qed.

(** ** C81: the force *)

Theorem c81_profile width limit : 0 < width ->
  (forall x, 0 < step x limit width < 1) /\ step limit limit width = 1 / 2
  /\ (forall x y, x < y -> step y limit width < step x limit width).
Proof.
  intros Hw. unfold step. split; [|split].
  - intros x. pose proof (tanh_bounds ((- x + limit) / width)). lra.
  - replace ((- limit + limit) / width) with 0 by (field; lra). rewrite tanh_0. ring.
  - intros x y Hxy. assert (tanh ((- y + limit) / width) < tanh ((- x + limit) / width)); [|lra].
    apply tanh_incr. apply Rmult_lt_compat_r; [apply Rinv_0_lt_compat; assumption | lra].
Qed.

Lemma solid_bounds lx d w cs px py : 0 < w -> forall s0, 
  s0 <= fold_left (fun s c => fold_left (fun s i => let x_center := fst c + i * lx in
      s + step (sqrt ((px - x_center) ^ 2 + (py - snd c) ^ 2)) (d / 2) w) [- 1; 0; 1] s) cs s0 <= s0 + 3 * INR (length cs).
Proof.
  intros Hw. induction cs as [|c cs IH]; intros s0; [cbn; lra|].
  change (length (c :: cs)) with (S (length cs)). rewrite S_INR. cbn [fold_left].
  set (a := step (sqrt ((px - (fst c + - 1 * lx)) ^ 2 + _)) _ _). set (b := step (sqrt ((px - (fst c + 0 * lx)) ^ 2 + _)) _ _).
  set (e := step (sqrt ((px - (fst c + 1 * lx)) ^ 2 + _)) _ _).
  assert (0 < a < 1) by (apply c81_profile; assumption). assert (0 < b < 1) by (apply c81_profile; assumption).
  assert (0 < e < 1) by (apply c81_profile; assumption).
  specialize (IH (s0 + a + b + e)). cbn [fold_left] in IH. lra.
Qed.

(** the field of the solid seen from a point: the three images of each object, and nothing else *)
Definition distance (px py x y : R) : R := sqrt ((px - x) ^ 2 + (py - y) ^ 2).

Lemma solid_from lx d w cs px py : 0 < w -> forall s0 c i, In c cs -> i = - 1 \/ i = 0 \/ i = 1 ->
  s0 + step (distance px py (fst c + i * lx) (snd c)) (d / 2) w <=
  fold_left (fun s c => fold_left (fun s i => let x_center := fst c + i * lx in
      s + step (sqrt ((px - x_center) ^ 2 + (py - snd c) ^ 2)) (d / 2) w) [- 1; 0; 1] s) cs s0.
Proof.
  intros Hw. induction cs as [|c0 cs IH]; intros s0 c i Hin Hi; [contradiction|].
  cbn [fold_left]. cbn zeta. 
  set (a := step (sqrt ((px - (fst c0 + - 1 * lx)) ^ 2 + _)) _ _). set (b := step (sqrt ((px - (fst c0 + 0 * lx)) ^ 2 + _)) _ _).
  set (e := step (sqrt ((px - (fst c0 + 1 * lx)) ^ 2 + _)) _ _).
  assert (0 < a < 1) by (apply c81_profile; assumption). assert (0 < b < 1) by (apply c81_profile; assumption).
  assert (0 < e < 1) by (apply c81_profile; assumption).
  destruct Hin as [<- | Hin].
  - pose proof (solid_bounds lx d w cs px py Hw (s0 + a + b + e)) as [B _]. cbn [fold_left] in B. cbn zeta in B.
    eapply Rle_trans; [|exact B]. fold (distance px py (fst c0 + - 1 * lx) (snd c0)) in a.
    fold (distance px py (fst c0 + 0 * lx) (snd c0)) in b. fold (distance px py (fst c0 + 1 * lx) (snd c0)) in e.
    destruct Hi as [-> | [-> | ->]]; [fold a | fold b | fold e]; lra.
  - specialize (IH (s0 + a + b + e) c i Hin Hi). cbn [fold_left] in IH. cbn zeta in IH. lra.
Qed.

Lemma solid_to lx d w cs px py r : 0 < w -> (forall c i, In c cs -> i = - 1 \/ i = 0 \/ i = 1 -> r <= distance px py (fst c + i * lx) (snd c)) ->
  forall s0, fold_left (fun s c => fold_left (fun s i => let x_center := fst c + i * lx in
      s + step (sqrt ((px - x_center) ^ 2 + (py - snd c) ^ 2)) (d / 2) w) [- 1; 0; 1] s) cs s0 <= s0 + 3 * INR (length cs) * step r (d / 2) w.
Proof.
  intros Hw. assert (M : forall x, r <= x -> step x (d / 2) w <= step r (d / 2) w).
  { intros x [L | ->]; [left; apply c81_profile; assumption | right; reflexivity]. }
  induction cs as [|c0 cs IH]; intros Hr s0; [cbn; lra|].
  change (length (c0 :: cs)) with (S (length cs)). rewrite S_INR. cbn [fold_left]. cbn zeta.
  set (a := step (sqrt ((px - (fst c0 + - 1 * lx)) ^ 2 + _)) _ _). set (b := step (sqrt ((px - (fst c0 + 0 * lx)) ^ 2 + _)) _ _).
  set (e := step (sqrt ((px - (fst c0 + 1 * lx)) ^ 2 + _)) _ _).
  assert (a <= step r (d / 2) w) by (apply M, Hr; [left; reflexivity | auto]).
  assert (b <= step r (d / 2) w) by (apply M, Hr; [left; reflexivity | auto]).
  assert (e <= step r (d / 2) w) by (apply M, Hr; [left; reflexivity | auto]).
  assert (X : forall c i, In c cs -> i = - 1 \/ i = 0 \/ i = 1 -> r <= distance px py (fst c + i * lx) (snd c)).
  { intros c i Hc. apply Hr. right. exact Hc. }
  specialize (IH X (s0 + a + b + e)). cbn [fold_left] in IH. cbn zeta in IH. lra.
Qed.

Theorem c81_solid lx d w cs px py : 0 < w ->
  (forall c i, In c cs -> i = - 1 \/ i = 0 \/ i = 1 -> distance px py (fst c + i * lx) (snd c) <= d / 2 -> 1 / 2 <= solid_at lx d w cs px py)
  /\ (forall r, (forall c i, In c cs -> i = - 1 \/ i = 0 \/ i = 1 -> r <= distance px py (fst c + i * lx) (snd c)) ->
      solid_at lx d w cs px py <= 3 * INR (length cs) * step r (d / 2) w).
Proof.
  intros Hw. destruct (c81_profile w (d / 2) Hw) as (P1 & P2 & P3). split.
  - intros c i Hc Hi Hd. pose proof (solid_from lx d w cs px py Hw 0 c i Hc Hi) as B.
    assert (1 / 2 <= step (distance px py (fst c + i * lx) (snd c)) (d / 2) w).
    { destruct Hd as [L | ->]; [|lra]. apply P3 in L. lra. }
    unfold solid_at. lra.
  - intros r Hr. pose proof (solid_to lx d w cs px py r Hw Hr 0). unfold solid_at. lra.
Qed.

(** the force is never opposite to the difference of velocity, and is zero when there is no difference *)
Theorem c81_work dt lx d w cs px py speed ux uy : 0 < dt -> 0 < w ->
  let solid := solid_at lx d w cs px py in
  0 <= solid <= 3 * INR (length cs)
  /\ 0 <= force_x dt solid speed ux * (speed - ux) /\ force_x dt solid speed speed = 0
  /\ force_y dt solid uy * uy <= 0 /\ force_y dt solid 0 = 0.
Proof.
  intros Hdt Hw solid. assert (B : 0 <= solid <= 0 + 3 * INR (length cs)) by exact (solid_bounds lx d w cs px py Hw 0).
  clearbody solid.
  assert (Hs : 0 < sigma dt) by (unfold sigma, gamma, n_dt; apply Rdiv_lt_0_compat; lra).
  assert (Hm : 0 <= sigma dt * solid) by (apply Rmult_le_pos; lra).
  split; [lra|]. unfold force_x, force_y. split; [|split; [|split]].
  - replace (sigma dt * solid * (speed - ux) * (speed - ux)) with (sigma dt * solid * (speed - ux) ^ 2) by ring.
    apply Rmult_le_pos; [assumption | apply pow2_ge_0].
  - ring.
  - replace (- sigma dt * solid * uy * uy) with (- (sigma dt * solid * uy ^ 2)) by ring.
    assert (0 <= sigma dt * solid * uy ^ 2) by (apply Rmult_le_pos; [assumption | apply pow2_ge_0]). lra.
  - ring.
Qed.

(** inside of the solid the difference of velocity decreases exponentially; after n_dt time steps it has been divided by
    exp(gamma) ... *)
Theorem c81_decay_partial dt w0 : 0 < dt ->
  let w := fun t => w0 * exp (- sigma dt * t) in
  (forall t speed, is_derive (fun t => speed - w t) t (force_x dt 1 speed (speed - w t)))
  /\ w (n_dt * dt) = w0 * exp (- gamma).
Proof.
  intros Hdt w. split.
  - intros t speed. unfold w, force_x. auto_derive; [exact I | ring].
  - unfold w, sigma. f_equal. f_equal. unfold n_dt. field. lra.
Qed.

(** ... and not by 10^gamma as announced *)
Theorem c81_announced_decay_refuted : exists dt w0, 0 < dt /\ w0 <> 0
  /\ w0 * exp (- sigma dt * (n_dt * dt)) <> w0 * / 10 ^ 2 /\ gamma = 2.
Proof.
  exists 1, 1. split; [lra|]. split; [lra|]. split; [|reflexivity].
  replace (- sigma 1 * (n_dt * 1)) with (- 2) by (unfold sigma, gamma, n_dt; field).
  intros E. assert (H : exp (- 2) = / 10 ^ 2) by lra.
  assert (exp 2 = 10 ^ 2).
  { assert (X : exp (- 2) * exp 2 = 1) by (rewrite <- exp_plus; replace (- 2 + 2) with 0 by ring; apply exp_0).
    rewrite H in X. lra. }
  assert (exp 1 <= 3) by apply exp_le_3.
  assert (exp 2 = exp 1 * exp 1) by (rewrite <- exp_plus; f_equal; ring).
  pose proof (exp_pos 1). nra.
Qed.

Example c81_example : force_x (1 / 2) 1 2 1 = 1 /\ step 1 1 (1 / 10) = 1 / 2 /\ n_dt = 4.
Proof.
  split; [unfold force_x, sigma, gamma, n_dt; field|]. split; [|reflexivity].
  unfold step. replace ((- (1) + 1) / (1 / 10)) with 0 by field. rewrite tanh_0. field.
Qed.

Print Assumptions c51_periodic_uniform_partial.
Print Assumptions c51_default_refuted.
Print Assumptions c51_sinusoidal.
Print Assumptions c51_uniform.
Print Assumptions c51_objects.
Print Assumptions c81_profile.
Print Assumptions c81_work.
Print Assumptions c81_decay_partial.
Print Assumptions c81_announced_decay_refuted.
Print Assumptions c81_solid.
