(** Theorems on the forcing region and the dissipative scales of plot1d of ns3d (C297) *)

From Coq Require Import Reals Bool Arith ZArith List Lra Lia.
From Verif Require Import Aniso_Model Aniso_Props SpecBands_Model.
Import ListNotations.
Local Open Scope R_scope.

(** ** Specification *)

(** the smallest interval containing the values taken by [f] on the pairs satisfying [P] *)
Definition hull (P : R -> R -> Prop) (f : R -> R -> R) (lo hi : R) : Prop :=
  (forall x y, P x y -> lo <= f x y <= hi) /\ (exists x y, P x y /\ f x y = lo) /\ (exists x y, P x y /\ f x y = hi).

(** a wave number of the dissipation range: the rates of the viscosity of order m and of the inertial range are equal *)
Definition dissipative (nu Pf m k : R) : Prop := 0 < k /\ nu * Rpower k m = Rpower (Pf * Rpower k 2) (1 / 3).

(** ** Lemmas *)

Lemma where_spec b k : where_band b k = true <-> fst b < k < snd b.
Proof.
  unfold where_band. destruct (Rlt_dec (fst b) k), (Rlt_dec k (snd b)); cbn; split; intros; try discriminate; try lra; reflexivity.
Qed.

Lemma half x : 0.5 * x = x / 2. Proof. lra. Qed.

Lemma bounds_spec p : proper p ->
  hull (wanted p) (fun kh _ => kh) (fst (bounds_h (angle p) (delta_angle p) (kmin p) (kmax p))) (snd (bounds_h (angle p) (delta_angle p) (kmin p) (kmax p)))
  /\ hull (wanted p) (fun _ kv => Rabs kv) (fst (bounds_v (angle p) (delta_angle p) (kmin p) (kmax p))) (snd (bounds_v (angle p) (delta_angle p) (kmin p) (kmax p))).
Proof.
  intros (Hk & _ & _ & _ & Ha). pose proof PI_RGT_0 as HPI. unfold wanted, bounds_h, bounds_v.
  destruct (delta_angle p) as [d|]; cbn [fst snd]; rewrite ?half.
  - set (a := angle p) in *.
    assert (S : forall t, a - d / 2 <= t <= a + d / 2 -> 0 <= sin (a - d / 2) <= sin t /\ sin t <= sin (a + d / 2)
      /\ 0 <= cos (a + d / 2) <= cos t /\ cos t <= cos (a - d / 2)).
    { intros t T. assert (0 <= sin (a - d / 2)) by (apply sin_ge_0; lra). assert (0 <= cos (a + d / 2)) by (apply cos_ge_0; lra).
      assert (sin (a - d / 2) <= sin t) by (apply sin_incr_1; lra). assert (sin t <= sin (a + d / 2)) by (apply sin_incr_1; lra).
      assert (cos (a + d / 2) <= cos t) by (apply cos_decr_1; lra). assert (cos t <= cos (a - d / 2)) by (apply cos_decr_1; lra). lra. }
    destruct (S (a - d / 2)) as (S1 & S2 & S3 & S4); [lra|]. destruct (S (a + d / 2)) as (S5 & S6 & S7 & S8); [lra|].
    split; (split; [|split]).
    + intros x y (k & t & K & T & -> & _). destruct (S t T) as (A & B & _). split; nra.
    + exists (kmin p * sin (a - d / 2)), (kmin p * cos (a - d / 2)). split; [|ring]. exists (kmin p), (a - d / 2).
      repeat split; try lra; try (left; reflexivity).
    + exists (kmax p * sin (a + d / 2)), (kmax p * cos (a + d / 2)). split; [|ring]. exists (kmax p), (a + d / 2).
      repeat split; try lra; try (left; reflexivity).
    + intros x y (k & t & K & T & _ & V). destruct (S t T) as (_ & _ & A & B).
      assert (E : Rabs y = k * cos t).
      { assert (0 <= k * cos t) by (apply Rmult_le_pos; lra). destruct V as [->|[_ V]]; [apply Rabs_pos_eq; assumption|].
        rewrite <- Rabs_Ropp, V. apply Rabs_pos_eq; assumption. }
      rewrite E. split; nra.
    + exists (kmin p * sin (a + d / 2)), (kmin p * cos (a + d / 2)). split.
      * exists (kmin p), (a + d / 2). repeat split; try lra; try (left; reflexivity).
      * rewrite Rabs_pos_eq; [ring|apply Rmult_le_pos; lra].
    + exists (kmax p * sin (a - d / 2)), (kmax p * cos (a - d / 2)). split.
      * exists (kmax p), (a - d / 2). repeat split; try lra; try (left; reflexivity).
      * rewrite Rabs_pos_eq; [ring|apply Rmult_le_pos; lra].
  - set (a := angle p) in *. assert (0 <= sin a) by (apply sin_ge_0; lra). assert (0 <= cos a) by (apply cos_ge_0; lra).
    assert (sin a * kmin p <= sin a * kmax p) by (apply Rmult_le_compat_l; lra).
    assert (cos a * kmin p <= cos a * kmax p) by (apply Rmult_le_compat_l; lra).
    assert (0 <= cos a * kmin p) by (apply Rmult_le_pos; lra).
    split; (split; [|split]).
    + intros x y [A _]. exact A.
    + exists (sin a * kmin p), (cos a * kmin p). split; [|reflexivity]. split; [lra|left; lra].
    + exists (sin a * kmax p), (cos a * kmax p). split; [|reflexivity]. split; [lra|left; lra].
    + intros x y [_ [V|[_ V]]]; [rewrite Rabs_pos_eq by lra; exact V|]. rewrite <- Rabs_Ropp, Rabs_pos_eq by lra. exact V.
    + exists (sin a * kmin p), (cos a * kmin p). split; [split; [lra|left; lra]|]. apply Rabs_pos_eq. lra.
    + exists (sin a * kmax p), (cos a * kmax p). split; [split; [lra|left; lra]|]. apply Rabs_pos_eq. lra.
Qed.

(** ** C297 *)

(** the wave numbers shaded on the axis of kz are the interior of the interval of the |kz| of the forced region *)
Theorem c297_kz : forall (p : aniso) (dirs : list direction), proper p -> In Z dirs ->
  exists f lo hi, forcing_bands true dirs (angle p) (delta_angle p) (kmin p) (kmax p) = inl f
  /\ hull (wanted p) (fun _ kv => Rabs kv) lo hi /\ (forall k, f Z k = true <-> lo < k < hi)
  /\ text_position (angle p) (delta_angle p) (kmin p) (kmax p) Z = (lo + hi) / 2.
Proof.
  intros p dirs Hp I. eexists _, _, _. split; [reflexivity|]. split; [apply bounds_spec; exact Hp|]. split.
  - intros k. unfold shaded. assert (E : existsb (eqb Z) dirs = true) by (apply existsb_exists; exists Z; auto).
    rewrite E. cbn [andb]. apply where_spec.
  - unfold text_position. lra.
Qed.

(** those shaded on the axes of kx and ky are the interior of the interval of the kh of the region *)
Theorem c297_kx_ky_partial : forall (p : aniso) (dirs : list direction) (dir : direction), proper p -> In dir dirs -> dir <> Z ->
  exists f lo hi, forcing_bands true dirs (angle p) (delta_angle p) (kmin p) (kmax p) = inl f
  /\ hull (wanted p) (fun kh _ => kh) lo hi /\ (forall k, f dir k = true <-> lo < k < hi)
  /\ text_position (angle p) (delta_angle p) (kmin p) (kmax p) dir = (lo + hi) / 2.
Proof.
  intros p dirs dir Hp I N. eexists _, _, _. split; [reflexivity|]. split; [apply bounds_spec; exact Hp|]. split.
  - intros k. unfold shaded. assert (E : existsb (eqb dir) dirs = true) by (apply existsb_exists; exists dir; split; [exact I|destruct dir; reflexivity]).
    rewrite E. cbn [andb]. destruct dir; [apply where_spec|apply where_spec|congruence].
  - unfold text_position. destruct dir; try congruence; lra.
Qed.

(** nothing for the other directions; an error for the other forcings *)
Theorem c297_directions : forall a delta kf_min kf_max dirs dir,
  (~ In dir dirs -> exists f, forcing_bands true dirs a delta kf_min kf_max = inl f /\ forall k, f dir k = false)
  /\ forcing_bands false dirs a delta kf_min kf_max = inr NotImplementedErr.
Proof.
  intros a delta kf_min kf_max dirs dir. split; [|reflexivity]. intros N. eexists. split; [reflexivity|]. intros k. unfold shaded.
  destruct (existsb (eqb dir) dirs) eqn:E; [|reflexivity]. apply existsb_exists in E. destruct E as (x & I & Ex).
  destruct dir, x; try discriminate; contradiction.
Qed.

(** the drawn scales, for the viscosities which are not zero, are those where the viscous rate is the inertial one *)
Theorem c297_scales : forall n2 n4 n8 Pf, 0 < n2 -> 0 < n4 -> 0 < n8 -> 0 < Pf ->
  exists k2 k4 k8, dissipative n2 Pf 2 k2 /\ dissipative n4 Pf 4 k4 /\ dissipative n8 Pf 8 k8
  /\ dissipative_scales (Some n2) (Some n4) (Some n8) Pf = [k2; k4; k8]
  /\ dissipative_scales (Some n2) (Some 0) (Some 0) Pf = [k2]
  /\ dissipative_scales (Some n2) None None Pf = [k2]
  /\ dissipative_scales (Some 0) (Some n4) (Some 0) Pf = [k4]
  /\ dissipative_scales None (Some 0) (Some n8) Pf = [k8].
Proof.
  assert (G : forall n Pf m, 0 < n -> 0 < Pf -> 3 * m - 2 <> 0 -> dissipative n Pf m (kd n Pf (3 * m - 2))).
  { intros n Pf m Hn HP Hm. unfold dissipative, kd.
    set (e := 3 / (3 * m - 2) * (ln n - ln Pf / 3)).
    assert (Q : 0 < n / Rpower Pf (1 / 3)) by (apply Rdiv_lt_0_compat; [exact Hn|apply exp_pos]).
    assert (E : 1 / Rpower (n / Rpower Pf (1 / 3)) (3 / (3 * m - 2)) = exp (- e)).
    { unfold Rdiv at 1. rewrite Rmult_1_l. rewrite exp_Ropp. f_equal. unfold Rpower at 1. f_equal. unfold e. f_equal.
      unfold Rdiv. rewrite ln_mult; [|exact Hn|apply Rinv_0_lt_compat, exp_pos].
      rewrite ln_Rinv by apply exp_pos. unfold Rpower. rewrite ln_exp. field. }
    rewrite E. split; [apply exp_pos|]. unfold Rpower. rewrite ln_exp. rewrite <- (exp_ln n) at 1 by exact Hn.
    rewrite <- exp_plus. f_equal. rewrite ln_mult; [|exact HP|apply exp_pos]. rewrite ln_exp. unfold e. field. exact Hm. }
  intros n2 n4 n8 Pf H2 H4 H8 HP. exists (kd n2 Pf 4), (kd n4 Pf 10), (kd n8 Pf 22).
  split; [replace 4 with (3 * 2 - 2) by lra; apply G; lra|].
  split; [replace 10 with (3 * 4 - 2) by lra; apply G; lra|].
  split; [replace 22 with (3 * 8 - 2) by lra; apply G; lra|].
  unfold dissipative_scales, one_scale.
  destruct (Req_EM_T n2 0); [lra|]. destruct (Req_EM_T n4 0); [lra|]. destruct (Req_EM_T n8 0); [lra|].
  destruct (Req_EM_T 0 0) as [_|N]; [|congruence]. repeat split.
Qed.

(** the kx of a forced mode can be outside of the region of the axis of kx *)
Theorem c297_kx_refuted : exists (p : aniso) (ikx iky ikz : BinNums.Z) f, proper p
  /\ (forall g, (forall n, (n <= g n)%nat) -> forced_3d g p ikx iky ikz)
  /\ forcing_bands true [X; Y; Z] (angle p) (delta_angle p) (kmin p) (kmax p) = inl f
  /\ f Y (deltaky p * IZR iky) = true /\ f Z (deltakz p * IZR ikz) = true /\ f X (deltakx p * IZR ikx) = false.
Proof.
  exists (ex_quarter false), 0%Z, 2%Z, 2%Z. eexists. pose proof PI_RGT_0 as HPI.
  pose proof (ex_quarter_proper false) as Hp.
  assert (W : wanted (ex_quarter false) 2 2).
  { pose proof (proj1 c123_2d_example) as F. apply c123_2d in F; [|auto|exact Hp|discriminate].
    replace 2 with (1 * 2) at 1 2 by lra. exact F. }
  split; [exact Hp|]. split.
  - intros g Hg. apply c123_3d_partial; [exact Hg|exact Hp|discriminate|]. split; [discriminate|]. cbn.
    replace (horizontal (1 * 0) (1 * 2)) with 2; [replace (1 * 2) with 2 by lra; exact W|].
    unfold horizontal. replace (1 * 0 * (1 * 0) + 1 * 2 * (1 * 2)) with (2 * 2) by lra. symmetry. apply sqrt_square. lra.
  - split; [reflexivity|]. unfold shaded. cbn [existsb eqb orb andb]. rewrite !where_spec, <- not_true_iff_false, where_spec.
    unfold bounds_h, bounds_v. cbn [ex_quarter angle delta_angle kmin kmax deltakx deltaky deltakz fst snd].
    replace (PI / 4 - 0.5 * (PI / 6)) with (PI / 6) by lra. replace (PI / 4 + 0.5 * (PI / 6)) with (PI / 3) by lra.
    rewrite sin_PI6, sin_PI3, cos_PI6, cos_PI3.
    assert (T : sqrt 3 * sqrt 3 = 3) by (apply sqrt_sqrt; lra). pose proof (sqrt_lt_R0 3 ltac:(lra)).
    assert (1 < sqrt 3) by nra. repeat split; lra.
Qed.

Example c297_example : proper (ex_quarter true) /\ In Z [X; Z] /\ ~ In Y [X; Z].
Proof. split; [apply ex_quarter_proper|]. split; [cbn; auto|]. intros [E|[E|[]]]; discriminate. Qed.

Print Assumptions c297_kz.
Print Assumptions c297_kx_ky_partial.
Print Assumptions c297_directions.
Print Assumptions c297_scales.
Print Assumptions c297_kx_refuted.
