(** C178: the noise; C179: the jet and the dipole. *)
From Coq Require Import Reals List ZArith Lra Lia Psatz.
From Verif Require Import Noise_Model.
Import ListNotations.
Local Open Scope R_scope.

(** ** The spec: divergence, maximum *)
Definition is_max (n : nat) (f : nat -> R) (m : R) : Prop := (forall j, (j <= n)%nat -> f j <= m) /\ exists j, (j <= n)%nat /\ f j = m.
Definition dot (u v : vec) : R := vx u * vx v + vy u * vy v + vz u * vz v.

Lemma rmax_spec n f : is_max n f (rmax n f).
Proof.
  induction n as [|n IH]; cbn [rmax].
  - split; [intros j Hj; assert (j = 0)%nat as -> by lia; lra|]. exists 0%nat. split; [lia|reflexivity].
  - destruct IH as [A (j & Hj & E)]. split.
    + intros i Hi. destruct (Nat.eq_dec i (S n)) as [->|N]; [apply Rmax_r|]. eapply Rle_trans; [apply A; lia|apply Rmax_l].
    + unfold Rmax. destruct (Rle_dec _ _); [exists (S n); split; [lia|reflexivity]|]. exists j. split; [lia|exact E].
Qed.
Lemma norm_scale s v : norm (vscale s v) = Rabs s * norm v.
Proof.
  destruct v as [[a b] c]. unfold norm, vscale, vx, vy, vz. cbn [fst snd]. replace ((s * a) ^ 2 + (s * b) ^ 2 + (s * c) ^ 2) with (Rsqr s * (a ^ 2 + b ^ 2 + c ^ 2)) by (unfold Rsqr; ring).
  rewrite sqrt_mult; [|apply Rle_0_sqr|pose proof (pow2_ge_0 a); pose proof (pow2_ge_0 b); pose proof (pow2_ge_0 c); lra]. now rewrite sqrt_Rsqr_abs.
Qed.
Lemma scaled_max n f g m s m' : m' = s * m -> is_max n f m -> 0 <= s -> (forall j, g j = s * f j) -> is_max n g m'.
Proof. intros -> [A (j & Hj & E)] S G. split; [intros i Hi; rewrite G; apply Rmult_le_compat_l; auto|]. exists j. split; [exact Hj|]. now rewrite G, E. Qed.

Lemma tanh_bound x : -1 < tanh x < 1.
Proof.
  unfold tanh, sinh, cosh. pose proof (exp_pos x). pose proof (exp_pos (- x)). set (a := exp x) in *. set (b := exp (- x)) in *. clearbody a b.
  split; apply Rmult_lt_reg_r with ((a + b) / 2); try lra; replace ((a - b) / 2 / ((a + b) / 2) * ((a + b) / 2)) with ((a - b) / 2) by (field; lra); lra.
Qed.
Lemma H_smooth_range x d : 0 < H_smooth x d < 1.
Proof. unfold H_smooth. pose proof (tanh_bound (2 * PI * x / d)). lra. Qed.
Lemma H_smooth_half d : 0 < d -> forall x, (0 <= x -> 1 / 2 <= H_smooth x d) /\ (x <= 0 -> H_smooth x d <= 1 / 2).
Proof.
  intros Hd x. assert (T : forall y, (0 <= y -> 0 <= tanh y) /\ (y <= 0 -> tanh y <= 0)).
  { intros y. unfold tanh, sinh, cosh. pose proof (exp_pos y). pose proof (exp_pos (- y)). assert (P : 0 < / ((exp y + exp (- y)) / 2)) by (apply Rinv_0_lt_compat; lra). split; intros Hy.
    - apply Rmult_le_pos; [|lra]. assert (exp (- y) <= exp y); [|lra]. destruct Hy as [Hy|<-]; [left; apply exp_increasing; lra|right; f_equal; ring].
    - assert (exp y <= exp (- y)) by (destruct Hy as [Hy| ->]; [left; apply exp_increasing; lra|right; f_equal; ring]). unfold Rdiv at 1. assert (0 <= - ((exp y - exp (- y)) * / 2)) by lra. nra. }
  pose proof PI_RGT_0. destruct (T (2 * PI * x / d)) as [T1 T2]. unfold H_smooth. split; intros Hx.
  - assert (0 <= 2 * PI * x / d) by (apply Rmult_le_pos; [nra|apply Rlt_le, Rinv_0_lt_compat, Hd]). pose proof (T1 H0). lra.
  - assert (2 * PI * x / d <= 0). { assert (0 <= 2 * PI * (- x) / d) by (apply Rmult_le_pos; [nra|apply Rlt_le, Rinv_0_lt_compat, Hd]). replace (2 * PI * x / d) with (- (2 * PI * - x / d)) by (field; lra). lra. } pose proof (T2 H0). lra.
Qed.

Section Noise.
Variables (kvec : nat -> vec) (truncated : nat -> bool) (n : nat) (ifft fft : (nat -> R) -> nat -> R).
Hypothesis ifft_scale : forall s c j, ifft (fun i => s * c i) j = s * ifft c j.
Hypothesis fft_ifft : forall s c i, fft (fun j => s * ifft c j) i = s * c i.

(** the coefficients of the noise *)
Lemma noise_fft_eq k0 velo_max c i : noise_fft kvec truncated n ifft fft k0 velo_max c i = vscale (velo_max / velo_max_result kvec truncated n ifft k0 c) (filtered kvec truncated k0 c i).
Proof using fft_ifft. unfold noise_fft, fft3, noise_velocity, ifft3, vscale, vx, vy, vz. cbn [fst snd]. now rewrite !fft_ifft. Qed.

Lemma dot_scale u s v : dot u (vscale s v) = s * dot u v. Proof using. unfold dot, vscale, vx, vy, vz. cbn [fst snd]. ring. Qed.
Lemma proj_dot c i : dot (kvec i) (project_perpk kvec (remove_mean kvec c) i) = 0.
Proof using.
  unfold project_perpk, remove_mean, K2. cbn zeta. destruct (kvec i) as [[a b] d]. destruct (c i) as [[x y] z]. unfold dot, vx, vy, vz. cbn [fst snd].
  destruct (Req_EM_T (a ^ 2 + b ^ 2 + d ^ 2) 0) as [Z|Z]; cbn [fst snd]; [ring|field; exact Z].
Qed.
Lemma proj_zero c i : K2 kvec i = 0 -> project_perpk kvec (remove_mean kvec c) i = (0, 0, 0).
Proof using. intros Z. unfold project_perpk, remove_mean. cbn zeta. destruct (Req_EM_T (K2 kvec i) 0); [|contradiction]. unfold vx, vy, vz. cbn [fst snd]. f_equal; [f_equal|]; ring. Qed.

(** the velocity: divergence free, no mean, truncated, of the asked maximum *)
Theorem c178_velocity_partial : forall k0 velo_max c, 0 <= velo_max -> 0 < velo_max_result kvec truncated n ifft k0 c ->
  (forall i, dot (kvec i) (noise_fft kvec truncated n ifft fft k0 velo_max c i) = 0)
  /\ (forall i, K2 kvec i = 0 \/ truncated i = true -> noise_fft kvec truncated n ifft fft k0 velo_max c i = (0, 0, 0))
  /\ is_max n (fun j => norm (ifft3 ifft (noise_fft kvec truncated n ifft fft k0 velo_max c) j)) velo_max.
Proof using ifft_scale fft_ifft.
  intros k0 velo_max c V M. set (s := velo_max / velo_max_result kvec truncated n ifft k0 c). assert (E : forall i, noise_fft kvec truncated n ifft fft k0 velo_max c i = vscale s (filtered kvec truncated k0 c i)) by (intros i; apply noise_fft_eq).
  assert (Z0 : forall a, vscale a (0, 0, 0) = (0, 0, 0)) by (intros a; unfold vscale, vx, vy, vz; cbn [fst snd]; now rewrite !Rmult_0_r).
  split; [|split].
  - intros i. rewrite E, dot_scale. unfold filtered, smooth. rewrite dot_scale. unfold dealiasing. destruct (truncated i); [unfold dot, vx, vy, vz; cbn [fst snd]; ring|]. rewrite proj_dot. ring.
  - intros i [Z|T]; rewrite E; unfold filtered, smooth, dealiasing; [|rewrite T; now rewrite !Z0]. destruct (truncated i); rewrite ?proj_zero by exact Z; now rewrite !Z0.
  - apply (scaled_max n (fun j => norm (ifft3 ifft (filtered kvec truncated k0 c) j)) _ (velo_max_result kvec truncated n ifft k0 c) s); [unfold s; field; lra|apply rmax_spec|unfold s; apply Rmult_le_pos; [exact V|apply Rlt_le, Rinv_0_lt_compat, M]|].
    intros j. assert (I : ifft3 ifft (noise_fft kvec truncated n ifft fft k0 velo_max c) j = vscale s (ifft3 ifft (filtered kvec truncated k0 c) j)).
    { unfold noise_fft, fft3, noise_velocity, ifft3, vscale, vx, vy, vz. cbn [fst snd]. fold s. rewrite <- !ifft_scale. f_equal; [f_equal|].
      all: apply f_equal2; [|reflexivity]. all: apply FunctionalExtensionality.functional_extensionality; intros i; apply fft_ifft. }
    rewrite I, norm_scale, Rabs_pos_eq; [reflexivity|]. unfold s. apply Rmult_le_pos; [exact V|apply Rlt_le, Rinv_0_lt_compat, M].
Qed.

(** the large scales are kept, the small ones reduced *)
Theorem c178_cutoff : forall k0 c i, 0 < k0 -> exists h, 0 < h < 1 /\ (K kvec i <= k0 -> 1 / 2 <= h) /\ (k0 <= K kvec i -> h <= 1 / 2) /\ filtered kvec truncated k0 c i = vscale h (dealiasing truncated (project_perpk kvec (remove_mean kvec c)) i) /\ (K2 kvec i <> 0 -> filtered_scalar kvec k0 (fun i => vx (c i)) i = h * vx (c i)).
Proof using.
  intros k0 c i P. exists (H_smooth (k0 - K kvec i) (1 * k0)). destruct (H_smooth_half (1 * k0) ltac:(lra) (k0 - K kvec i)) as [H1 H2]. split; [apply H_smooth_range|]. split; [intros; apply H1; lra|]. split; [intros; apply H2; lra|]. split; [reflexivity|].
  intros N. unfold filtered_scalar. destruct (Req_EM_T (K2 kvec i) 0); [contradiction|reflexivity].
Qed.

(** the buoyancy: no mean, of the asked maximum *)
Theorem c178_scalar : forall k0 field_max c, 0 <= field_max -> 0 < value_max kvec n ifft k0 c ->
  (forall i, K2 kvec i = 0 -> scalar_fft kvec n ifft k0 field_max c i = 0) /\ is_max n (fun j => Rabs (ifft (scalar_fft kvec n ifft k0 field_max c) j)) field_max.
Proof using ifft_scale.
  intros k0 field_max c F M. split.
  - intros i Z. unfold scalar_fft, filtered_scalar. destruct (Req_EM_T (K2 kvec i) 0); [ring|contradiction].
  - set (s := field_max / value_max kvec n ifft k0 c). assert (S : 0 <= s) by (unfold s; apply Rmult_le_pos; [exact F|apply Rlt_le, Rinv_0_lt_compat, M]). 
    apply (scaled_max n (fun j => Rabs (ifft (filtered_scalar kvec k0 c) j)) _ (value_max kvec n ifft k0 c) s); [unfold s; field; lra|apply rmax_spec|exact S|]. intros j. assert (I : ifft (scalar_fft kvec n ifft k0 field_max c) j = s * ifft (filtered_scalar kvec k0 c) j).
    { rewrite <- ifft_scale. reflexivity. }
    rewrite I, Rabs_mult, (Rabs_pos_eq s) by exact S. reflexivity.
Qed.
(** but not truncated: all the coefficients remain *)
Lemma scalar_not_truncated : forall k0 field_max c i, 0 < field_max -> 0 < value_max kvec n ifft k0 c -> K2 kvec i <> 0 -> c i <> 0 -> scalar_fft kvec n ifft k0 field_max c i <> 0.
Proof using.
  intros k0 field_max c i F M N C. unfold scalar_fft, filtered_scalar. destruct (Req_EM_T (K2 kvec i) 0); [contradiction|]. pose proof (H_smooth_range (k0 - K kvec i) (1 * k0)) as H.
  assert (0 < field_max / value_max kvec n ifft k0 c) by now apply Rdiv_lt_0_compat. apply Rmult_integral_contrapositive_currified; [lra|]. apply Rmult_integral_contrapositive_currified; [lra|exact C].
Qed.
End Noise.

(** a transform of two points, the mode 1 truncated *)
Definition idf (c : nat -> R) (j : nat) : R := c j.
Theorem c178_scalar_refuted : exists kvec (truncated : nat -> bool) n (ifft fft : (nat -> R) -> nat -> R) k0 field_max c i, (forall s c j, ifft (fun i => s * c i) j = s * ifft c j) /\ (forall s c i, fft (fun j => s * ifft c j) i = s * c i)
  /\ 0 < field_max /\ truncated i = true /\ scalar_fft kvec n ifft k0 field_max c i <> 0.
Proof.
  exists (fun i => (INR i, 0, 0)), (fun i => Nat.leb 1 i), 1%nat, idf, idf, 1, 1, (fun _ => 1), 1%nat. split; [reflexivity|]. split; [reflexivity|]. split; [lra|]. split; [reflexivity|].
  apply scalar_not_truncated; try lra; [|unfold K2, vx, vy, vz; cbn; lra]. unfold value_max. destruct (rmax_spec 1 (fun j => Rabs (idf (filtered_scalar (fun i => (INR i, 0, 0)) 1 (fun _ => 1)) j))) as [A _]. eapply Rlt_le_trans; [|apply (A 1%nat); lia].
  unfold idf, filtered_scalar, K2, vx, vy, vz. cbn [fst snd INR]. destruct (Req_EM_T (1 ^ 2 + 0 ^ 2 + 0 ^ 2) 0) as [e|_]; [exfalso; lra|]. apply Rabs_pos_lt. pose proof (H_smooth_range (1 - K (fun i => (INR i, 0, 0)) 1) (1 * 1)). lra.
Qed.

(** the cutoff *)
Theorem c178_length_partial : forall Lx Ly Lz l, 0 < Lx -> 0 < Ly -> 0 < Lz -> 0 < l ->
  k0_2d l Lx Ly = inl (2 * PI / l) /\ k0_2d 0 Lx Ly = inl (2 * PI / (Rmin Lx Ly / 4)) /\ k0_3d (Some l) Lx Ly Lz = inl (2 * PI / l) /\ k0_3d_scalar (Some l) Lx Ly Lz = inl (2 * PI / l)
  /\ (Lx <= Ly -> Lx <= Lz -> k0_3d None Lx Ly Lz = k0_3d_scalar None Lx Ly Lz).
Proof.
  intros Lx Ly Lz l X Y Z P. unfold k0_2d, k0_3d, k0_3d_scalar, k0_from_length. destruct (Req_EM_T l 0) as [e|_]; [exfalso; lra|]. destruct (Req_EM_T l 0) as [e|_]; [exfalso; lra|]. destruct (Req_EM_T 0 0) as [_|e]; [|exfalso; lra].
  assert (M : 0 < Rmin Lx Ly) by now apply Rmin_glb_lt. destruct (Req_EM_T (Rmin Lx Ly / 4) 0) as [e|_]; [exfalso; lra|]. split; [reflexivity|]. split; [reflexivity|]. split; [reflexivity|]. split; [reflexivity|]. intros A B. rewrite (Rmin_left Lx Ly), (Rmin_left Lx Lz) by assumption. reflexivity.
Qed.
(** the documented default 0 of ns3d; different cutoffs for the velocity and for the buoyancy *)
Theorem c178_length_refuted : exists e Lx Ly Lz, 0 < Lx /\ 0 < Ly /\ 0 < Lz /\ k0_3d (Some 0) Lx Ly Lz = inr e /\ k0_3d None Lx Ly Lz <> k0_3d_scalar None Lx Ly Lz.
Proof.
  exists ZeroDivisionError, 2, 2, 1. split; [lra|]. split; [lra|]. split; [lra|]. unfold k0_3d, k0_3d_scalar, k0_from_length. destruct (Req_EM_T 0 0) as [_|e]; [|exfalso; lra]. split; [reflexivity|]. rewrite (Rmin_left 2 2), (Rmin_right 2 1) by lra.
  destruct (Req_EM_T (2 / 4) 0) as [e|_]; [exfalso; lra|]. destruct (Req_EM_T (1 / 4) 0) as [e|_]; [exfalso; lra|]. pose proof PI_RGT_0. intros E. assert (E' : 2 * PI / (2 / 4) = 2 * PI / (1 / 4)) by congruence. assert (A : 2 * PI / (2 / 4) = 4 * PI) by field. assert (B : 2 * PI / (1 / 4) = 8 * PI) by field. lra.
Qed.

(** ** C179 *)
Theorem c179_jet : forall Ly y, vorticity_jet Ly (Ly - y) = - vorticity_jet Ly y.
Proof.
  intros Ly y. unfold vorticity_jet. cbn zeta. set (a := 1 / 2). assert (G : forall u v, u = - v -> gauss a u = gauss a v) by (intros u v ->; unfold gauss; f_equal; f_equal; unfold Rdiv; ring).
  rewrite (G (Ly - y - Ly / 2 + Ly / 2 / 2) (y - Ly / 2 - Ly / 2 / 2)) by field. rewrite (G (Ly - y - Ly / 2 - Ly / 2 / 2) (y - Ly / 2 + Ly / 2 / 2)) by field.
  rewrite (G (Ly - y - Ly / 2 + Ly / 2 / 2 + Ly) (y - Ly / 2 - Ly / 2 / 2 - Ly)) by field. rewrite (G (Ly - y - Ly / 2 - Ly / 2 / 2 + Ly) (y - Ly / 2 + Ly / 2 / 2 - Ly)) by field.
  rewrite (G (Ly - y - Ly / 2 + Ly / 2 / 2 - Ly) (y - Ly / 2 - Ly / 2 / 2 + Ly)) by field. rewrite (G (Ly - y - Ly / 2 - Ly / 2 / 2 - Ly) (y - Ly / 2 + Ly / 2 / 2 + Ly)) by field. ring.
Qed.
Lemma wz_odd X Y b : wz_2LO (- X) (- Y) b = - wz_2LO X Y b.
Proof. unfold wz_2LO. replace ((- X) ^ 2 + (- Y - b / 2) ^ 2) with (X ^ 2 + (Y + b / 2) ^ 2) by ring. replace ((- X) ^ 2 + (- Y + b / 2) ^ 2) with (X ^ 2 + (Y - b / 2) ^ 2) by ring. ring. Qed.
Lemma one_dipole_odd theta Lx Ly x y ip jp : one_dipole theta Lx Ly (Lx - x) (Ly - y) ip jp = - one_dipole theta Lx Ly x y (- ip) (- jp).
Proof. unfold one_dipole. cbn zeta. rewrite <- wz_odd. f_equal; field. Qed.
(** the vorticity is odd around the centre *)
Theorem c179_dipole : forall Lx Ly x y, vorticity_dipole Lx Ly (Lx - x) (Ly - y) = - vorticity_dipole Lx Ly x y.
Proof.
  intros Lx Ly x y. unfold vorticity_dipole. cbn [fold_left]. rewrite !one_dipole_odd. assert (A : - IZR (-1) = IZR 1) by lra. assert (B : - IZR 0 = IZR 0) by lra. assert (C : - IZR 1 = IZR (-1)) by lra. rewrite A, B, C.
  set (o := one_dipole (PI / (23 / 10)) Lx Ly x y). ring.
Qed.
(** the two vortices: b / 2 on each side of the centre, opposite *)
Theorem c179_vortices : forall theta Lx Ly s, s ^ 2 = 1 ->
  one_dipole theta Lx Ly (Lx / 2 - s * (125 / 100) * sin theta) (Ly / 2 + s * (125 / 100) * cos theta) 0 0 = s * (2 - 2 * exp (- (25 / 10) ^ 2)).
Proof.
  intros theta Lx Ly s S. unfold one_dipole. cbn zeta. pose proof (sin2_cos2 theta) as SC. unfold Rsqr in SC.
  replace (cos theta * (Lx / 2 - s * (125 / 100) * sin theta - Lx / 2 - 0 * Lx) + sin theta * (Ly / 2 + s * (125 / 100) * cos theta - Ly / 2 - 0 * Ly)) with 0 by field.
  replace (cos theta * (Ly / 2 + s * (125 / 100) * cos theta - Ly / 2 - 0 * Ly) - sin theta * (Lx / 2 - s * (125 / 100) * sin theta - Lx / 2 - 0 * Lx)) with (s * (125 / 100)).
  2:{ transitivity (s * (125 / 100) * (sin theta * sin theta + cos theta * cos theta)); [rewrite SC; ring|field]. }
  unfold wz_2LO. assert (C : s = 1 \/ s = -1) by (assert ((s - 1) * (s + 1) = 0) as Z by (ring_simplify; lra); apply Rmult_integral in Z; destruct Z; [left|right]; lra). destruct C as [-> | ->].
  - replace (0 ^ 2 + (1 * (125 / 100) - 25 / 10 / 2) ^ 2) with 0 by field. replace (0 ^ 2 + (1 * (125 / 100) + 25 / 10 / 2) ^ 2) with ((25 / 10) ^ 2) by field. rewrite Ropp_0, exp_0. ring.
  - replace (0 ^ 2 + (-1 * (125 / 100) + 25 / 10 / 2) ^ 2) with 0 by field. replace (0 ^ 2 + (-1 * (125 / 100) - 25 / 10 / 2) ^ 2) with ((25 / 10) ^ 2) by field. rewrite Ropp_0, exp_0. ring.
Qed.

Example c178_example : 0 < velo_max_result (fun i => (INR i, 0, 0)) (fun _ => false) 1 idf 1 (fun _ => (0, 1, 0)).
Proof.
  unfold velo_max_result. destruct (rmax_spec 1 (fun j => norm (ifft3 idf (filtered (fun i => (INR i, 0, 0)) (fun _ => false) 1 (fun _ => (0, 1, 0))) j))) as [A _]. eapply Rlt_le_trans; [|apply (A 1%nat); lia].
  unfold norm. apply sqrt_lt_R0. unfold ifft3, idf, filtered, smooth, dealiasing, project_perpk, remove_mean, vscale, K2, vx, vy, vz. cbn [fst snd INR]. destruct (Req_EM_T (1 ^ 2 + 0 ^ 2 + 0 ^ 2) 0) as [e|_]; [exfalso; lra|]. cbn [fst snd].
  set (h := H_smooth (1 - K (fun i => (INR i, 0, 0)) 1) (1 * 1)). assert (0 < h) by apply H_smooth_range. pose proof (pow2_ge_0 (h * (0 - 1 * ((1 * 0 + 0 * 1 + 0 * 0) / (1 ^ 2 + 0 ^ 2 + 0 ^ 2))))). pose proof (pow2_ge_0 (h * (0 - 0 * ((1 * 0 + 0 * 1 + 0 * 0) / (1 ^ 2 + 0 ^ 2 + 0 ^ 2))))).
  assert (0 < (h * (1 - 0 * ((1 * 0 + 0 * 1 + 0 * 0) / (1 ^ 2 + 0 ^ 2 + 0 ^ 2)))) ^ 2) by (rewrite Rmult_0_l, Rminus_0_r, Rmult_1_r; apply pow_lt; assumption). lra.
Qed.

Print Assumptions c178_velocity_partial.
Print Assumptions c178_cutoff.
Print Assumptions c178_scalar.
Print Assumptions c178_scalar_refuted.
Print Assumptions c178_length_partial.
Print Assumptions c178_length_refuted.
Print Assumptions c179_jet.
Print Assumptions c179_dipole.
Print Assumptions c179_vortices.
