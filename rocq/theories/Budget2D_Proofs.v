(** * Budgets of the two dimensional solvers: proofs *)

From Coq Require Import Reals Lra ZArith Lia List Bool Permutation.
From Coquelicot Require Import Coquelicot.
From Verif Require Import CExp DFT Alias_Model Alias_Proofs Oper_Model Budget_Model Budget_Spec Budget_Proofs.
Import ListNotations.
Local Open Scope R_scope.

(** ** The transform of an inverse transform *)

Lemma lsum_single {A} (l : list A) f z : NoDup l -> In z l -> (forall x, In x l -> x <> z -> f x = RtoC 0) -> lsum l f = f z.
Proof.
  induction l as [|x l IH]; intros ND Hin H; [contradiction|]. rewrite lsum_cons. inversion ND as [|? ? N1 N2]; subst.
  destruct Hin as [-> | Hin].
  - rewrite lsum_zero; [ring|]. intros y Hy. apply H; [right; exact Hy|]. intros ->. contradiction.
  - rewrite IH; [|exact N2 | exact Hin | intros y Hy; apply H; right; exact Hy].
    rewrite (H x); [ring | left; reflexivity | intros ->; contradiction].
Qed.

Definition delta0 (m : mode) : C := if mode_eqb m zero_mode then RtoC 1 else RtoC 0.

Lemma ifft_delta0 o ms jx jy jz : NoDup ms -> In zero_mode ms -> ifft o ms delta0 jx jy jz = RtoC 1.
Proof.
  intros ND H0. unfold ifft, idft. rewrite (lsum_single ms _ zero_mode ND H0).
  - rewrite chi3_zero. unfold delta0. replace (mode_eqb zero_mode zero_mode) with true by (symmetry; apply mode_eqb_eq; reflexivity). ring.
  - intros x _ N. unfold delta0. destruct (mode_eqb x zero_mode) eqn:E; [apply mode_eqb_eq in E; contradiction | ring].
Qed.

Lemma fft_ifft o ms a k : oper_pos o -> NoDup ms -> In zero_mode ms -> alias_free o ms -> In k ms -> fft o (ifft o ms a) k = a k.
Proof.
  intros Ho ND H0 Ha Hk.
  rewrite (fft_ext o _ (gmul (ifft o ms a) (ifft o ms delta0))).
  2:{ intros jx jy jz. unfold gmul, lift2. rewrite ifft_delta0 by assumption. ring. }
  rewrite product_exact; [|exact Ho | intros p q Hp Hq; apply Ha; assumption].
  assert (S0 : forall p, sum0 p zero_mode (mopp k) = true <-> p = k).
  { intros p. rewrite sum0_spec. unfold zero_mode, mopp, mx, my, mz. cbn [fst snd]. destruct p as [[a1 b1] c1], k as [[a2 b2] c2]. cbn [fst snd].
    split; [intros (E1 & E2 & E3); repeat f_equal; lia | intros E; injection E; lia]. }
  rewrite (lsum_single ms _ k ND Hk).
  - rewrite (lsum_single ms _ zero_mode ND H0).
    + replace (sum0 k zero_mode (mopp k)) with true by (symmetry; apply S0; reflexivity).
      unfold delta0. replace (mode_eqb zero_mode zero_mode) with true by (symmetry; apply mode_eqb_eq; reflexivity). ring.
    + intros q _ N. unfold delta0. destruct (mode_eqb q zero_mode) eqn:E; [apply mode_eqb_eq in E; contradiction|].
      destruct (sum0 _ _ _); ring.
  - intros p _ N. apply lsum_zero. intros q _. unfold delta0. destruct (mode_eqb q zero_mode) eqn:E.
    + apply mode_eqb_eq in E. subst q. destruct (sum0 p zero_mode (mopp k)) eqn:E; [apply S0 in E; contradiction | reflexivity].
    + destruct (sum0 _ _ _); ring.
Qed.

(** ** Wavenumbers *)

Lemma Kx_opp o m : Kx o (mopp m) = - Kx o m.
Proof. unfold Kx, mopp, mx. cbn [fst snd]. rewrite opp_IZR. ring. Qed.
Lemma Ky_opp o m : Ky o (mopp m) = - Ky o m.
Proof. unfold Ky, mopp, my. cbn [fst snd]. rewrite opp_IZR. ring. Qed.
Lemma Kz_opp o m : Kz o (mopp m) = - Kz o m.
Proof. unfold Kz, mopp, mz. cbn [fst snd]. rewrite opp_IZR. ring. Qed.

Lemma Kx_sum0 o p q s : sum0 p q s = true -> Kx o s = - Kx o p - Kx o q.
Proof.
  intros H. apply sum0_spec in H. destruct H as (H & _ & _). unfold Kx.
  replace (mx s) with (- mx p - mx q)%Z by lia. rewrite minus_IZR, opp_IZR. ring.
Qed.
Lemma Ky_sum0 o p q s : sum0 p q s = true -> Ky o s = - Ky o p - Ky o q.
Proof.
  intros H. apply sum0_spec in H. destruct H as (_ & H & _). unfold Ky.
  replace (my s) with (- my p - my q)%Z by lia. rewrite minus_IZR, opp_IZR. ring.
Qed.
Lemma Kz_sum0 o p q s : sum0 p q s = true -> Kz o s = - Kz o p - Kz o q.
Proof.
  intros H. apply sum0_spec in H. destruct H as (_ & _ & H). unfold Kz.
  replace (mz s) with (- mz p - mz q)%Z by lia. rewrite minus_IZR, opp_IZR. ring.
Qed.

Definition no_xy (m : mode) : bool := ((mx m =? 0) && (my m =? 0))%Z.
Lemma no_xy_opp m : no_xy (mopp m) = no_xy m.
Proof.
  unfold no_xy, mopp, mx, my. cbn [fst snd]. apply eq_true_iff_eq. rewrite !andb_true_iff, !Z.eqb_eq. lia.
Qed.
Lemma no_xy_K o m : no_xy m = true -> Kx o m = 0 /\ Ky o m = 0.
Proof.
  unfold no_xy. rewrite andb_true_iff, !Z.eqb_eq. intros [H1 H2]. unfold Kx, Ky. rewrite H1, H2. split; ring.
Qed.
Lemma K2_not0_opp o m : K2_not0 o (mopp m) = K2_not0 o m.
Proof.
  unfold K2_not0. pose proof (no_xy_opp m) as E. unfold no_xy in E. rewrite E. unfold K2_2d. rewrite Kx_opp, Ky_opp.
  destruct ((mx m =? 0)%Z && (my m =? 0)%Z); [reflexivity|]. ring.
Qed.
Lemma K2_not0_pos o m : oper_pos o -> 0 < K2_not0 o m.
Proof.
  intros (_ & _ & _ & Lx0 & Ly0 & _). unfold K2_not0. destruct ((mx m =? 0) && (my m =? 0))%Z eqn:E; [lra|].
  unfold K2_2d. pose proof PI_RGT_0.
  assert (Hx : 0 < deltakx o) by (apply Rdiv_lt_0_compat; lra). assert (Hy : 0 < deltaky o) by (apply Rdiv_lt_0_compat; lra).
  assert (N : forall d z, 0 < d -> (z <> 0)%Z -> 0 < (d * IZR z) ^ 2).
  { intros d z Hd Hz. apply pow2_gt_0. intros E0. apply Rmult_integral in E0. destruct E0 as [E0|E0]; [lra|]. apply Hz. apply eq_IZR. exact E0. }
  apply andb_false_iff in E. destruct E as [E|E]; apply Z.eqb_neq in E.
  - pose proof (N (deltakx o) (mx m) Hx E). pose proof (pow2_ge_0 (Ky o m)). unfold Kx. lra.
  - pose proof (N (deltaky o) (my m) Hy E). pose proof (pow2_ge_0 (Kx o m)). unfold Ky. lra.
Qed.

(** ** Advection by the flow of vorticity rot *)

Definition jac (o : oper) (p q : mode) : R := Kx o p * Ky o q - Ky o p * Kx o q.
Definition str (o : oper) (rot : field) (m : mode) : C := (RtoC (/ K2_not0 o m) * rot m)%C.

Lemma jac_sum0 o p q s : sum0 p q s = true -> jac o p s = - jac o p q /\ jac o s q = - jac o p q.
Proof. intros H. unfold jac. rewrite (Kx_sum0 o p q s H), (Ky_sum0 o p q s H). split; ring. Qed.

Lemma Ci2 : (Ci * Ci)%C = RtoC (- 1).
Proof. apply C_eq; cbn; ring. Qed.

Definition advection (o : oper) (ms : list mode) (rot g : field) (k : mode) : C :=
  (fft o (gmul (ifft o ms (ux_from_rot o rot)) (ifft o ms (px_fft o g))) k
   + fft o (gmul (ifft o ms (uy_from_rot o rot)) (ifft o ms (py_fft o g))) k)%C.

Lemma jac_term o rot g p q :
  (ux_from_rot o rot p * px_fft o g q + uy_from_rot o rot p * py_fft o g q)%C = (RtoC (jac o p q) * (str o rot p * g q))%C.
Proof.
  unfold ux_from_rot, uy_from_rot, px_fft, py_fft, jac, str, Rdiv. rewrite !RtoC_mult, RtoC_minus, !RtoC_mult.
  set (a := RtoC (Kx o p)). set (b := RtoC (Ky o p)). set (c := RtoC (Kx o q)). set (d := RtoC (Ky o q)). set (e := RtoC (/ _)).
  replace (Ci * (b * e) * rot p * (Ci * c * g q) + - Ci * (a * e) * rot p * (Ci * d * g q))%C
    with (Ci * Ci * (b * c - a * d) * (e * rot p * g q))%C by ring.
  rewrite Ci2. replace (RtoC (- 1)) with (- RtoC 1)%C by (apply C_eq; cbn; ring). ring.
Qed.

Section Good.
Variable o : oper.
Variable ms : list mode.
Hypothesis Ho : oper_pos o.
Hypothesis Hs : symmetric_modes ms.
Hypothesis H0 : In zero_mode ms.
Hypothesis Ha : alias_free o ms.

Lemma sum_advection rot g c :
  lsum ms (fun k => c (mopp k) * advection o ms rot g k)%C = triads ms (fun p q s => RtoC (jac o p q) * (str o rot p * g q * c s))%C.
Proof.
  unfold advection.
  rewrite (lsum_ext ms _ (fun k => c (mopp k) * fft o (gmul (ifft o ms (ux_from_rot o rot)) (ifft o ms (px_fft o g))) k
    + c (mopp k) * fft o (gmul (ifft o ms (uy_from_rot o rot)) (ifft o ms (py_fft o g))) k)%C) by (intros; ring).
  rewrite lsum_plus, !triple by assumption. rewrite <- triads_plus. apply triads_ext. intros p q s _ _ _ _.
  pose proof (jac_term o rot g p q) as E.
  replace (ux_from_rot o rot p * px_fft o g q * c s + uy_from_rot o rot p * py_fft o g q * c s)%C
    with ((ux_from_rot o rot p * px_fft o g q + uy_from_rot o rot p * py_fft o g q) * c s)%C by ring.
  rewrite E. ring.
Qed.

(** the square of what is advected *)
Lemma advection_square rot g : lsum ms (fun k => g (mopp k) * advection o ms rot g k)%C = RtoC 0.
Proof.
  rewrite sum_advection. apply triads_anti23. intros p q s _ _ _ H. destruct (jac_sum0 o p q s H) as [E _]. rewrite E.
  rewrite RtoC_opp. ring.
Qed.

(** the energy; [phi] is the stream function, zero for the mean *)
Definition phi (rot : field) (m : mode) : C := if no_xy m then RtoC 0 else str o rot m.

Lemma advection_energy rot : lsum ms (fun k => phi rot (mopp k) * advection o ms rot rot k)%C = RtoC 0.
Proof.
  rewrite sum_advection. rewrite (triads_ext ms _ (fun p q s => RtoC (jac o p q) * (phi rot p * rot q * phi rot s))%C).
  - apply triads_anti13. intros p q s _ _ _ H. destruct (jac_sum0 o p q s H) as [_ E]. rewrite E. rewrite RtoC_opp. ring.
  - intros p q s _ _ _ _. unfold phi at 2. destruct (no_xy p) eqn:E; [|reflexivity].
    apply (no_xy_K o) in E. unfold jac. destruct E as [-> ->]. replace (0 * Ky o q - 0 * Kx o q) with 0 by ring. ring.
Qed.

(** the mean *)
Lemma advection_mean rot g : advection o ms rot g zero_mode = RtoC 0.
Proof.
  unfold advection. rewrite !product_exact by (exact Ho || (intros p q Hp Hq; apply Ha; assumption)).
  rewrite <- lsum_plus. apply lsum_zero. intros p _. rewrite <- lsum_plus. apply lsum_zero. intros q _.
  destruct (sum0 p q (mopp zero_mode)) eqn:E; [|ring].
  rewrite jac_term. destruct (jac_sum0 o p q (mopp zero_mode) E) as [E1 _].
  assert (Z : jac o p (mopp zero_mode) = 0) by (unfold jac; rewrite Kx_opp, Ky_opp; unfold Kx, Ky, zero_mode, mx, my; cbn [fst snd]; ring).
  replace (jac o p q) with 0 by lra. ring.
Qed.

Lemma fft_Frot ux uy px py beta k : fft o (compute_Frot ux uy px py beta) k
  = (- (fft o (gmul ux px) k + fft o (gmul uy py) k) - RtoC beta * fft o uy k)%C.
Proof.
  rewrite (fft_ext o _ (fun jx jy jz => (- RtoC 1) * (RtoC 1 * gmul ux px jx jy jz + RtoC 1 * gmul uy py jx jy jz) + RtoC (- beta) * uy jx jy jz)%C).
  - rewrite (fft_lin o ((- RtoC 1)) (RtoC (- beta)) (fun jx jy jz => RtoC 1 * gmul ux px jx jy jz + RtoC 1 * gmul uy py jx jy jz)%C).
    rewrite fft_lin. rewrite !RtoC_opp. ring.
  - intros jx jy jz. unfold compute_Frot. destruct (Req_EM_T beta 0) as [-> | N]; unfold gsub, gmul, gopp, lift2; rewrite ?RtoC_opp; ring.
Qed.

Variable dea : mode -> bool.
Hypothesis Hd : forall m, In m ms -> dea m = false.

Lemma ns2d_eq beta rot k : In k ms -> ns2d o ms dea beta rot k = (- advection o ms rot rot k - RtoC beta * uy_from_rot o rot k)%C.
Proof.
  intros Hk. unfold ns2d, dealiasing. rewrite (Hd k Hk), fft_Frot. rewrite (fft_ifft o ms) by (assumption || apply Hs). reflexivity.
Qed.

(** terms with the velocity uy *)
Lemma uy_odd c rot : (forall m, In m ms -> c (mopp m) = c m) ->
  lsum ms (fun k => RtoC (c k) * rot (mopp k) * uy_from_rot o rot k)%C = RtoC 0.
Proof.
  intros Hc. apply lsum_odd; [exact Hs|]. intros m Hm. unfold uy_from_rot. rewrite mopp_mopp, Kx_opp, K2_not0_opp, (Hc m Hm).
  replace (- Kx o m / K2_not0 o m) with (- (Kx o m / K2_not0 o m)) by (unfold Rdiv; ring). rewrite RtoC_opp. ring.
Qed.

End Good.
