(** * Dissipation frequencies and spatial means: lemmas *)

From Coq Require Import Reals Lra ZArith Lia String List Bool FunctionalExtensionality.
From Coquelicot Require Import Coquelicot.
From Verif Require Import CExp DFT Alias_Model Alias_Proofs Oper_Model Oper_Proofs Budget_Model Budget_Spec Budget_Proofs Budget2D_Proofs
  Budget2D_Props Means_Model Means_Spec.
Import ListNotations.
Local Open Scope R_scope.

Lemma rsum_total ms f : rsum ms f = total ms f.
Proof. symmetry. apply total_lsum. reflexivity. Qed.

Lemma abs2_norm2 z : abs2 z = norm2 z.
Proof.
  unfold abs2, norm2, Cmod. change (sqrt (fst z ^ 2 + snd z ^ 2) ^ 2 = fst z ^ 2 + snd z ^ 2). apply pow2_sqrt.
  pose proof (pow2_ge_0 (fst z)). pose proof (pow2_ge_0 (snd z)). lra.
Qed.

(** the rate of change of the sum of c |a|^2 / 2 when the tendency of a is b *)
Definition rate (ms : list mode) (c : mode -> R) (a b : mode -> C) : R :=
  total ms (fun m => c m * (fst (a m) * fst (b m) + snd (a m) * snd (b m))).

Lemma derive_rate c ms a t b : moves ms a t b -> is_derive (fun s => total ms (fun m => c m * norm2 (a s m) / 2)) t (rate ms c (a t) b).
Proof.
  intros H. eapply is_derive_eq; [exact (is_derive_square c ms a t b H)|]. symmetry. apply total_lsum. intros m _. cbn. ring.
Qed.

Lemma rate_ext ms c a b b' : (forall m, In m ms -> b m = b' m) -> rate ms c a b = rate ms c a b'.
Proof. intros H. apply total_ext. intros m Hm. rewrite (H m Hm). reflexivity. Qed.

Lemma rate_plus ms c a b b' : rate ms c a (plus_f b b') = rate ms c a b + rate ms c a b'.
Proof. unfold rate. rewrite <- total_plus. apply total_ext. intros m _. unfold plus_f. cbn. ring. Qed.

Lemma total_opp ms f : total ms (fun m => - f m) = - total ms f.
Proof. rewrite (total_ext ms _ (fun m => -1 * f m)) by (intros; ring). rewrite total_scal. ring. Qed.

Lemma rate_damped ms c a g freq : rate ms c a (damped freq g a) = rate ms c a g - total ms (fun m => freq m * (c m * norm2 (a m))).
Proof.
  unfold rate, Rminus. rewrite <- total_opp, <- total_plus. apply total_ext. intros m _. unfold damped, norm2. cbn. ring.
Qed.

(** a straight path with a given velocity *)
Definition line (t : R) (a b : mode -> C) : R -> mode -> C := fun s m => (a m + RtoC (s - t) * b m)%C.

Lemma line_at t a b : line t a b t = a.
Proof. apply functional_extensionality. intros m. unfold line. rewrite Rminus_eq_0. apply C_eq; cbn; ring. Qed.

Lemma derive_affine (x y t : R) : is_derive (fun s => x + (s - t) * y) t y.
Proof. auto_derive; [exact I | ring]. Qed.

Lemma line_moves ms t a b : moves ms (line t a b) t b.
Proof.
  intros m _. split.
  - apply (is_derive_ext (fun s => fst (a m) + (s - t) * fst (b m))); [intros s; unfold line; cbn; ring | apply derive_affine].
  - apply (is_derive_ext (fun s => snd (a m) + (s - t) * snd (b m))); [intros s; unfold line; cbn; ring | apply derive_affine].
Qed.

Lemma derive_unique (f : R -> R) t x y : is_derive f t x -> is_derive f t y -> x = y.
Proof. intros H1 H2. rewrite <- (is_derive_unique f t x H1). apply is_derive_unique. exact H2. Qed.

(** the quantity after a step of duration dt *)
Lemma after_total ms c dt F a :
  total ms (fun m => c m * norm2 (after dt F a m) / 2) - total ms (fun m => c m * norm2 (a m) / 2)
  = dt * (rate ms c a F + dt / 2 * total ms (fun m => c m * norm2 (F m))).
Proof.
  unfold rate. rewrite <- total_scal, <- total_plus, <- total_scal. unfold Rminus. rewrite <- total_opp, <- total_plus.
  apply total_ext. intros m _. unfold after, norm2. cbn. field.
Qed.

(** the coefficient of the kinetic energy in terms of the vorticity *)
Definition cK (o : oper) (m : mode) : R := if no_xy m then 0 else / K2_not0 o m.

Section Vel2D.
Variable o : oper.
Hypothesis Ho : oper_pos o.

Lemma sum_sq m : Kx o m ^ 2 + Ky o m ^ 2 = K2_not0 o m * (if no_xy m then 0 else 1).
Proof.
  destruct (no_xy m) eqn:E.
  - destruct (no_xy_K o m E) as [-> ->]. ring.
  - unfold K2_not0. unfold no_xy in E. rewrite E. unfold K2_2d. ring.
Qed.

Lemma vel_norm2 rot m : norm2 (ux_from_rot o rot m) + norm2 (uy_from_rot o rot m) = cK o m * norm2 (rot m).
Proof.
  pose proof (K2_not0_pos o m Ho) as P. pose proof (sum_sq m) as S. unfold cK.
  transitivity ((Kx o m ^ 2 + Ky o m ^ 2) / K2_not0 o m ^ 2 * norm2 (rot m)).
  - unfold ux_from_rot, uy_from_rot, norm2. cbn. field. lra.
  - rewrite S. destruct (no_xy m); field; lra.
Qed.

Lemma vel_prod rot F m : fst (Cconj (ux_from_rot o rot m) * ux_from_rot o F m + Cconj (uy_from_rot o rot m) * uy_from_rot o F m)%C
  = cK o m * (fst (rot m) * fst (F m) + snd (rot m) * snd (F m)).
Proof.
  pose proof (K2_not0_pos o m Ho) as P. pose proof (sum_sq m) as S. unfold cK.
  transitivity ((Kx o m ^ 2 + Ky o m ^ 2) / K2_not0 o m ^ 2 * (fst (rot m) * fst (F m) + snd (rot m) * snd (F m))).
  - unfold ux_from_rot, uy_from_rot. cbn. field. lra.
  - rewrite S. destruct (no_xy m); field; lra.
Qed.

Lemma energy_fft_norm2 rot m : energy_fft_2d o rot m = cK o m * norm2 (rot m) / 2.
Proof. unfold energy_fft_2d. rewrite !abs2_norm2, vel_norm2. reflexivity. Qed.

Lemma energy_2d_cK ms rot : energy_2d o ms rot = total ms (fun m => cK o m * norm2 (rot m) / 2).
Proof.
  unfold energy_2d. apply total_ext. intros m _. pose proof (K2_not0_pos o m Ho) as P.
  unfold cK, no_xy. unfold K2_not0 in *. destruct ((mx m =? 0)%Z && (my m =? 0)%Z); [unfold Rdiv; ring|].
  replace (wx o m ^ 2 + wy o m ^ 2) with (K2_2d o m).
  2:{ destruct Ho as (_ & _ & _ & A & B & _). unfold K2_2d, wx, wy, Kx, Ky, deltakx, deltaky. field. lra. }
  field. lra.
Qed.

Lemma square_1 ms a : square ms a = total ms (fun m => 1 * norm2 (a m) / 2).
Proof. unfold square. apply total_ext. intros m _. field. Qed.

(** what is written *)
Lemma eps_total ms f c a : sum_wavenumbers ms (fun m => f m * 2 * (c m * norm2 (a m) / 2)) = total ms (fun m => f m * (c m * norm2 (a m))).
Proof. unfold sum_wavenumbers. rewrite rsum_total. apply total_ext. intros m _. field. Qed.

Lemma eps_add ms f g c a : total ms (fun m => f m * (c m * norm2 (a m))) + total ms (fun m => g m * (c m * norm2 (a m)))
  = total ms (fun m => (f m + g m) * (c m * norm2 (a m))).
Proof. rewrite <- total_plus. apply total_ext. intros m _. ring. Qed.
End Vel2D.
