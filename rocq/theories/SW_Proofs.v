(** * Shallow water: lemmas on the operators *)

From Coq Require Import Reals Lra ZArith Lia List Bool.
From Coquelicot Require Import Coquelicot.
From Verif Require Import CExp DFT Alias_Model Alias_Proofs Oper_Model Oper_Proofs Budget_Model Budget_Spec Budget_Proofs Budget2D_Proofs
  SW_Spec SW_Model.
Import ListNotations.
Local Open Scope R_scope.

Lemma Cdiv_R z k : k <> 0 -> (z / RtoC k = RtoC (/ k) * z)%C.
Proof. intros H. unfold Cdiv. rewrite <- RtoC_inv by exact H. ring. Qed.

Lemma mean_first m : mean_mode m <-> first m = true.
Proof. unfold mean_mode, first. rewrite andb_true_iff, !Z.eqb_eq. reflexivity. Qed.
Lemma not_mean_first m : ~ mean_mode m <-> first m = false.
Proof. rewrite mean_first. destruct (first m); split; congruence. Qed.

Lemma sw_Kx o m : oper_pos o -> Kx o m = wx o m.
Proof. intros (_ & _ & _ & H & _). unfold Kx, wx, deltakx. field. lra. Qed.
Lemma sw_Ky o m : oper_pos o -> Ky o m = wy o m.
Proof. intros (_ & _ & _ & _ & H & _). unfold Ky, wy, deltaky. field. lra. Qed.

Section Ops.
Variable o : oper.
Variables f c2 : R.
Hypothesis Ho : oper_pos o.
Hypothesis Hc : 0 < c2.

Lemma kd2_pos : 0 <= kd2 f c2.
Proof. unfold kd2. apply Rmult_le_pos; [apply pow2_ge_0|]. left. apply Rinv_0_lt_compat. exact Hc. Qed.

(** without the case f = 0 *)

Lemma qapam_q ux uy eta m : first m = false ->
  cx (qapamfft_from_uxuyetafft o f c2 (ux, uy, eta)) m = (vort o ux uy m - RtoC f * eta m)%C.
Proof.
  intros E. unfold qapamfft_from_uxuyetafft, cx, vort. cbn [fst snd]. rewrite E, !(sw_Kx o m Ho), !(sw_Ky o m Ho).
  destruct (Req_EM_T f 0) as [->|_]; [ring|reflexivity].
Qed.

Definition ageo (ux uy eta : field) (m : mode) : C := (RtoC (K2_2d o m) * eta m + RtoC (f / c2) * vort o ux uy m)%C.

Lemma qapam_ap ux uy eta m : first m = false ->
  cy (qapamfft_from_uxuyetafft o f c2 (ux, uy, eta)) m = (RtoC (1 / 2) * (ageo ux uy eta m + Kappa_over_ic o f c2 m * dvg o ux uy m))%C.
Proof.
  intros E. unfold qapamfft_from_uxuyetafft, cy, ageo, vort, dvg. cbn [fst snd]. rewrite E, !(sw_Kx o m Ho), !(sw_Ky o m Ho).
  destruct (Req_EM_T f 0) as [Hf|_]; [|ring].
  replace (RtoC (f / c2)) with (RtoC 0) by (f_equal; rewrite Hf; field; lra). ring.
Qed.
Lemma qapam_am ux uy eta m : first m = false ->
  cz (qapamfft_from_uxuyetafft o f c2 (ux, uy, eta)) m = (RtoC (1 / 2) * (ageo ux uy eta m - Kappa_over_ic o f c2 m * dvg o ux uy m))%C.
Proof.
  intros E. unfold qapamfft_from_uxuyetafft, cz, ageo, vort, dvg. cbn [fst snd]. rewrite E, !(sw_Kx o m Ho), !(sw_Ky o m Ho).
  destruct (Req_EM_T f 0) as [Hf|_]; [|ring].
  replace (RtoC (f / c2)) with (RtoC 0) by (f_equal; rewrite Hf; field; lra). ring.
Qed.
Lemma qapam_first ux uy eta m : first m = true ->
  cx (qapamfft_from_uxuyetafft o f c2 (ux, uy, eta)) m = RtoC 0
  /\ cy (qapamfft_from_uxuyetafft o f c2 (ux, uy, eta)) m = (ux m + Ci * uy m)%C
  /\ cz (qapamfft_from_uxuyetafft o f c2 (ux, uy, eta)) m = (ux m - Ci * uy m)%C.
Proof. intros E. unfold qapamfft_from_uxuyetafft, cx, cy, cz. cbn [fst snd]. rewrite E. repeat split. Qed.

Lemma K2_eq m : first m = false -> K2_not0 o m = K2_2d o m /\ 0 < K2_2d o m /\ K2_2d o m = wx o m ^ 2 + wy o m ^ 2.
Proof.
  intros E. assert (H : K2_not0 o m = K2_2d o m) by (unfold K2_not0; unfold first in E; rewrite E; reflexivity).
  split; [exact H|]. split; [rewrite <- H; apply K2_not0_pos; exact Ho|]. unfold K2_2d. rewrite (sw_Kx o m Ho), (sw_Ky o m Ho). reflexivity.
Qed.

Lemma Kappa_sq m : sqrt ((K2_2d o m + kd2 f c2) / c2) ^ 2 = (K2_2d o m + kd2 f c2) / c2.
Proof.
  apply pow2_sqrt. apply Rmult_le_pos; [|left; apply Rinv_0_lt_compat; exact Hc]. pose proof kd2_pos.
  unfold K2_2d. pose proof (pow2_ge_0 (Kx o m)). pose proof (pow2_ge_0 (Ky o m)). lra.
Qed.
Lemma Kappa_s_pos m : first m = false -> 0 < sqrt ((K2_2d o m + kd2 f c2) / c2).
Proof.
  intros E. destruct (K2_eq m E) as (_ & P & _). pose proof kd2_pos. apply sqrt_lt_R0. apply Rdiv_lt_0_compat; lra.
Qed.
Lemma Kappa_neq m : first m = false -> Kappa_over_ic o f c2 m <> RtoC 0.
Proof.
  intros E H. pose proof (Kappa_s_pos m E) as P. unfold Kappa_over_ic in H. apply (f_equal snd) in H. cbn in H. lra.
Qed.

Lemma div_apam ap am m : first m = false -> (Kappa_over_ic o f c2 m * divfft_from_apamfft o f c2 ap am m = ap m - am m)%C.
Proof.
  intros E. unfold divfft_from_apamfft. rewrite E. pose proof (Kappa_neq m E). unfold Cdiv. field. assumption.
Qed.

(** the fields from the normal modes, without the case f = 0 *)
Definition kap (m : mode) : R := K2_2d o m + kd2 f c2.
Lemma kap_pos m : first m = false -> 0 < kap m.
Proof. intros E. destruct (K2_eq m E) as (_ & P & _). pose proof kd2_pos. unfold kap. lra. Qed.

Lemma invlap_kap a m : first m = false -> invlaplacian_fft a (Kappa2_not0 o f c2) m = (RtoC (/ kap m) * a m)%C.
Proof.
  intros E. unfold invlaplacian_fft. rewrite E. unfold Kappa2_not0. rewrite (proj1 (K2_eq m E)). apply Cdiv_R.
  pose proof (kap_pos m E). unfold kap in *. lra.
Qed.

Lemma eta_a a m : first m = false -> etafft_from_afft o f c2 a m = (RtoC (/ kap m) * a m)%C.
Proof. apply invlap_kap. Qed.
Lemma rot_a a m : first m = false -> rotfft_from_afft o f c2 a m = (RtoC (f / kap m) * a m)%C.
Proof.
  intros E. unfold rotfft_from_afft. destruct (Req_EM_T f 0) as [Hf|_].
  - unfold azero. replace (RtoC (f / kap m)) with (RtoC 0); [ring|]. f_equal. rewrite Hf at 1. unfold Rdiv. ring.
  - unfold fscal. rewrite (eta_a a m E). unfold Rdiv. rewrite RtoC_mult. ring.
Qed.
Lemma eta_q q m : first m = false -> etafft_from_qfft o f c2 q m = (RtoC (- f / (c2 * kap m)) * q m)%C.
Proof.
  intros E. pose proof (kap_pos m E). unfold etafft_from_qfft. destruct (Req_EM_T f 0) as [Hf|_].
  - unfold azero. replace (RtoC (- f / (c2 * kap m))) with (RtoC 0); [ring|]. f_equal. rewrite Hf at 1. unfold Rdiv. ring.
  - unfold fscal. rewrite (invlap_kap q m E). replace (- f / (c2 * kap m)) with (- f / c2 * / kap m) by (field; lra). rewrite RtoC_mult. ring.
Qed.
Lemma rot_q q m : first m = false -> rotfft_from_qfft o f c2 q m = (RtoC (K2_2d o m / kap m) * q m)%C.
Proof.
  intros E. unfold rotfft_from_qfft, laplacian_fft. rewrite (invlap_kap q m E). unfold Rdiv. rewrite RtoC_mult. ring.
Qed.

Lemma uxuyeta_a a : uxuyetafft_from_afft o f c2 a = (ux_from_rot o (rotfft_from_afft o f c2 a), uy_from_rot o (rotfft_from_afft o f c2 a), etafft_from_afft o f c2 a).
Proof. reflexivity. Qed.
Lemma uxuyeta_q q m : first m = false -> cx (uxuyetafft_from_qfft o f c2 q) m = ux_from_rot o (rotfft_from_qfft o f c2 q) m
  /\ cy (uxuyetafft_from_qfft o f c2 q) m = uy_from_rot o (rotfft_from_qfft o f c2 q) m
  /\ cz (uxuyetafft_from_qfft o f c2 q) m = etafft_from_qfft o f c2 q m.
Proof.
  intros E. split; [reflexivity|]. split; [reflexivity|]. unfold uxuyetafft_from_qfft, etafft_from_qfft, cz. cbn [snd].
  destruct (Req_EM_T f 0) as [|_]; [reflexivity|]. unfold fscal. rewrite !(invlap_kap q m E). rewrite Cdiv_R by lra.
  unfold Rdiv. rewrite RtoC_mult. ring.
Qed.

Lemma ux_rot r m : first m = false -> ux_from_rot o r m = (Ci * RtoC (wy o m / K2_2d o m) * r m)%C.
Proof. intros E. unfold ux_from_rot. rewrite (proj1 (K2_eq m E)), (sw_Ky o m Ho). reflexivity. Qed.
Lemma uy_rot r m : first m = false -> uy_from_rot o r m = (- Ci * RtoC (wx o m / K2_2d o m) * r m)%C.
Proof. intros E. unfold uy_from_rot. rewrite (proj1 (K2_eq m E)), (sw_Kx o m Ho). reflexivity. Qed.
Lemma ux_div d m : first m = false -> ux_from_div o d m = (- Ci * RtoC (wx o m / K2_2d o m) * d m)%C.
Proof. intros E. unfold ux_from_div. rewrite (proj1 (K2_eq m E)), (sw_Kx o m Ho). reflexivity. Qed.
Lemma uy_div d m : first m = false -> uy_from_div o d m = (- Ci * RtoC (wy o m / K2_2d o m) * d m)%C.
Proof. intros E. unfold uy_from_div. rewrite (proj1 (K2_eq m E)), (sw_Ky o m Ho). reflexivity. Qed.

(** the fields of the state (q, ap, am): eta, vorticity, divergence *)
Definition eta_of (s : vfield) (m : mode) : C := (RtoC (/ kap m) * (cy s m + cz s m) + RtoC (- f / (c2 * kap m)) * cx s m)%C.
Definition rot_of (s : vfield) (m : mode) : C := (RtoC (f / kap m) * (cy s m + cz s m) + RtoC (K2_2d o m / kap m) * cx s m)%C.
Definition div_of (s : vfield) (m : mode) : C := divfft_from_apamfft o f c2 (cy s) (cz s) m.

Lemma uxuyeta_eq s m : first m = false ->
  cx (uxuyetafft_from_qapamfft o f c2 s) m = (Ci * RtoC (wy o m / K2_2d o m) * rot_of s m - Ci * RtoC (wx o m / K2_2d o m) * div_of s m)%C
  /\ cy (uxuyetafft_from_qapamfft o f c2 s) m = (- Ci * RtoC (wx o m / K2_2d o m) * rot_of s m - Ci * RtoC (wy o m / K2_2d o m) * div_of s m)%C
  /\ cz (uxuyetafft_from_qapamfft o f c2 s) m = eta_of s m.
Proof.
  destruct s as [[q ap] am]. intros E. unfold uxuyetafft_from_qapamfft.
  destruct (uxuyetafft_from_qfft o f c2 q) as [[uxq uyq] etaq] eqn:Q. destruct (uxuyeta_q q m E) as (Qx & Qy & Qe). rewrite Q in Qx, Qy, Qe.
  unfold cx, cy, cz in Qx, Qy, Qe. cbn [fst snd] in Qx, Qy, Qe. rewrite uxuyeta_a. unfold cx, cy, cz. cbn [fst snd]. rewrite E.
  rewrite Qx, Qy, ux_rot, uy_rot, ux_rot, uy_rot, ux_div, uy_div by exact E. unfold fadd. rewrite Qe, eta_a, eta_q, rot_a, rot_q by exact E. rewrite E.
  unfold rot_of, eta_of, div_of, cx, cy, cz. cbn [fst snd]. repeat split; ring.
Qed.

Lemma uxuyeta_first s m : first m = true ->
  cx (uxuyetafft_from_qapamfft o f c2 s) m = (RtoC (1 / 2) * (cy s m + cz s m))%C
  /\ cy (uxuyetafft_from_qapamfft o f c2 s) m = (RtoC (1 / 2) * Ci * (cz s m - cy s m))%C
  /\ cz (uxuyetafft_from_qapamfft o f c2 s) m = RtoC 0.
Proof.
  destruct s as [[q ap] am]. intros E. unfold uxuyetafft_from_qapamfft.
  assert (Z : cz (uxuyetafft_from_qfft o f c2 q) m = RtoC 0).
  { unfold uxuyetafft_from_qfft, cz. cbn [snd]. destruct (Req_EM_T f 0); [reflexivity|]. unfold invlaplacian_fft. rewrite E. rewrite Cdiv_R by lra. ring. }
  destruct (uxuyetafft_from_qfft o f c2 q) as [[uxq uyq] etaq]. rewrite uxuyeta_a. unfold cx, cy, cz in *. cbn [fst snd] in *. rewrite E.
  unfold fadd, etafft_from_afft, invlaplacian_fft. rewrite E, Z. repeat split. ring.
Qed.

(** vorticity and divergence of the velocity obtained *)
Lemma vort_uxuy s m : first m = false ->
  vort o (cx (uxuyetafft_from_qapamfft o f c2 s)) (cy (uxuyetafft_from_qapamfft o f c2 s)) m = rot_of s m.
Proof.
  intros E. destruct (uxuyeta_eq s m E) as (Hx & Hy & _). unfold vort. rewrite Hx, Hy. destruct (K2_eq m E) as (_ & P & K).
  generalize (rot_of s m) (div_of s m). revert P. rewrite K. generalize (wx o m) (wy o m). intros x y P [a b] [c d].
  apply C_eq; cbn; field; lra.
Qed.
Lemma dvg_uxuy s m : first m = false ->
  dvg o (cx (uxuyetafft_from_qapamfft o f c2 s)) (cy (uxuyetafft_from_qapamfft o f c2 s)) m = div_of s m.
Proof.
  intros E. destruct (uxuyeta_eq s m E) as (Hx & Hy & _). unfold dvg. rewrite Hx, Hy. destruct (K2_eq m E) as (_ & P & K).
  generalize (rot_of s m) (div_of s m). revert P. rewrite K. generalize (wx o m) (wy o m). intros x y P [a b] [c d].
  apply C_eq; cbn; field; lra.
Qed.
End Ops.
