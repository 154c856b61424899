(** * Shallow water: normal modes: C105, C111, C112, C113 *)

From Coq Require Import Reals Lra ZArith Lia String List Bool.
From Coquelicot Require Import Coquelicot.
From Verif Require Import CExp DFT Alias_Model Alias_Proofs Oper_Model Oper_Proofs Budget_Model Budget_Spec Budget_Proofs Budget2D_Proofs
  Budget2D_Props SW_Spec SW_Model SWNormal_Model SW_Proofs.
Import ListNotations.
Local Open Scope R_scope.

Section Modes.
Variable o : oper.
Variables f c2 : R.
Hypothesis Ho : oper_pos o.
Hypothesis Hc : 0 < c2.
Notation qapam := (qapamfft_from_uxuyetafft o f c2).
Notation uxuyeta := (uxuyetafft_from_qapamfft o f c2).

Lemma kap_kd2 m : kap o f c2 m = K2_2d o m + f ^ 2 / c2.
Proof. reflexivity. Qed.

Lemma kap_num m : first m = false -> 0 < K2_2d o m * c2 + f ^ 2.
Proof. intros E. destruct (K2_eq o Ho m E) as (_ & P & _). pose proof (pow2_ge_0 f). pose proof (Rmult_lt_0_compat _ _ P Hc). lra. Qed.

Lemma helmholtz ux uy m : first m = false ->
  ux m = (Ci * RtoC (wy o m / K2_2d o m) * vort o ux uy m - Ci * RtoC (wx o m / K2_2d o m) * dvg o ux uy m)%C
  /\ uy m = (- Ci * RtoC (wx o m / K2_2d o m) * vort o ux uy m - Ci * RtoC (wy o m / K2_2d o m) * dvg o ux uy m)%C.
Proof.
  intros E. destruct (K2_eq o Ho m E) as (_ & P & K). revert P. rewrite K. unfold vort, dvg. generalize (wx o m) (wy o m) (ux m) (uy m).
  intros x y [a b] [c d] P. split; apply C_eq; cbn; field; lra.
Qed.

(** the fields which are obtained from the normal modes of a state *)
Lemma fields_of_modes ux uy eta m : first m = false ->
  rot_of o f c2 (qapam (ux, uy, eta)) m = vort o ux uy m /\ div_of o f c2 (qapam (ux, uy, eta)) m = dvg o ux uy m
  /\ eta_of o f c2 (qapam (ux, uy, eta)) m = eta m.
Proof.
  intros E. pose proof (kap_pos o f c2 Ho Hc m E) as P. rewrite kap_kd2 in P. pose proof (kap_num m E) as P'.
  assert (S : (cy (qapam (ux, uy, eta)) m + cz (qapam (ux, uy, eta)) m)%C = ageo o f c2 ux uy eta m).
  { rewrite (qapam_ap o f c2 Ho Hc), (qapam_am o f c2 Ho Hc) by exact E. generalize (ageo o f c2 ux uy eta m) (Kappa_over_ic o f c2 m) (dvg o ux uy m).
    intros a b c. apply C_eq; cbn; field. }
  assert (D : (cy (qapam (ux, uy, eta)) m - cz (qapam (ux, uy, eta)) m)%C = (Kappa_over_ic o f c2 m * dvg o ux uy m)%C).
  { rewrite (qapam_ap o f c2 Ho Hc), (qapam_am o f c2 Ho Hc) by exact E. generalize (ageo o f c2 ux uy eta m) (Kappa_over_ic o f c2 m * dvg o ux uy m)%C.
    intros a b. apply C_eq; cbn; field. }
  split; [|split].
  - unfold rot_of. rewrite S, (qapam_q o f c2 Ho) by exact E. unfold ageo. rewrite kap_kd2. generalize dependent (K2_2d o m). intros k P P'.
    generalize (vort o ux uy m) (eta m). intros [a b] [c d]. apply C_eq; cbn; field; lra.
  - unfold div_of. pose proof (div_apam o f c2 Ho Hc (cy (qapam (ux, uy, eta))) (cz (qapam (ux, uy, eta))) m E) as H. rewrite D in H.
    pose proof (Kappa_neq o f c2 Ho Hc m E) as N. set (d := divfft_from_apamfft _ _ _ _ _ m) in *. clearbody d.
    assert (G : (/ Kappa_over_ic o f c2 m * (Kappa_over_ic o f c2 m * d))%C = (/ Kappa_over_ic o f c2 m * (Kappa_over_ic o f c2 m * dvg o ux uy m))%C) by (rewrite H; reflexivity).
    rewrite !Cmult_assoc, !Cinv_l, !Cmult_1_l in G by exact N. exact G.
  - unfold eta_of. rewrite S, (qapam_q o f c2 Ho) by exact E. unfold ageo. rewrite kap_kd2. generalize dependent (K2_2d o m). intros k P P'.
    generalize (vort o ux uy m) (eta m). intros [a b] [c d]. apply C_eq; cbn; field; lra.
Qed.

Lemma qapam_split s : qapam s = qapam (cx s, cy s, cz s).
Proof. destruct s as [[a b] c]. reflexivity. Qed.

(** ** C105 *)

(** the fields are recovered from the normal modes *)
Theorem c105_fields_partial s m : ~ mean_mode m -> agree m (uxuyeta (qapam s)) s.
Proof.
  intros N. apply not_mean_first in N. destruct s as [[ux uy] eta]. destruct (uxuyeta_eq o f c2 Ho Hc (qapam (ux, uy, eta)) m N) as (Hx & Hy & He).
  destruct (fields_of_modes ux uy eta m N) as (R & D & E). destruct (helmholtz ux uy m N) as (Ux & Uy).
  unfold agree. rewrite Hx, Hy, He, R, D, E. unfold cx, cy, cz. cbn [fst snd]. rewrite <- Ux, <- Uy. repeat split.
Qed.

Theorem c105_mean_velocity_partial s m : mean_mode m -> cx (uxuyeta (qapam s)) m = cx s m /\ cy (uxuyeta (qapam s)) m = cy s m.
Proof.
  intros N. apply mean_first in N. destruct s as [[ux uy] eta]. destruct (uxuyeta_first o f c2 Hc (qapam (ux, uy, eta)) m N) as (Hx & Hy & _).
  destruct (qapam_first o f c2 ux uy eta m N) as (_ & Ep & Em). rewrite Hx, Hy, Ep, Em. unfold cx, cy. cbn [fst snd].
  generalize (ux m) (uy m). intros [a b] [c d]. split; apply C_eq; cbn; field.
Qed.

(** the normal modes are recovered from the fields *)
Theorem c105_modes_partial s m : ~ mean_mode m -> agree m (qapam (uxuyeta s)) s.
Proof.
  intros N. apply not_mean_first in N. rewrite qapam_split. pose proof (kap_pos o f c2 Ho Hc m N) as P. rewrite kap_kd2 in P. pose proof (kap_num m N) as P'.
  assert (A : ageo o f c2 (cx (uxuyeta s)) (cy (uxuyeta s)) (cz (uxuyeta s)) m = (cy s m + cz s m)%C).
  { unfold ageo. destruct (uxuyeta_eq o f c2 Ho Hc s m N) as (_ & _ & ->). rewrite (vort_uxuy o f c2 Ho Hc s m N). unfold eta_of, rot_of. rewrite kap_kd2.
    generalize dependent (K2_2d o m). intros k P P'. generalize (cx s m) (cy s m + cz s m)%C. intros [a b] [c d]. apply C_eq; cbn; field; lra. }
  unfold agree. rewrite (qapam_q o f c2 Ho), (qapam_ap o f c2 Ho Hc), (qapam_am o f c2 Ho Hc), A by exact N.
  rewrite (dvg_uxuy o f c2 Ho Hc s m N). unfold div_of. rewrite (div_apam o f c2 Ho Hc (cy s) (cz s) m N).
  destruct (uxuyeta_eq o f c2 Ho Hc s m N) as (_ & _ & ->). rewrite (vort_uxuy o f c2 Ho Hc s m N). split; [|split].
  - unfold eta_of, rot_of. rewrite kap_kd2. generalize dependent (K2_2d o m). intros k P P'. generalize (cx s m) (cy s m + cz s m)%C. intros [a b] [c d]. apply C_eq; cbn; field; lra.
  - generalize (cy s m) (cz s m). intros a b. apply C_eq; cbn; field.
  - generalize (cy s m) (cz s m). intros a b. apply C_eq; cbn; field.
Qed.

Theorem c105_mean_modes_partial s m : mean_mode m -> cy (qapam (uxuyeta s)) m = cy s m /\ cz (qapam (uxuyeta s)) m = cz s m.
Proof.
  intros N. apply mean_first in N. rewrite qapam_split. destruct (uxuyeta_first o f c2 Hc s m N) as (Hx & Hy & _).
  destruct (qapam_first o f c2 (cx (uxuyeta s)) (cy (uxuyeta s)) (cz (uxuyeta s)) m N) as (_ & -> & ->). rewrite Hx, Hy.
  generalize (cy s m) (cz s m). intros a b. split; apply C_eq; cbn; field.
Qed.

(** the velocity computed by the state of exactlin *)
Theorem c105_computed_partial s m : ~ mean_mode m ->
  fst (computed_uxuy o f c2 s) m = cx (uxuyeta s) m /\ snd (computed_uxuy o f c2 s) m = cy (uxuyeta s) m.
Proof.
  intros N. apply not_mean_first in N. destruct (uxuyeta_eq o f c2 Ho Hc s m N) as (-> & -> & _). destruct s as [[q ap] am].
  unfold computed_uxuy. cbn [fst snd]. rewrite N, (ux_rot o Ho), (uy_rot o Ho), (ux_div o Ho), (uy_div o Ho) by exact N.
  unfold fadd at 1 3. rewrite (rot_q o f c2 Ho Hc), (rot_a o f c2 Ho Hc) by exact N. unfold fadd, rot_of, div_of, cx, cy, cz. cbn [fst snd]. split; ring.
Qed.

(** the normal modes from eta alone, from the geostrophic, ageostrophic variables and the divergence *)
Theorem c105_eta_partial eta m : ~ mean_mode m -> agree m (qapamfft_from_etafft o f eta) (qapam (azero, azero, eta)).
Proof.
  intros N. apply not_mean_first in N. unfold agree. rewrite (qapam_q o f c2 Ho), (qapam_ap o f c2 Ho Hc), (qapam_am o f c2 Ho Hc) by exact N.
  unfold qapamfft_from_etafft, ageo, vort, dvg, azero, fscal, laplacian_fft, cx, cy, cz. cbn [fst snd]. rewrite RtoC_opp. repeat split; ring.
Qed.

Theorem c105_qda_partial s m : ~ mean_mode m ->
  let qda := qdafft_from_uxuyetafft o f c2 s in
  let apam := apamfft_from_adfft o f c2 (cz qda) (cy qda) in
  agree m (cx qda, fst apam, snd apam) (qapam s) /\ cz qda m = afft_from_uxuyetafft o f c2 s m
  /\ etafft_from_aqfft o f c2 (cz qda) (cx qda) m = cz s m.
Proof.
  intros N. apply not_mean_first in N. destruct s as [[ux uy] eta]. cbv zeta. pose proof (kap_pos o f c2 Ho Hc m N) as P. rewrite kap_kd2 in P. pose proof (kap_num m N) as P'.
  assert (Vr : rot_from_vec o ux uy m = vort o ux uy m) by (unfold rot_from_vec, vort; rewrite (sw_Kx o m Ho), (sw_Ky o m Ho); ring).
  assert (Vd : divfft_from_vecfft o ux uy m = dvg o ux uy m) by (unfold divfft_from_vecfft, dvg; rewrite (sw_Kx o m Ho), (sw_Ky o m Ho); reflexivity).
  assert (Va : fadd (fscal (f / c2) (rot_from_vec o ux uy)) (laplacian_fft eta (K2_2d o)) m = ageo o f c2 ux uy eta m).
  { unfold fadd, fscal, laplacian_fft, ageo. rewrite Vr. ring. }
  split; [|split].
  - unfold agree. rewrite (qapam_q o f c2 Ho), (qapam_ap o f c2 Ho Hc), (qapam_am o f c2 Ho Hc) by exact N.
    unfold qdafft_from_uxuyetafft, apamfft_from_adfft, cx, cy, cz. cbn [fst snd]. rewrite Va, Vd. unfold fsub, fscal. rewrite Vr. repeat split.
  - unfold qdafft_from_uxuyetafft, afft_from_uxuyetafft, cz. cbn [snd]. rewrite Va. unfold ageo. rewrite <- Vr. destruct (Req_EM_T f 0) as [Hf|_].
    + unfold laplacian_fft. replace (RtoC (f / c2)) with (RtoC 0) by (f_equal; rewrite Hf; field; lra). ring.
    + unfold fadd, fscal, laplacian_fft. ring.
  - unfold etafft_from_aqfft, qdafft_from_uxuyetafft, cx, cz. cbn [fst snd]. destruct (K2_eq o Ho m N) as (K0 & K1 & _). destruct (Req_EM_T f 0) as [Hf|_].
    + unfold invlaplacian_fft. rewrite N, K0, Va. unfold ageo. rewrite Cdiv_R by lra. replace (RtoC (f / c2)) with (RtoC 0) by (f_equal; rewrite Hf; field; lra).
      generalize (vort o ux uy m) (eta m). intros [a b] [c d]. apply C_eq; cbn; field; lra.
    + rewrite (invlap_kap o f c2 Ho Hc) by exact N. unfold fsub at 1. rewrite Va. unfold fscal, fsub. rewrite Vr, kap_kd2. unfold ageo.
      clear K0 Va. generalize dependent (K2_2d o m). intros k P P' K1. generalize (vort o ux uy m) (eta m). intros [a b] [c d]. apply C_eq; cbn; field; lra.
Qed.

(** ** C111 *)

Lemma sigma_sq m : first m = false -> 0 < sigma o f c2 m /\ sigma o f c2 m ^ 2 = f ^ 2 + c2 * K2_2d o m.
Proof.
  intros E. destruct (K2_eq o Ho m E) as (K0 & K1 & _). unfold sigma, K_not0. rewrite K0.
  assert (A : (sqrt c2 * sqrt (K2_2d o m)) ^ 2 = c2 * K2_2d o m) by (rewrite Rpow_mult_distr, !pow2_sqrt by lra; reflexivity).
  pose proof (sqrt_lt_R0 _ Hc). pose proof (sqrt_lt_R0 _ K1). pose proof (Rmult_lt_0_compat _ _ Hc K1). pose proof (pow2_ge_0 f).
  destruct (Req_EM_T f 0) as [Hf|_].
  - split; [apply Rmult_lt_0_compat; assumption|]. rewrite A, Hf. ring.
  - rewrite A. split; [apply sqrt_lt_R0; lra|]. apply pow2_sqrt. lra.
Qed.

Lemma Kic_sigma m : first m = false -> Kappa_over_ic o f c2 m = (- Ci * RtoC (sigma o f c2 m / c2))%C.
Proof.
  intros E. destruct (sigma_sq m E) as [S S2]. unfold Kappa_over_ic. do 2 f_equal. apply Rsqr_inj.
  - apply sqrt_pos.
  - left. apply Rdiv_lt_0_compat; assumption.
  - rewrite !Rsqr_pow2, Kappa_sq by exact Hc. unfold kd2. unfold Rdiv at 3. rewrite Rpow_mult_distr, S2. field. lra.
Qed.

Lemma kap_sigma m : first m = false -> kap o f c2 m = sigma o f c2 m ^ 2 / c2.
Proof. intros E. destruct (sigma_sq m E) as [S S2]. rewrite S2. unfold kap, kd2. field. lra. Qed.

Lemma div_sigma s m : first m = false -> div_of o f c2 s m = (Ci * RtoC (c2 / sigma o f c2 m) * (cy s m - cz s m))%C.
Proof.
  intros E. destruct (sigma_sq m E) as [S _]. pose proof (div_apam o f c2 Ho Hc (cy s) (cz s) m E) as D. rewrite <- D, (Kic_sigma m E). unfold div_of.
  generalize (divfft_from_apamfft o f c2 (cy s) (cz s) m). intros [a b]. apply C_eq; cbn; field; lra.
Qed.

Definition modes_sum (b : vfield) (d : deriv) (v : nvar) (m : mode) : C :=
  (normalmode o f c2 b d v 0 m + normalmode o f c2 b d v 1 m + normalmode o f c2 b d v 2 m)%C.

Lemma modes_fields s m : first m = false ->
  modes_sum (bvec o f c2 s) NoD Ux m = cx (uxuyeta s) m /\ modes_sum (bvec o f c2 s) NoD Uy m = cy (uxuyeta s) m
  /\ modes_sum (bvec o f c2 s) NoD Eta m = cz (uxuyeta s) m.
Proof.
  intros E. destruct (uxuyeta_eq o f c2 Ho Hc s m E) as (-> & -> & ->). rewrite (div_sigma s m E). unfold rot_of, eta_of. rewrite (kap_sigma m E).
  destruct (sigma_sq m E) as [S _]. destruct (K2_eq o Ho m E) as (K0 & K1 & _). destruct s as [[q ap] am].
  unfold modes_sum, normalmode, qmat, bvec, comp, row, K_not0. cbn [fst snd]. rewrite !E, K0, (sw_Kx o m Ho), (sw_Ky o m Ho).
  assert (HK : sqrt (K2_2d o m) ^ 2 = K2_2d o m) by (apply pow2_sqrt; lra). assert (HC : sqrt c2 ^ 2 = c2) by (apply pow2_sqrt; lra).
  pose proof (sqrt_lt_R0 _ Hc) as PC. pose proof (sqrt_lt_R0 _ K1) as PK. assert (PR : 0 < sqrt 2) by (apply sqrt_lt_R0; lra).
  revert S. unfold cx, cy, cz. cbn [fst snd]. generalize (sigma o f c2 m). intros s S.
  revert HK HC PC PK PR. generalize (sqrt (K2_2d o m)) (sqrt c2) (sqrt 2). intros k c r HK HC PC PK PR. rewrite <- HK, <- HC.
  generalize (wx o m) (wy o m) (q m) (ap m) (am m). intros x y [q1 q2] [p1 p2] [a1 a2].
  rewrite !(Cdiv_R _ (r * s * k)) by (repeat apply Rmult_integral_contrapositive_currified; lra). rewrite !(Cdiv_R _ (s * k)) by (apply Rmult_integral_contrapositive_currified; lra).
  rewrite !(Cdiv_R _ s), !(Cdiv_R _ c) by lra. repeat split; apply C_eq; cbn; field; repeat split; lra.
Qed.

Theorem c111_sum_partial s m : ~ mean_mode m ->
  let b := bvec_of_fields o f c2 s in
  modes_sum b NoD Ux m = cx s m /\ modes_sum b NoD Uy m = cy s m /\ modes_sum b NoD Eta m = cz s m
  /\ modes_sum b Px Ux m = gradx o (cx s) m /\ modes_sum b Py Ux m = grady o (cx s) m
  /\ modes_sum b Px Uy m = gradx o (cy s) m /\ modes_sum b Py Uy m = grady o (cy s) m
  /\ modes_sum b Px Eta m = gradx o (cz s) m /\ modes_sum b Py Eta m = grady o (cz s) m
  /\ (normalmode_div o f c2 b 0 m + normalmode_div o f c2 b 1 m + normalmode_div o f c2 b 2 m)%C = dvg o (cx s) (cy s) m.
Proof.
  intros N b. destruct (c105_fields_partial s m N) as (Ax & Ay & Ae). apply not_mean_first in N. destruct (modes_fields (qapam s) m N) as (Bx & By & Be).
  change (bvec o f c2 (qapam s)) with b in Bx, By, Be. rewrite Ax in Bx. rewrite Ay in By. rewrite Ae in Be.
  assert (G : forall v, modes_sum b Px v m = (Ci * RtoC (wx o m) * modes_sum b NoD v m)%C /\ modes_sum b Py v m = (Ci * RtoC (wy o m) * modes_sum b NoD v m)%C).
  { intros v. destruct v; unfold modes_sum, normalmode, px_fft, py_fft, Cdiv; rewrite (sw_Kx o m Ho), (sw_Ky o m Ho); split; ring. }
  destruct (G Ux) as [Gx1 Gx2], (G Uy) as [Gy1 Gy2], (G Eta) as [Ge1 Ge2].
  rewrite Gx1, Gx2, Gy1, Gy2, Ge1, Ge2, Bx, By, Be. do 9 (split; [reflexivity|]).
  transitivity (modes_sum b Px Ux m + modes_sum b Py Uy m)%C.
  - unfold normalmode_div, fadd, modes_sum. ring.
  - rewrite Gx1, Gy2, Bx, By. unfold dvg. ring.
Qed.

Lemma cabs2_scal x z : cabs2 (RtoC x * z) = x ^ 2 * cabs2 z.
Proof. unfold cabs2. cbn. ring. Qed.

Theorem c111_energy_partial s m : ~ mean_mode m ->
  let e := compute_qapam_energies_fft (bvec_of_fields o f c2 s) m in fst (fst e) + snd (fst e) + snd e = quadratic c2 s m.
Proof.
  intros N. apply not_mean_first in N. destruct s as [[ux uy] eta]. unfold quadratic, cx, cy, cz. cbn [fst snd].
  destruct (helmholtz ux uy m N) as [-> ->]. unfold bvec_of_fields, compute_qapam_energies_fft, bvec.
  pose proof (qapam_q o f c2 Ho ux uy eta m N) as Q. pose proof (qapam_ap o f c2 Ho Hc ux uy eta m N) as P. pose proof (qapam_am o f c2 Ho Hc ux uy eta m N) as M.
  destruct (qapam (ux, uy, eta)) as [[q ap] am]. unfold cx, cy, cz in Q, P, M. cbn [fst snd] in *. rewrite N, Q, P, M. unfold ageo. rewrite (Kic_sigma m N).
  destruct (sigma_sq m N) as [S S2]. destruct (K2_eq o Ho m N) as (K0 & K1 & K2). unfold K_not0. rewrite K0.
  assert (HK : sqrt (K2_2d o m) ^ 2 = K2_2d o m) by (apply pow2_sqrt; lra). assert (HC : sqrt c2 ^ 2 = c2) by (apply pow2_sqrt; lra). assert (H2 : sqrt 2 ^ 2 = 2) by (apply pow2_sqrt; lra).
  pose proof (sqrt_lt_R0 _ Hc) as PC. pose proof (sqrt_lt_R0 _ K1) as PK. clear q ap am Q P M.
  assert (Z : forall z1 z2 : C, norm2 (Ci * RtoC (wy o m / K2_2d o m) * z1 - Ci * RtoC (wx o m / K2_2d o m) * z2)%C
     + norm2 (- Ci * RtoC (wx o m / K2_2d o m) * z1 - Ci * RtoC (wy o m / K2_2d o m) * z2)%C = (norm2 z1 + norm2 z2) / K2_2d o m).
  { revert K1. rewrite K2. generalize (wx o m) (wy o m). intros x y P [a b] [c d]. unfold norm2. cbn. field. lra. }
  rewrite Z. clear Z K2. generalize (vort o ux uy m) (dvg o ux uy m) (eta m). intros V D H.
  revert S S2 PC PK HK HC H2. generalize (sigma o f c2 m) (sqrt c2) (sqrt (K2_2d o m)) (sqrt 2). intros s c k r S S2 PC PK HK HC H2.
  rewrite !(Cdiv_R _ (s * k)) by (apply Rmult_integral_contrapositive_currified; lra). rewrite !(Cdiv_R _ s) by lra. unfold energy. rewrite !cabs2_scal.
  clear K0. generalize dependent (K2_2d o m). intros K K1 S2 HK. destruct V as [v1 v2], D as [d1 d2], H as [h1 h2]. unfold cabs2, norm2. cbn [fst snd Cplus Cmult Cminus Copp RtoC Ci].
  assert (X : 1 / 2 * ((/ s) ^ 2 * (c ^ 2 * ((v1 - f * h1) ^ 2 + (v2 - f * h2) ^ 2)))
      + 1 / 2 * ((/ (s * k)) ^ 2 * ((r ^ 2 * c2 ^ 2) * ((1 / 2 * (K * h1 + f / c2 * v1 + s / c2 * d2)) ^ 2 + (1 / 2 * (K * h2 + f / c2 * v2 - s / c2 * d1)) ^ 2)))
      + 1 / 2 * ((/ (s * k)) ^ 2 * ((r ^ 2 * c2 ^ 2) * ((1 / 2 * (K * h1 + f / c2 * v1 - s / c2 * d2)) ^ 2 + (1 / 2 * (K * h2 + f / c2 * v2 + s / c2 * d1)) ^ 2)))
      = ((v1 ^ 2 + v2 ^ 2 + (d1 ^ 2 + d2 ^ 2)) / K + c2 * (h1 ^ 2 + h2 ^ 2)) / 2).
  { replace ((/ (s * k)) ^ 2) with (/ (s ^ 2 * K)) by (rewrite <- HK; field; lra). replace ((/ s) ^ 2) with (/ s ^ 2) by (field; lra). rewrite HC, H2.
    assert (f ^ 2 + c2 * K - s ^ 2 = 0) as Z by lra.
    match goal with |- ?l = ?r => enough (l - r = 1 / 2 * (f ^ 2 + c2 * K - s ^ 2) * ((v1 ^ 2 + v2 ^ 2) / (s ^ 2 * K) + c2 * (h1 ^ 2 + h2 ^ 2) / s ^ 2)) as EQ end.
    - rewrite Z in EQ. apply Rminus_diag_uniq. rewrite EQ. ring.
    - field. split; [lra|]. split; lra. }
  rewrite <- X. ring.
Qed.

(** geostrophic, divergent and ageostrophic energies *)
Lemma lin_energies s m : first m = false ->
  let e := compute_lin_energies_fft o f c2 s in
  fst (fst e) m = 1 / 2 * (cabs2 (vort o (cx s) (cy s) m - RtoC f * cz s m)%C / kap o f c2 m)
  /\ snd (fst e) m = 1 / 2 * (cabs2 (dvg o (cx s) (cy s) m) / K2_2d o m)
  /\ snd e m = 1 / 2 * (c2 * cabs2 (ageo o f c2 (cx s) (cy s) (cz s) m) / (K2_2d o m * kap o f c2 m)).
Proof.
  intros E. destruct s as [[ux uy] eta]. unfold cx, cy, cz. cbn [fst snd]. cbv zeta. unfold compute_lin_energies_fft, qdafft_from_uxuyetafft. cbn [fst snd].
  assert (Vr : rot_from_vec o ux uy m = vort o ux uy m) by (unfold rot_from_vec, vort; rewrite (sw_Kx o m Ho), (sw_Ky o m Ho); ring).
  assert (Vd : divfft_from_vecfft o ux uy m = dvg o ux uy m) by (unfold divfft_from_vecfft, dvg; rewrite (sw_Kx o m Ho), (sw_Ky o m Ho); reflexivity).
  set (q := fsub (rot_from_vec o ux uy) (fscal f eta)). set (a := fadd (fscal (f / c2) (rot_from_vec o ux uy)) (laplacian_fft eta (K2_2d o))).
  assert (Hq : q m = (vort o ux uy m - RtoC f * eta m)%C) by (unfold q, fsub, fscal; rewrite Vr; reflexivity).
  assert (Ha : a m = ageo o f c2 ux uy eta m) by (unfold a, fadd, fscal, laplacian_fft, ageo; rewrite Vr; ring). clearbody q a.
  destruct (uxuyeta_q o f c2 Ho Hc q m E) as (Qx & Qy & Qe). rewrite (uxuyeta_a o f c2 a).
  change (fst (fst (uxuyetafft_from_qfft o f c2 q)) m) with (cx (uxuyetafft_from_qfft o f c2 q) m). change (snd (fst (uxuyetafft_from_qfft o f c2 q)) m) with (cy (uxuyetafft_from_qfft o f c2 q) m).
  change (snd (uxuyetafft_from_qfft o f c2 q) m) with (cz (uxuyetafft_from_qfft o f c2 q) m). rewrite Qx, Qy, Qe. cbn [fst snd].
  rewrite (ux_div o Ho), (uy_div o Ho) by exact E. rewrite !(ux_rot o Ho), !(uy_rot o Ho), (rot_q o f c2 Ho Hc), (rot_a o f c2 Ho Hc), (eta_a o f c2 Ho Hc), (eta_q o f c2 Ho Hc), Vd, Hq, Ha by exact E.
  pose proof (kap_pos o f c2 Ho Hc m E) as P. rewrite kap_kd2 in *. destruct (K2_eq o Ho m E) as (_ & P1 & K2). clear q a Qx Qy Qe Hq Ha Vr Vd. pose proof (kap_num m E) as P2. revert P P1 P2. rewrite K2.
  generalize (vort o ux uy m - RtoC f * eta m)%C (dvg o ux uy m) (ageo o f c2 ux uy eta m) (wx o m) (wy o m). intros [a b] [a' b'] [a'' b''] x y P P1 P2.
  unfold cabs2. cbn. split; [|split]; field; repeat split; lra.
Qed.

Theorem c111_lin_partial s m : ~ mean_mode m ->
  let e := compute_lin_energies_fft o f c2 s in fst (fst e) m + snd (fst e) m + snd e m = quadratic c2 s m.
Proof.
  intros N. apply not_mean_first in N. cbv zeta. destruct (lin_energies s m N) as (-> & -> & ->). destruct s as [[ux uy] eta].
  unfold quadratic, cx, cy, cz. cbn [fst snd]. destruct (helmholtz ux uy m N) as [-> ->]. unfold ageo.
  generalize (vort o ux uy m) (dvg o ux uy m) (eta m). intros [v1 v2] [d1 d2] [h1 h2]. pose proof (kap_pos o f c2 Ho Hc m N) as P. rewrite kap_kd2 in *.
  pose proof (kap_num m N) as P2. destruct (K2_eq o Ho m N) as (_ & P1 & K2). revert P P1 P2. rewrite K2. generalize (wx o m) (wy o m). intros x y P P1 P2.
  unfold cabs2, norm2. cbn. field. repeat split; lra.
Qed.

(** ** C112 *)

Theorem c112_partial s m : ~ mean_mode m ->
  let e := compute_lin_energies_fft o f c2 s in
  let e' := compute_qda_energies_fft (bvec_of_fields o f c2 s) m in
  fst (fst e') = fst (fst e) m /\ snd (fst e') = snd (fst e) m / 2 /\ snd e' = snd e m / 2.
Proof.
  intros N. apply not_mean_first in N. cbv zeta. destruct (lin_energies s m N) as (-> & -> & ->). destruct s as [[ux uy] eta].
  unfold bvec_of_fields, compute_qda_energies_fft, bvec, cx, cy, cz. cbn [fst snd].
  pose proof (qapam_q o f c2 Ho ux uy eta m N) as Q. pose proof (qapam_ap o f c2 Ho Hc ux uy eta m N) as P. pose proof (qapam_am o f c2 Ho Hc ux uy eta m N) as M.
  destruct (qapam (ux, uy, eta)) as [[q ap] am]. unfold cx, cy, cz in Q, P, M. cbn [fst snd] in *. rewrite N, Q, P, M. rewrite (Kic_sigma m N).
  destruct (sigma_sq m N) as [S S2]. destruct (K2_eq o Ho m N) as (K0 & K1 & K2). unfold K_not0. rewrite K0, (kap_sigma m N).
  assert (HK : sqrt (K2_2d o m) ^ 2 = K2_2d o m) by (apply pow2_sqrt; lra). assert (HC : sqrt c2 ^ 2 = c2) by (apply pow2_sqrt; lra). assert (H2 : sqrt 2 ^ 2 = 2) by (apply pow2_sqrt; lra).
  pose proof (sqrt_lt_R0 _ Hc) as PC. pose proof (sqrt_lt_R0 _ K1) as PK. clear q ap am Q P M.
  generalize (vort o ux uy m - RtoC f * eta m)%C (dvg o ux uy m) (ageo o f c2 ux uy eta m). intros V D A.
  revert S S2 PC PK HK HC H2. generalize (sigma o f c2 m) (sqrt c2) (sqrt (K2_2d o m)) (sqrt 2). intros s c k r S S2 PC PK HK HC H2.
  rewrite !(Cdiv_R _ (s * k)) by (apply Rmult_integral_contrapositive_currified; lra). rewrite !(Cdiv_R _ s) by lra. unfold energy. 
  rewrite <- HK, <- HC. destruct V as [v1 v2], D as [d1 d2], A as [a1 a2]. unfold cabs2. cbn [fst snd Cplus Cmult Cminus Copp RtoC Ci]. split; [|split].
  - field. lra.
  - transitivity (r ^ 2 * (d1 ^ 2 + d2 ^ 2) / (8 * k ^ 2)); [field; lra|]. rewrite H2. field. lra.
  - transitivity (r ^ 2 * c ^ 4 * (a1 ^ 2 + a2 ^ 2) / (8 * s ^ 2 * k ^ 2)); [field; lra|]. rewrite H2. field. lra.
Qed.
End Modes.

(** ** C113: groups of triads *)

Definition sum3 (n : nat -> C) : C := (n 0%nat + n 1%nat + n 2%nat)%C.
Definition sum_of (l : list (string * C)) : C := fold_right (fun p s => (snd p + s)%C) (RtoC 0) l.
Definition in_group (l : list (string * C)) (k : string) : C :=
  match find (fun p => String.eqb (fst p) k) l with Some p => snd p | None => RtoC 0 end.

(** the triads which are announced with two waves of the same sign, with two waves of opposite signs *)
Definition two_same (n1 n2 n3 : nat -> C) : C :=
  let G := 0%nat in let A := 1%nat in let a := 2%nat in let t i j k := (Cconj (n1 i) * n2 j * n3 k)%C in
  (t G A A + t A G A + t A A G + (t G a a + t a G a + t a a G))%C.
Definition two_opposite (n1 n2 n3 : nat -> C) : C :=
  let G := 0%nat in let A := 1%nat in let a := 2%nat in let t i j k := (Cconj (n1 i) * n2 j * n3 k)%C in
  (t G A a + t G a A + t A G a + t a G A + t A a G + t a A G)%C.

Theorem c113_sum_partial n1 n2 n3 : exists l, triad n1 n2 n3 = Some l /\ map fst l = ["GGG"; "AGG"; "GAAs"; "GAAd"; "AAA"]%string
  /\ sum_of l = (Cconj (sum3 n1) * sum3 n2 * sum3 n3)%C
  /\ in_group l "GGG" = (Cconj (n1 0%nat) * n2 0%nat * n3 0%nat)%C
  /\ (in_group l "GAAs" + in_group l "GAAd" = two_same n1 n2 n3 + two_opposite n1 n2 n3)%C
  /\ in_group l "AAA" = (Cconj (n1 1%nat + n1 2%nat) * (n2 1%nat + n2 2%nat) * (n3 1%nat + n3 2%nat))%C.
Proof.
  unfold sum3, two_same, two_opposite. assert (CP : forall a b, Cconj (a + b) = (Cconj a + Cconj b)%C) by (intros; apply C_eq; cbn; ring). rewrite !CP.
  unfold triad, dyad, keyed. generalize (Cconj (n1 0%nat)) (Cconj (n1 1%nat)) (Cconj (n1 2%nat)) (n2 0%nat) (n2 1%nat) (n2 2%nat) (n3 0%nat) (n3 1%nat) (n3 2%nat).
  intros a b c d e g h i j. eexists. split; [cbv -[Cplus Cmult RtoC C IZR]; reflexivity|]. split; [reflexivity|].
  split; [|split; [|split]]; cbv -[Cplus Cmult RtoC C IZR]; ring.
Qed.

(** the products made in physical space: any matrix of products *)
Theorem c113_products_partial n1 p : exists l, triad_of_products n1 p = Some l /\ map fst l = ["GGG"; "AGG"; "GAAs"; "GAAd"; "AAA"]%string
  /\ sum_of l = (Cconj (sum3 n1) * (p 0%nat 0%nat + p 0%nat 1%nat + p 0%nat 2%nat + p 1%nat 0%nat + p 1%nat 1%nat + p 1%nat 2%nat + p 2%nat 0%nat + p 2%nat 1%nat + p 2%nat 2%nat))%C.
Proof.
  unfold sum3. assert (CP : forall a b, Cconj (a + b) = (Cconj a + Cconj b)%C) by (intros; apply C_eq; cbn; ring). rewrite !CP.
  unfold triad_of_products, keyed. generalize (Cconj (n1 0%nat)) (Cconj (n1 1%nat)) (Cconj (n1 2%nat)). intros a b c.
  eexists. split; [cbv -[Cplus Cmult RtoC C IZR]; reflexivity|]. split; [reflexivity|]. cbv -[Cplus Cmult RtoC C IZR]. ring.
Qed.

(** the wave terms of opposite signs in the dyad go with the triads of the same sign *)
Theorem c113_refuted : exists n1 n2 n3 l, triad n1 n2 n3 = Some l /\ in_group l "GAAd" <> two_opposite n1 n2 n3 /\ in_group l "GAAs" <> two_same n1 n2 n3.
Proof.
  exists (fun i => if Nat.eqb i 0 then RtoC 1 else RtoC 0), (fun i => if Nat.eqb i 1 then RtoC 1 else RtoC 0), (fun i => if Nat.eqb i 2 then RtoC 1 else RtoC 0).
  eexists. split; [cbv -[Cplus Cmult RtoC Cconj C IZR]; reflexivity|]. unfold two_opposite, two_same, in_group. cbn [find fst snd String.eqb Ascii.eqb Bool.eqb Nat.eqb].
  split; intros H; apply (f_equal fst) in H; cbn in H; lra.
Qed.

Example c113_example : exists l, triad (fun _ => RtoC 1) (fun _ => RtoC 1) (fun _ => RtoC 1) = Some l /\ sum_of l = RtoC 27.
Proof.
  destruct (c113_sum_partial (fun _ => RtoC 1) (fun _ => RtoC 1) (fun _ => RtoC 1)) as (l & H & _ & S & _). exists l. split; [exact H|]. rewrite S. apply C_eq; cbn; ring.
Qed.

(** ** Refutations and examples *)

Lemma o8_pos : oper_pos o8.
Proof. destruct o8_modes as (ms & (H & _) & _). exact H. Qed.

Definition one_eta : field * field * field := (azero, azero, fun _ => RtoC 1).

Theorem c105_mean_height_refuted : exists o f c2 s m, oper_pos o /\ 0 < c2 /\ mean_mode m
  /\ cz (uxuyetafft_from_qapamfft o f c2 (qapamfft_from_uxuyetafft o f c2 s)) m <> cz s m.
Proof.
  exists o8, 0, 1, one_eta, (0, 0, 0)%Z. split; [exact o8_pos|]. split; [lra|]. split; [split; reflexivity|].
  destruct (uxuyeta_first o8 0 1 ltac:(lra) (qapamfft_from_uxuyetafft o8 0 1 one_eta) (0, 0, 0)%Z eq_refl) as (_ & _ & ->).
  intros H. apply (f_equal fst) in H. cbn in H. lra.
Qed.

(** a mean flow along y only: exactlin gives a mean flow along x and y *)
Theorem c105_computed_mean_refuted : exists o f c2 s m, oper_pos o /\ 0 < c2 /\ mean_mode m
  /\ cx s m = RtoC 0 /\ fst (computed_uxuy o f c2 (qapamfft_from_uxuyetafft o f c2 s)) m <> cx s m /\ snd (computed_uxuy o f c2 (qapamfft_from_uxuyetafft o f c2 s)) m <> cy s m.
Proof.
  exists o8, 0, 1, (azero, fun _ => RtoC 1, azero), (0, 0, 0)%Z. split; [exact o8_pos|]. split; [lra|]. split; [split; reflexivity|]. split; [reflexivity|].
  split; intros H; [apply (f_equal snd) in H | apply (f_equal fst) in H]; cbn in H; lra.
Qed.

(** the mean height is lost, but the potential vorticity which is kept is not zero *)
Theorem c105_eta_mean_refuted : exists o f c2 eta m, oper_pos o /\ 0 < c2 /\ mean_mode m
  /\ cx (qapamfft_from_etafft o f eta) m <> cx (qapamfft_from_uxuyetafft o f c2 (azero, azero, eta)) m
  /\ cz (uxuyetafft_from_qapamfft o f c2 (qapamfft_from_etafft o f eta)) m = RtoC 0.
Proof.
  exists o8, 1, 1, (fun _ => RtoC 1), (0, 0, 0)%Z. split; [exact o8_pos|]. split; [lra|]. split; [split; reflexivity|]. split.
  - intros H. apply (f_equal fst) in H. cbn in H. lra.
  - destruct (uxuyeta_first o8 1 1 ltac:(lra) (qapamfft_from_etafft o8 1 (fun _ => RtoC 1)) (0, 0, 0)%Z eq_refl) as (_ & _ & ->). reflexivity.
Qed.

(** a mean flow has no normal mode: the sums do not give the mean flow and its energy *)
Theorem c111_mean_refuted : exists o f c2 s m, oper_pos o /\ 0 < c2 /\ mean_mode m
  /\ modes_sum o f c2 (bvec_of_fields o f c2 s) NoD Ux m <> cx s m
  /\ (let e := compute_qapam_energies_fft (bvec_of_fields o f c2 s) m in fst (fst e) + snd (fst e) + snd e <> quadratic c2 s m)
  /\ (let e := compute_lin_energies_fft o f c2 s in fst (fst e) m + snd (fst e) m + snd e m <> quadratic c2 s m).
Proof.
  exists o8, 0, 1, (fun _ => RtoC 1, azero, azero), (0, 0, 0)%Z. split; [exact o8_pos|]. split; [lra|]. split; [split; reflexivity|]. split; [|split].
  - intros H. apply (f_equal fst) in H. unfold modes_sum, normalmode, qmat, bvec_of_fields, bvec, qapamfft_from_uxuyetafft, comp, cx in H. cbn in H. lra.
  - unfold quadratic, compute_qapam_energies_fft, bvec_of_fields, bvec, qapamfft_from_uxuyetafft, energy, cabs2, norm2, cx, cy, cz, azero, first. cbn. lra.
  - unfold quadratic, compute_lin_energies_fft, qdafft_from_uxuyetafft, uxuyetafft_from_qfft, uxuyetafft_from_afft, etafft_from_afft, invlaplacian_fft, laplacian_fft, ux_from_rot, uy_from_rot, ux_from_div, uy_from_div, fscal.
    destruct (Req_EM_T 0 0) as [_|N]; [|contradiction]. unfold cabs2, norm2, cx, cy, cz, azero, first, K2_not0, K2_2d, Kx, Ky. cbn.
    rewrite !Rmult_0_r. unfold Rdiv. rewrite !Rmult_0_l, !Rmult_0_r, ?Rmult_0_l. lra.
Qed.

Theorem c112_refuted : exists o f c2 s m, oper_pos o /\ 0 < c2 /\ ~ mean_mode m
  /\ snd (compute_qda_energies_fft (bvec_of_fields o f c2 s) m) <> snd (compute_lin_energies_fft o f c2 s) m
  /\ (let e := compute_qda_energies_fft (bvec_of_fields o f c2 s) m in fst (fst e) + snd (fst e) + snd e <> quadratic c2 s m).
Proof.
  exists o8, 0, 1, one_eta, (1, 0, 0)%Z. assert (N : ~ mean_mode (1, 0, 0)%Z) by (intros [H _]; discriminate H).
  split; [exact o8_pos|]. split; [lra|]. split; [exact N|]. destruct (c112_partial o8 0 1 o8_pos ltac:(lra) one_eta (1, 0, 0)%Z N) as (E1 & E2 & E3).
  pose proof (c111_lin_partial o8 0 1 o8_pos ltac:(lra) one_eta (1, 0, 0)%Z N) as S. cbv zeta in E1, E2, E3, S |- *.
  assert (G : fst (fst (compute_lin_energies_fft o8 0 1 one_eta)) (1, 0, 0)%Z = 0 /\ snd (fst (compute_lin_energies_fft o8 0 1 one_eta)) (1, 0, 0)%Z = 0).
  { destruct (lin_energies o8 0 1 o8_pos ltac:(lra) one_eta (1, 0, 0)%Z eq_refl) as (-> & -> & _). unfold one_eta, vort, dvg, azero, cabs2, cx, cy, cz. cbn.
    unfold Rdiv. split; ring. }
  destruct G as [G1 G2]. rewrite E1, E2, E3, G1, G2. rewrite G1, G2 in S.
  assert (Q : quadratic 1 one_eta (1, 0, 0)%Z = 1 / 2) by (unfold quadratic, one_eta, azero, norm2, cx, cy, cz; cbn; field).
  rewrite Q in S |- *. split; lra.
Qed.

Example c105_example : oper_pos o8 /\ ~ mean_mode (1, 0, 0)%Z /\ mean_mode (0, 0, 0)%Z.
Proof. split; [exact o8_pos|]. split; [intros [H _]; discriminate H | split; reflexivity]. Qed.

Print Assumptions c105_fields_partial.
Print Assumptions c105_mean_velocity_partial.
Print Assumptions c105_modes_partial.
Print Assumptions c105_mean_modes_partial.
Print Assumptions c105_computed_partial.
Print Assumptions c105_eta_partial.
Print Assumptions c105_qda_partial.
Print Assumptions c105_mean_height_refuted.
Print Assumptions c105_computed_mean_refuted.
Print Assumptions c105_eta_mean_refuted.
Print Assumptions c111_sum_partial.
Print Assumptions c111_energy_partial.
Print Assumptions c111_lin_partial.
Print Assumptions c111_mean_refuted.
Print Assumptions c112_partial.
Print Assumptions c112_refuted.
Print Assumptions c113_sum_partial.
Print Assumptions c113_products_partial.
Print Assumptions c113_refuted.
