(** * Shallow water: conversion, skewness and kurtosis, forcing of the velocity: C225, C226, C227 *)

From Coq Require Import Reals Lra ZArith Lia String List Bool FunctionalExtensionality.
From Coquelicot Require Import Coquelicot.
From Verif Require Import CExp DFT Alias_Model Alias_Proofs Oper_Model Oper_Proofs Budget_Model Budget_Spec Budget_Proofs Budget2D_Proofs
  Budget2D_Props BudgetEq_Props Means_Model Means_Spec Means_Proofs Means_Props MeansSW_Props SW_Spec SW_Model SWNormal_Model SW_Proofs SWModes_Props SWEq_Props
  SWOnly_Props SWEnergy_Props SWConv_Model.
Import ListNotations.
Local Open Scope R_scope.

(** ** Specification *)

(** conversion of potential into kinetic energy: mean of c^2 h^2 / 2 div u *)
Definition conversion (o : oper) (ms : list mode) (c2 : R) (s : sstate) : R :=
  mean o (fun jx jy jz => c2 * (1 + value o ms (cz s) jx jy jz) ^ 2 / 2 * value o ms (dvg o (cx s) (cy s)) jx jy jz).
Definition moment (o : oper) (ms : list mode) (c2 : R) (n : nat) (s : sstate) : R :=
  c2 * mean o (fun jx jy jz => value o ms (cz s) jx jy jz ^ n * value o ms (dvg o (cx s) (cy s)) jx jy jz).
(** potential energy: mean of c^2 eta^2 / 2 *)
Definition EA_sw1l (o : oper) (ms : list mode) (c2 : R) (s : sstate) : R := c2 * mean o (fun jx jy jz => value o ms (cz s) jx jy jz ^ 2 / 2).

(** ** Values *)

Section Grid.
Variable o : oper.
Variable ms : list mode.
Hypothesis Ho : oper_pos o.
Hypothesis Hs : symmetric_modes ms.
Notation V := (value o ms).

Lemma real_dvg ux uy : real_field ms ux -> real_field ms uy -> real_field ms (dvg o ux uy).
Proof.
  intros R1 R2 m Hm. unfold dvg. rewrite (R1 m Hm), (R2 m Hm), wx_odd, wy_odd. apply C_eq; cbn; ring.
Qed.

Lemma grid_mean_R u g : (forall jx jy jz, u jx jy jz = RtoC (g jx jy jz)) -> grid_mean o u = mean o g.
Proof.
  intros H. change (grid_mean o u) with (fst (gmean o u)). rewrite (gmean_ext o u (fun jx jy jz => RtoC (g jx jy jz)) H), gmean_R. reflexivity.
Qed.

Lemma gpow_R u g n jx jy jz : u jx jy jz = RtoC (g jx jy jz) -> gpow u n jx jy jz = RtoC (g jx jy jz ^ n).
Proof.
  intros H. unfold gpow. rewrite H. induction n as [|n IH]; [reflexivity|]. change (RtoC (g jx jy jz) * Nat.iter n (Cmult (RtoC (g jx jy jz))) (RtoC 1) = RtoC (g jx jy jz * g jx jy jz ^ n))%C.
  rewrite IH, RtoC_mult. reflexivity.
Qed.

Lemma div_value ux uy jx jy jz : real_field ms ux -> real_field ms uy -> ifft o ms (divfft_from_vecfft o ux uy) jx jy jz = RtoC (V (dvg o ux uy) jx jy jz).
Proof.
  intros R1 R2. rewrite <- (ifft_value o ms Hs) by (apply real_dvg; assumption). apply ifft_ext. intros m _. unfold divfft_from_vecfft, dvg.
  rewrite (sw_Kx o m Ho), (sw_Ky o m Ho). reflexivity.
Qed.

Lemma rot_value ux uy jx jy jz : real_field ms ux -> real_field ms uy -> ifft o ms (rot_from_vec o ux uy) jx jy jz = RtoC (V (vort o ux uy) jx jy jz).
Proof.
  intros R1 R2. rewrite <- (ifft_value o ms Hs) by (apply (real_rot o ms); assumption). apply ifft_ext. intros m _. unfold rot_from_vec, vort.
  rewrite (sw_Kx o m Ho), (sw_Ky o m Ho). ring.
Qed.

(** what is written *)
Theorem c225_values c2 s : vreal ms s -> let w := written (treat_conversion o ms c2 s) in
  w "Conv"%string = conversion o ms c2 s /\ w "c2eta1d"%string = moment o ms c2 1 s /\ w "c2eta2d"%string = moment o ms c2 2 s
  /\ w "c2eta3d"%string = moment o ms c2 3 s.
Proof.
  destruct s as [[ux uy] eta]. intros (R1 & R2 & R3). unfold cx, cy, cz in R1, R2, R3. cbn [fst snd] in R1, R2, R3. cbn zeta.
  assert (E : forall jx jy jz, ifft o ms eta jx jy jz = RtoC (V eta jx jy jz)) by (intros; apply (ifft_value o ms Hs); assumption).
  split; [|split; [|split]].
  - transitivity (c2 / 2 * grid_mean o (gmul (gpow (gadd (ifft o ms eta) (gconst 1)) 2) (ifft o ms (divfft_from_vecfft o ux uy)))); [reflexivity|].
    rewrite (grid_mean_R _ (fun jx jy jz => (1 + V eta jx jy jz) ^ 2 * V (dvg o ux uy) jx jy jz)).
    + unfold conversion. rewrite <- mean_scal. apply mean_ext. intros. unfold cx, cy, cz. cbn [fst snd]. field.
    + intros. unfold gmul, lift2. rewrite div_value by assumption. rewrite (gpow_R _ (fun jx jy jz => 1 + V eta jx jy jz)), <- RtoC_mult; [reflexivity|].
      unfold gadd, gconst, lift2. rewrite E, <- RtoC_plus. f_equal. ring.
  - transitivity (c2 * grid_mean o (gmul (ifft o ms eta) (ifft o ms (divfft_from_vecfft o ux uy)))); [reflexivity|].
    unfold moment. f_equal. apply grid_mean_R. intros. unfold gmul, lift2. rewrite div_value, E, pow_1, RtoC_mult by assumption. reflexivity.
  - transitivity (c2 * grid_mean o (gmul (gpow (ifft o ms eta) 2) (ifft o ms (divfft_from_vecfft o ux uy)))); [reflexivity|].
    unfold moment. f_equal. apply grid_mean_R. intros. unfold gmul, lift2. rewrite div_value by assumption. rewrite (gpow_R _ (V eta)), RtoC_mult by apply E. reflexivity.
  - transitivity (c2 * grid_mean o (gmul (gpow (ifft o ms eta) 3) (ifft o ms (divfft_from_vecfft o ux uy)))); [reflexivity|].
    unfold moment. f_equal. apply grid_mean_R. intros. unfold gmul, lift2. rewrite div_value by assumption. rewrite (gpow_R _ (V eta)), RtoC_mult by apply E. reflexivity.
Qed.
End Grid.

(** ** Conversion *)

Section Conversion.
Variable o : oper.
Variable ms : list mode.
Variable dea : mode -> bool.
Hypothesis Hg : good_modes o ms.
Hypothesis Hd : forall m, In m ms -> dea m = false.
Notation V := (value o ms).

Let Ho : oper_pos o := proj1 Hg.
Let Hs : symmetric_modes ms := proj1 (proj2 Hg).
Let Ha : alias_free o ms := proj2 (proj2 (proj2 Hg)).

Lemma mean_dvg ux uy : real_field ms ux -> real_field ms uy -> mean o (V (dvg o ux uy)) = 0.
Proof.
  intros R1 R2. pose proof (fft_id o ms Hg (dvg o ux uy) (0, 0, 0)%Z (proj1 (proj2 (proj2 Hg)))) as E.
  rewrite (fft_coefs o (ifft o ms (dvg o ux uy)) (V (dvg o ux uy))) in E by (intros; apply (ifft_value o ms Hs), real_dvg; assumption).
  assert (Z : dvg o ux uy (0, 0, 0)%Z = RtoC 0).
  { unfold dvg, wx, wy, mx, my. cbn [fst snd]. replace (2 * PI * 0 / Lx o) with 0 by (unfold Rdiv; ring). replace (2 * PI * 0 / Ly o) with 0 by (unfold Rdiv; ring). ring. }
  rewrite Z in E. apply (f_equal fst) in E. unfold coefs in E. change (fst (RtoC 0)) with 0 in E. cbn [fst] in E. transitivity (mean o (fun jx jy jz => V (dvg o ux uy) jx jy jz * cos (phase o (0, 0, 0)%Z jx jy jz))); [|exact E].
  apply mean_ext. intros.
  replace (phase o (0, 0, 0)%Z jx jy jz) with 0 by (unfold phase, mx, my, mz, Rdiv; cbn [fst snd]; ring). rewrite cos_0. ring.
Qed.

(** the three terms *)
Theorem c225_sum c2 s : vreal ms s -> let w := written (treat_conversion o ms c2 s) in
  w "Conv"%string = w "c2eta1d"%string + w "c2eta2d"%string / 2.
Proof.
  intros R. pose proof R as (R1 & R2 & R3). cbn zeta. destruct (c225_values o ms Ho Hs c2 s R) as (-> & -> & -> & _). unfold conversion, moment.
  pose proof (mean_dvg (cx s) (cy s) R1 R2) as Z.
  transitivity (c2 / 2 * mean o (V (dvg o (cx s) (cy s))) + (c2 * mean o (fun jx jy jz => V (cz s) jx jy jz ^ 1 * V (dvg o (cx s) (cy s)) jx jy jz)
     + c2 / 2 * mean o (fun jx jy jz => V (cz s) jx jy jz ^ 2 * V (dvg o (cx s) (cy s)) jx jy jz))).
  - rewrite <- !mean_scal, <- !mean_plus. apply mean_ext. intros. field.
  - rewrite Z. field.
Qed.

(** mean of eta^2 div as a sum over the triads *)
Lemma moment2_triads c2 s : vreal ms s ->
  RtoC (moment o ms c2 2 s) = (RtoC c2 * triads ms (fun p q r => cz s p * cz s q * dvg o (cx s) (cy s) r))%C.
Proof.
  intros (R1 & R2 & R3). unfold moment. rewrite RtoC_mult. f_equal. rewrite <- gmean_R. rewrite <- (triple o ms (cz s) (cz s) (dvg o (cx s) (cy s)) Ho Hs Ha).
  rewrite parseval by exact Hs. apply gmean_ext. intros. unfold gmul, lift2. rewrite !(ifft_value o ms Hs) by (assumption || (apply real_dvg; assumption)).
  rewrite <- !RtoC_mult. f_equal. ring.
Qed.

Lemma moment1_sum c2 s : vreal ms s ->
  RtoC (moment o ms c2 1 s) = (RtoC c2 * lsum ms (fun k => cz s (mopp k) * dvg o (cx s) (cy s) k))%C.
Proof.
  intros (R1 & R2 & R3). unfold moment. rewrite RtoC_mult. f_equal. rewrite <- gmean_R.
  rewrite (lsum_ext ms _ (fun k => cz s (mopp k) * fft o (ifft o ms (dvg o (cx s) (cy s))) k)%C).
  - rewrite parseval by exact Hs. apply gmean_ext. intros. rewrite !(ifft_value o ms Hs) by (assumption || (apply real_dvg; assumption)). rewrite <- RtoC_mult. f_equal. ring.
  - intros k Hk. rewrite (fft_id o ms Hg) by exact Hk. reflexivity.
Qed.

(** div (eta u) against eta: integration by parts *)
Lemma flux_triads ux uy eta : lsum ms (fun k => eta (mopp k) * divfft_from_vecfft o (fft o (gmul (ifft o ms eta) (ifft o ms ux))) (fft o (gmul (ifft o ms eta) (ifft o ms uy))) k)%C
  = (RtoC (1 / 2) * triads ms (fun p q r => eta p * eta q * dvg o ux uy r))%C.
Proof.
  rewrite (lsum_ext ms _ (fun k => (- (Ci * RtoC (Kx o (mopp k))) * eta (mopp k)) * fft o (gmul (ifft o ms eta) (ifft o ms ux)) k
     + (- (Ci * RtoC (Ky o (mopp k))) * eta (mopp k)) * fft o (gmul (ifft o ms eta) (ifft o ms uy)) k)%C).
  2:{ intros k _. unfold divfft_from_vecfft. rewrite Kx_opp, Ky_opp, !RtoC_opp. ring. }
  rewrite lsum_plus.
  rewrite (triple o ms eta ux (fun m => - (Ci * RtoC (Kx o m)) * eta m)%C Ho Hs Ha), (triple o ms eta uy (fun m => - (Ci * RtoC (Ky o m)) * eta m)%C Ho Hs Ha).
  rewrite <- triads_plus.
  set (w := fun p q s : mode => (eta p * ux q * (- (Ci * RtoC (Kx o s)) * eta s) + eta p * uy q * (- (Ci * RtoC (Ky o s)) * eta s))%C).
  assert (D : (triads ms w + triads ms w)%C = triads ms (fun p q r => eta p * eta q * dvg o ux uy r)%C).
  { rewrite (triads_swap13 ms w) at 2. rewrite <- triads_plus. rewrite (triads_swap23 ms (fun p q r => eta p * eta q * dvg o ux uy r)%C).
    apply triads_ext. intros p q s _ _ _ S. unfold w, dvg. rewrite <- !(sw_Kx o _ Ho), <- !(sw_Ky o _ Ho), (Kx_sum0 o p q s S), (Ky_sum0 o p q s S), !RtoC_minus, !RtoC_opp. ring. }
  rewrite <- D. generalize (triads ms w). intros z. apply C_eq; cbn; field.
Qed.

Lemma product_lsum a b : real_field ms a -> product ms a b = fst (lsum ms (fun k => a (mopp k) * b k)%C).
Proof.
  intros Ra. unfold product. apply total_lsum. intros m Hm. rewrite (Ra m Hm). cbn. ring.
Qed.

(** the rate of change of the potential energy by the tendencies *)
Lemma rate_sw1l f c2 s : vreal ms s -> c2 * product ms (cz s) (cz (sw1l o ms dea f c2 s)) = - (moment o ms c2 1 s + moment o ms c2 2 s / 2).
Proof.
  intros R. pose proof R as (R1 & R2 & R3). rewrite product_lsum by exact R3.
  pose proof (f_equal fst (moment1_sum c2 s R)) as M1. pose proof (f_equal fst (moment2_triads c2 s R)) as M2.
  destruct s as [[ux uy] eta]. unfold cx, cy, cz in *. cbn [fst snd] in *.
  assert (E : lsum ms (fun k => eta (mopp k) * snd (sw1l o ms dea f c2 (ux, uy, eta)) k)%C
    = (- (lsum ms (fun k => eta (mopp k) * dvg o ux uy k) + RtoC (1 / 2) * triads ms (fun p q r => eta p * eta q * dvg o ux uy r)))%C).
  { rewrite <- flux_triads, <- lsum_plus, <- lsum_neg. apply lsum_ext. intros k Hk. unfold sw1l. destruct (sw_compute_Frot _ _ _ _) as [Fx Fy]. cbn [snd].
    unfold dealiasing. rewrite (Hd k Hk). unfold fopp, divfft_from_vecfft, dvg.
    assert (G : forall a, fft o (gmul (gadd (ifft o ms eta) (gconst 1)) (ifft o ms a)) k = (fft o (gmul (ifft o ms eta) (ifft o ms a)) k + a k)%C).
    { intros a. rewrite <- (fft_id o ms Hg a k Hk) at 1.
      rewrite (fft_ext o _ (fun jx jy jz => RtoC 1 * gmul (ifft o ms eta) (ifft o ms a) jx jy jz + RtoC 1 * ifft o ms a jx jy jz)%C); [rewrite fft_lin; ring|].
      intros. unfold gmul, gadd, gconst, lift2. ring. }
    rewrite !G, (sw_Kx o k Ho), (sw_Ky o k Ho). ring. }
  rewrite E. revert M1 M2. generalize (lsum ms (fun k => eta (mopp k) * dvg o ux uy k)%C) (triads ms (fun p q r => eta p * eta q * dvg o ux uy r)%C).
  intros [a a'] [b b']. cbn. intros -> ->. field.
Qed.

Lemma square_mean a : real_field ms a -> square ms a = mean o (fun jx jy jz => V a jx jy jz ^ 2 / 2).
Proof.
  intros Ra. transitivity (1 / 2 * mean o (fun jx jy jz => V a jx jy jz * V a jx jy jz)).
  - rewrite (sum_inner o ms Hs a (V a) Ra). unfold sum_wavenumbers. rewrite rsum_total, <- total_scal. unfold square. apply total_ext. intros m Hm.
    rewrite <- (fft_coefs o (ifft o ms a)) by (intros; apply (ifft_value o ms Hs); exact Ra). rewrite (fft_id o ms Hg) by exact Hm. unfold norm2, inner_prod. cbn. field.
  - rewrite <- mean_scal. apply mean_ext. intros. field.
Qed.

Lemma derive_EA c2 s t g : moves ms (fun x => cz (s x)) t g -> is_derive (fun x => c2 * square ms (cz (s x))) t (c2 * product ms (cz (s t)) g).
Proof.
  intros M. pose proof (derive_1 ms (fun x => cz (s x)) t g M) as D. cbv beta in D. eapply is_derive_eq; [exact (is_derive_scal _ t c2 _ D)|].
  change (scal c2 ?x) with (c2 * x). f_equal. unfold rate, product. apply total_ext. intros. ring.
Qed.

(** without forcing and dissipation the potential energy decreases at the rate Conv *)
Theorem c225_conversion_partial f c2 s t : vreal ms (s t) -> vmoves ms s t (sw1l o ms dea f c2 (s t)) ->
  is_derive (fun x => c2 * square ms (cz (s x))) t (- written (treat_conversion o ms c2 (s t)) "Conv"%string)
  /\ EA_sw1l o ms c2 (s t) = c2 * square ms (cz (s t)).
Proof.
  intros R (_ & _ & M). split; [|unfold EA_sw1l; rewrite <- square_mean by apply R; reflexivity]. eapply is_derive_eq; [exact (derive_EA c2 s t _ M)|].
  rewrite (rate_sw1l f c2 (s t) R). pose proof (c225_sum c2 (s t) R) as E. cbn zeta in E. rewrite E.
  destruct (c225_values o ms Ho Hs c2 (s t) R) as (_ & -> & -> & _). reflexivity.
Qed.

(** with the conditions of the conservation of the energy (C106) the kinetic energy increases at the rate Conv *)
Theorem c225_kinetic_partial f c2 s t : (forall x, vreal ms (s x)) -> vmoves ms s t (sw1l o ms dea f c2 (s t)) ->
  (forall jx jy jz, V (vort o (cx (s t)) (cy (s t))) jx jy jz = - f)
  \/ (forall jx jy jz, flux_kept o ms (cz (s t)) (cx (s t)) jx jy jz = flux o ms (cz (s t)) (cx (s t)) jx jy jz
       /\ flux_kept o ms (cz (s t)) (cy (s t)) jx jy jz = flux o ms (cz (s t)) (cy (s t)) jx jy jz) ->
  is_derive (fun x => EK_sw1l o ms (s x)) t (written (treat_conversion o ms c2 (s t)) "Conv"%string).
Proof.
  intros R M C. pose proof (c106_energy_rest_partial o ms dea f c2 Ho Hs Hd s t (R t) M C) as D1.
  destruct (c225_conversion_partial f c2 s t (R t) M) as [D2 _].
  apply (is_derive_ext (fun x => energy_sw o ms c2 (s x) + -1 * (c2 * square ms (cz (s x))))).
  { intros x. unfold energy_sw. rewrite <- square_mean by apply (R x). change (EK_sw1l o ms (s x) + c2 * square ms (cz (s x)) + -1 * (c2 * square ms (cz (s x))) = EK_sw1l o ms (s x)). ring. }
  eapply is_derive_eq; [exact (derive_add _ _ t _ _ D1 (is_derive_scal _ t (-1) _ D2))|]. change (scal (-1) ?x) with (-1 * x). ring.
Qed.

(** sw1l.modified (advection by the rotational velocity): only the first term *)
Theorem c225_modified_partial f c2 s t : vreal ms (s t) -> vmoves ms s t (sw1l_modified o ms dea f c2 (s t)) ->
  is_derive (fun x => c2 * square ms (cz (s x))) t (- written (treat_conversion o ms c2 (s t)) "c2eta1d"%string).
Proof.
  intros R (_ & _ & M). eapply is_derive_eq; [exact (derive_EA c2 s t _ M)|]. destruct (c225_values o ms Ho Hs c2 (s t) R) as (_ & -> & _ & _).
  rewrite product_lsum by apply R. pose proof (f_equal fst (moment1_sum c2 (s t) R)) as M1. clear M. revert R M1. generalize (s t). intros [[ux uy] eta] R M1.
  unfold cx, cy, cz in *. cbn [fst snd] in *.
  assert (E : lsum ms (fun k => eta (mopp k) * snd (sw1l_modified o ms dea f c2 (ux, uy, eta)) k)%C
    = (- lsum ms (fun k => eta (mopp k) * dvg o ux uy k))%C).
  { rewrite (lsum_ext ms _ (fun k => - (eta (mopp k) * dvg o ux uy k) + - (eta (mopp k) * advection o ms (rot_from_vec o ux uy) eta k))%C).
    - rewrite lsum_plus, !lsum_neg. rewrite (advection_square o ms Ho Hs Ha). ring.
    - intros k Hk. unfold sw1l_modified. cbn [snd]. unfold dealiasing. rewrite (Hd k Hk). unfold fsub, fopp, divfft_from_vecfft, dvg, advection.
      rewrite fft_add, (sw_Kx o k Ho), (sw_Ky o k Ho). ring. }
  rewrite E. revert M1. generalize (lsum ms (fun k => eta (mopp k) * dvg o ux uy k)%C). intros [a a']. cbn. intros ->. field.
Qed.
End Conversion.

Definition conv_eta : field := fun _ => RtoC 1.
Definition conv_ux : field := fun m => (0, - IZR (mx m)).
Definition conv_uy : field := fun _ => RtoC 0.

Lemma conv_real ms : vreal ms (conv_ux, conv_uy, conv_eta).
Proof.
  repeat split; intros m _; unfold cx, cy, cz, conv_ux, conv_uy, conv_eta, mopp, mx; cbn [fst snd]; rewrite ?opp_IZR; apply C_eq; cbn; ring.
Qed.

Lemma conv_moment2 : moment o8 ms3 1 2 (conv_ux, conv_uy, conv_eta) = 8 * PI / Lx o8.
Proof.
  pose proof (f_equal fst (moment2_triads o8 ms3 ms3_good 1 _ (conv_real ms3))) as E. change (fst (RtoC ?x)) with x in E. rewrite E. clear E.
  assert (W : forall m, dvg o8 conv_ux conv_uy m = RtoC (2 * PI / Lx o8 * IZR (mx m) ^ 2)).
  { intros m. unfold dvg, conv_ux, conv_uy, wx. apply C_eq; cbn; unfold Rdiv; ring. }
  unfold cx, cy, cz. cbn [fst snd]. unfold triads, ms3, lsum, sum0, conv_eta. cbn [fold_right map].
  cbn [madd mode_eqb zero_mode mx my mz fst snd Z.add Z.pos_sub Z.succ_double Z.pred_double Z.double Z.eqb Pos.eqb andb].
  rewrite !W. cbn [mx fst snd]. cbn. field. unfold o8. cbn. pose proof PI_RGT_0. lra.
Qed.

(** "Conv" is not the conversion of sw1l.modified *)
Theorem c225_modified_refuted : exists o ms dea f c2 s t, good_modes o ms /\ (forall m, In m ms -> dea m = false) /\ 0 < c2 /\ vreal ms (s t)
  /\ vmoves ms s t (sw1l_modified o ms dea f c2 (s t))
  /\ ~ is_derive (fun x => c2 * square ms (cz (s x))) t (- written (treat_conversion o ms c2 (s t)) "Conv"%string).
Proof.
  set (s0 := (conv_ux, conv_uy, conv_eta)). set (g := sw1l_modified o8 ms3 (fun _ => false) 0 1 s0).
  set (line := fun (a b : field) (x : R) (m : mode) => (a m + RtoC x * b m)%C).
  exists o8, ms3, (fun _ => false), 0, 1, (fun x => (line (cx s0) (cx g) x, line (cy s0) (cy g) x, line (cz s0) (cz g) x)), 0.
  assert (S0 : (line (cx s0) (cx g) 0, line (cy s0) (cy g) 0, line (cz s0) (cz g) 0) = s0).
  { unfold line, s0, cx, cy, cz. cbn [fst snd]. f_equal; [f_equal|]; apply functional_extensionality; intros m; ring. }
  assert (L : forall a b, moves ms3 (line a b) 0 b).
  { intros a b m _. unfold line. split.
    - apply (is_derive_ext (fun x => fst (a m) + fst (b m) * x)); [intros x; cbn; ring|]. auto_derive; [trivial | ring].
    - apply (is_derive_ext (fun x => snd (a m) + snd (b m) * x)); [intros x; cbn; ring|]. auto_derive; [trivial | ring]. }
  assert (M : vmoves ms3 (fun x => (line (cx s0) (cx g) x, line (cy s0) (cy g) x, line (cz s0) (cz g) x)) 0
    (sw1l_modified o8 ms3 (fun _ => false) 0 1 (line (cx s0) (cx g) 0, line (cy s0) (cy g) 0, line (cz s0) (cz g) 0))).
  { rewrite S0. fold g. unfold vmoves. split; [|split]; apply L. }
  split; [exact ms3_good|]. split; [reflexivity|]. split; [lra|]. split; [rewrite S0; apply conv_real|]. split; [exact M|]. intros D.
  assert (R : vreal ms3 (line (cx s0) (cx g) 0, line (cy s0) (cy g) 0, line (cz s0) (cz g) 0)) by (rewrite S0; apply conv_real).
  pose proof (c225_modified_partial o8 ms3 (fun _ => false) ms3_good (fun _ _ => eq_refl) 0 1 _ 0 R M) as D'.
  pose proof (eq_trans (eq_sym (is_derive_unique _ _ _ D)) (is_derive_unique _ _ _ D')) as U'. cbv beta in U'. rewrite S0 in U'.
  pose proof (c225_sum o8 ms3 ms3_good 1 s0 (conv_real ms3)) as E. cbn zeta in E. rewrite E in U'.
  destruct (c225_values o8 ms3 o8_pos (proj1 (proj2 ms3_good)) 1 s0 (conv_real ms3)) as (_ & V1 & V2 & _). rewrite V1, V2 in U'.
  unfold s0 in U'. rewrite conv_moment2 in U'. assert (P : 0 < 8 * PI / Lx o8) by (apply Rdiv_lt_0_compat; pose proof PI_RGT_0; unfold o8; cbn; lra). lra.
Qed.

(** ** C226: skewness and kurtosis *)

(** moments on the grid *)
Definition gmoment (o : oper) (ms : list mode) (a : sfield) (n : nat) : R := mean o (fun jx jy jz => value o ms a jx jy jz ^ n).
Definition skewness (o : oper) (ms : list mode) (a : sfield) : R :=
  if Req_EM_T (gmoment o ms a 2) 0 then 0 else gmoment o ms a 3 / sqrt (gmoment o ms a 2) ^ 3.
Definition kurtosis (o : oper) (ms : list mode) (a : sfield) : R :=
  if Req_EM_T (gmoment o ms a 2) 0 then 0 else gmoment o ms a 4 / gmoment o ms a 2 ^ 2.

Section Moments.
Variable o : oper.
Variable ms : list mode.
Hypothesis Hg : good_modes o ms.
Notation V := (value o ms).
Let Ho : oper_pos o := proj1 Hg.
Let Hs : symmetric_modes ms := proj1 (proj2 Hg).

Lemma rsum_to_nonneg n h : (forall j, 0 <= h j) -> 0 <= rsum_to n h.
Proof. intros H. unfold rsum_to. induction (seq 0 n) as [|j l IH]; cbn [fold_right]; [lra | pose proof (H j); lra]. Qed.

Lemma mean_nonneg h : (forall jx jy jz, 0 <= h jx jy jz) -> 0 <= mean o h.
Proof.
  intros H. unfold mean. destruct Ho as (H1 & H2 & H3 & _). apply lt_0_INR in H1, H2, H3.
  apply Rle_mult_inv_pos; [|apply Rmult_lt_0_compat; [apply Rmult_lt_0_compat|]; assumption].
  apply rsum_to_nonneg. intros jx. apply rsum_to_nonneg. intros jy. apply rsum_to_nonneg. intros jz. apply H.
Qed.

Lemma rsum_to_const n c : rsum_to n (fun _ => c) = INR n * c.
Proof.
  unfold rsum_to. transitivity (INR (length (seq 0 n)) * c); [|rewrite seq_length; reflexivity]. generalize (seq 0 n).
  induction l as [|j l IH]; cbn [fold_right length]; [cbn; ring | rewrite IH, S_INR; ring].
Qed.

Lemma mean_const c : mean o (fun _ _ _ => c) = c.
Proof.
  destruct Ho as (H1 & H2 & H3 & _). apply lt_0_INR in H1, H2, H3. unfold mean. 
  replace (rsum_to (nx o) (fun _ => rsum_to (ny o) (fun _ => rsum_to (nz o) (fun _ => c)))) with (INR (nx o) * (INR (ny o) * (INR (nz o) * c))).
  - field. lra.
  - rewrite !rsum_to_const. reflexivity.
Qed.

Lemma moment2_square a : real_field ms a -> gmoment o ms a 2 = 2 * square ms a.
Proof. intros Ra. rewrite (square_mean o ms Hg a Ra). unfold gmoment. rewrite <- mean_scal. apply mean_ext. intros. field. Qed.

Lemma moment2_nonneg a : 0 <= gmoment o ms a 2.
Proof. apply mean_nonneg. intros. apply pow2_ge_0. Qed.

Lemma Rpower_3_2 x : 0 < x -> Rpower x (3 / 2) = sqrt x ^ 3.
Proof.
  intros H. rewrite <- Rpower_sqrt by exact H. rewrite <- Rpower_pow by apply exp_pos. rewrite Rpower_mult. f_equal. cbn. field.
Qed.

Lemma skew_kurt_eq a u : real_field ms a -> (forall jx jy jz, u jx jy jz = RtoC (V a jx jy jz)) ->
  skew_kurt o u (gmoment o ms a 2) = (skewness o ms a, kurtosis o ms a).
Proof.
  intros Ra Hu. unfold skew_kurt, skewness, kurtosis. destruct (Req_EM_T (gmoment o ms a 2) 0) as [|N]; [reflexivity|].
  pose proof (moment2_nonneg a). rewrite Rpower_3_2 by lra. f_equal; f_equal; apply grid_mean_R; intros; apply gpow_R; apply Hu.
Qed.

Lemma sum_abs2 a b : real_field ms a -> (forall m, In m ms -> b m = a m) -> sum_wavenumbers ms (fun m => abs2 (b m)) = gmoment o ms a 2.
Proof.
  intros Ra E. rewrite moment2_square by exact Ra. unfold sum_wavenumbers, square. rewrite rsum_total, <- total_scal. apply total_ext. intros m Hm.
  rewrite (E m Hm), abs2_norm2. field.
Qed.

(** what is written *)
Theorem c226_values c2 s : 0 < c2 -> vreal ms s -> let w := written (treat_skew_kurt o ms c2 s) in
  (w "skew_eta"%string = skewness o ms (cz s) /\ w "kurt_eta"%string = kurtosis o ms (cz s))
  /\ (w "skew_rot"%string = skewness o ms (vort o (cx s) (cy s)) /\ w "kurt_rot"%string = kurtosis o ms (vort o (cx s) (cy s)))
  /\ (w "skew_div"%string = skewness o ms (dvg o (cx s) (cy s)) /\ w "kurt_div"%string = kurtosis o ms (dvg o (cx s) (cy s))).
Proof.
  intros Hc. destruct s as [[ux uy] eta]. intros (R1 & R2 & R3). unfold cx, cy, cz in *. cbn [fst snd] in *. cbn zeta. unfold treat_skew_kurt.
  assert (E1 : 2 / c2 * sum_wavenumbers ms (energyA_sw1l c2 eta) = gmoment o ms eta 2).
  { rewrite <- (sum_abs2 eta eta R3) by reflexivity. unfold sum_wavenumbers. rewrite !rsum_total, <- total_scal. apply total_ext. intros m _. unfold energyA_sw1l. field. lra. }
  set (rf := rot_from_vec o (fft o (ifft o ms ux)) (fft o (ifft o ms uy))). set (df := divfft_from_vecfft o (fft o (ifft o ms ux)) (fft o (ifft o ms uy))).
  assert (Er : forall m, In m ms -> rf m = vort o ux uy m).
  { intros m Hm. unfold rf, rot_from_vec, vort. rewrite !(fft_id o ms Hg) by exact Hm. rewrite (sw_Kx o m Ho), (sw_Ky o m Ho). ring. }
  assert (Ed : forall m, In m ms -> df m = dvg o ux uy m).
  { intros m Hm. unfold df, divfft_from_vecfft, dvg. rewrite !(fft_id o ms Hg) by exact Hm. rewrite (sw_Kx o m Ho), (sw_Ky o m Ho). ring. }
  pose proof (real_rot o ms ux uy R1 R2) as Rr. pose proof (real_dvg o ms ux uy R1 R2) as Rd.
  rewrite E1, (sum_abs2 _ rf Rr Er), (sum_abs2 _ df Rd Ed).
  rewrite (skew_kurt_eq eta (ifft o ms eta) R3) by (intros; apply (ifft_value o ms Hs); exact R3).
  rewrite (skew_kurt_eq (vort o ux uy) (ifft o ms rf) Rr) by (intros; rewrite <- (ifft_value o ms Hs) by exact Rr; apply ifft_ext; exact Er).
  rewrite (skew_kurt_eq (dvg o ux uy) (ifft o ms df) Rd) by (intros; rewrite <- (ifft_value o ms Hs) by exact Rd; apply ifft_ext; exact Ed).
  split; [|split]; split; reflexivity.
Qed.

(** for a field which is not zero *)
Theorem c226_bounds a : gmoment o ms a 2 <> 0 -> 1 <= kurtosis o ms a /\ skewness o ms a ^ 2 <= kurtosis o ms a
  /\ (mean o (V a) = 0 -> skewness o ms a ^ 2 + 1 <= kurtosis o ms a).
Proof.
  intros N. pose proof (moment2_nonneg a) as P. assert (P' : 0 < gmoment o ms a 2) by lra. clear P.
  set (A := gmoment o ms a 2) in *. set (B := gmoment o ms a 3). set (D := gmoment o ms a 4).
  assert (Q : forall t c, 0 <= t ^ 2 * A + 2 * t * B + D + c ^ 2 - 2 * c * A - 2 * t * c * mean o (V a)).
  { intros t c. replace (t ^ 2 * A + 2 * t * B + D + c ^ 2 - 2 * c * A - 2 * t * c * mean o (V a))
      with (mean o (fun jx jy jz => (t * V a jx jy jz + V a jx jy jz ^ 2 - c) ^ 2)); [apply mean_nonneg; intros; apply pow2_ge_0|].
    transitivity (t ^ 2 * A + (2 * t * B + (D + (mean o (fun _ _ _ => c ^ 2) + (- 2 * c * A + - 2 * t * c * mean o (V a)))))).
    - unfold A, B, D, gmoment. rewrite <- !mean_scal, <- !mean_plus. apply mean_ext. intros. ring.
    - rewrite mean_const. ring. }
  assert (S : forall x, x = gmoment o ms a 3 / sqrt A ^ 3 -> x ^ 2 = B ^ 2 / A ^ 3).
  { intros x ->. pose proof (sqrt_lt_R0 A P') as H. assert (E : sqrt A ^ 2 = A) by (rewrite <- Rsqr_pow2; apply Rsqr_sqrt; lra). fold B.
    replace (A ^ 3) with ((sqrt A ^ 3) ^ 2) by (transitivity ((sqrt A ^ 2) ^ 3); [ring | rewrite E; reflexivity]). field. lra. }
  assert (K : kurtosis o ms a = D / A ^ 2) by (unfold kurtosis; fold A; destruct (Req_EM_T A 0); [lra | reflexivity]).
  assert (S' : skewness o ms a ^ 2 = B ^ 2 / A ^ 3) by (unfold skewness; fold A; destruct (Req_EM_T A 0); [lra | apply S; reflexivity]).
  rewrite K, S'. assert (A2 : 0 < / A ^ 2) by (apply Rinv_0_lt_compat, pow_lt; exact P').
  split; [|split].
  - pose proof (Q 0 A) as H. replace 1 with (A ^ 2 * / A ^ 2) by (field; lra). unfold Rdiv. apply Rmult_le_compat_r; [lra|]. lra.
  - pose proof (Q (- B / A) 0) as H. replace (B ^ 2 / A ^ 3) with (B ^ 2 / A * / A ^ 2) by (field; lra). unfold Rdiv at 2. apply Rmult_le_compat_r; [lra|].
    replace ((- B / A) ^ 2 * A + 2 * (- B / A) * B + D + 0 ^ 2 - 2 * 0 * A - 2 * (- B / A) * 0 * mean o (V a)) with (D - B ^ 2 / A) in H by (field; lra). lra.
  - intros Z. pose proof (Q (- B / A) A) as H. rewrite Z in H. replace (B ^ 2 / A ^ 3 + 1) with ((B ^ 2 / A + A ^ 2) * / A ^ 2) by (field; lra). unfold Rdiv at 2. apply Rmult_le_compat_r; [lra|].
    replace ((- B / A) ^ 2 * A + 2 * (- B / A) * B + D + A ^ 2 - 2 * A * A - 2 * (- B / A) * A * 0) with (D - B ^ 2 / A - A ^ 2) in H by (field; lra). lra.
Qed.

(** a field and its product by a positive constant have the same skewness and kurtosis; the opposite has the opposite skewness *)
Theorem c226_scale a l : l <> 0 -> let b := (fun m => RtoC l * a m)%C in
  kurtosis o ms b = kurtosis o ms a /\ skewness o ms b = (if Rlt_dec 0 l then 1 else -1) * skewness o ms a.
Proof.
  intros Hl b. assert (G : forall n, gmoment o ms b n = l ^ n * gmoment o ms a n).
  { intros n. unfold gmoment. rewrite <- mean_scal. apply mean_ext. intros. rewrite <- Rpow_mult_distr. f_equal. unfold value. rewrite <- total_scal. apply total_ext.
    intros m _. unfold b. cbn. ring. }
  unfold kurtosis, skewness. rewrite !G. pose proof (moment2_nonneg a) as P. assert (L2 : 0 < l ^ 2) by (apply pow2_gt_0; exact Hl).
  destruct (Req_EM_T (l ^ 2 * gmoment o ms a 2) 0) as [E|E], (Req_EM_T (gmoment o ms a 2) 0) as [E'|E'].
  - split; ring.
  - exfalso. apply Rmult_integral in E. destruct E; lra.
  - exfalso. apply E. rewrite E'. ring.
  - split; [field; split; assumption|]. rewrite sqrt_mult, <- Rsqr_pow2, sqrt_Rsqr_abs by lra. pose proof (sqrt_lt_R0 (gmoment o ms a 2) ltac:(lra)).
    destruct (Rlt_dec 0 l) as [Hp|Hn].
    + rewrite Rabs_pos_eq by lra. field. split; lra.
    + rewrite Rabs_left by lra. field. split; lra.
Qed.
End Moments.

(** ** C227: forcing of the velocity and of the surface *)

(** a variable of the state after a step *)
Definition state_after (dt : R) (F s : forcing_of_state) : forcing_of_state :=
  match F, s with
  | F_uxuyeta a b c, F_uxuyeta a' b' c' => F_uxuyeta (after dt a a') (after dt b b') (after dt c c')
  | F_qapam a b c, F_qapam a' b' c' => F_qapam (after dt a a') (after dt b b') (after dt c c')
  | F_apam a b, F_apam a' b' => F_apam (after dt a a') (after dt b b')
  | F_rotdiveta a b c, F_rotdiveta a' b' c' => F_rotdiveta (after dt a a') (after dt b b') (after dt c c')
  | _, s => s
  end.
Definition same_solver (F s : forcing_of_state) : Prop :=
  match F, s with
  | F_uxuyeta _ _ _, F_uxuyeta _ _ _ | F_qapam _ _ _, F_qapam _ _ _ | F_apam _ _, F_apam _ _ | F_rotdiveta _ _ _, F_rotdiveta _ _ _ => True
  | _, _ => False
  end.

(** the change of the velocity and of the surface during a step is the forcing given by get_FxFyFetafft *)
Definition forcing_right (o : oper) (f c2 : R) (F s : forcing_of_state) : Prop :=
  forall dt m, agree m (velocity_of_state o f c2 (state_after dt F s)) (vafter dt (get_FxFyFetafft o f c2 F) (velocity_of_state o f c2 s)).

Section Forcing.
Variable o : oper.
Variables f c2 : R.
Hypothesis Hc : c2 <> 0.

Lemma uxuyeta_linear dt F s m :
  agree m (uxuyetafft_from_qapamfft o f c2 (vafter dt F s)) (vafter dt (uxuyetafft_from_qapamfft o f c2 F) (uxuyetafft_from_qapamfft o f c2 s)).
Proof.
  destruct F as [[a b] c], s as [[a' b'] c'].
  unfold agree, vafter, after, uxuyetafft_from_qapamfft, uxuyetafft_from_afft, uxuyetafft_from_qfft, etafft_from_afft, invlaplacian_fft, laplacian_fft, divfft_from_apamfft,
    ux_from_rot, uy_from_rot, ux_from_div, uy_from_div, fadd, fscal, azero, cx, cy, cz. cbn [fst snd].
  destruct (first m) eqn:E, (Req_EM_T f 0); unfold Cdiv; (split; [|split]); cbn [fst snd]; rewrite ?E; ring.
Qed.

Theorem c227_partial F s : same_solver F s -> (forall a b, F <> F_apam a b) -> forcing_right o f c2 F s.
Proof.
  intros H N dt m. destruct F as [a b c|a b c|a b|a b c], s as [a' b' c'|a' b' c'|a' b'|a' b' c']; try contradiction.
  - split; [|split]; reflexivity.
  - exact (uxuyeta_linear dt (a, b, c) (a', b', c') m).
  - exfalso. exact (N a b eq_refl).
  - unfold agree, state_after, velocity_of_state, get_FxFyFetafft, vafter, after, fadd, ux_from_rot, uy_from_rot, ux_from_div, uy_from_div, cx, cy, cz. cbn [fst snd].
    split; [ring | split; [ring | reflexivity]].
Qed.

(** onlywaves: the forcing of the surface is right, the divergent part of the velocity is missing *)
Theorem c227_waves_partial fap fam ap am dt m : first m = false ->
  let d := ((fap m - fam m) / Kappa_over_ic o f c2 m)%C in
  let F := get_FxFyFetafft o f c2 (F_apam fap fam) in
  let u := velocity_of_state o f c2 (F_apam ap am) in
  let u' := velocity_of_state o f c2 (state_after dt (F_apam fap fam) (F_apam ap am)) in
  cz u' m = (cz u m + RtoC dt * cz F m)%C
  /\ cx u' m = (cx u m + RtoC dt * (cx F m - Ci * RtoC (Kx o m / K2_not0 o m) * d))%C
  /\ cy u' m = (cy u m + RtoC dt * (cy F m - Ci * RtoC (Ky o m / K2_not0 o m) * d))%C.
Proof.
  intros E. cbn zeta.
  unfold state_after, velocity_of_state, get_FxFyFetafft, after, uxuyetafft_from_qapamfft, uxuyetafft_from_afft, uxuyetafft_from_qfft, etafft_from_afft, invlaplacian_fft, laplacian_fft, divfft_from_apamfft,
    ux_from_rot, uy_from_rot, ux_from_div, uy_from_div, fadd, fscal, azero, cx, cy, cz. cbn [fst snd]. rewrite E.
  destruct (Req_EM_T f 0); cbn [fst snd]; rewrite ?E; unfold Cdiv; (split; [|split]); cbn [fst snd]; rewrite ?E; ring.
Qed.
End Forcing.

Theorem c227_waves_refuted : exists o f c2 F s, oper_pos o /\ 0 < c2 /\ same_solver F s /\ ~ forcing_right o f c2 F s.
Proof.
  exists o8, 0, 1, (F_apam (fun _ => RtoC 1) (fun _ => RtoC 0)), (F_apam azero azero). split; [exact o8_pos|]. split; [lra|]. split; [exact I|]. intros H.
  destruct (H 1 (1, 0, 0)%Z) as (Hx & _). assert (E : first (1, 0, 0)%Z = false) by reflexivity.
  destruct (c227_waves_partial o8 0 1 (fun _ => RtoC 1) (fun _ => RtoC 0) azero azero 1 (1, 0, 0)%Z E) as (_ & W & _). rewrite W in Hx. clear W H.
  unfold vafter, after in Hx. rewrite cx_mk in Hx.
  pose proof (Kappa_neq o8 0 1 o8_pos Rlt_0_1 (1, 0, 0)%Z E) as N. set (k := Kappa_over_ic o8 0 1 (1, 0, 0)%Z) in *.
  set (F := cx (get_FxFyFetafft o8 0 1 _) _) in Hx. set (u := cx (velocity_of_state o8 0 1 _) _) in Hx. clearbody F u k.
  assert (Z : (Ci * RtoC (Kx o8 (1, 0, 0)%Z / K2_not0 o8 (1, 0, 0)%Z) * ((RtoC 1 - RtoC 0) / k))%C = RtoC 0).
  { transitivity (u + RtoC 1 * F - (u + RtoC 1 * (F - Ci * RtoC (Kx o8 (1, 0, 0)%Z / K2_not0 o8 (1, 0, 0)%Z) * ((RtoC 1 - RtoC 0) / k))))%C; [ring | rewrite Hx; ring]. }
  assert (Z' : (Ci * RtoC (Kx o8 (1, 0, 0)%Z / K2_not0 o8 (1, 0, 0)%Z))%C = RtoC 0).
  { transitivity (Ci * RtoC (Kx o8 (1, 0, 0)%Z / K2_not0 o8 (1, 0, 0)%Z) * ((RtoC 1 - RtoC 0) / k) * k)%C; [field; exact N | rewrite Z; ring]. }
  apply (f_equal snd) in Z'. cbn [Ci RtoC Cmult fst snd] in Z'.
  destruct (K2_eq o8 o8_pos (1, 0, 0)%Z E) as (K & P & _). rewrite K in Z'. rewrite (sw_Kx o8 _ o8_pos) in Z'.
  assert (Q : 0 < wx o8 (1, 0, 0)%Z / K2_2d o8 (1, 0, 0)%Z).
  { apply Rdiv_lt_0_compat; [|exact P]. unfold wx, mx, o8. cbn [fst Lx]. replace (2 * PI * 1 / (2 * PI)) with 1 by (field; pose proof PI_RGT_0; lra). lra. }
  lra.
Qed.

(** ** Examples *)

Example c225_example : good_modes o8 ms3 /\ vreal ms3 (conv_ux, conv_uy, conv_eta) /\ moment o8 ms3 1 2 (conv_ux, conv_uy, conv_eta) <> 0.
Proof.
  split; [exact ms3_good|]. split; [apply conv_real|]. rewrite conv_moment2.
  assert (P : 0 < 8 * PI / Lx o8) by (apply Rdiv_lt_0_compat; pose proof PI_RGT_0; unfold o8; cbn; lra). lra.
Qed.
Example c226_example : gmoment o8 ms3 (fun m => if mode_eqb m (0, 0, 0)%Z then RtoC 1 else RtoC 0) 2 <> 0.
Proof.
  rewrite (moment2_square o8 ms3 ms3_good).
  - unfold square, total, ms3, norm2. cbn. lra.
  - intros m H. cbn in H. destruct H as [<-|[<-|[<-|[]]]]; apply C_eq; cbn; ring.
Qed.
Example c227_example : same_solver (F_qapam azero azero azero) (F_qapam azero azero azero) /\ first (1, 0, 0)%Z = false.
Proof. split; [exact I | reflexivity]. Qed.

Print Assumptions c225_values.
Print Assumptions c225_sum.
Print Assumptions c225_conversion_partial.
Print Assumptions c225_kinetic_partial.
Print Assumptions c225_modified_partial.
Print Assumptions c225_modified_refuted.
Print Assumptions c226_values.
Print Assumptions c226_bounds.
Print Assumptions c226_scale.
Print Assumptions c227_partial.
Print Assumptions c227_waves_partial.
Print Assumptions c227_waves_refuted.
