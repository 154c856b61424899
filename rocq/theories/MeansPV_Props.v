(** * Charney potential enstrophy of sw1l: C274 *)

From Coq Require Import Reals Lra ZArith Lia String List Bool FunctionalExtensionality.
From Coquelicot Require Import Coquelicot.
From Verif Require Import CExp DFT Alias_Model Alias_Proofs Oper_Model Oper_Proofs Budget_Model Budget_Spec Budget_Proofs Budget2D_Proofs
  Budget2D_Props BudgetEq_Props Means_Model Means_Spec Means_Proofs Means_Props Means3D_Props MeansSW_Props SW_Spec SW_Model SWNormal_Model SW_Proofs SWModes_Props SWEq_Props
  SWOnly_Props SWEnergy_Props MeansPV_Model.
Import ListNotations.
Local Open Scope R_scope.

(** ** Specification: the quasi-geostrophic potential vorticity of a state, zeta - f eta *)
Definition pv (o : oper) (f : R) (s : sstate) (m : mode) : C := (vort o (cx s) (cy s) m - RtoC f * cz s m)%C.

Section PV.
Variable o : oper.
Variable ms : list mode.
Hypothesis Ho : oper_pos o.
Variable f_d f_h : mode -> R.
Variable f : R.

Lemma code_pv ux uy eta m : charney_pv_fft f (rot_from_vec o ux uy) eta m = pv o f (ux, uy, eta) m.
Proof. unfold charney_pv_fft, pv, rot_from_vec, vort, cx, cy, cz. cbn [fst snd]. rewrite (sw_Kx o m Ho), (sw_Ky o m Ho). ring. Qed.

Lemma code_pe ux uy eta m : charney_pe_fft f (rot_from_vec o ux uy) eta m = norm2 (pv o f (ux, uy, eta) m) / 2.
Proof. unfold charney_pe_fft. rewrite code_pv, abs2_norm2. reflexivity. Qed.

Lemma pv_real s : vreal ms s -> real_field ms (pv o f s).
Proof.
  intros (R1 & R2 & R3) m Hm. unfold pv. rewrite (real_rot o ms _ _ R1 R2 m Hm), (R3 m Hm). apply C_eq; cbn; ring.
Qed.

Lemma pv_value s jx jy jz : value o ms (pv o f s) jx jy jz = value o ms (vort o (cx s) (cy s)) jx jy jz - f * value o ms (cz s) jx jy jz.
Proof.
  unfold value, Rminus. rewrite <- total_scal, <- total_opp, <- total_plus. apply total_ext. intros m _. unfold pv. cbn. ring.
Qed.

(** the written value: half of the mean of the square of the potential vorticity, over the modes and over the grid *)
Theorem c274_value s : good_modes o ms -> vreal ms s ->
  let w := written (charney_means o ms f_d f_h f s) in
  w "CPE"%string = square ms (pv o f s)
  /\ w "CPE"%string = mean o (fun jx jy jz => (value o ms (vort o (cx s) (cy s)) jx jy jz - f * value o ms (cz s) jx jy jz) ^ 2 / 2).
Proof.
  intros (_ & Hs & Hz & Ha) Rs w.
  assert (E : w "CPE"%string = square ms (pv o f s)).
  { destruct s as [[ux uy] eta]. unfold w. transitivity (sum_wavenumbers ms (charney_pe_fft f (rot_from_vec o ux uy) eta)); [reflexivity|].
    unfold sum_wavenumbers, square. rewrite rsum_total. apply total_ext. intros m _. apply code_pe. }
  split; [exact E|]. rewrite E. pose proof (pv_real s Rs) as R.
  pose proof (inner_grid o ms Hs (pv o f s) (ifft o ms (pv o f s)) (value o ms (pv o f s)) R (fun jx jy jz => ifft_value o ms Hs _ jx jy jz R)) as G.
  transitivity (1 / 2 * sum_wavenumbers ms (fun m => inner_prod (pv o f s m) (fft o (ifft o ms (pv o f s)) m))).
  - unfold sum_wavenumbers, square. rewrite rsum_total, <- total_scal. apply total_ext. intros m Hm.
    rewrite (fft_ifft o ms) by (assumption || apply Hs). unfold inner_prod, norm2. cbn. field.
  - rewrite G, <- mean_scal. apply mean_ext. intros jx jy jz. rewrite pv_value. field.
Qed.

(** the rate of change: the written dissipation is what the damping of the velocity and of the surface removes *)
Lemma pv_moves s t g : vmoves ms s t g -> moves ms (fun x => pv o f (s x)) t (pv o f g).
Proof.
  intros (M1 & M2 & M3) m Hm. destruct (M1 m Hm) as [A1 B1]. destruct (M2 m Hm) as [A2 B2]. destruct (M3 m Hm) as [A3 B3].
  assert (L : forall (a b c : R -> R) (p q r a' b' c' : R), is_derive a t a' -> is_derive b t b' -> is_derive c t c' ->
    is_derive (fun x => p * a x + q * b x + r * c x) t (p * a' + q * b' + r * c')).
  { intros a b c p q r a' b' c' H1 H2 H3.
    apply (is_derive_plus (fun x => p * a x + q * b x) (fun x => r * c x) t (p * a' + q * b') (r * c')).
    - apply (is_derive_plus (fun x => p * a x) (fun x => q * b x) t (p * a') (q * b')); apply is_derive_scal; assumption.
    - apply is_derive_scal. assumption. }
  split.
  - pose proof (L _ _ _ (- wx o m) (wy o m) (- f) _ _ _ B2 B1 A3) as D.
    replace (fst (pv o f g m)) with (- wx o m * snd (cy g m) + wy o m * snd (cx g m) + - f * fst (cz g m)) by (unfold pv, vort; cbn; ring).
    eapply is_derive_ext; [|exact D]. intros x. unfold pv, vort. cbn. ring.
  - pose proof (L _ _ _ (wx o m) (- wy o m) (- f) _ _ _ A2 A1 B3) as D.
    replace (snd (pv o f g m)) with (wx o m * fst (cy g m) + - wy o m * fst (cx g m) + - f * snd (cz g m)) by (unfold pv, vort; cbn; ring).
    eapply is_derive_ext; [|exact D]. intros x. unfold pv, vort. cbn. ring.
Qed.

Lemma pv_damped freq g s m : pv o f (vdamped freq g s) m = damped freq (pv o f g) (pv o f s) m.
Proof. unfold pv, vdamped, damped, vort, cx, cy, cz. cbn [fst snd]. ring. Qed.

Theorem c274_dissipation G s t : vmoves ms s t (vdamped (freq_lin (f_d, f_h)) G (s t)) ->
  let w := written (charney_means o ms f_d f_h f (s t)) in
  is_derive (fun x => square ms (pv o f (s x))) t (product ms (pv o f (s t)) (pv o f G) - w "epsCPE_tot"%string)
  /\ w "epsCPE_tot"%string = w "epsCPE"%string + w "epsCPE_hypo"%string
  /\ w "epsCPE"%string = total ms (fun m => f_d m * norm2 (pv o f (s t) m))
  /\ w "epsCPE_hypo"%string = total ms (fun m => f_h m * norm2 (pv o f (s t) m)).
Proof.
  intros M w. split.
  2:{ unfold w. destruct (s t) as [[ux uy] eta]. split; [reflexivity|]. split.
      - change (eps ms f_d (charney_pe_fft f (rot_from_vec o ux uy) eta) = total ms (fun m => f_d m * norm2 (pv o f (ux, uy, eta) m))).
        unfold eps, sum_wavenumbers. rewrite rsum_total. apply total_ext. intros m _. rewrite code_pe. field.
      - change (eps_hypo ms f_h (charney_pe_fft f (rot_from_vec o ux uy) eta) = total ms (fun m => f_h m * norm2 (pv o f (ux, uy, eta) m))).
        unfold eps_hypo, sum_wavenumbers. rewrite rsum_total. apply total_ext. intros m _. rewrite code_pe. field. }
  pose proof (derive_1 ms (fun x => pv o f (s x)) t _ (pv_moves s t _ M)) as D. cbv beta in D.
  eapply is_derive_eq; [exact D|]. rewrite (rate_ext ms one _ _ _ (fun m _ => pv_damped _ _ _ m)), (rate_damped ms one).
  f_equal.
  - unfold rate, product, one. apply total_ext. intros. ring.
  - unfold w. destruct (s t) as [[ux uy] eta].
    transitivity (eps ms f_d (charney_pe_fft f (rot_from_vec o ux uy) eta) + eps_hypo ms f_h (charney_pe_fft f (rot_from_vec o ux uy) eta)); [|reflexivity].
    unfold eps, eps_hypo. rewrite <- sum_plus. unfold sum_wavenumbers. rewrite rsum_total. apply total_ext. intros m _.
    rewrite code_pe. unfold freq_lin, one. cbn [fst snd]. field.
Qed.

(** the linear equations only change the potential enstrophy by the dissipation *)
Lemma pv_linear c2 s m : pv o f (linear_sw o f c2 s) m = RtoC 0.
Proof. unfold pv, linear_sw, vort, dvg, gradx, grady, cx, cy, cz. cbn [fst snd]. ring. Qed.

Theorem c274_linear c2 s t : vmoves ms s t (vdamped (freq_lin (f_d, f_h)) (linear_sw o f c2 (s t)) (s t)) ->
  is_derive (fun x => square ms (pv o f (s x))) t (- written (charney_means o ms f_d f_h f (s t)) "epsCPE_tot"%string).
Proof.
  intros M. eapply is_derive_eq; [exact (proj1 (c274_dissipation _ s t M))|].
  replace (product ms (pv o f (s t)) (pv o f (linear_sw o f c2 (s t)))) with 0; [ring|].
  unfold product. rewrite (total_ext ms _ (fun _ => 0 * 0)).
  - rewrite total_scal. ring.
  - intros m _. rewrite pv_linear. cbn. ring.
Qed.

(** the dissipation is positive *)
Theorem c274_sign s : (forall m, In m ms -> 0 <= f_d m /\ 0 <= f_h m) ->
  let w := written (charney_means o ms f_d f_h f s) in 0 <= w "epsCPE"%string /\ 0 <= w "epsCPE_hypo"%string.
Proof.
  intros H w. unfold w. destruct s as [[ux uy] eta].
  assert (N : forall m, 0 <= charney_pe_fft f (rot_from_vec o ux uy) eta m).
  { intros m. rewrite code_pe. unfold norm2. pose proof (pow2_ge_0 (fst (pv o f (ux, uy, eta) m))). pose proof (pow2_ge_0 (snd (pv o f (ux, uy, eta) m))). lra. }
  assert (T : forall g l, (forall m, In m l -> 0 <= g m) -> 0 <= total l g).
  { intros g l. induction l as [|m l IH]; intros P; [cbn; lra|]. cbn. pose proof (P m (or_introl eq_refl)).
    assert (0 <= total l g) by (apply IH; intros; apply P; right; assumption). unfold total in *. lra. }
  split.
  - change (0 <= eps ms f_d (charney_pe_fft f (rot_from_vec o ux uy) eta)).
    unfold eps, sum_wavenumbers. rewrite rsum_total. apply T. intros m Hm. destruct (H m Hm) as [A _]. pose proof (N m). apply Rmult_le_pos; lra.
  - change (0 <= eps_hypo ms f_h (charney_pe_fft f (rot_from_vec o ux uy) eta)).
    unfold eps_hypo, sum_wavenumbers. rewrite rsum_total. apply T. intros m Hm. destruct (H m Hm) as [_ A]. pose proof (N m). apply Rmult_le_pos; lra.
Qed.

(** the enstrophy *)
Theorem c274_enstrophy ux uy : compute_enstrophy ms (rot_from_vec o ux uy) = square ms (vort o ux uy).
Proof.
  unfold compute_enstrophy, enstrophy_fft, sum_wavenumbers, square. rewrite rsum_total. apply total_ext. intros m _.
  rewrite abs2_norm2. do 2 f_equal. unfold rot_from_vec, vort. rewrite (sw_Kx o m Ho), (sw_Ky o m Ho). ring.
Qed.
End PV.

(** the hypotheses can be met: the state at rest *)
Example c274_example o ms f c2 f_d f_h : vreal ms sw_zero
  /\ forall t, vmoves ms (fun _ => sw_zero) t (vdamped (freq_lin (f_d, f_h)) (linear_sw o f c2 sw_zero) sw_zero).
Proof.
  split.
  - split; [|split]; intros m _; apply C_eq; cbn; ring.
  - intros t. assert (Z : forall b : mode -> C, (forall m, b m = RtoC 0) -> moves ms (fun _ => fun _ : mode => RtoC 0) t b).
    { intros b Hb m _. rewrite Hb. cbn. split; exact (is_derive_const (0 : R) t). }
    split; [|split]; apply Z; intros m; unfold vdamped, damped, linear_sw, dvg, gradx, grady, sw_zero, cx, cy, cz; cbn [fst snd]; ring.
Qed.

Print Assumptions c274_value.
Print Assumptions c274_dissipation.
Print Assumptions c274_linear.
Print Assumptions c274_sign.
Print Assumptions c274_enstrophy.
