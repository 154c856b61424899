(** * Shallow water: advection by the rotational velocity (sw1l.modified and sw1l.exactlin.modified): C108 *)

From Coq Require Import Reals Lra ZArith Lia List Bool FunctionalExtensionality.
From Coquelicot Require Import Coquelicot.
From Verif Require Import CExp DFT Alias_Model Alias_Proofs Oper_Model Oper_Proofs Budget_Model Budget_Spec Budget_Proofs Budget2D_Proofs
  Budget2D_Props BudgetEq_Props Means_Model Means_Spec Means_Proofs Means_Props SW_Spec SW_Model SWNormal_Model SW_Proofs SWModes_Props SWEq_Props SWOnly_Props.
Import ListNotations.
Local Open Scope R_scope.

Section Modified.
Variable o : oper.
Variable ms : list mode.
Variable dea : mode -> bool.
Variables f c2 : R.
Hypothesis Hg : good_modes o ms.
Hypothesis Hc : 0 < c2.
Hypothesis Hd : forall m, In m ms -> dea m = false.

Let Ho : oper_pos o := proj1 Hg.
Notation qapam := (qapamfft_from_uxuyetafft o f c2).
Notation uxuyeta := (uxuyetafft_from_qapamfft o f c2).

Lemma ux_rot_first rot m : first m = true -> ux_from_rot o rot m = RtoC 0 /\ uy_from_rot o rot m = RtoC 0.
Proof.
  intros N. destruct (no_xy_K o m N) as [K1 K2]. unfold ux_from_rot, uy_from_rot. rewrite K1, K2. unfold Rdiv. rewrite !Rmult_0_l. split; ring.
Qed.

Lemma advection_rot rot rot' g k : (forall m, In m ms -> first m = false -> rot m = rot' m) -> advection o ms rot g k = advection o ms rot' g k.
Proof.
  intros H. unfold advection.
  rewrite (ifft_fun o ms (ux_from_rot o rot) (ux_from_rot o rot')), (ifft_fun o ms (uy_from_rot o rot) (uy_from_rot o rot')); [reflexivity| |].
  - intros m Hm. destruct (first m) eqn:E; [destruct (ux_rot_first rot m E) as [_ ->]; destruct (ux_rot_first rot' m E) as [_ ->]; reflexivity|]. unfold uy_from_rot. rewrite (H m Hm E). reflexivity.
  - intros m Hm. destruct (first m) eqn:E; [destruct (ux_rot_first rot m E) as [-> _]; destruct (ux_rot_first rot' m E) as [-> _]; reflexivity|]. unfold ux_from_rot. rewrite (H m Hm E). reflexivity.
Qed.

Lemma rot_vort ux uy m : rot_from_vec o ux uy m = vort o ux uy m.
Proof. unfold rot_from_vec, vort. rewrite (sw_Kx o m Ho), (sw_Ky o m Ho). ring. Qed.

(** sw1l.modified: the three fields are transported by the rotational velocity; the other terms are linear *)
Definition transported (u : vfield) : vfield :=
  (fun k => - transport_2d o ms (vort o (cx u) (cy u)) (cx u) k, fun k => - transport_2d o ms (vort o (cx u) (cy u)) (cy u) k,
   fun k => - transport_2d o ms (vort o (cx u) (cy u)) (cz u) k)%C.

Lemma FNL rot a k : In k ms ->
  fft o (gsub (gmul (gopp (ifft o ms (ux_from_rot o rot))) (ifft o ms (px_fft o a))) (gmul (ifft o ms (uy_from_rot o rot)) (ifft o ms (py_fft o a)))) k
  = (- advection o ms rot a k)%C.
Proof.
  intros Hk. rewrite (fft_ext o _ (gopp (gadd (gmul (ifft o ms (ux_from_rot o rot)) (ifft o ms (px_fft o a))) (gmul (ifft o ms (uy_from_rot o rot)) (ifft o ms (py_fft o a)))))).
  - rewrite fft_opp, fft_add. reflexivity.
  - intros. unfold gsub, gopp, gadd, gmul, lift2. ring.
Qed.

Theorem c108_equations u k : In k ms -> agree k (sw1l_modified o ms dea f c2 u) (splus (transported u) (linear_sw o f c2 u)).
Proof.
  intros Hk. destruct u as [[ux uy] eta]. unfold sw1l_modified, agree, splus, transported, linear_sw. rewrite !cx_mk, !cy_mk, !cz_mk. unfold dealiasing. rewrite !(Hd k Hk).
  unfold fsub, fopp, fscal. rewrite !fft_add, !fft_rsc, !(fft_id o ms Hg), !FNL by exact Hk.
  change (fft o (gmul (ifft o ms (ux_from_rot o (rot_from_vec o ux uy))) (ifft o ms (px_fft o eta))) k
    + fft o (gmul (ifft o ms (uy_from_rot o (rot_from_vec o ux uy))) (ifft o ms (py_fft o eta))) k)%C with (advection o ms (rot_from_vec o ux uy) eta k).
  rewrite !(advection_rot (rot_from_vec o ux uy) (vort o ux uy)) by (intros; apply rot_vort). rewrite !(transport_advection o ms Hg) by exact Hk.
  unfold px_fft, py_fft, divfft_from_vecfft, gradx, grady, dvg. rewrite (sw_Kx o k Ho), (sw_Ky o k Ho), RtoC_opp. repeat split; ring.
Qed.

(** sw1l.modified conserves the quadratic energy *)
Lemma advection_inner rot a : real_field ms a -> rate ms (fun _ => 1) a (fun k => - transport_2d o ms rot a k)%C = 0.
Proof.
  intros Ra. pose proof Hg as (_ & Hs & H0 & Ha). unfold rate.
  rewrite (total_ext ms _ (fun m => -1 * fst (Cconj (a m) * advection o ms rot a m)%C)).
  - rewrite total_scal. rewrite (total_lsum ms _ (fun m => Cconj (a m) * advection o ms rot a m)%C) by reflexivity.
    rewrite (conj_opp ms a (advection o ms rot a) Ra), (advection_square o ms) by assumption. cbn. ring.
  - intros m Hm. rewrite (transport_advection o ms Hg) by exact Hm. generalize (transport_2d o ms rot a m) (a m). intros [x y] [z w]. cbn. ring.
Qed.

Theorem c108_energy s t : vreal ms (s t) -> vmoves ms s t (sw1l_modified o ms dea f c2 (s t)) ->
  is_derive (fun x => total ms (quadratic c2 (s x))) t 0.
Proof.
  intros (R1 & R2 & R3) (M1 & M2 & M3).
  apply (is_derive_ext (fun x => square ms (cx (s x)) + square ms (cy (s x)) + c2 * square ms (cz (s x)))).
  { intros x. unfold square, quadratic. rewrite <- total_scal, <- !total_plus. apply total_ext. intros. field. }
  eapply is_derive_eq.
  - apply (derive_add (fun x => square ms (cx (s x)) + square ms (cy (s x))) (fun x => c2 * square ms (cz (s x)))).
    + apply (derive_add (fun x => square ms (cx (s x))) (fun x => square ms (cy (s x)))); apply derive_1; eassumption.
    + apply (is_derive_scal (fun x => square ms (cz (s x))) t c2). apply derive_1. eassumption.
  - cbv beta. pose proof (c108_equations (s t)) as E. destruct (s t) as [[ux uy] eta]. rewrite !cx_mk, !cy_mk, !cz_mk in *.
    transitivity (rate ms (fun _ => 1) ux (cx (transported (ux, uy, eta))) + rate ms (fun _ => 1) uy (cy (transported (ux, uy, eta))) + c2 * rate ms (fun _ => 1) eta (cz (transported (ux, uy, eta)))).
    + unfold rate. rewrite <- !total_scal, <- !total_plus. apply total_ext. intros m Hm. destruct (E m Hm) as (-> & -> & ->). unfold splus. rewrite !cx_mk, !cy_mk, !cz_mk.
      unfold linear_sw. rewrite !cx_mk, !cy_mk, !cz_mk. unfold gradx, grady, dvg. generalize (cx (transported (ux, uy, eta)) m) (cy (transported (ux, uy, eta)) m) (cz (transported (ux, uy, eta)) m) (ux m) (uy m) (eta m) (wx o m) (wy o m).
      intros [p p'] [q q'] [r r'] [a a'] [b b'] [c c'] x y. cbn. ring.
    + unfold transported. rewrite !cx_mk, !cy_mk, !cz_mk. rewrite !advection_inner by assumption. ring.
Qed.

(** sw1l.exactlin.modified: the same equations *)
Lemma flux_form rot a k : In k ms ->
  fopp (divfft_from_vecfft o (fft o (gmul (ifft o ms (ux_from_rot o rot)) (ifft o ms a))) (fft o (gmul (ifft o ms (uy_from_rot o rot)) (ifft o ms a)))) k
  = (- advection o ms rot a k)%C.
Proof.
  intros Hk. unfold fopp, divfft_from_vecfft, advection. rewrite !(fft_conv o ms Hg), (sw_Kx o k Ho), (sw_Ky o k Ho) by exact Hk. f_equal.
  rewrite Cmult_plus_distr_l, !Cmult_assoc. rewrite (leibniz ms (wx o)), (leibniz ms (wy o)) by (intros; (apply wx_add || apply wy_add); assumption).
  assert (Z : (convolution ms (fun m => Ci * RtoC (wx o m) * ux_from_rot o rot m)%C a k + convolution ms (fun m => Ci * RtoC (wy o m) * uy_from_rot o rot m)%C a k)%C = RtoC 0).
  { unfold convolution. rewrite <- lsum_plus. apply lsum_zero. intros p _. rewrite <- lsum_plus. apply lsum_zero. intros q _. destruct (mode_eqb (madd p q) k); [|ring].
    unfold ux_from_rot, uy_from_rot. rewrite (sw_Kx o p Ho), (sw_Ky o p Ho). unfold Rdiv. rewrite !RtoC_mult. ring. }
  rewrite (conv_ext ms (ux_from_rot o rot) (ux_from_rot o rot) (px_fft o a) (fun m => Ci * RtoC (wx o m) * a m)%C k), (conv_ext ms (uy_from_rot o rot) (uy_from_rot o rot) (py_fft o a) (fun m => Ci * RtoC (wy o m) * a m)%C k)
    by (intros; unfold px_fft, py_fft; rewrite ?(sw_Kx o _ Ho), ?(sw_Ky o _ Ho); reflexivity).
  match goal with |- (?a + ?b + (?c + ?d))%C = (?b + ?d)%C => transitivity ((a + c) + (b + d))%C; [ring|] end. rewrite Z. ring.
Qed.

Lemma exactlin_modified_nonlin s k : In k ms -> agree k (exactlin_modified o ms dea f c2 s) (qapam (transported (uxuyeta s))).
Proof.
  intros Hk. unfold exactlin_modified. pose proof (vort_uxuy o f c2 Ho Hc s) as W. destruct s as [[q ap] am]. destruct (uxuyeta (q, ap, am)) as [[ux uy] eta].
  rewrite cx_mk, cy_mk in W. set (rot := fadd (rotfft_from_qfft o f c2 q) (rotfft_from_afft o f c2 (fadd ap am))).
  assert (E : forall m, In m ms -> first m = false -> rot m = vort o ux uy m).
  { intros m Hm Em. rewrite (W m Em). unfold rot, fadd at 1. rewrite (rot_q o f c2 Ho Hc), (rot_a o f c2 Ho Hc) by exact Em. unfold rot_of, fadd. rewrite cx_mk, cy_mk, cz_mk. ring. }
  assert (A : agree k (fopp (divfft_from_vecfft o (fft o (gmul (ifft o ms (ux_from_rot o rot)) (ifft o ms ux))) (fft o (gmul (ifft o ms (uy_from_rot o rot)) (ifft o ms ux)))),
      fopp (divfft_from_vecfft o (fft o (gmul (ifft o ms (ux_from_rot o rot)) (ifft o ms uy))) (fft o (gmul (ifft o ms (uy_from_rot o rot)) (ifft o ms uy)))),
      fopp (divfft_from_vecfft o (fft o (gmul (ifft o ms (ux_from_rot o rot)) (ifft o ms eta))) (fft o (gmul (ifft o ms (uy_from_rot o rot)) (ifft o ms eta)))))
      (transported (ux, uy, eta))).
  { unfold agree, transported. rewrite !cx_mk, !cy_mk, !cz_mk. rewrite !flux_form by exact Hk. rewrite !(advection_rot rot (vort o ux uy)) by exact E.
    rewrite !(transport_advection o ms Hg) by exact Hk. repeat split. }
  apply (qapam_local o f c2) in A. revert A. generalize (qapam (transported (ux, uy, eta))). intros w A.
  destruct (qapam _) as [[Nq Np] Nm]. unfold agree, dealiasing in *. rewrite !cx_mk, !cy_mk, !cz_mk in *. rewrite (Hd k Hk). exact A.
Qed.

Lemma modified_tendency s k : In k ms ->
  agree k (qapam (sw1l_modified o ms dea f c2 (uxuyeta s))) (splus (exactlin_modified o ms dea f c2 s) (qapam (linear_sw o f c2 (uxuyeta s)))).
Proof.
  intros Hk. eapply agree_trans; [apply qapam_local; apply c108_equations; exact Hk|].
  eapply agree_trans; [apply qapam_plus|]. apply splus_agree; [|repeat split]. apply agree_sym. apply exactlin_modified_nonlin; assumption.
Qed.

Theorem c108_exactlin_partial s k : In k ms -> ~ mean_mode k ->
  agree k (qapam (sw1l_modified o ms dea f c2 (uxuyeta s))) (with_lin o f c2 (exactlin_modified o ms dea f c2 s) s).
Proof.
  intros Hk N. eapply agree_trans; [apply modified_tendency; assumption|]. destruct (c105_modes_partial o f c2 Ho Hc s k N) as (_ & R2 & R3).
  pose proof N as E. apply not_mean_first in E. destruct (qapam_linear o f c2 Ho Hc (uxuyeta s) k E) as (L1 & L2 & L3). unfold splus, with_lin, freq_complex, agree.
  unfold cx, cy, cz in *. cbn [fst snd] in *. rewrite R2 in L2. rewrite R3 in L3. rewrite L1, L2, L3. repeat split; ring.
Qed.

Lemma linear_mean s k : mean_mode k ->
  agree k (qapam (linear_sw o f c2 (uxuyeta s))) (fun _ => RtoC 0, fun m => - (Ci * RtoC f) * cy s m, fun m => Ci * RtoC f * cz s m)%C.
Proof.
  intros N. apply mean_first in N.
  rewrite (qapam_split o f c2 (linear_sw o f c2 (uxuyeta s))). destruct (qapam_first o f c2 (cx (linear_sw o f c2 (uxuyeta s))) (cy (linear_sw o f c2 (uxuyeta s))) (cz (linear_sw o f c2 (uxuyeta s))) k N) as (L1 & L2 & L3).
  unfold agree. rewrite L1, L2, L3. destruct (uxuyeta_first o f c2 Hc s k N) as (U1 & U2 & U3).
  destruct (no_xy_K o k N) as [K1 K2]. unfold linear_sw, gradx, grady. unfold cx, cy, cz in *. cbn [fst snd] in *.
  rewrite U1, U2, U3, <- (sw_Kx o k Ho), <- (sw_Ky o k Ho), K1, K2.
  split; [reflexivity|]. generalize (snd (fst s) k) (snd s k). intros [a b] [c d]. split; apply C_eq; cbn; field.
Qed.

Theorem c108_exactlin_mean_partial s k : 0 <= f -> In k ms -> mean_mode k ->
  agree k (qapam (sw1l_modified o ms dea f c2 (uxuyeta s))) (with_lin o f c2 (exactlin_modified o ms dea f c2 s) s).
Proof.
  intros Hf Hk N. eapply agree_trans; [apply modified_tendency; assumption|]. eapply agree_trans; [apply splus_agree; [|apply linear_mean; exact N]; repeat split|].
  apply mean_first in N. destruct (no_xy_K o k N) as [K1 K2].
  assert (W : sqrt (f ^ 2 + c2 * K2_2d o k) = f).
  { unfold K2_2d. rewrite K1, K2. replace (f ^ 2 + c2 * (0 ^ 2 + 0 ^ 2)) with (f ^ 2) by ring. apply sqrt_pow2. exact Hf. }
  unfold splus, with_lin, freq_complex, agree, cx, cy, cz. cbn [fst snd]. rewrite W. repeat split; ring.
Qed.
End Modified.

Theorem c108_mean_refuted : exists o ms f c2 s k, good_modes o ms /\ 0 < c2 /\ In k ms
  /\ cy (with_lin o f c2 (exactlin_modified o ms (fun _ => false) f c2 s) s) k
     <> cy (qapamfft_from_uxuyetafft o f c2 (sw1l_modified o ms (fun _ => false) f c2 (uxuyetafft_from_qapamfft o f c2 s))) k.
Proof.
  exists o8, ms3, (-1), 1, waves1, (0, 0, 0)%Z. split; [exact ms3_good|]. split; [lra|]. assert (I : In (0, 0, 0)%Z ms3) by (cbn; tauto). split; [exact I|].
  destruct (modified_tendency o8 ms3 (fun _ => false) (-1) 1 ms3_good ltac:(lra) (fun _ _ => eq_refl) waves1 (0, 0, 0)%Z I) as (_ & -> & _).
  destruct (linear_mean o8 ms3 (-1) 1 ms3_good ltac:(lra) waves1 (0, 0, 0)%Z (conj eq_refl eq_refl)) as (_ & L & _). rewrite cy_mk in L.
  unfold splus, with_lin, freq_complex. rewrite !cy_mk, L. cbn [fst snd].
  assert (W : sqrt ((-1) ^ 2 + 1 * K2_2d o8 (0, 0, 0)%Z) = 1).
  { unfold K2_2d. rewrite (sw_Kx o8 _ o8_pos), (sw_Ky o8 _ o8_pos), wx8, wy8. replace ((-1) ^ 2 + 1 * (0 ^ 2 + 0 ^ 2)) with (1 ^ 2) by ring. apply sqrt_pow2. lra. }
  rewrite W. unfold cy. generalize (snd (fst (exactlin_modified o8 ms3 (fun _ => false) (-1) 1 waves1)) (0, 0, 0)%Z). intros z H. apply (f_equal (fun w => snd w - snd z)) in H. cbn in H. lra.
Qed.

Example c108_example : exists s, vreal ms3 (s 0) /\ vmoves ms3 s 0 (sw1l_modified o8 ms3 (fun _ => false) 0 1 (s 0)).
Proof.
  set (u := (azero, azero, azero) : vfield). set (F := sw1l_modified o8 ms3 (fun _ => false) 0 1 u). exists (fun x => vafter x F u). assert (S0 : vafter 0 F u = u).
  { unfold u, vafter. rewrite !cx_mk, !cy_mk, !cz_mk. assert (A : forall a, after 0 a azero = azero) by (intros a; unfold after, azero; extensionality m; ring). rewrite !A. reflexivity. }
  rewrite S0. split; [split; [|split]; intros m _; unfold u; rewrite ?cx_mk, ?cy_mk, ?cz_mk; apply C_eq; cbn; ring|]. fold F. unfold vafter.
  assert (G : forall A a, moves ms3 (fun x => after x A a) 0 A).
  { intros A a m _. unfold after. generalize (A m) (a m). intros z w. split; cbn; auto_derive; trivial; ring. }
  split; [|split]; rewrite ?cx_mk, ?cy_mk, ?cz_mk; apply G.
Qed.

Print Assumptions c108_equations.
Print Assumptions c108_energy.
Print Assumptions c108_exactlin_partial.
Print Assumptions c108_exactlin_mean_partial.
Print Assumptions c108_mean_refuted.
