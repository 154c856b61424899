(** * Shallow water: forcing with a given rate of injection of energy (Waves, WavesVortices, Potential): C110 *)

From Coq Require Import Reals Lra ZArith Lia List Bool FunctionalExtensionality.
From Coquelicot Require Import Coquelicot.
From Verif Require Import CExp DFT Alias_Model Alias_Proofs Oper_Model Oper_Proofs Budget_Model Budget_Spec Budget_Proofs Budget2D_Proofs
  Budget2D_Props BudgetEq_Props Means_Spec SW_Spec SW_Model SWNormal_Model SW_Proofs SWModes_Props SWEq_Props SWOnly_Props.
Import ListNotations.
Local Open Scope R_scope.

Lemma total_0 ms : total ms (fun _ => 0) = 0.
Proof. rewrite (total_ext ms _ (fun _ => 0 * 0)) by (intros; ring). rewrite total_scal. ring. Qed.

Section Forcing.
Variable o : oper.
Variable ms : list mode.
Variables f c2 : R.
Hypothesis Ho : oper_pos o.
Hypothesis Hc : 0 < c2.

(** scalar product of the quadratic energy *)
Definition dot (v w : vfield) (m : mode) : R := re_prod (cx v m) (cx w m) + re_prod (cy v m) (cy w m) + c2 * re_prod (cz v m) (cz w m).

Lemma sum_wn_total g : sum_wn ms g = total ms g.
Proof. unfold sum_wn. symmetry. apply total_lsum. reflexivity. Qed.

Lemma quadratic_after dt v F : total ms (quadratic c2 (vafter dt F v)) = total ms (quadratic c2 v) + dt * (dt / 2 * total ms (dot F F) + total ms (dot v F)).
Proof.
  rewrite <- total_scal, <- total_plus, <- total_scal, <- total_plus. apply total_ext. intros m _. unfold quadratic, dot, vafter, after, norm2, re_prod. rewrite !cx_mk, !cy_mk, !cz_mk.
  generalize (cx v m) (cy v m) (cz v m) (cx F m) (cy F m) (cz F m). intros [a a'] [b b'] [c c'] [x x'] [y y'] [z z']. cbn. field.
Qed.

Lemma abc_dot dt rate F v : abc_quadratic ms c2 dt rate F v = (dt / 2 * total ms (dot F F), total ms (dot v F), - rate).
Proof.
  destruct F as [[Fx Fy] Fe], v as [[vx vy] ve]. unfold abc_quadratic. rewrite !sum_wn_total. apply f_equal2; [apply f_equal2|reflexivity].
  - transitivity (dt / 2 * (total ms (fun m => cabs2 (Fx m)) + total ms (fun m => cabs2 (Fy m)) + c2 * total ms (fun m => cabs2 (Fe m)))); [unfold Rdiv; ring|].
    f_equal. rewrite <- total_scal, <- !total_plus. apply total_ext. intros. unfold dot, cabs2, re_prod, cx, cy, cz. cbn [fst snd]. ring.
  - rewrite <- total_scal, <- !total_plus. apply total_ext. intros. unfold dot, cx, cy, cz. cbn [fst snd]. ring.
Qed.

(** values of the fields of a and of q *)
Lemma wave_first F m : first m = true -> cx (uxuyetafft_from_afft o f c2 F) m = RtoC 0 /\ cy (uxuyetafft_from_afft o f c2 F) m = RtoC 0 /\ cz (uxuyetafft_from_afft o f c2 F) m = RtoC 0.
Proof.
  intros E. destruct (no_xy_K o m E) as [K1 K2]. rewrite uxuyeta_a. rewrite cx_mk, cy_mk, cz_mk. unfold ux_from_rot, uy_from_rot, etafft_from_afft, invlaplacian_fft. rewrite E, K1, K2.
  unfold Rdiv. rewrite !Rmult_0_l. repeat split; ring.
Qed.
Lemma vortex_first F m : first m = true -> cx (uxuyetafft_from_qfft o f c2 F) m = RtoC 0 /\ cy (uxuyetafft_from_qfft o f c2 F) m = RtoC 0 /\ cz (uxuyetafft_from_qfft o f c2 F) m = RtoC 0.
Proof.
  intros E. destruct (no_xy_K o m E) as [K1 K2]. unfold uxuyetafft_from_qfft. rewrite cx_mk, cy_mk, cz_mk. unfold ux_from_rot, uy_from_rot, laplacian_fft, invlaplacian_fft. rewrite E, K1, K2.
  unfold Rdiv. rewrite !Rmult_0_l. split; [ring|]. split; [ring|]. destruct (Req_EM_T f 0); [reflexivity|]. rewrite E. rewrite Cdiv_R by lra. ring.
Qed.
Lemma wave_eq F m : first m = false ->
  cx (uxuyetafft_from_afft o f c2 F) m = (Ci * RtoC (wy o m / K2_2d o m) * (RtoC (f / kap o f c2 m) * F m))%C
  /\ cy (uxuyetafft_from_afft o f c2 F) m = (- Ci * RtoC (wx o m / K2_2d o m) * (RtoC (f / kap o f c2 m) * F m))%C
  /\ cz (uxuyetafft_from_afft o f c2 F) m = (RtoC (/ kap o f c2 m) * F m)%C.
Proof.
  intros E. rewrite uxuyeta_a. rewrite cx_mk, cy_mk, cz_mk. rewrite (ux_rot o Ho), (uy_rot o Ho), (rot_a o f c2 Ho Hc), (eta_a o f c2 Ho Hc) by exact E. repeat split.
Qed.
Lemma vortex_eq F m : first m = false ->
  cx (uxuyetafft_from_qfft o f c2 F) m = (Ci * RtoC (wy o m / K2_2d o m) * (RtoC (K2_2d o m / kap o f c2 m) * F m))%C
  /\ cy (uxuyetafft_from_qfft o f c2 F) m = (- Ci * RtoC (wx o m / K2_2d o m) * (RtoC (K2_2d o m / kap o f c2 m) * F m))%C
  /\ cz (uxuyetafft_from_qfft o f c2 F) m = (RtoC (- f / (c2 * kap o f c2 m)) * F m)%C.
Proof.
  intros E. destruct (uxuyeta_q o f c2 Ho Hc F m E) as (-> & -> & ->). rewrite (ux_rot o Ho), (uy_rot o Ho), (rot_q o f c2 Ho Hc), (eta_q o f c2 Ho Hc) by exact E. repeat split.
Qed.

Definition ageo_of (v : vfield) (m : mode) : C := (RtoC (K2_2d o m) * cz v m + RtoC (f / c2) * vort o (cx v) (cy v) m)%C.
Definition pv_of (v : vfield) (m : mode) : C := (vort o (cx v) (cy v) m - RtoC f * cz v m)%C.

(** a forcing of a (of q) exchanges energy with the part a (q) of the state only *)
Lemma dot_wave v F m : first m = false -> dot v (uxuyetafft_from_afft o f c2 F) m = c2 / (kap o f c2 m * K2_2d o m) * re_prod (ageo_of v m) (F m).
Proof.
  intros E. destruct (wave_eq F m E) as (E1 & E2 & E3). unfold dot. rewrite E1, E2, E3. clear E1 E2 E3. destruct (K2_eq o Ho m E) as (_ & P & K). pose proof (kap_pos o f c2 Ho Hc m E) as Q.
  unfold ageo_of, vort. revert P. generalize (kap o f c2 m) Q. clear Q. intros k Q. rewrite K. generalize (wx o m) (wy o m) (cx v m) (cy v m) (cz v m) (F m).
  intros x y [a a'] [b b'] [c c'] [d d'] P. unfold re_prod. cbn. field. repeat split; lra.
Qed.
Lemma dot_vortex v F m : first m = false -> dot v (uxuyetafft_from_qfft o f c2 F) m = 1 / kap o f c2 m * re_prod (pv_of v m) (F m).
Proof.
  intros E. destruct (vortex_eq F m E) as (E1 & E2 & E3). unfold dot. rewrite E1, E2, E3. clear E1 E2 E3. destruct (K2_eq o Ho m E) as (_ & P & K). pose proof (kap_pos o f c2 Ho Hc m E) as Q.
  unfold pv_of, vort. revert P. generalize (kap o f c2 m) Q. clear Q. intros k Q. rewrite K. generalize (wx o m) (wy o m) (cx v m) (cy v m) (cz v m) (F m).
  intros x y [a a'] [b b'] [c c'] [d d'] P. unfold re_prod. cbn. field. repeat split; lra.
Qed.
Lemma dot_first_a v F m : first m = true -> dot v (uxuyetafft_from_afft o f c2 F) m = 0.
Proof. intros E. destruct (wave_first F m E) as (E1 & E2 & E3). unfold dot. rewrite E1, E2, E3. unfold re_prod. cbn. ring. Qed.
Lemma dot_first_q v F m : first m = true -> dot v (uxuyetafft_from_qfft o f c2 F) m = 0.
Proof. intros E. destruct (vortex_first F m E) as (E1 & E2 & E3). unfold dot. rewrite E1, E2, E3. unfold re_prod. cbn. ring. Qed.

Lemma vort_wave F m : first m = false -> vort o (cx (uxuyetafft_from_afft o f c2 F)) (cy (uxuyetafft_from_afft o f c2 F)) m = (RtoC (f / kap o f c2 m) * F m)%C.
Proof.
  intros E. destruct (wave_eq F m E) as (E1 & E2 & E3). unfold vort. rewrite E1, E2. destruct (K2_eq o Ho m E) as (_ & P & K). pose proof (kap_pos o f c2 Ho Hc m E) as Q.
  revert P. generalize (kap o f c2 m) Q. clear Q K. intros k Q. unfold K2_2d. rewrite (sw_Kx o m Ho), (sw_Ky o m Ho). generalize (wx o m) (wy o m) (F m). intros x y [a a'] P. apply C_eq; cbn; field; lra.
Qed.
Lemma vort_vortex F m : first m = false -> vort o (cx (uxuyetafft_from_qfft o f c2 F)) (cy (uxuyetafft_from_qfft o f c2 F)) m = (RtoC (K2_2d o m / kap o f c2 m) * F m)%C.
Proof.
  intros E. destruct (vortex_eq F m E) as (E1 & E2 & E3). unfold vort. rewrite E1, E2. destruct (K2_eq o Ho m E) as (_ & P & K). pose proof (kap_pos o f c2 Ho Hc m E) as Q.
  revert P. generalize (kap o f c2 m) Q. clear Q K. intros k Q. unfold K2_2d. rewrite (sw_Kx o m Ho), (sw_Ky o m Ho). generalize (wx o m) (wy o m) (F m). intros x y [a a'] P. apply C_eq; cbn; field; lra.
Qed.
Lemma ageo_wave F m : first m = false -> ageo_of (uxuyetafft_from_afft o f c2 F) m = F m.
Proof.
  intros E. unfold ageo_of. rewrite (vort_wave F m E). destruct (wave_eq F m E) as (_ & _ & ->). pose proof (kap_pos o f c2 Ho Hc m E) as Q. pose proof (kap_kd2 o f c2 m) as D.
  revert Q D. generalize (kap o f c2 m) (K2_2d o m) (F m). intros k K [a a'] Q D. assert (f ^ 2 = (k - K) * c2) by (rewrite D; field; lra).
  apply C_eq; cbn; field_simplify; try lra; rewrite ?H; try field; try lra.
Qed.
Lemma pv_wave F m : first m = false -> pv_of (uxuyetafft_from_afft o f c2 F) m = RtoC 0.
Proof.
  intros E. unfold pv_of. rewrite (vort_wave F m E). destruct (wave_eq F m E) as (_ & _ & ->). unfold Rdiv. rewrite RtoC_mult. ring.
Qed.
Lemma pv_vortex F m : first m = false -> pv_of (uxuyetafft_from_qfft o f c2 F) m = F m.
Proof.
  intros E. unfold pv_of. rewrite (vort_vortex F m E). destruct (vortex_eq F m E) as (_ & _ & ->). pose proof (kap_pos o f c2 Ho Hc m E) as Q. pose proof (kap_kd2 o f c2 m) as D.
  revert Q D. generalize (kap o f c2 m) (K2_2d o m) (F m). intros k K [a a'] Q D. assert (f ^ 2 = (k - K) * c2) by (rewrite D; field; lra).
  apply C_eq; cbn; field_simplify; try lra; rewrite ?H; try field; try lra.
Qed.

Lemma afft_ageo v m : afft_from_uxuyetafft o f c2 v m = ageo_of v m.
Proof.
  destruct v as [[ux uy] eta]. unfold afft_from_uxuyetafft, ageo_of. rewrite cx_mk, cy_mk, cz_mk. unfold laplacian_fft, fadd, fscal.
  assert (V : rot_from_vec o ux uy m = vort o ux uy m) by (unfold rot_from_vec, vort; rewrite (sw_Kx o m Ho), (sw_Ky o m Ho); ring).
  destruct (Req_EM_T f 0) as [->|_]; [|rewrite V; ring]. replace (0 / c2) with 0 by (field; lra). ring.
Qed.
Lemma qfft_pv v m : cx (qdafft_from_uxuyetafft o f c2 v) m = pv_of v m.
Proof.
  destruct v as [[ux uy] eta]. unfold qdafft_from_uxuyetafft, pv_of. rewrite !cx_mk, cy_mk, cz_mk. unfold fsub, fscal, rot_from_vec, vort. rewrite (sw_Kx o m Ho), (sw_Ky o m Ho). ring.
Qed.

(** what the state gives: only its part a (q) matters *)
Lemma dot_a v F m : dot (uxuyetafft_from_afft o f c2 (afft_from_uxuyetafft o f c2 v)) (uxuyetafft_from_afft o f c2 F) m = dot v (uxuyetafft_from_afft o f c2 F) m.
Proof.
  destruct (first m) eqn:E; [rewrite !dot_first_a by exact E; reflexivity|]. rewrite !dot_wave, ageo_wave, afft_ageo by exact E. reflexivity.
Qed.
Lemma dot_q v F m : dot (uxuyetafft_from_qfft o f c2 (cx (qdafft_from_uxuyetafft o f c2 v))) (uxuyetafft_from_qfft o f c2 F) m = dot v (uxuyetafft_from_qfft o f c2 F) m.
Proof.
  destruct (first m) eqn:E; [rewrite !dot_first_q by exact E; reflexivity|]. rewrite !dot_vortex, pv_vortex, qfft_pv by exact E. reflexivity.
Qed.
Lemma dot_qa G F m : dot (uxuyetafft_from_afft o f c2 G) (uxuyetafft_from_qfft o f c2 F) m = 0.
Proof.
  destruct (first m) eqn:E; [apply dot_first_q; exact E|]. rewrite dot_vortex, pv_wave by exact E. unfold re_prod. cbn. ring.
Qed.
Lemma dot_sym v w m : dot v w m = dot w v m.
Proof. unfold dot, re_prod. ring. Qed.

Lemma re_prod_scal z alpha w : re_prod z (RtoC alpha * w)%C = alpha * re_prod z w.
Proof. destruct z, w. unfold re_prod. cbn. ring. Qed.
Lemma dot_scal_a v alpha F m : dot v (uxuyetafft_from_afft o f c2 (fscal alpha F)) m = alpha * dot v (uxuyetafft_from_afft o f c2 F) m.
Proof.
  destruct (first m) eqn:E; [rewrite !dot_first_a by exact E; ring|]. rewrite !dot_wave by exact E. unfold fscal. rewrite re_prod_scal. ring.
Qed.
Lemma dot_scal_q v alpha F m : dot v (uxuyetafft_from_qfft o f c2 (fscal alpha F)) m = alpha * dot v (uxuyetafft_from_qfft o f c2 F) m.
Proof.
  destruct (first m) eqn:E; [rewrite !dot_first_q by exact E; ring|]. rewrite !dot_vortex by exact E. unfold fscal. rewrite re_prod_scal. ring.
Qed.

(** ** Waves *)
Theorem c110_waves_partial dt rate Fa s alpha :
  (let '(a, b, c) := waves_abc o ms f c2 dt rate Fa (afft_from_uxuyetafft o f c2 s) in a * alpha ^ 2 + b * alpha + c = 0) ->
  total ms (quadratic c2 (vafter dt (waves_forcing o f c2 alpha Fa) s)) = total ms (quadratic c2 s) + dt * rate.
Proof.
  unfold waves_abc. rewrite abc_dot. intros H. rewrite quadratic_after. f_equal. f_equal. unfold waves_forcing.
  rewrite (total_ext ms (dot (uxuyetafft_from_afft o f c2 (fscal alpha Fa)) _) (fun m => alpha ^ 2 * dot (uxuyetafft_from_afft o f c2 Fa) (uxuyetafft_from_afft o f c2 Fa) m))
    by (intros; rewrite dot_scal_a, dot_sym, dot_scal_a; ring).
  rewrite (total_ext ms (dot s _) (fun m => alpha * dot (uxuyetafft_from_afft o f c2 (afft_from_uxuyetafft o f c2 s)) (uxuyetafft_from_afft o f c2 Fa) m))
    by (intros; rewrite dot_scal_a, dot_a; ring).
  rewrite !total_scal. lra.
Qed.

(** ** Potential *)
Theorem c110_potential dt rate Fe s alpha :
  (let '(a, b, c) := potential_abc ms c2 dt rate Fe (cz s) in a * alpha ^ 2 + b * alpha + c = 0) ->
  total ms (quadratic c2 (vafter dt (init_from_etafft (fscal alpha Fe)) s)) = total ms (quadratic c2 s) + dt * rate.
Proof.
  unfold potential_abc. rewrite !sum_wn_total. intros H. rewrite quadratic_after. f_equal. f_equal.
  rewrite (total_ext ms (dot (init_from_etafft _) _) (fun m => alpha ^ 2 * c2 * cabs2 (Fe m))).
  2:{ intros m _. unfold dot, init_from_etafft, fscal, azero, re_prod, cabs2. rewrite !cx_mk, !cy_mk, !cz_mk. destruct (Fe m). cbn. ring. }
  rewrite (total_ext ms (dot s _) (fun m => alpha * c2 * re_prod (cz s m) (Fe m))).
  2:{ intros m _. unfold dot, init_from_etafft, fscal, azero. rewrite !cx_mk, !cy_mk, !cz_mk. rewrite re_prod_scal. unfold re_prod. cbn. ring. }
  rewrite !total_scal. lra.
Qed.

(** ** WavesVortices: what was intended *)
Definition both (q a : field) : vfield := splus (uxuyetafft_from_qfft o f c2 q) (uxuyetafft_from_afft o f c2 a).
Lemma dot_plus v w w' m : dot v (splus w w') m = dot v w m + dot v w' m.
Proof.
  unfold dot, splus, re_prod. rewrite !cx_mk, !cy_mk, !cz_mk. generalize (cx v m) (cy v m) (cz v m) (cx w m) (cy w m) (cz w m) (cx w' m) (cy w' m) (cz w' m).
  intros [a a'] [b b'] [c c'] [d d'] [e e'] [g g'] [x x'] [y y'] [z z']. cbn. ring.
Qed.
Lemma c110_both dt rate Fq Fa s alphaq alphaa :
  (let '(a, b, c) := waves_abc o ms f c2 dt (rate / 2) Fa (afft_from_uxuyetafft o f c2 s) in a * alphaa ^ 2 + b * alphaa + c = 0) ->
  (let '(a, b, c) := vortices_abc o ms f c2 dt (rate / 2) Fq (cx (qdafft_from_uxuyetafft o f c2 s)) in a * alphaq ^ 2 + b * alphaq + c = 0) ->
  total ms (quadratic c2 (vafter dt (both (fscal alphaq Fq) (fscal alphaa Fa)) s)) = total ms (quadratic c2 s) + dt * rate.
Proof.
  unfold waves_abc, vortices_abc. rewrite !abc_dot. intros H1 H2. rewrite quadratic_after. f_equal. f_equal. unfold both.
  rewrite (total_ext ms (dot (splus _ _) _) (fun m => alphaq ^ 2 * dot (uxuyetafft_from_qfft o f c2 Fq) (uxuyetafft_from_qfft o f c2 Fq) m
    + alphaa ^ 2 * dot (uxuyetafft_from_afft o f c2 Fa) (uxuyetafft_from_afft o f c2 Fa) m)).
  2:{ intros m _. rewrite dot_plus, dot_sym, dot_plus, (dot_sym (splus _ _) (uxuyetafft_from_afft o f c2 (fscal alphaa Fa))), dot_plus.
      rewrite (dot_qa (fscal alphaa Fa) (fscal alphaq Fq)), (dot_sym (uxuyetafft_from_qfft o f c2 (fscal alphaq Fq)) (uxuyetafft_from_afft o f c2 (fscal alphaa Fa))), (dot_qa (fscal alphaa Fa) (fscal alphaq Fq)).
      rewrite !dot_scal_a, !dot_scal_q, (dot_sym (uxuyetafft_from_afft o f c2 (fscal alphaa Fa))), (dot_sym (uxuyetafft_from_qfft o f c2 (fscal alphaq Fq))), dot_scal_a, dot_scal_q. ring. }
  rewrite (total_ext ms (dot s _) (fun m => alphaq * dot (uxuyetafft_from_qfft o f c2 (cx (qdafft_from_uxuyetafft o f c2 s))) (uxuyetafft_from_qfft o f c2 Fq) m
    + alphaa * dot (uxuyetafft_from_afft o f c2 (afft_from_uxuyetafft o f c2 s)) (uxuyetafft_from_afft o f c2 Fa) m)).
  2:{ intros m _. rewrite dot_plus, dot_scal_a, dot_scal_q, dot_a, dot_q. reflexivity. }
  rewrite !total_plus, !total_scal. lra.
Qed.

(** the second component is the one of the wave: only right for f = 0 *)
Lemma init_both q a m : f = 0 -> agree m (init_from_qafft o f c2 q a) (both q a).
Proof.
  intros Hf. unfold init_from_qafft, both, agree, splus. rewrite uxuyeta_a. rewrite !cx_mk, !cy_mk, !cz_mk. unfold fadd.
  assert (Z : ux_from_rot o (rotfft_from_afft o f c2 a) m = RtoC 0 /\ uy_from_rot o (rotfft_from_afft o f c2 a) m = RtoC 0).
  { unfold rotfft_from_afft. destruct (Req_EM_T f 0); [|contradiction]. unfold ux_from_rot, uy_from_rot, azero. split; ring. }
  destruct Z as [-> ->]. split; [reflexivity|]. split; [reflexivity|]. f_equal. unfold etafft_from_qfft, uxuyetafft_from_qfft, cz. cbn [snd]. destruct (Req_EM_T f 0); [reflexivity | contradiction].
Qed.
Theorem c110_vortices_partial dt rate Fq Fa s alphaq alphaa : f = 0 ->
  (let '(a, b, c) := waves_abc o ms f c2 dt (rate / 2) Fa (afft_from_uxuyetafft o f c2 s) in a * alphaa ^ 2 + b * alphaa + c = 0) ->
  (let '(a, b, c) := vortices_abc o ms f c2 dt (rate / 2) Fq (cx (qdafft_from_uxuyetafft o f c2 s)) in a * alphaq ^ 2 + b * alphaq + c = 0) ->
  total ms (quadratic c2 (vafter dt (init_from_qafft o f c2 (fscal alphaq Fq) (fscal alphaa Fa)) s)) = total ms (quadratic c2 s) + dt * rate.
Proof.
  intros Hf H1 H2. rewrite <- (c110_both dt rate Fq Fa s alphaq alphaa H1 H2). apply total_ext. intros m _.
  destruct (init_both (fscal alphaq Fq) (fscal alphaa Fa) m Hf) as (E1 & E2 & E3). unfold quadratic, vafter, after. rewrite !cx_mk, !cy_mk, !cz_mk, E1, E2, E3. reflexivity.
Qed.
End Forcing.

(** modes (1, 0, 0) and (-1, 0, 0), f = c2 = 1, state at rest: the energy is a quarter of what was asked for *)
Theorem c110_vortices_refuted : exists o ms f c2 dt rate Fq Fa s alphaq alphaa, good_modes o ms /\ 0 < c2 /\ 0 < dt /\ 0 < rate
  /\ (let '(a, b, c) := waves_abc o ms f c2 dt (rate / 2) Fa (afft_from_uxuyetafft o f c2 s) in a * alphaa ^ 2 + b * alphaa + c = 0)
  /\ (let '(a, b, c) := vortices_abc o ms f c2 dt (rate / 2) Fq (cx (qdafft_from_uxuyetafft o f c2 s)) in a * alphaq ^ 2 + b * alphaq + c = 0)
  /\ total ms (quadratic c2 (vafter dt (init_from_qafft o f c2 (fscal alphaq Fq) (fscal alphaa Fa)) s)) = total ms (quadratic c2 s) + dt * (rate / 4).
Proof.
  exists o8, ms3, 1, 1, 1, 1, (fun _ => RtoC 1), (fun _ => RtoC 1), (azero, azero, azero), 1, 1.
  assert (Hc : 0 < 1) by lra. split; [exact ms3_good|]. split; [lra|]. split; [lra|]. split; [lra|].
  assert (P1 : forall v, dot 1 (azero, azero, azero) v (-1, 0, 0)%Z = 0) by (intros; unfold dot, azero, re_prod, cx, cy, cz; cbn; ring).
  assert (P0 : forall v, dot 1 (azero, azero, azero) v (0, 0, 0)%Z = 0) by (intros; unfold dot, azero, re_prod, cx, cy, cz; cbn; ring).
  assert (P2 : forall v, dot 1 (azero, azero, azero) v (1, 0, 0)%Z = 0) by (intros; unfold dot, azero, re_prod, cx, cy, cz; cbn; ring).
  assert (K1 : K2_2d o8 (1, 0, 0)%Z = 1) by (unfold K2_2d; rewrite (sw_Kx o8 _ o8_pos), (sw_Ky o8 _ o8_pos), wx8, wy8; ring).
  assert (Km : K2_2d o8 (-1, 0, 0)%Z = 1) by (unfold K2_2d; rewrite (sw_Kx o8 _ o8_pos), (sw_Ky o8 _ o8_pos), wx8, wy8; ring).
  assert (G1 : kap o8 1 1 (1, 0, 0)%Z = 2) by (unfold kap, kd2; rewrite K1; field).
  assert (Gm : kap o8 1 1 (-1, 0, 0)%Z = 2) by (unfold kap, kd2; rewrite Km; field).
  split; [|split].
  - unfold waves_abc. rewrite abc_dot. rewrite (total_ext ms3 (dot 1 (uxuyetafft_from_afft _ _ _ (afft_from_uxuyetafft _ _ _ _)) _) (fun m => dot 1 (azero, azero, azero) (uxuyetafft_from_afft o8 1 1 (fun _ => RtoC 1)) m)) by (intros; apply (dot_a o8 1 1 o8_pos Hc)).
    unfold ms3, total. cbn [fold_right]. rewrite P0, P1, P2. rewrite (dot_first_a o8 1 1 _ _ (0, 0, 0)%Z) by reflexivity. rewrite !(dot_wave o8 1 1 o8_pos Hc), !(ageo_wave o8 1 1 o8_pos Hc) by reflexivity.
    rewrite K1, Km, G1, Gm. unfold re_prod. cbn. field.
  - unfold vortices_abc. rewrite abc_dot. rewrite (total_ext ms3 (dot 1 (uxuyetafft_from_qfft _ _ _ (cx (qdafft_from_uxuyetafft _ _ _ _))) _) (fun m => dot 1 (azero, azero, azero) (uxuyetafft_from_qfft o8 1 1 (fun _ => RtoC 1)) m)) by (intros; apply (dot_q o8 1 1 o8_pos Hc)).
    unfold ms3, total. cbn [fold_right]. rewrite P0, P1, P2. rewrite (dot_first_q o8 1 1 Hc _ _ (0, 0, 0)%Z) by reflexivity. rewrite !(dot_vortex o8 1 1 o8_pos Hc), !(pv_vortex o8 1 1 o8_pos Hc) by reflexivity.
    rewrite G1, Gm. unfold re_prod. cbn. field.
  - rewrite quadratic_after. f_equal. f_equal. unfold ms3, total. cbn [fold_right]. rewrite P0, P1, P2. unfold init_from_qafft. rewrite uxuyeta_a. unfold dot. rewrite !cx_mk, !cy_mk, !cz_mk. unfold fadd.
    rewrite !(ux_rot o8 o8_pos _ (1, 0, 0)%Z), !(uy_rot o8 o8_pos _ (1, 0, 0)%Z), !(ux_rot o8 o8_pos _ (-1, 0, 0)%Z), !(uy_rot o8 o8_pos _ (-1, 0, 0)%Z) by reflexivity.
    rewrite !(rot_a o8 1 1 o8_pos Hc _ (1, 0, 0)%Z), !(rot_q o8 1 1 o8_pos Hc _ (1, 0, 0)%Z), !(eta_a o8 1 1 o8_pos Hc _ (1, 0, 0)%Z), !(eta_q o8 1 1 o8_pos Hc _ (1, 0, 0)%Z) by reflexivity.
    rewrite !(rot_a o8 1 1 o8_pos Hc _ (-1, 0, 0)%Z), !(rot_q o8 1 1 o8_pos Hc _ (-1, 0, 0)%Z), !(eta_a o8 1 1 o8_pos Hc _ (-1, 0, 0)%Z), !(eta_q o8 1 1 o8_pos Hc _ (-1, 0, 0)%Z) by reflexivity.
    rewrite !wx8, !wy8, G1, Gm, K1, Km.
    assert (F0 : forall r, ux_from_rot o8 r (0, 0, 0)%Z = RtoC 0 /\ uy_from_rot o8 r (0, 0, 0)%Z = RtoC 0).
    { intros r. unfold ux_from_rot, uy_from_rot. rewrite (sw_Kx o8 _ o8_pos), (sw_Ky o8 _ o8_pos), wx8, wy8. unfold Rdiv. rewrite !Rmult_0_l. split; ring. }
    destruct (F0 (rotfft_from_afft o8 1 1 (fscal 1 (fun _ => RtoC 1)))) as [-> _]. destruct (F0 (rotfft_from_qfft o8 1 1 (fscal 1 (fun _ => RtoC 1)))) as [-> ->].
    unfold etafft_from_qfft, etafft_from_afft, invlaplacian_fft. destruct (Req_EM_T 1 0); [lra|]. unfold fscal. cbn [first mx my fst snd Z.eqb andb]. unfold re_prod. cbn. field.
Qed.

Example c110_example : exists alpha,
  let '(a, b, c) := potential_abc ms3 1 1 1 (fun _ => RtoC 1) (cz (azero, azero, azero)) in a * alpha ^ 2 + b * alpha + c = 0.
Proof.
  exists (sqrt (2 / 3)). unfold potential_abc. rewrite !sum_wn_total. unfold ms3, total. cbn [fold_right]. rewrite cz_mk. unfold cabs2, re_prod, azero. cbn [fst snd RtoC].
  rewrite pow2_sqrt by lra. cbn. field.
Qed.

Print Assumptions c110_waves_partial.
Print Assumptions c110_potential.
Print Assumptions c110_vortices_partial.
Print Assumptions c110_vortices_refuted.
