(** * C116: spectral energy budget of sw1l.modified *)

From Coq Require Import Reals Lra ZArith Lia String List Bool Permutation.
From Coquelicot Require Import Coquelicot.
From Verif Require Import CExp DFT Alias_Model Alias_Proofs Alias_Props Oper_Model Oper_Spec Oper_Proofs
  Budget_Model Budget_Spec Budget_Proofs Budget2D_Proofs Budget2D_Props Budget3D_Props BudgetEq_Props Means_Model Means_Spec Means_Proofs Means_Props
  SW_Spec SW_Model SWNormal_Model SW_Proofs SWModes_Props SWEq_Props SWOnly_Props SWModified_Props Seb_Model Seb2D_Props.
Import ListNotations.
Local Open Scope R_scope.

(** the kinetic and the potential energies of a shell for the quadratic energy, the Charney potential enstrophy *)
Definition kinetic (shell : list mode) (s : sstate) : R := square shell (cx s) + square shell (cy s).
Definition potential (c2 : R) (shell : list mode) (s : sstate) : R := c2 * square shell (cz s).
Definition charney (o : oper) (f : R) (s : sstate) : sfield := fun m => (vort o (cx s) (cy s) m - RtoC f * cz s m)%C.

Section SebSW.
Variable o : oper.
Variable ms : list mode.
Variable dea : mode -> bool.
Variables f c2 : R.
Hypothesis Hg : good_modes o ms.
Hypothesis Hc : 0 < c2.
Hypothesis Hd : forall m, In m ms -> dea m = false.

Let Ho : oper_pos o := proj1 Hg.

(** the velocity is the sum of its rotational and divergent parts *)
Lemma helmholtz ux uy m : first m = false ->
  ux m = (ux_from_rot o (rot_from_vec o ux uy) m + ux_from_div o (divfft_from_vecfft o ux uy) m)%C
  /\ uy m = (uy_from_rot o (rot_from_vec o ux uy) m + uy_from_div o (divfft_from_vecfft o ux uy) m)%C.
Proof.
  intros N. pose proof (K2_not0_pos o m Ho) as P. pose proof (sum_sq o m) as S.
  unfold ux_from_rot, uy_from_rot, ux_from_div, uy_from_div, rot_from_vec, divfft_from_vecfft.
  change (no_xy m) with (first m) in S. rewrite N, Rmult_1_r in S.
  revert S P. generalize (Kx o m) (Ky o m) (K2_not0 o m) (ux m) (uy m). intros a b K [x y] [u v] S P. subst K.
  split; apply C_eq; cbn; field; cbn in P; lra.
Qed.

Lemma grad_first m (a : field) : first m = true -> px_fft o a m = RtoC 0 /\ py_fft o a m = RtoC 0.
Proof. intros N. destruct (no_xy_K o m N) as [K1 K2]. unfold px_fft, py_fft. rewrite K1, K2. split; ring. Qed.

Lemma advection_first rot g k : In k ms -> first k = true -> advection o ms rot g k = RtoC 0.
Proof.
  intros Hk N. rewrite (advection_conv o ms Hg) by exact Hk. destruct (no_xy_K o k N) as [K1 K2].
  pose proof (leibniz ms (Kx o) (ux_from_rot o rot) g k ltac:(intros; apply Kx_add; assumption)) as L1.
  pose proof (leibniz ms (Ky o) (uy_from_rot o rot) g k ltac:(intros; apply Ky_add; assumption)) as L2.
  rewrite K1 in L1. rewrite K2 in L2. fold (px_fft o (ux_from_rot o rot)) (px_fft o g) in L1. fold (py_fft o (uy_from_rot o rot)) (py_fft o g) in L2.
  rewrite (conv_ext ms (py_fft o (uy_from_rot o rot)) (fun m => - px_fft o (ux_from_rot o rot) m)%C g g) in L2 by (reflexivity || (intros; apply div_free)).
  rewrite (conv_swap ms (fun m => - _ m)%C), conv_opp_r, (conv_swap ms g) in L2.
  revert L1 L2. generalize (convolution ms (px_fft o (ux_from_rot o rot)) g k) (convolution ms (ux_from_rot o rot) (px_fft o g) k)
    (convolution ms (uy_from_rot o rot) (py_fft o g) k). intros A B D L1 L2.
  transitivity ((A + B) + (- A + D))%C; [ring|]. rewrite <- L1, <- L2. ring.
Qed.

Lemma advection_parts rot (a b c : field) k : In k ms -> (forall m, In m ms -> first m = false -> a m = (b m + c m)%C) ->
  advection o ms rot a k = (advection o ms rot b k + advection o ms rot c k)%C.
Proof.
  intros Hk H. rewrite !(advection_conv o ms Hg) by exact Hk.
  assert (E : forall m, In m ms -> px_fft o a m = (RtoC 1 * px_fft o b m + RtoC 1 * px_fft o c m)%C /\ py_fft o a m = (RtoC 1 * py_fft o b m + RtoC 1 * py_fft o c m)%C).
  { intros m Im. destruct (first m) eqn:N.
    - destruct (grad_first m a N) as [-> ->]. destruct (grad_first m b N) as [-> ->]. destruct (grad_first m c N) as [-> ->]. split; ring.
    - unfold px_fft, py_fft. rewrite (H m Im N). split; ring. }
  rewrite (conv_ext ms _ (ux_from_rot o rot) (px_fft o a) (fun m => RtoC 1 * px_fft o b m + RtoC 1 * px_fft o c m)%C) by (reflexivity || (intros; apply E; assumption)).
  rewrite (conv_ext ms _ (uy_from_rot o rot) (py_fft o a) (fun m => RtoC 1 * py_fft o b m + RtoC 1 * py_fft o c m)%C) by (reflexivity || (intros; apply E; assumption)).
  rewrite !conv_lin. ring.
Qed.

Lemma advection_zero rot k : In k ms -> advection o ms rot azero k = RtoC 0.
Proof.
  intros Hk. pose proof (advection_parts rot azero azero azero k Hk ltac:(intros; unfold azero; ring)) as E. revert E.
  generalize (advection o ms rot azero k). intros z E. transitivity ((z + z) - z)%C; [ring|]. rewrite <- E. ring.
Qed.

Lemma advection_scal rot x a k : In k ms -> advection o ms rot (fscal x a) k = (RtoC x * advection o ms rot a k)%C.
Proof.
  intros Hk. rewrite !(advection_conv o ms Hg) by exact Hk.
  rewrite (conv_ext ms _ (ux_from_rot o rot) (px_fft o (fscal x a)) (fun m => RtoC x * px_fft o a m + RtoC 0 * px_fft o a m)%C)
    by (reflexivity || (intros; unfold px_fft, fscal; ring)).
  rewrite (conv_ext ms _ (uy_from_rot o rot) (py_fft o (fscal x a)) (fun m => RtoC x * py_fft o a m + RtoC 0 * py_fft o a m)%C)
    by (reflexivity || (intros; unfold py_fft, fscal; ring)).
  rewrite !conv_lin. ring.
Qed.

Let budget := sw1l_modified_budget o ms dea f c2.
Let rot_of (s : vfield) := rot_from_vec o (cx s) (cy s).

Ltac pick := cbn [saved sw1l_modified_budget qdafft_from_uxuyetafft find fst snd String.eqb Ascii.eqb Bool.eqb].

Lemma saved_EK_modified s shell : shell_of ms shell ->
  saved shell (budget s) "transfer2D_EK" = rate shell (fun _ => 1) (cx s) (fun k => - advection o ms (rot_of s) (cx s) k)%C
    + rate shell (fun _ => 1) (cy s) (fun k => - advection o ms (rot_of s) (cy s) k)%C.
Proof.
  intros (_ & Hs). destruct s as [[ux uy] eta]. unfold rate, budget. rewrite <- total_plus. pick. apply total_ext. intros m Hm. apply Hs in Hm. cbv beta zeta.
  unfold inner_prod. rewrite !(fnonlin_eq o ms dea Hd), !conj_prod_eq by exact Hm.
  unfold rot_of. rewrite !cx_mk, !cy_mk. set (rot := rot_from_vec o ux uy). set (d := divfft_from_vecfft o ux uy).
  rewrite (advection_parts rot ux (ux_from_rot o rot) (ux_from_div o d) m Hm) by (intros; apply helmholtz; assumption).
  rewrite (advection_parts rot uy (uy_from_rot o rot) (uy_from_div o d) m Hm) by (intros; apply helmholtz; assumption).
  destruct (first m) eqn:N.
  - rewrite !(advection_first rot _ m Hm N). cbn. ring.
  - destruct (helmholtz ux uy m N) as [E1 E2]. fold rot d in E1, E2. rewrite E1, E2. cbn. ring.
Qed.

Lemma saved_EA_modified s shell : shell_of ms shell ->
  saved shell (budget s) "transfer2D_EA" = c2 * rate shell (fun _ => 1) (cz s) (fun k => - advection o ms (rot_of s) (cz s) k)%C.
Proof.
  intros (_ & Hs). destruct s as [[ux uy] eta]. unfold rate, budget. rewrite <- total_scal. pick. apply total_ext. intros m Hm. apply Hs in Hm. cbv beta zeta.
  unfold inner_prod. rewrite !(fnonlin_eq o ms dea Hd), !conj_prod_eq by exact Hm. unfold rot_of. rewrite !cx_mk, !cy_mk, !cz_mk. ring.
Qed.

Lemma saved_CPE_modified s shell : shell_of ms shell ->
  saved shell (budget s) "transfer2D_CPE" = rate shell (fun _ => 1) (charney o f s) (fun k => - advection o ms (rot_of s) (charney o f s) k)%C.
Proof.
  intros (_ & Hs). destruct s as [[ux uy] eta]. unfold rate, budget. pick. apply total_ext. intros m Hm. apply Hs in Hm. cbv beta zeta.
  unfold inner_prod. rewrite !(fnonlin_eq o ms dea Hd), !conj_prod_eq by exact Hm. unfold rot_of. rewrite !cx_mk, !cy_mk.
  assert (E : forall k, fsub (rot_from_vec o ux uy) (fscal f eta) k = charney o f (ux, uy, eta) k)
    by (intros k; unfold fsub, fscal, charney; rewrite cx_mk, cy_mk, cz_mk, (rot_vort o ms Hg); reflexivity).
  rewrite E. rewrite (advection_parts _ (fsub (rot_from_vec o ux uy) (fscal f eta)) (charney o f (ux, uy, eta)) azero m Hm) by (intros k _ _; rewrite E; unfold azero; ring).
  rewrite (advection_zero _ m Hm).
  generalize (charney o f (ux, uy, eta) m) (advection o ms (rot_from_vec o ux uy) (charney o f (ux, uy, eta)) m).
  intros [x y] [u v]. cbn. ring.
Qed.

Lemma saved_conv_modified s shell :
  saved shell (budget s) "convA2D" = c2 * rate shell (fun _ => 1) (cz s) (dvg o (cx s) (cy s)).
Proof.
  destruct s as [[ux uy] eta]. unfold rate, budget. rewrite <- total_scal. pick. apply total_ext. intros m _. cbv beta zeta.
  unfold inner_prod, divfft_from_vecfft, dvg. rewrite !cx_mk, !cy_mk, !cz_mk, (sw_Kx o m Ho), (sw_Ky o m Ho), conj_prod_eq. ring.
Qed.

Lemma parts_sum s shell : saved shell (budget s) "transfer2D_EK" = saved shell (budget s) "transfer2D_Errr" + saved shell (budget s) "transfer2D_Edrd"
  + saved shell (budget s) "transfer2D_Edrr_rrd".
Proof.
  unfold budget. destruct s as [[ux uy] eta]. pick. rewrite <- !total_plus. apply total_ext. intros m _. reflexivity.
Qed.

Lemma transported_eq s k : In k ms ->
  cx (transported o ms s) k = (- advection o ms (rot_of s) (cx s) k)%C /\ cy (transported o ms s) k = (- advection o ms (rot_of s) (cy s) k)%C
  /\ cz (transported o ms s) k = (- advection o ms (rot_of s) (cz s) k)%C.
Proof.
  intros Hk. unfold transported, rot_of. rewrite cx_mk, cy_mk, cz_mk. rewrite <- !(transport_advection o ms Hg) by exact Hk.
  assert (E : forall a, advection o ms (vort o (cx s) (cy s)) a k = advection o ms (rot_from_vec o (cx s) (cy s)) a k)
    by (intros a; apply advection_rot; intros m _ _; symmetry; apply (rot_vort o ms Hg)).
  rewrite !E. split; [|split]; reflexivity.
Qed.

Variable s : R -> vfield.
Variable t : R.
Hypothesis M : vmoves ms s t (sw1l_modified o ms dea f c2 (s t)).

Section Shell.
Variable shell : list mode.
Hypothesis Hs : shell_of ms shell.
Let d := saved shell (budget (s t)).

Theorem c116_kinetic : is_derive (fun x => kinetic shell (s x)) t (d "transfer2D_EK"%string + d "convA2D"%string).
Proof.
  pose proof M as (M1 & M2 & _). apply (moves_shell ms shell _ _ _ Hs) in M1. apply (moves_shell ms shell _ _ _ Hs) in M2.
  unfold d. rewrite (saved_EK_modified _ _ Hs), saved_conv_modified. unfold kinetic.
  eapply is_derive_eq; [apply derive_add; [exact (derive_1 shell _ t _ M1) | exact (derive_1 shell _ t _ M2)]|].
  rewrite (rate_ext shell _ (cx (s t)) _ (plus_f (fun k => - advection o ms (rot_of (s t)) (cx (s t)) k) (cx (linear_sw o f c2 (s t))))%C).
  2:{ intros m Hm. apply (proj2 Hs) in Hm. rewrite (proj1 (c108_equations o ms dea f c2 Hg Hd (s t) m Hm)). unfold splus, plus_f. rewrite cx_mk.
      rewrite (proj1 (transported_eq (s t) m Hm)). reflexivity. }
  rewrite (rate_ext shell _ (cy (s t)) _ (plus_f (fun k => - advection o ms (rot_of (s t)) (cy (s t)) k) (cy (linear_sw o f c2 (s t))))%C).
  2:{ intros m Hm. apply (proj2 Hs) in Hm. rewrite (proj1 (proj2 (c108_equations o ms dea f c2 Hg Hd (s t) m Hm))). unfold splus, plus_f. rewrite cy_mk.
      rewrite (proj1 (proj2 (transported_eq (s t) m Hm))). reflexivity. }
  rewrite !rate_plus.
  assert (L : rate shell (fun _ => 1) (cx (s t)) (cx (linear_sw o f c2 (s t))) + rate shell (fun _ => 1) (cy (s t)) (cy (linear_sw o f c2 (s t)))
    = c2 * rate shell (fun _ => 1) (cz (s t)) (dvg o (cx (s t)) (cy (s t)))).
  { unfold rate. rewrite <- total_plus, <- total_scal. apply total_ext. intros m _. unfold linear_sw, dvg, gradx, grady. rewrite cx_mk, cy_mk.
    generalize (cx (s t) m) (cy (s t) m) (cz (s t) m). intros [x y] [u v] [e g]. cbn. ring. }
  lra.
Qed.

Theorem c116_potential : is_derive (fun x => potential c2 shell (s x)) t (d "transfer2D_EA"%string - d "convA2D"%string).
Proof.
  pose proof M as (_ & _ & M3). apply (moves_shell ms shell _ _ _ Hs) in M3.
  unfold d. rewrite (saved_EA_modified _ _ Hs), saved_conv_modified. unfold potential.
  eapply is_derive_eq; [apply is_derive_scal; exact (derive_1 shell _ t _ M3)|].
  rewrite (rate_ext shell _ (cz (s t)) _ (plus_f (fun k => - advection o ms (rot_of (s t)) (cz (s t)) k) (cz (linear_sw o f c2 (s t))))%C).
  2:{ intros m Hm. apply (proj2 Hs) in Hm. rewrite (proj2 (proj2 (c108_equations o ms dea f c2 Hg Hd (s t) m Hm))). unfold splus, plus_f. rewrite cz_mk.
      rewrite (proj2 (proj2 (transported_eq (s t) m Hm))). reflexivity. }
  rewrite rate_plus.
  assert (L : rate shell (fun _ => 1) (cz (s t)) (cz (linear_sw o f c2 (s t))) = - rate shell (fun _ => 1) (cz (s t)) (dvg o (cx (s t)) (cy (s t)))).
  { unfold rate. rewrite <- total_opp. apply total_ext. intros m _. unfold linear_sw. rewrite cz_mk. cbn. ring. }
  rewrite L. ring.
Qed.

(** the parts of the kinetic transfer; the sum of two velocities r (rotational) and d (divergent) *)
Theorem c116_parts : d "transfer2D_EK"%string = d "transfer2D_Errr"%string + d "transfer2D_Edrd"%string + d "transfer2D_Edrr_rrd"%string.
Proof. apply parts_sum. Qed.

(** the Charney potential enstrophy, for a velocity without divergence *)
Lemma derive_three (a b c : R -> R) t0 x y z u v w : is_derive a t0 u -> is_derive b t0 v -> is_derive c t0 w ->
  is_derive (fun r => x * a r + y * b r + z * c r) t0 (x * u + y * v + z * w).
Proof.
  intros A B D. apply derive_add; [apply derive_add|]; apply is_derive_scal; assumption.
Qed.

Lemma charney_moves (v : R -> vfield) t0 w : vmoves shell v t0 w -> moves shell (fun x => charney o f (v x)) t0 (charney o f w).
Proof.
  intros (V1 & V2 & V3) m Hm. destruct (V1 m Hm) as [A1 B1]. destruct (V2 m Hm) as [A2 B2]. destruct (V3 m Hm) as [A3 B3]. split.
  - apply (is_derive_ext (fun r => wy o m * snd (cx (v r) m) + - wx o m * snd (cy (v r) m) + - f * fst (cz (v r) m))).
    + intros r. unfold charney, vort. cbn. ring.
    + eapply is_derive_eq; [apply derive_three; eassumption|]. unfold charney, vort. cbn. ring.
  - apply (is_derive_ext (fun r => - wy o m * fst (cx (v r) m) + wx o m * fst (cy (v r) m) + - f * snd (cz (v r) m))).
    + intros r. unfold charney, vort. cbn. ring.
    + eapply is_derive_eq; [apply derive_three; eassumption|]. unfold charney, vort. cbn. ring.
Qed.

Theorem c116_charney : (forall m, In m ms -> dvg o (cx (s t)) (cy (s t)) m = RtoC 0) ->
  is_derive (fun x => square shell (charney o f (s x))) t (d "transfer2D_CPE"%string).
Proof.
  intros Z. assert (M' : vmoves shell s t (sw1l_modified o ms dea f c2 (s t))).
  { pose proof M as (M1 & M2 & M3). split; [|split]; apply (moves_shell ms shell _ _ _ Hs); assumption. }
  apply charney_moves in M'. unfold d. rewrite (saved_CPE_modified _ _ Hs).
  eapply is_derive_eq; [exact (derive_1 shell (fun x => charney o f (s x)) t _ M')|]. apply rate_ext. intros k Hk. apply (proj2 Hs) in Hk.
  destruct (c108_equations o ms dea f c2 Hg Hd (s t) k Hk) as (E1 & E2 & E3). destruct (transported_eq (s t) k Hk) as (T1 & T2 & T3).
  unfold charney at 1, vort at 1. rewrite E1, E2, E3. unfold splus. rewrite cx_mk, cy_mk, cz_mk, T1, T2, T3.
  unfold linear_sw. rewrite cx_mk, cy_mk, cz_mk. rewrite (Z k Hk).
  set (rot := rot_of (s t)).
  assert (U : forall m, In m ms -> first m = false -> cx (s t) m = (ux_from_rot o rot m + azero m)%C /\ cy (s t) m = (uy_from_rot o rot m + azero m)%C).
  { intros m Im N. destruct (helmholtz (cx (s t)) (cy (s t)) m N) as [H1 H2].
    assert (D0 : divfft_from_vecfft o (cx (s t)) (cy (s t)) m = RtoC 0)
      by (rewrite <- (Z m Im); unfold divfft_from_vecfft, dvg; rewrite (sw_Kx o m Ho), (sw_Ky o m Ho); reflexivity).
    unfold ux_from_div, uy_from_div in H1, H2. rewrite D0 in H1, H2. unfold rot, rot_of, azero. rewrite H1 at 1. rewrite H2 at 1. split; ring. }
  rewrite (advection_parts rot (cx (s t)) (ux_from_rot o rot) azero k Hk) by (intros; apply U; assumption).
  rewrite (advection_parts rot (cy (s t)) (uy_from_rot o rot) azero k Hk) by (intros; apply U; assumption).
  rewrite !advection_zero by exact Hk.
  rewrite (advection_parts rot (charney o f (s t)) rot (fscal (- f) (cz (s t))) k Hk)
    by (intros; unfold charney, fscal, rot, rot_of; rewrite (rot_vort o ms Hg), RtoC_opp; ring).
  rewrite advection_scal by exact Hk.
  rewrite <- (curl_advection o ms Hg rot k Hk). unfold px_fft at 1, py_fft at 1. rewrite (sw_Kx o k Ho), (sw_Ky o k Ho).
  pose proof (Z k Hk) as Zk. unfold dvg in Zk.
  transitivity (- (Ci * RtoC (wx o k) * advection o ms rot (uy_from_rot o rot) k - Ci * RtoC (wy o k) * advection o ms rot (ux_from_rot o rot) k
    + RtoC (- f) * advection o ms rot (cz (s t)) k) - RtoC f * (Ci * (RtoC (wx o k) * cx (s t) k + RtoC (wy o k) * cy (s t) k)))%C.
  - rewrite RtoC_opp. unfold gradx, grady. ring.
  - rewrite Zk. ring.
Qed.
End Shell.

(** all the modes: the sums of the transfers are zero *)
Theorem c116_sums u : vreal ms u ->
  let d := saved ms (budget u) in
  d "transfer2D_EK"%string = 0 /\ d "transfer2D_EA"%string = 0 /\ d "transfer2D_CPE"%string = 0
  /\ d "transfer2D_Errr"%string = 0 /\ d "transfer2D_Edrd"%string = 0 /\ d "transfer2D_Edrr_rrd"%string = 0.
Proof.
  intros (R1 & R2 & R3) d.
  assert (Z : forall rot a, real_field ms a -> rate ms (fun _ => 1) a (fun k => - advection o ms rot a k)%C = 0).
  { intros rot a Ra. rewrite <- (total_advection o ms Hg rot a Ra). unfold rate. apply total_ext. intros m _. rewrite conj_prod_eq. ring. }
  assert (Rr : real_field ms (rot_of u)).
  { intros m Hm. unfold rot_of, rot_from_vec. rewrite (R1 m Hm), (R2 m Hm), Kx_opp, Ky_opp. generalize (cx u m) (cy u m). intros [x y] [a b]. apply C_eq; cbn; ring. }
  assert (Rd : real_field ms (divfft_from_vecfft o (cx u) (cy u))).
  { intros m Hm. unfold divfft_from_vecfft. rewrite (R1 m Hm), (R2 m Hm), Kx_opp, Ky_opp. generalize (cx u m) (cy u m). intros [x y] [a b]. apply C_eq; cbn; ring. }
  assert (Rq : real_field ms (charney o f u)).
  { intros m Hm. unfold charney. rewrite <- !(rot_vort o ms Hg). fold (rot_of u). rewrite (Rr m Hm), (R3 m Hm). generalize (rot_of u m) (cz u m). intros [x y] [a b]. apply C_eq; cbn; ring. }
  destruct (uxr_real o ms Hg (rot_of u) Rr) as [Rx Ry].
  assert (RDx : real_field ms (ux_from_div o (divfft_from_vecfft o (cx u) (cy u)))).
  { intros m Hm. pose proof (K2_not0_pos o m Ho) as P. unfold ux_from_div. rewrite (Rd m Hm), Kx_opp, K2_not0_opp. generalize (divfft_from_vecfft o (cx u) (cy u) m).
    intros [x y]. apply C_eq; cbn; field; lra. }
  assert (RDy : real_field ms (uy_from_div o (divfft_from_vecfft o (cx u) (cy u)))).
  { intros m Hm. pose proof (K2_not0_pos o m Ho) as P. unfold uy_from_div. rewrite (Rd m Hm), Ky_opp, K2_not0_opp. generalize (divfft_from_vecfft o (cx u) (cy u) m).
    intros [x y]. apply C_eq; cbn; field; lra. }
  assert (EK : d "transfer2D_EK"%string = 0) by (unfold d; rewrite saved_EK_modified by exact (all_modes o ms Hg); rewrite !Z by assumption; ring).
  assert (EA : d "transfer2D_EA"%string = 0) by (unfold d; rewrite saved_EA_modified by exact (all_modes o ms Hg); rewrite !Z by assumption; ring).
  assert (EC : d "transfer2D_CPE"%string = 0) by (unfold d; rewrite saved_CPE_modified by exact (all_modes o ms Hg); apply Z; assumption).
  assert (ER : d "transfer2D_Errr"%string = 0).
  { unfold d, budget. rewrite (surjective_pairing u), (surjective_pairing (fst u)). pick.
    rewrite <- (Rplus_0_r 0). rewrite <- (total_advection o ms Hg (rot_of u) _ Rx) at 1. rewrite <- (total_advection o ms Hg (rot_of u) _ Ry). rewrite <- total_plus.
    apply total_ext. intros m Hm. cbv beta zeta. unfold inner_prod. rewrite !(fnonlin_eq o ms dea Hd) by exact Hm. reflexivity. }
  assert (ED : d "transfer2D_Edrd"%string = 0).
  { unfold d, budget. rewrite (surjective_pairing u), (surjective_pairing (fst u)). pick.
    rewrite <- (Rplus_0_r 0). rewrite <- (total_advection o ms Hg (rot_of u) _ RDx) at 1. rewrite <- (total_advection o ms Hg (rot_of u) _ RDy). rewrite <- total_plus.
    apply total_ext. intros m Hm. cbv beta zeta. unfold inner_prod. rewrite !(fnonlin_eq o ms dea Hd) by exact Hm. reflexivity. }
  split; [exact EK|]. split; [exact EA|]. split; [exact EC|]. split; [exact ER|]. split; [exact ED|].
  pose proof (parts_sum u ms) as P. fold d in P. lra.
Qed.
End SebSW.

(** ** Examples: the hypotheses are met *)

(** velocity with rotational and divergent parts: all the coefficients 1 *)
Example c116_example : exists ms s, good_modes o8 ms /\ shell_of ms [(1, 0, 0)%Z] /\ vreal ms (s 0)
  /\ vmoves ms s 0 (sw1l_modified o8 ms (fun _ => false) 1 2 (s 0)).
Proof.
  destruct o8_modes as (ms & Hg & Hin). set (i := fun _ : mode => RtoC 1).
  exists ms, (fun x => (line 0 i (cx (sw1l_modified o8 ms (fun _ => false) 1 2 (i, i, i))) x, line 0 i (cy (sw1l_modified o8 ms (fun _ => false) 1 2 (i, i, i))) x,
    line 0 i (cz (sw1l_modified o8 ms (fun _ => false) 1 2 (i, i, i))) x)).
  rewrite !line_at. split; [exact Hg|]. split; [split; [repeat constructor; intros []|intros m [<-|[]]; exact Hin]|].
  split; [split; [|split]; intros m _; apply C_eq; cbn; lra|]. split; [|split]; apply line_moves.
Qed.

(** a velocity without divergence: uy = 2 cos x *)
Example c116_charney_example : exists s, good_modes o8 ms3 /\ shell_of ms3 [(1, 0, 0)%Z] /\ vreal ms3 (s 0)
  /\ (forall m, In m ms3 -> dvg o8 (cx (s 0)) (cy (s 0)) m = RtoC 0)
  /\ vmoves ms3 s 0 (sw1l_modified o8 ms3 (fun _ => false) 1 2 (s 0)).
Proof.
  set (i := fun _ : mode => RtoC 1). set (z := azero).
  exists (fun x => (line 0 z (cx (sw1l_modified o8 ms3 (fun _ => false) 1 2 (z, i, i))) x, line 0 i (cy (sw1l_modified o8 ms3 (fun _ => false) 1 2 (z, i, i))) x,
    line 0 i (cz (sw1l_modified o8 ms3 (fun _ => false) 1 2 (z, i, i))) x)).
  rewrite !line_at. split; [exact ms3_good|]. split; [split; [repeat constructor; intros []|intros m [<-|[]]; cbn; tauto]|].
  split; [split; [|split]; intros m _; apply C_eq; cbn; lra|].
  split; [intros m Hm; unfold dvg; rewrite cx_mk, cy_mk; unfold z, azero, i; replace (wy o8 m) with 0; [ring|]|].
  - unfold ms3 in Hm. cbn in Hm. destruct Hm as [<-|[<-|[<-|[]]]]; rewrite wy8; reflexivity.
  - split; [|split]; apply line_moves.
Qed.

Print Assumptions c116_kinetic.
Print Assumptions c116_potential.
Print Assumptions c116_parts.
Print Assumptions c116_charney.
Print Assumptions c116_sums.
