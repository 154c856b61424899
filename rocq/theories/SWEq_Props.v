(** * Shallow water: equations solved by the solvers: C106, C107, C109 *)

From Coq Require Import Reals Lra ZArith Lia List Bool FunctionalExtensionality.
From Coquelicot Require Import Coquelicot.
From Verif Require Import CExp DFT Alias_Model Alias_Proofs Oper_Model Oper_Proofs Budget_Model Budget_Spec Budget_Proofs Budget2D_Proofs
  Budget2D_Props BudgetEq_Props SW_Spec SW_Model SWNormal_Model SW_Proofs SWModes_Props.
Import ListNotations.
Local Open Scope R_scope.

Lemma ifft_fun o ms a b : (forall m, In m ms -> a m = b m) -> ifft o ms a = ifft o ms b.
Proof. intros H. extensionality jx. extensionality jy. extensionality jz. apply ifft_ext. exact H. Qed.

Lemma cx_mk (a b c : field) : cx (a, b, c) = a.
Proof. reflexivity. Qed.
Lemma cy_mk (a b c : field) : cy (a, b, c) = b.
Proof. reflexivity. Qed.
Lemma cz_mk (a b c : field) : cz (a, b, c) = c.
Proof. reflexivity. Qed.

Lemma splus_agree m a a' b b' : agree m a a' -> agree m b b' -> agree m (splus a b) (splus a' b').
Proof. intros (H1 & H2 & H3) (G1 & G2 & G3). unfold agree, splus, cx, cy, cz in *. cbn [fst snd]. rewrite H1, H2, H3, G1, G2, G3. repeat split. Qed.
Lemma agree_trans m a b c : agree m a b -> agree m b c -> agree m a c.
Proof. intros (H1 & H2 & H3) (G1 & G2 & G3). unfold agree. rewrite H1, H2, H3. repeat split; assumption. Qed.
Lemma agree_sym m a b : agree m a b -> agree m b a.
Proof. intros (H1 & H2 & H3). unfold agree. rewrite H1, H2, H3. repeat split. Qed.

Section Lin.
Variable o : oper.
Variables f c2 : R.
Hypothesis Ho : oper_pos o.
Hypothesis Hc : 0 < c2.
Notation qapam := (qapamfft_from_uxuyetafft o f c2).
Notation uxuyeta := (uxuyetafft_from_qapamfft o f c2).

Lemma qapam_local m s s' : agree m s s' -> agree m (qapam s) (qapam s').
Proof.
  destruct s as [[a b] c], s' as [[a' b'] c']. intros (H1 & H2 & H3). unfold cx, cy, cz in H1, H2, H3. cbn [fst snd] in H1, H2, H3.
  unfold agree, qapamfft_from_uxuyetafft, cx, cy, cz. cbn [fst snd]. rewrite H1, H2, H3. repeat split.
Qed.

Lemma qapam_plus m s s' : agree m (qapam (splus s s')) (splus (qapam s) (qapam s')).
Proof.
  destruct s as [[a b] c], s' as [[a' b'] c']. unfold agree, qapamfft_from_uxuyetafft, splus, cx, cy, cz. cbn [fst snd].
  destruct (first m), (Req_EM_T f 0); repeat split; ring.
Qed.

(** normal modes of the linear equations *)
Lemma omega_sq m : 0 <= sqrt (f ^ 2 + c2 * K2_2d o m) /\ sqrt (f ^ 2 + c2 * K2_2d o m) ^ 2 = f ^ 2 + c2 * K2_2d o m.
Proof.
  split; [apply sqrt_pos|]. apply pow2_sqrt. unfold K2_2d. pose proof (pow2_ge_0 f). pose proof (pow2_ge_0 (Kx o m)). pose proof (pow2_ge_0 (Ky o m)).
  pose proof (Rmult_le_pos c2 (Kx o m ^ 2 + Ky o m ^ 2)). lra.
Qed.

Lemma qapam_linear s m : first m = false -> agree m (qapam (linear_sw o f c2 s))
  (fun _ => RtoC 0, fun m => - (Ci * RtoC (sqrt (f ^ 2 + c2 * K2_2d o m))) * cy (qapam s) m, fun m => Ci * RtoC (sqrt (f ^ 2 + c2 * K2_2d o m)) * cz (qapam s) m)%C.
Proof.
  intros E. destruct s as [[ux uy] eta]. unfold linear_sw, agree. rewrite (qapam_q o f c2 Ho), (qapam_ap o f c2 Ho Hc), (qapam_am o f c2 Ho Hc) by exact E.
  unfold cx at 5, cy at 5 8, cz at 5 7. cbn [fst snd]. unfold cx, cy, cz. cbn [fst snd].
  change (snd (fst (qapam (ux, uy, eta))) m) with (cy (qapam (ux, uy, eta)) m). change (snd (qapam (ux, uy, eta)) m) with (cz (qapam (ux, uy, eta)) m).
  rewrite (qapam_ap o f c2 Ho Hc), (qapam_am o f c2 Ho Hc), (Kic_sigma o f c2 Ho Hc) by exact E.
  assert (S : sqrt (f ^ 2 + c2 * K2_2d o m) = sigma o f c2 m).
  { destruct (sigma_sq o f c2 Ho Hc m E) as [S S2]. rewrite <- S2. apply sqrt_pow2. lra. }
  destruct (sigma_sq o f c2 Ho Hc m E) as [Sp S2]. rewrite S. clear S. destruct (K2_eq o Ho m E) as (_ & K1 & K2).
  unfold ageo, vort, dvg, gradx, grady. revert S2 Sp. rewrite K2. generalize (wx o m) (wy o m) (ux m) (uy m) (eta m) (sigma o f c2 m).
  intros x y [u1 u2] [v1 v2] [e1 e2] s S2 Sp. assert (X : f ^ 2 = s ^ 2 - c2 * (x ^ 2 + y ^ 2)) by lra.
  split; [apply C_eq; cbn; ring|].
  split; apply C_eq; cbn.
  all: match goal with |- ?l = ?r => enough (l - r = (f ^ 2 - (s ^ 2 - c2 * (x ^ 2 + y ^ 2))) * ((x * u2 + y * v2) / (2 * c2))
      \/ l - r = (f ^ 2 - (s ^ 2 - c2 * (x ^ 2 + y ^ 2))) * (- (x * u1 + y * v1) / (2 * c2))) as EQ;
      [rewrite X in EQ; apply Rminus_diag_uniq; destruct EQ as [EQ|EQ]; rewrite EQ; ring |] end.
  all: try (left; field; lra); right; field; lra.
Qed.
End Lin.

Section Eqs.
Variable o : oper.
Variable ms : list mode.
Variable dea : mode -> bool.
Variables f c2 : R.
Hypothesis Hg : good_modes o ms.
Hypothesis Hd : forall m, In m ms -> dea m = false.
Hypothesis Hc : 0 < c2.
Let Ho : oper_pos o := proj1 Hg.
Notation qapam := (qapamfft_from_uxuyetafft o f c2).
Notation uxuyeta := (uxuyetafft_from_qapamfft o f c2).

Lemma fft_id a k : In k ms -> fft o (ifft o ms a) k = a k.
Proof. destruct Hg as (H1 & H2 & H3 & H4). intros Hk. apply fft_ifft; try assumption. exact (proj1 H2). Qed.

Lemma fft_add u v k : fft o (gadd u v) k = (fft o u k + fft o v k)%C.
Proof. rewrite (fft_ext o _ (fun jx jy jz => RtoC 1 * u jx jy jz + RtoC 1 * v jx jy jz)%C); [rewrite fft_lin; ring | intros; unfold gadd, lift2; ring]. Qed.
Lemma fft_rsc c u k : fft o (rsc c u) k = (RtoC c * fft o u k)%C.
Proof. rewrite (fft_ext o _ (fun jx jy jz => RtoC c * u jx jy jz + RtoC 0 * u jx jy jz)%C); [rewrite fft_lin; ring | intros; unfold rsc; ring]. Qed.
Lemma fft_opp u k : fft o (gopp u) k = (- fft o u k)%C.
Proof. rewrite (fft_ext o _ (rsc (- 1) u)); [rewrite fft_rsc; generalize (fft o u k); intros [a b]; apply C_eq; cbn; ring | intros jx jy jz; unfold rsc, gopp; generalize (u jx jy jz); intros [a b]; apply C_eq; cbn; ring]. Qed.

(** nonlinear terms *)
Definition nonlin (rot : field) (u : vfield) : vfield :=
  let ux := ifft o ms (cx u) in
  let uy := ifft o ms (cy u) in
  let u2 := fscal (1 / 2) (fft o (gadd (gmul ux ux) (gmul uy uy))) in
  (fsub (fft o (gmul (ifft o ms rot) uy)) (px_fft o u2), fsub (fft o (gmul (gopp (ifft o ms rot)) ux)) (py_fft o u2),
   fopp (divfft_from_vecfft o (fft o (gmul (ifft o ms (cz u)) ux)) (fft o (gmul (ifft o ms (cz u)) uy)))).

Lemma fft_rotabs r u k : In k ms -> fft o (gmul (gadd (ifft o ms r) (gconst f)) (ifft o ms u)) k
  = (fft o (gmul (ifft o ms r) (ifft o ms u)) k + RtoC f * u k)%C.
Proof.
  intros Hk. rewrite (fft_ext o _ (gadd (gmul (ifft o ms r) (ifft o ms u)) (rsc f (ifft o ms u)))).
  - rewrite fft_add, fft_rsc, fft_id by exact Hk. reflexivity.
  - intros. unfold gmul, gadd, gconst, rsc, lift2. ring.
Qed.

Lemma sw1l_split u k : In k ms ->
  agree k (sw1l o ms dea f c2 u) (splus (nonlin (rot_from_vec o (cx u) (cy u)) u) (linear_sw o f c2 u)).
Proof.
  intros Hk. destruct u as [[ux uy] eta]. unfold sw1l, sw_compute_Frot, agree, splus, nonlin, linear_sw. unfold cx, cy, cz. cbn [fst snd].
  set (rot := rot_from_vec o ux uy).
  assert (Z : f = 0 -> forall z, (RtoC f * z)%C = RtoC 0) by (intros -> z; ring).
  assert (P : fft o (compute_pressure c2 (ifft o ms eta) (ifft o ms ux) (ifft o ms uy)) k
    = (RtoC c2 * eta k + fscal (1 / 2) (fft o (gadd (gmul (ifft o ms ux) (ifft o ms ux)) (gmul (ifft o ms uy) (ifft o ms uy)))) k)%C).
  { unfold compute_pressure. rewrite fft_add, !fft_rsc, fft_id by exact Hk. reflexivity. }
  split; [|split].
  - unfold dealiasing, fsub. rewrite (Hd k Hk). unfold px_fft. rewrite P. unfold gradx. rewrite <- (sw_Kx o k Ho).
    destruct (Req_EM_T f 0) as [E|_]; [rewrite (Z E); ring|]. rewrite fft_rotabs by exact Hk. ring.
  - unfold dealiasing, fsub. rewrite (Hd k Hk). unfold py_fft. rewrite P. unfold grady. rewrite <- (sw_Ky o k Ho).
    destruct (Req_EM_T f 0) as [E|_]; [replace (- RtoC f * ux k)%C with (- (RtoC f * ux k))%C by ring; rewrite (Z E); ring|].
    rewrite (fft_ext o (gmul (gopp (gadd _ _)) _) (gopp (gmul (gadd (ifft o ms rot) (gconst f)) (ifft o ms ux)))) by (intros; unfold gmul, gopp, lift2; ring).
    rewrite (fft_ext o (gmul (gopp (ifft o ms rot)) _) (gopp (gmul (ifft o ms rot) (ifft o ms ux)))) by (intros; unfold gmul, gopp, lift2; ring).
    rewrite !fft_opp, fft_rotabs by exact Hk. ring.
  - unfold dealiasing, fopp, divfft_from_vecfft. rewrite (Hd k Hk). unfold dvg. rewrite <- (sw_Kx o k Ho), <- (sw_Ky o k Ho).
    assert (H : forall u, fft o (gmul (gadd (ifft o ms eta) (gconst 1)) (ifft o ms u)) k = (fft o (gmul (ifft o ms eta) (ifft o ms u)) k + u k)%C).
    { intros u. rewrite (fft_ext o _ (gadd (gmul (ifft o ms eta) (ifft o ms u)) (ifft o ms u))) by (intros; unfold gmul, gadd, gconst, lift2; ring).
      rewrite fft_add, fft_id by exact Hk. reflexivity. }
    rewrite !H. ring.
Qed.

(** ** C107: exactlin solves the equations of sw1l *)

Definition no_mean_q (s : vfield) : Prop := forall m, In m ms -> mean_mode m -> cx s m = RtoC 0.

Lemma rot_of_q_eq s m : no_mean_q s -> In m ms ->
  rot_of_q f (cx s) (cz (uxuyeta s)) m = rot_from_vec o (cx (uxuyeta s)) (cy (uxuyeta s)) m.
Proof.
  intros Hq Hm. unfold rot_of_q, fadd, fscal.
  assert (V : rot_from_vec o (cx (uxuyeta s)) (cy (uxuyeta s)) m = vort o (cx (uxuyeta s)) (cy (uxuyeta s)) m) by (unfold rot_from_vec, vort; rewrite (sw_Kx o m Ho), (sw_Ky o m Ho); ring).
  rewrite V. destruct (first m) eqn:E.
  - destruct (uxuyeta_first o f c2 Hc s m E) as (_ & _ & ->). rewrite (Hq m Hm) by (apply mean_first; exact E).
    destruct (no_xy_K o m E) as [K1 K2]. unfold vort. rewrite <- (sw_Kx o m Ho), <- (sw_Ky o m Ho), K1, K2. ring.
  - rewrite (vort_uxuy o f c2 Ho Hc s m E). destruct (uxuyeta_eq o f c2 Ho Hc s m E) as (_ & _ & ->). unfold eta_of, rot_of.
    pose proof (kap_pos o f c2 Ho Hc m E) as P. rewrite (kap_kd2 o f c2) in *. pose proof (kap_num o f c2 Ho Hc m E) as P2.
    generalize dependent (K2_2d o m). intros K P P2. generalize (cx s m) (cy s m + cz s m)%C. intros [a b] [c d]. apply C_eq; cbn; field; lra.
Qed.

Lemma exactlin_nonlin s k : In k ms -> no_mean_q s ->
  agree k (exactlin o ms dea f c2 s) (qapam (nonlin (rot_from_vec o (cx (uxuyeta s)) (cy (uxuyeta s))) (uxuyeta s))).
Proof.
  intros Hk Hq. unfold exactlin. pose proof (rot_of_q_eq s) as R. destruct s as [[q ap] am]. destruct (uxuyeta (q, ap, am)) as [[ux uy] eta].
  unfold cx at 1 2, cy at 1 in R. cbn [fst snd] in R. unfold cz in R. cbn [fst snd] in R. unfold nonlin. unfold cx at 1 2 3 4 5, cy at 1 2 3 4 5, cz. cbn [fst snd].
  rewrite (ifft_fun o ms (rot_of_q f q eta) (rot_from_vec o ux uy)) by (intros m Hm; apply R; assumption).
  set (N := qapam _). destruct N as [[Nq Np] Nm] eqn:EN.
  assert (X : agree k (dealiasing dea Nq, dealiasing dea Np, dealiasing dea Nm) (Nq, Np, Nm)).
  { unfold agree, dealiasing, cx, cy, cz. cbn [fst snd]. rewrite (Hd k Hk). repeat split. }
  exact X.
Qed.

(** the tendency of the normal modes given by the equations of sw1l *)
Lemma modes_tendency s k : In k ms -> no_mean_q s ->
  agree k (qapam (sw1l o ms dea f c2 (uxuyeta s))) (splus (exactlin o ms dea f c2 s) (qapam (linear_sw o f c2 (uxuyeta s)))).
Proof.
  intros Hk Hq. eapply agree_trans; [apply qapam_local; apply sw1l_split; exact Hk|].
  eapply agree_trans; [apply qapam_plus|]. apply splus_agree; [|repeat split]. apply agree_sym. apply exactlin_nonlin; assumption.
Qed.

Theorem c107_exactlin_partial s k : In k ms -> no_mean_q s -> ~ mean_mode k ->
  agree k (qapam (sw1l o ms dea f c2 (uxuyeta s))) (with_lin o f c2 (exactlin o ms dea f c2 s) s).
Proof.
  intros Hk Hq N. eapply agree_trans; [apply modes_tendency; assumption|]. destruct (c105_modes_partial o f c2 Ho Hc s k N) as (_ & R2 & R3).
  pose proof N as E. apply not_mean_first in E. destruct (qapam_linear o f c2 Ho Hc (uxuyeta s) k E) as (L1 & L2 & L3). unfold splus, with_lin, freq_complex, agree.
  unfold cx, cy, cz in *. cbn [fst snd] in *. rewrite R2 in L2. rewrite R3 in L3. rewrite L1, L2, L3. repeat split; ring.
Qed.

Lemma modes_tendency_mean s k : In k ms -> no_mean_q s -> mean_mode k ->
  agree k (qapam (sw1l o ms dea f c2 (uxuyeta s)))
    (splus (exactlin o ms dea f c2 s) (fun _ => RtoC 0, fun m => - (Ci * RtoC f) * cy s m, fun m => Ci * RtoC f * cz s m)%C).
Proof.
  intros Hk Hq N. eapply agree_trans; [apply modes_tendency; assumption|]. apply splus_agree; [repeat split|]. apply mean_first in N.
  rewrite (qapam_split o f c2 (linear_sw o f c2 (uxuyeta s))). destruct (qapam_first o f c2 (cx (linear_sw o f c2 (uxuyeta s))) (cy (linear_sw o f c2 (uxuyeta s))) (cz (linear_sw o f c2 (uxuyeta s))) k N) as (L1 & L2 & L3).
  unfold agree. rewrite L1, L2, L3. destruct (uxuyeta_first o f c2 Hc s k N) as (U1 & U2 & U3).
  destruct (no_xy_K o k N) as [K1 K2]. unfold linear_sw, gradx, grady. unfold cx, cy, cz in *. cbn [fst snd] in *.
  rewrite U1, U2, U3, <- (sw_Kx o k Ho), <- (sw_Ky o k Ho), K1, K2.
  split; [reflexivity|]. generalize (snd (fst s) k) (snd s k). intros [a b] [c d]. split; apply C_eq; cbn; field.
Qed.

(** with f >= 0 *)
Theorem c107_exactlin_mean_partial s k : 0 <= f -> In k ms -> no_mean_q s -> mean_mode k ->
  agree k (qapam (sw1l o ms dea f c2 (uxuyeta s))) (with_lin o f c2 (exactlin o ms dea f c2 s) s).
Proof.
  intros Hf Hk Hq N. eapply agree_trans; [apply modes_tendency_mean; assumption|]. apply mean_first in N. destruct (no_xy_K o k N) as [K1 K2].
  assert (W : sqrt (f ^ 2 + c2 * K2_2d o k) = f).
  { unfold K2_2d. rewrite K1, K2. replace (f ^ 2 + c2 * (0 ^ 2 + 0 ^ 2)) with (f ^ 2) by ring. apply sqrt_pow2. exact Hf. }
  unfold splus, with_lin, freq_complex, agree, cx, cy, cz. cbn [fst snd]. rewrite W. repeat split; ring.
Qed.

(** with f < 0 the mean flow turns in the other direction *)
Theorem c107_exactlin_negative_partial s k : f < 0 -> In k ms -> no_mean_q s -> mean_mode k ->
  (cy (qapam (sw1l o ms dea f c2 (uxuyeta s))) k = cy (exactlin o ms dea f c2 s) k - Ci * RtoC f * cy s k)%C
  /\ (cy (with_lin o f c2 (exactlin o ms dea f c2 s) s) k = cy (exactlin o ms dea f c2 s) k + Ci * RtoC f * cy s k)%C.
Proof.
  intros Hf Hk Hq N. destruct (modes_tendency_mean s k Hk Hq N) as (_ & E & _). apply mean_first in N. destruct (no_xy_K o k N) as [K1 K2].
  assert (W : sqrt (f ^ 2 + c2 * K2_2d o k) = - f).
  { unfold K2_2d. rewrite K1, K2. replace (f ^ 2 + c2 * (0 ^ 2 + 0 ^ 2)) with ((- f) ^ 2) by ring. apply sqrt_pow2. lra. }
  rewrite E. unfold splus, with_lin, freq_complex, cx, cy, cz. cbn [fst snd]. rewrite W, RtoC_opp. split; ring.
Qed.

(** ** C109: initial state with the height adjusted to the velocity *)

Theorem c109_no_div ux uy k : In k ms -> ~ mean_mode k ->
  let s := init_from_uxuyfft o ms dea f c2 ux uy in
  let t := sw1l o ms dea f c2 s in
  dvg o (cx s) (cy s) k = RtoC 0 /\ vort o (cx s) (cy s) k = vort o ux uy k /\ dvg o (cx t) (cy t) k = RtoC 0.
Proof.
  intros Hk N s t. apply not_mean_first in N. destruct (K2_eq o Ho k N) as (K0 & K1 & K2).
  assert (S1 : cx s k = (ux k - RtoC (wx o k) * ((RtoC (wx o k) * ux k + RtoC (wy o k) * uy k) / RtoC (K2_2d o k)))%C
     /\ cy s k = (uy k - RtoC (wy o k) * ((RtoC (wx o k) * ux k + RtoC (wy o k) * uy k) / RtoC (K2_2d o k)))%C).
  { unfold s, init_from_uxuyfft, projection_perp, dealiasing, cx, cy. cbn [fst snd]. rewrite (Hd k Hk), K0, (sw_Kx o k Ho), (sw_Ky o k Ho). split; reflexivity. }
  destruct S1 as [Sx Sy].
  split; [|split].
  - unfold dvg. rewrite Sx, Sy, !Cdiv_R by lra. revert K1. rewrite K2. generalize (wx o k) (wy o k) (ux k) (uy k). intros x y [a b] [c d] P. apply C_eq; cbn; field; lra.
  - unfold vort. rewrite Sx, Sy, !Cdiv_R by lra. generalize (wx o k) (wy o k) (ux k) (uy k). intros x y [a b] [c d]. apply C_eq; cbn; field; lra.
  - destruct (sw1l_split s k Hk) as (T1 & T2 & _). fold t in T1, T2. unfold dvg. rewrite T1, T2. clear T1 T2 t.
    assert (Se : cz s k = ((Ci * RtoC (wx o k) * - (fft o (gmul (ifft o ms (rot_from_vec o (cx s) (cy s))) (ifft o ms (cy s))) k + RtoC f * cy s k) / RtoC (K2_2d o k)
       + Ci * RtoC (wy o k) * (fft o (gmul (ifft o ms (rot_from_vec o (cx s) (cy s))) (ifft o ms (cx s))) k + RtoC f * cx s k) / RtoC (K2_2d o k)
       - fft o (gadd (gmul (ifft o ms (cx s)) (ifft o ms (cx s))) (gmul (ifft o ms (cy s)) (ifft o ms (cy s)))) k / RtoC 2) / RtoC c2)%C).
    { unfold s at 1, init_from_uxuyfft. destruct (projection_perp o ux uy) as [px py] eqn:EP. unfold cz. cbn [snd]. unfold etafft_no_div, dealiasing at 1. rewrite (Hd k Hk), N.
      unfold fopp. rewrite !fft_rotabs by exact Hk. rewrite K0, (sw_Kx o k Ho), (sw_Ky o k Ho).
      assert (Es : s = (dealiasing dea px, dealiasing dea py, cz s)) by (unfold s, init_from_uxuyfft; rewrite EP; reflexivity).
      rewrite Es. unfold cx, cy. cbn [fst snd]. reflexivity. }
    unfold splus, nonlin, linear_sw, gradx, grady, fsub, px_fft, py_fft, fscal. rewrite !cx_mk, !cy_mk.
    rewrite (fft_ext o (gmul (gopp (ifft o ms _)) _) (gopp (gmul (ifft o ms (rot_from_vec o (cx s) (cy s))) (ifft o ms (cx s))))) by (intros; unfold gmul, gopp, lift2; ring).
    rewrite fft_opp, Se. generalize (fft o (gmul (ifft o ms (rot_from_vec o (cx s) (cy s))) (ifft o ms (cy s))) k) (fft o (gmul (ifft o ms (rot_from_vec o (cx s) (cy s))) (ifft o ms (cx s))) k)
      (fft o (gadd (gmul (ifft o ms (cx s)) (ifft o ms (cx s))) (gmul (ifft o ms (cy s)) (ifft o ms (cy s)))) k) (cx s k) (cy s k).
    intros Z1 Z2 Z3 Z4 Z5. rewrite !Cdiv_R by lra. rewrite (sw_Kx o k Ho), (sw_Ky o k Ho). clear Sx Sy Se s N K0. revert K1. rewrite K2. generalize (wx o k) (wy o k). intros x y P.
    destruct Z1 as [a1 b1], Z2 as [a2 b2], Z3 as [a3 b3], Z4 as [a4 b4], Z5 as [a5 b5]. apply C_eq; cbn; field; lra.
Qed.

(** ** C106: the shallow water equations
    du/dt + u du/dx + v du/dy = f v - c^2 deta/dx, dv/dt + u dv/dx + v dv/dy = - f u - c^2 deta/dy, deta/dt + div((1 + eta) u) = 0 *)

Lemma rot_conv ux uy b k : In k ms -> fft o (gmul (ifft o ms (rot_from_vec o ux uy)) (ifft o ms b)) k
  = (convolution ms b (ddx o uy) k - convolution ms b (ddy o ux) k)%C.
Proof.
  intros Hk. rewrite (fft_conv o ms Hg) by exact Hk. rewrite conv_swap, <- conv_sub. apply conv_ext; [reflexivity|]. intros m _.
  unfold rot_from_vec, ddx, ddy. rewrite (sw_Kx o m Ho), (sw_Ky o m Ho). ring.
Qed.

Lemma u2_x ux uy k : In k ms -> px_fft o (fscal (1 / 2) (fft o (gadd (gmul (ifft o ms ux) (ifft o ms ux)) (gmul (ifft o ms uy) (ifft o ms uy))))) k
  = (convolution ms ux (ddx o ux) k + convolution ms uy (ddx o uy) k)%C.
Proof.
  intros Hk. unfold px_fft, fscal. rewrite fft_add, !(fft_conv o ms Hg) by exact Hk. unfold ddx. rewrite !(half_square ms (wx o)) by (intros; apply wx_add; assumption).
  rewrite (sw_Kx o k Ho). ring.
Qed.
Lemma u2_y ux uy k : In k ms -> py_fft o (fscal (1 / 2) (fft o (gadd (gmul (ifft o ms ux) (ifft o ms ux)) (gmul (ifft o ms uy) (ifft o ms uy))))) k
  = (convolution ms ux (ddy o ux) k + convolution ms uy (ddy o uy) k)%C.
Proof.
  intros Hk. unfold py_fft, fscal. rewrite fft_add, !(fft_conv o ms Hg) by exact Hk. unfold ddy. rewrite !(half_square ms (wy o)) by (intros; apply wy_add; assumption).
  rewrite (sw_Ky o k Ho). ring.
Qed.

Theorem c106_equations u k : In k ms ->
  cx (sw1l o ms dea f c2 u) k = (- (convolution ms (cx u) (ddx o (cx u)) k + convolution ms (cy u) (ddy o (cx u)) k) + RtoC f * cy u k - RtoC c2 * ddx o (cz u) k)%C
  /\ cy (sw1l o ms dea f c2 u) k = (- (convolution ms (cx u) (ddx o (cy u)) k + convolution ms (cy u) (ddy o (cy u)) k) - RtoC f * cx u k - RtoC c2 * ddy o (cz u) k)%C
  /\ cz (sw1l o ms dea f c2 u) k = (- ddx o (fun m => cx u m + convolution ms (cz u) (cx u) m) k - ddy o (fun m => cy u m + convolution ms (cz u) (cy u) m) k)%C.
Proof.
  intros Hk. destruct (sw1l_split u k Hk) as (-> & -> & ->). destruct u as [[ux uy] eta]. unfold splus, nonlin, linear_sw. rewrite !cx_mk, !cy_mk, !cz_mk. unfold fsub.
  rewrite u2_x, u2_y, rot_conv by exact Hk.
  rewrite (fft_ext o (gmul (gopp (ifft o ms _)) _) (gopp (gmul (ifft o ms (rot_from_vec o ux uy)) (ifft o ms ux)))) by (intros; unfold gmul, gopp, lift2; ring).
  rewrite fft_opp, rot_conv by exact Hk. unfold fopp, divfft_from_vecfft. rewrite !(fft_conv o ms Hg) by exact Hk. unfold gradx, grady, dvg. rewrite ?(sw_Kx o k Ho), ?(sw_Ky o k Ho).
  generalize (convolution ms ux (ddx o ux) k) (convolution ms uy (ddx o uy) k) (convolution ms uy (ddy o ux) k) (convolution ms ux (ddx o uy) k)
    (convolution ms ux (ddy o ux) k) (convolution ms uy (ddy o uy) k). intros a b c d e g. unfold ddx, ddy. repeat split; ring.
Qed.

(** the mean height does not change (whatever the truncation) *)
Theorem c106_mean_height u k : mean_mode k -> cz (sw1l o ms dea f c2 u) k = RtoC 0.
Proof.
  intros N. apply mean_first in N. destruct (no_xy_K o k N) as [K1 K2]. destruct u as [[ux uy] eta]. unfold sw1l, sw_compute_Frot, cz. cbn [snd].
  unfold dealiasing, fopp, divfft_from_vecfft. rewrite K1, K2. destruct (dea k); ring.
Qed.
End Eqs.

Print Assumptions c107_exactlin_partial.
Print Assumptions c107_exactlin_mean_partial.
Print Assumptions c107_exactlin_negative_partial.
Print Assumptions c109_no_div.
Print Assumptions c106_equations.
Print Assumptions c106_mean_height.
