(** * C96: the tendencies are the equations which are announced, for the modes which are kept *)

From Coq Require Import Reals Lra ZArith Lia List Bool Permutation.
From Coquelicot Require Import Coquelicot.
From Verif Require Import CExp DFT Alias_Model Alias_Proofs Alias_Props Oper_Model Oper_Spec OperVec_Proofs
  Budget_Model Budget_Spec Budget_Proofs Budget2D_Proofs Budget2D_Props Budget3D_Proofs Budget3D_Props Budget1D_Props.
Import ListNotations.
Local Open Scope R_scope.

(** ** Specification: exact products of truncated series, derivatives *)

(** coefficient of the mode [k] of the product of two fields: sum over p + q = k *)
Definition convolution (ms : list mode) (a b : mode -> C) (k : mode) : C :=
  lsum ms (fun p => lsum ms (fun q => if mode_eqb (madd p q) k then (a p * b q)%C else RtoC 0)).

Definition ddx (o : oper) (a : mode -> C) (m : mode) : C := (Ci * RtoC (wx o m) * a m)%C.
Definition ddy (o : oper) (a : mode -> C) (m : mode) : C := (Ci * RtoC (wy o m) * a m)%C.
Definition ddz (o : oper) (a : mode -> C) (m : mode) : C := (Ci * RtoC (wz o m) * a m)%C.

(** velocity along x of the two dimensional flow of vorticity [rot] *)
Definition horizontal_velocity (o : oper) (rot : mode -> C) (m : mode) : C :=
  if ((mx m =? 0) && (my m =? 0))%Z%bool then RtoC 0 else (Ci * RtoC (wy o m / (wx o m ^ 2 + wy o m ^ 2)) * rot m)%C.

(** u . grad a in two dimensions, v . grad a in three dimensions *)
Definition transport_2d (o : oper) (ms : list mode) (rot a : mode -> C) (k : mode) : C :=
  (convolution ms (horizontal_velocity o rot) (ddx o a) k + convolution ms (vertical_velocity o rot) (ddy o a) k)%C.
Definition transport_3d (o : oper) (ms : list mode) (v : (mode -> C) * (mode -> C) * (mode -> C)) (a : mode -> C) (k : mode) : C :=
  (convolution ms (cx v) (ddx o a) k + convolution ms (cy v) (ddy o a) k + convolution ms (cz v) (ddz o a) k)%C.

(** ** Lemmas *)

Lemma surjective_triple {A B D} (t : A * B * D) : t = (fst (fst t), snd (fst t), snd t).
Proof. destruct t as [[a b] d]. reflexivity. Qed.

Lemma at_inj (F : vfield) k a b c : at_mode F k = (a, b, c) -> vxf F k = a /\ vyf F k = b /\ vzf F k = c.
Proof. unfold at_mode. generalize (vxf F k) (vyf F k) (vzf F k). intros x y z E. injection E. auto. Qed.

Lemma conv_ext ms a a' b b' k : (forall m, In m ms -> a m = a' m) -> (forall m, In m ms -> b m = b' m) ->
  convolution ms a b k = convolution ms a' b' k.
Proof.
  intros H1 H2. unfold convolution. apply lsum_ext. intros p Hp. apply lsum_ext. intros q Hq.
  rewrite (H1 p Hp), (H2 q Hq). reflexivity.
Qed.

Lemma conv_swap ms a b k : convolution ms a b k = convolution ms b a k.
Proof.
  unfold convolution. rewrite lsum_lsum. apply lsum_ext. intros q _. apply lsum_ext. intros p _.
  replace (madd p q) with (madd q p) by (unfold madd; rewrite (Z.add_comm (mx q)), (Z.add_comm (my q)), (Z.add_comm (mz q)); reflexivity).
  destruct (mode_eqb _ _); ring.
Qed.

Lemma conv_lin ms a b b' c c' k : convolution ms a (fun m => c * b m + c' * b' m)%C k = (c * convolution ms a b k + c' * convolution ms a b' k)%C.
Proof.
  unfold convolution. rewrite <- !lsum_scal, <- lsum_plus. apply lsum_ext. intros p _.
  rewrite <- !lsum_scal, <- lsum_plus. apply lsum_ext. intros q _. destruct (mode_eqb _ _); ring.
Qed.

Lemma conv_sub ms a b b' k : convolution ms a (fun m => b m - b' m)%C k = (convolution ms a b k - convolution ms a b' k)%C.
Proof.
  rewrite (conv_ext ms a a _ (fun m => RtoC 1 * b m + (- RtoC 1) * b' m)%C) by (intros; ring). rewrite conv_lin. ring.
Qed.

Section Eq.
Variable o : oper.
Variable ms : list mode.
Hypothesis Hg : good_modes o ms.

Lemma sum0_conv p q k : sum0 p q (mopp k) = mode_eqb (madd p q) k.
Proof.
  apply eq_true_iff_eq. rewrite sum0_spec, mode_eqb_eq. unfold mopp, madd, mx, my, mz. destruct p as [[a b] c], q as [[a' b'] c'], k as [[a'' b''] c''].
  cbn [fst snd]. split; [intros (H1 & H2 & H3); repeat f_equal; lia | intros E; injection E; intros; lia].
Qed.

Lemma fft_conv a b k : In k ms -> fft o (gmul (ifft o ms a) (ifft o ms b)) k = convolution ms a b k.
Proof.
  destruct Hg as (Ho & Hs & H0 & Ha). intros Hk. rewrite product_exact; [|exact Ho | intros p q Hp Hq; apply Ha; assumption].
  unfold convolution. apply lsum_ext. intros p _. apply lsum_ext. intros q _. rewrite sum0_conv. reflexivity.
Qed.

(** product of the Fourier series and Leibniz rule *)
Lemma leibniz (K : mode -> R) a b k : (forall p q, mode_eqb (madd p q) k = true -> K k = K p + K q) ->
  (Ci * RtoC (K k) * convolution ms a b k)%C
  = (convolution ms (fun m => Ci * RtoC (K m) * a m)%C b k + convolution ms a (fun m => Ci * RtoC (K m) * b m)%C k)%C.
Proof.
  intros H. unfold convolution. rewrite <- lsum_scal, <- lsum_plus. apply lsum_ext. intros p _.
  rewrite <- lsum_scal, <- lsum_plus. apply lsum_ext. intros q _. destruct (mode_eqb (madd p q) k) eqn:E; [|ring].
  rewrite (H p q E), RtoC_plus. ring.
Qed.

Lemma wx_add p q k : mode_eqb (madd p q) k = true -> wx o k = wx o p + wx o q.
Proof. intros E. apply mode_eqb_eq in E. subst k. unfold wx, madd, mx. cbn [fst snd]. rewrite plus_IZR. unfold Rdiv. ring. Qed.
Lemma wy_add p q k : mode_eqb (madd p q) k = true -> wy o k = wy o p + wy o q.
Proof. intros E. apply mode_eqb_eq in E. subst k. unfold wy, madd, my. cbn [fst snd]. rewrite plus_IZR. unfold Rdiv. ring. Qed.
Lemma wz_add p q k : mode_eqb (madd p q) k = true -> wz o k = wz o p + wz o q.
Proof. intros E. apply mode_eqb_eq in E. subst k. unfold wz, madd, mz. cbn [fst snd]. rewrite plus_IZR. unfold Rdiv. ring. Qed.

Lemma ddx_px a m : ddx o a m = px_fft o a m.
Proof. unfold ddx, px_fft. rewrite (w3x o (proj1 Hg)). reflexivity. Qed.
Lemma ddy_py a m : ddy o a m = py_fft o a m.
Proof. unfold ddy, py_fft. rewrite (w3y o (proj1 Hg)). reflexivity. Qed.
Lemma ddz_pz a m : ddz o a m = pz_fft o a m.
Proof. unfold ddz, pz_fft. rewrite (w3z o (proj1 Hg)). reflexivity. Qed.

(** ** Two dimensions *)

Lemma horizontal_eq rot m : horizontal_velocity o rot m = ux_from_rot o rot m.
Proof.
  unfold horizontal_velocity, ux_from_rot, K2_not0. destruct ((mx m =? 0)%Z && (my m =? 0)%Z) eqn:E.
  - destruct (no_xy_K o m E) as [_ ->]. unfold Rdiv. rewrite Rmult_0_l. ring.
  - rewrite (w3x o (proj1 Hg)), (w3y o (proj1 Hg)). reflexivity.
Qed.

Lemma transport_advection rot a k : In k ms -> advection o ms rot a k = transport_2d o ms rot a k.
Proof.
  intros Hk. unfold advection, transport_2d. rewrite !fft_conv by exact Hk.
  f_equal; apply conv_ext; intros m _; symmetry; (apply horizontal_eq || apply (vertical_eq o ms Hg) || apply ddx_px || apply ddy_py).
Qed.

Variable dea : mode -> bool.
Hypothesis Hd : forall m, In m ms -> dea m = false.

(** d rot / dt + u . grad rot + beta u_y = 0 *)
Theorem c96_ns2d beta rot k : In k ms ->
  ns2d o ms dea beta rot k = (- transport_2d o ms rot rot k - RtoC beta * vertical_velocity o rot k)%C.
Proof.
  pose proof Hg as (Ho & Hs & H0 & Ha). intros Hk. rewrite (ns2d_eq o ms) by assumption.
  rewrite transport_advection, (vertical_eq o ms Hg) by exact Hk. reflexivity.
Qed.

(** d rot / dt + u . grad rot = db / dx and db / dt + u . grad b + N^2 u_y = 0 *)
Theorem c96_ns2d_strat N beta rot b k : In k ms ->
  fst (ns2d_strat o ms dea N beta (rot, b)) k = (- transport_2d o ms rot rot k + ddx o b k)%C
  /\ snd (ns2d_strat o ms dea N beta (rot, b)) k = (- transport_2d o ms rot b k - RtoC (N ^ 2) * vertical_velocity o rot k)%C.
Proof.
  intros Hk. destruct (strat_eq o ms dea Hg Hd N beta rot b k Hk) as [E1 E2]. rewrite E1, E2.
  rewrite !transport_advection, (vertical_eq o ms Hg), ddx_px by exact Hk. split; reflexivity.
Qed.

Theorem c96_ns2d_bouss rot b k : In k ms ->
  fst (ns2d_bouss o ms dea (rot, b)) k = (- transport_2d o ms rot rot k + ddx o b k)%C
  /\ snd (ns2d_bouss o ms dea (rot, b)) k = (- transport_2d o ms rot b k)%C.
Proof.
  intros Hk. destruct (bouss_eq o ms dea Hg Hd rot b k Hk) as [E1 E2]. rewrite E1, E2.
  rewrite !transport_advection, ddx_px by exact Hk. split; reflexivity.
Qed.

(** ** One dimension: du / dt + u du / dx = 0 *)

Theorem c96_burgers u k : (forall m, In m ms -> (Z.abs (mx m) <> Z.of_nat (nx o / 2))%Z) -> In k ms ->
  burgers o ms dea u k = (- convolution ms u (ddx o u) k)%C
  /\ burgers_skew o ms dea u k = (- convolution ms u (ddx o u) k)%C.
Proof.
  pose proof Hg as (Ho & Hs & H0 & Ha). intros Hodd Hk.
  assert (E : burgers o ms dea u k = (- convolution ms u (ddx o u) k)%C).
  { rewrite (burgers_eq o ms dea Hd Hodd) by exact Hk. rewrite fft_conv by exact Hk. f_equal. apply conv_ext; [reflexivity|].
    intros m _. symmetry. apply ddx_px. }
  split; [exact E|]. rewrite (c92_same_partial o ms dea Ho Hd Hodd Ha u k Hk). exact E.
Qed.

(** ** Three dimensions *)

(** the product of a field and its derivative *)
Lemma conv_square (K : mode -> R) a k : (forall p q, mode_eqb (madd p q) k = true -> K k = K p + K q) ->
  (RtoC 2 * convolution ms a (fun m => Ci * RtoC (K m) * a m) k)%C = (Ci * RtoC (K k) * convolution ms a a k)%C.
Proof.
  intros H. rewrite (leibniz K a a k H). rewrite (conv_swap ms (fun m => Ci * RtoC (K m) * a m)%C a).
  generalize (convolution ms a (fun m => Ci * RtoC (K m) * a m)%C k). intros z. apply C_eq; cbn; ring.
Qed.

Lemma fft_cross a b c d k : In k ms -> fft o (gsub (gmul (ifft o ms a) (ifft o ms b)) (gmul (ifft o ms c) (ifft o ms d))) k
  = (convolution ms a b k - convolution ms c d k)%C.
Proof.
  intros Hk. rewrite (fft_ext o _ (fun jx jy jz => RtoC 1 * gmul (ifft o ms a) (ifft o ms b) jx jy jz + (- RtoC 1) * gmul (ifft o ms c) (ifft o ms d) jx jy jz)%C).
  - rewrite fft_lin, !fft_conv by exact Hk. ring.
  - intros. unfold gsub, lift2. ring.
Qed.

Lemma conv_delta0 a k : In k ms -> convolution ms a delta0 k = a k.
Proof.
  pose proof Hg as (Ho & Hs & H0 & Ha). intros Hk. unfold convolution. rewrite (lsum_single ms _ k (proj1 Hs) Hk).
  - rewrite (lsum_single ms _ zero_mode (proj1 Hs) H0).
    + replace (mode_eqb (madd k zero_mode) k) with true.
      * unfold delta0. replace (mode_eqb zero_mode zero_mode) with true by (symmetry; apply mode_eqb_eq; reflexivity). ring.
      * symmetry. apply mode_eqb_eq. destruct k as [[k1 k2] k3]. unfold madd, zero_mode, mx, my, mz. cbn [fst snd]. rewrite !Z.add_0_r. reflexivity.
    + intros q _ N. cbv beta. unfold delta0. destruct (mode_eqb q zero_mode) eqn:E; [apply mode_eqb_eq in E; contradiction|]. destruct (mode_eqb (madd k q) k); ring.
  - intros p _ N. apply lsum_zero. intros q _. destruct (mode_eqb (madd p q) k) eqn:E; [|reflexivity].
    unfold delta0. destruct (mode_eqb q zero_mode) eqn:E'; [|ring]. apply mode_eqb_eq in E'. apply mode_eqb_eq in E. subst q. exfalso. apply N.
    rewrite <- E. destruct p as [[p1 p2] p3]. unfold madd, zero_mode, mx, my, mz. cbn [fst snd]. rewrite !Z.add_0_r. reflexivity.
Qed.

(** half of the square of the velocity *)
Definition bernoulli (v : vfield) (k : mode) : C :=
  (RtoC (1 / 2) * (convolution ms (cx v) (cx v) k + convolution ms (cy v) (cy v) k + convolution ms (cz v) (cz v) k))%C.

Lemma half_square (K : mode -> R) a k : (forall p q, mode_eqb (madd p q) k = true -> K k = K p + K q) ->
  convolution ms a (fun m => Ci * RtoC (K m) * a m)%C k = (RtoC (1 / 2) * (Ci * RtoC (K k) * convolution ms a a k))%C.
Proof.
  intros H. rewrite <- (conv_square K a k H). generalize (convolution ms a (fun m => Ci * RtoC (K m) * a m)%C k). intros z. apply C_eq; cbn; lra.
Qed.

(** Lamb vector and advection *)
Lemma lamb f v k : In k ms ->
  at_mode (vfft o (vector_product (vifft o ms v) (vifft o ms (modif_omega f (curl o v))))) k
  = ((- transport_3d o ms v (cx v) k + RtoC (coriolis f) * cy v k + ddx o (bernoulli v) k)%C,
     (- transport_3d o ms v (cy v) k - RtoC (coriolis f) * cx v k + ddy o (bernoulli v) k)%C,
     (- transport_3d o ms v (cz v) k + ddz o (bernoulli v) k)%C).
Proof.
  intros Hk. set (w := modif_omega f (curl o v)).
  transitivity (fft o (gsub (gmul (ifft o ms (vyf v)) (ifft o ms (vzf w))) (gmul (ifft o ms (vzf v)) (ifft o ms (vyf w)))) k,
    fft o (gsub (gmul (ifft o ms (vzf v)) (ifft o ms (vxf w))) (gmul (ifft o ms (vxf v)) (ifft o ms (vzf w)))) k,
    fft o (gsub (gmul (ifft o ms (vxf v)) (ifft o ms (vyf w))) (gmul (ifft o ms (vyf v)) (ifft o ms (vxf w)))) k); [reflexivity|].
  rewrite !fft_cross by exact Hk.
  assert (Wz : forall a, convolution ms a (vzf w) k = (convolution ms a (ddx o (cy v)) k - convolution ms a (ddy o (cx v)) k + RtoC (coriolis f) * a k)%C).
  { intros a. rewrite (conv_ext ms a a (vzf w) (fun m => RtoC 1 * (ddx o (cy v) m - ddy o (cx v) m) + RtoC (coriolis f) * delta0 m)%C).
    - rewrite conv_lin, conv_sub, conv_delta0 by exact Hk. ring.
    - reflexivity.
    - intros m _. destruct (modif_eq f (curl o v) m) as (_ & _ & E). fold w in E. rewrite E. destruct (curl_at o v m) as (_ & _ & ->).
      rewrite ddx_px, ddy_py. unfold cx, cy, vxf, vyf. ring. }
  assert (Wy : forall a, convolution ms a (vyf w) k = (convolution ms a (ddz o (cx v)) k - convolution ms a (ddx o (cz v)) k)%C).
  { intros a. rewrite <- conv_sub. apply conv_ext; [reflexivity|]. intros m _. destruct (modif_eq f (curl o v) m) as (_ & E & _). fold w in E. rewrite E.
    destruct (curl_at o v m) as (_ & -> & _). rewrite ddz_pz, ddx_px. reflexivity. }
  assert (Wx : forall a, convolution ms a (vxf w) k = (convolution ms a (ddy o (cz v)) k - convolution ms a (ddz o (cy v)) k)%C).
  { intros a. rewrite <- conv_sub. apply conv_ext; [reflexivity|]. intros m _. destruct (modif_eq f (curl o v) m) as (E & _ & _). fold w in E. rewrite E.
    destruct (curl_at o v m) as (-> & _ & _). rewrite ddy_py, ddz_pz. reflexivity. }
  rewrite !Wx, !Wy, !Wz. clear Wx Wy Wz. change (vxf v) with (cx v). change (vyf v) with (cy v). change (vzf v) with (cz v).
  unfold transport_3d.
  assert (Sx : forall a, convolution ms a (ddx o a) k = (RtoC (1 / 2) * (Ci * RtoC (wx o k) * convolution ms a a k))%C)
    by (intros a; apply (half_square (wx o)); intros; apply wx_add; assumption).
  assert (Sy : forall a, convolution ms a (ddy o a) k = (RtoC (1 / 2) * (Ci * RtoC (wy o k) * convolution ms a a k))%C)
    by (intros a; apply (half_square (wy o)); intros; apply wy_add; assumption).
  assert (Sz : forall a, convolution ms a (ddz o a) k = (RtoC (1 / 2) * (Ci * RtoC (wz o k) * convolution ms a a k))%C)
    by (intros a; apply (half_square (wz o)); intros; apply wz_add; assumption).
  rewrite !Sx, !Sy, !Sz. apply triple_eq.
  - change (ddx o (bernoulli v) k) with (Ci * RtoC (wx o k) * bernoulli v k)%C. unfold bernoulli. ring.
  - change (ddy o (bernoulli v) k) with (Ci * RtoC (wy o k) * bernoulli v k)%C. unfold bernoulli. ring.
  - change (ddz o (bernoulli v) k) with (Ci * RtoC (wz o k) * bernoulli v k)%C. unfold bernoulli. ring.
Qed.

(** what the projection removes is the gradient of a pressure *)
Definition pressure_of (g : vfield) (k : mode) : C :=
  (- Ci * RtoC (inv_K (Kx o k) (Ky o k) (Kz o k))
   * (RtoC (Kx o k) * vxf g k + RtoC (Ky o k) * vyf g k + RtoC (Kz o k) * vzf g k))%C.

Lemma perp_pressure g k : In k ms -> at_mode (vdealiasing dea (project_state o Perp false g)) k
  = ((vxf g k - ddx o (pressure_of g) k)%C, (vyf g k - ddy o (pressure_of g) k)%C, (vzf g k - ddz o (pressure_of g) k)%C).
Proof.
  intros Hk.
  transitivity (projector o Perp k (at_mode g k)).
  { unfold vdealiasing, project_state, on_modes, dealiasing, zero_kz0, at_mode at 1, vxf, vyf, vzf. cbn [fst snd andb]. rewrite (Hd k Hk).
    fold (vxf g) (vyf g) (vzf g). symmetry. apply surjective_triple. }
  rewrite ddx_px, ddy_py, ddz_pz. unfold px_fft, py_fft, pz_fft, pressure_of, projector, project_perpk3d, project_kradial3d, rmul, at_mode. cbn [fst snd].
  set (X := (RtoC (Kx o k) * vxf g k + RtoC (Ky o k) * vyf g k + RtoC (Kz o k) * vzf g k)%C). set (i := RtoC (inv_K _ _ _)).
  assert (Q : forall a, (Ci * a * (- Ci * i * X))%C = (a * (i * X))%C) by (intros a; replace (Ci * a * (- Ci * i * X))%C with (- (Ci * Ci) * (a * (i * X)))%C by ring; rewrite Ci2; apply C_eq; cbn; ring).
  rewrite !Q. reflexivity.
Qed.

(** dv / dt + v . grad v + f e_z x v = - grad p + b e_z, div v = 0; [b] is zero for ns3d *)
Definition momentum (f : R) (v : vfield) (b : field) (F : vfield) : Prop :=
  exists p, forall k, In k ms ->
    cx F k = (- transport_3d o ms v (cx v) k + RtoC f * cy v k - ddx o p k)%C
    /\ cy F k = (- transport_3d o ms v (cy v) k - RtoC f * cx v k - ddy o p k)%C
    /\ cz F k = (- transport_3d o ms v (cz v) k + b k - ddz o p k)%C
    /\ solenoidal o F k.

Lemma momentum_of f v b : let g := vfft o (vector_product (vifft o ms v) (vifft o ms (modif_omega f (curl o v)))) in
  momentum (coriolis f) v b (vdealiasing dea (project_state o Perp false (vxf g, vyf g, fun m => vzf g m + b m)%C)).
Proof.
  intros g. set (g' := (vxf g, vyf g, fun m => vzf g m + b m)%C). exists (fun k => pressure_of g' k - bernoulli v k)%C. intros k Hk.
  pose proof (lamb f v k Hk) as L. fold g in L. apply at_inj in L. destruct L as (L1 & L2 & L3).
  pose proof (perp_pressure g' k Hk) as P. apply at_inj in P. destruct P as (P1 & P2 & P3).
  set (F := vdealiasing dea (project_state o Perp false g')) in *.
  change (vxf g' k) with (vxf g k) in P1. change (vyf g' k) with (vyf g k) in P2. change (vzf g' k) with (vzf g k + b k)%C in P3.
  change (cx F k) with (vxf F k). change (cy F k) with (vyf F k). change (cz F k) with (vzf F k). rewrite P1, P2, P3, L1, L2, L3.
  split; [unfold ddx; ring|]. split; [unfold ddy; ring|]. split; [unfold ddz; ring|].
  exact (proj1 (dealias_allowed o dea Perp false _ k (project_allowed o (proj1 Hg) Perp false g' k))).
Qed.

Theorem c96_ns3d f v : momentum (coriolis f) v (fun _ => RtoC 0) (ns3d o ms dea Perp false f v).
Proof.
  pose proof (momentum_of f v (fun _ => RtoC 0)) as [p H]. exists p. intros k Hk. destruct (H k Hk) as (H1 & H2 & H3 & H4).
  set (g := vfft o _) in *.
  assert (E : at_mode (ns3d o ms dea Perp false f v) k = at_mode (vdealiasing dea (project_state o Perp false (vxf g, vyf g, fun m => vzf g m + RtoC 0)%C)) k).
  { transitivity (projector o Perp k (at_mode g k)).
    - unfold ns3d, vdealiasing, project_state, on_modes, dealiasing, zero_kz0, at_mode at 1, vxf, vyf, vzf. cbn [fst snd andb]. rewrite (Hd k Hk). symmetry. apply surjective_triple.
    - unfold vdealiasing, project_state, on_modes, dealiasing, zero_kz0, at_mode at 2, vxf, vyf, vzf. cbn [fst snd andb]. rewrite (Hd k Hk).
      replace (at_mode (fst (fst g), snd (fst g), fun m => snd g m + RtoC 0)%C k) with (at_mode g k); [apply surjective_triple|].
      unfold at_mode, vxf, vyf, vzf. cbn [fst snd]. apply triple_eq; ring. }
  apply (at_inj _ k) in E. destruct E as (E1 & E2 & E3). unfold solenoidal in *. unfold cx, cy, cz, vxf, vyf, vzf in *. rewrite E1, E2, E3. auto.
Qed.

(** db / dt + v . grad b + N^2 v_z = 0 *)
Lemma div_transport v b k : (forall m, In m ms -> solenoidal o v m) -> In k ms ->
  div_vb_fft o (vifft o ms v) (ifft o ms b) k = transport_3d o ms v b k.
Proof.
  intros Hv Hk. unfold div_vb_fft, vifft, div, vxf, vyf, vzf, px_fft, py_fft, pz_fft. cbn [fst snd]. rewrite !fft_conv by exact Hk.
  rewrite <- (w3x o (proj1 Hg)), <- (w3y o (proj1 Hg)), <- (w3z o (proj1 Hg)).
  rewrite (leibniz (wx o)), (leibniz (wy o)), (leibniz (wz o)) by (intros; (apply wx_add || apply wy_add || apply wz_add); assumption).
  unfold transport_3d, cx, cy, cz.
  assert (Z : (convolution ms (fun m => Ci * RtoC (wx o m) * fst (fst v) m) b k + convolution ms (fun m => Ci * RtoC (wy o m) * snd (fst v) m) b k
     + convolution ms (fun m => Ci * RtoC (wz o m) * snd v m) b k)%C = RtoC 0).
  { unfold convolution. rewrite <- !lsum_plus. apply lsum_zero. intros p Hp. rewrite <- !lsum_plus. apply lsum_zero. intros q _.
    destruct (mode_eqb _ _); [|ring].
    replace (Ci * RtoC (wx o p) * fst (fst v) p * b q + Ci * RtoC (wy o p) * snd (fst v) p * b q + Ci * RtoC (wz o p) * snd v p * b q)%C
      with (Ci * b q * (RtoC (wx o p) * fst (fst v) p + RtoC (wy o p) * snd (fst v) p + RtoC (wz o p) * snd v p))%C by ring.
    pose proof (Hv p Hp) as S. unfold solenoidal, cx, cy, cz in S. rewrite S. ring. }
  set (A := convolution ms (fun m => Ci * RtoC (wx o m) * fst (fst v) m)%C b k) in *.
  set (B := convolution ms (fun m => Ci * RtoC (wy o m) * snd (fst v) m)%C b k) in *.
  set (D := convolution ms (fun m => Ci * RtoC (wz o m) * snd v m)%C b k) in *.
  fold (ddx o b) (ddy o b) (ddz o b).
  change (fun m => Ci * RtoC (wx o m) * b m)%C with (ddx o b). change (fun m => Ci * RtoC (wy o m) * b m)%C with (ddy o b).
  change (fun m => Ci * RtoC (wz o m) * b m)%C with (ddz o b).
  set (A' := convolution ms _ (ddx o b) k). set (B' := convolution ms _ (ddy o b) k). set (D' := convolution ms _ (ddz o b) k).
  transitivity (A + B + D + (A' + B' + D'))%C; [ring|]. rewrite Z. ring.
Qed.

Theorem c96_ns3d_strat f N v b : (forall m, In m ms -> solenoidal o v m) ->
  momentum (coriolis f) v b (fst (ns3d_strat o ms dea Perp false f N (v, b)))
  /\ forall k, In k ms -> snd (ns3d_strat o ms dea Perp false f N (v, b)) k = (- transport_3d o ms v b k - RtoC (N ^ 2) * cz v k)%C.
Proof.
  intros Hv. split; [exact (momentum_of f v b)|]. intros k Hk. unfold ns3d_strat. cbn [snd]. unfold dealiasing, zero_kz0. cbn [andb].
  rewrite (Hd k Hk), div_transport by assumption. reflexivity.
Qed.

Theorem c96_ns3d_bouss f v b : (forall m, In m ms -> solenoidal o v m) ->
  momentum (coriolis f) v b (fst (ns3d_bouss o ms dea Perp false f (v, b)))
  /\ forall k, In k ms -> snd (ns3d_bouss o ms dea Perp false f (v, b)) k = (- transport_3d o ms v b k)%C.
Proof.
  intros Hv. split; [exact (momentum_of f v b)|]. intros k Hk. unfold ns3d_bouss. cbn [snd]. unfold dealiasing, zero_kz0. cbn [andb].
  rewrite (Hd k Hk), div_transport by assumption. reflexivity.
Qed.

End Eq.

(** the tendencies of the modes which are truncated are zero, whatever the modes of the state are *)
Theorem c96_truncated o ms dea (m : mode) : dea m = true ->
  (forall beta rot, ns2d o ms dea beta rot m = RtoC 0)
  /\ (forall beta u, fst (ns2d_uxuy o ms dea beta u) m = RtoC 0 /\ snd (ns2d_uxuy o ms dea beta u) m = RtoC 0)
  /\ (forall N beta s, fst (ns2d_strat o ms dea N beta s) m = RtoC 0 /\ snd (ns2d_strat o ms dea N beta s) m = RtoC 0)
  /\ (forall s, fst (ns2d_bouss o ms dea s) m = RtoC 0 /\ snd (ns2d_bouss o ms dea s) m = RtoC 0)
  /\ (forall pr z f N s, null_at (fst (ns3d_strat o ms dea pr z f N s)) m /\ snd (ns3d_strat o ms dea pr z f N s) m = RtoC 0)
  /\ (forall pr z f s, null_at (fst (ns3d_bouss o ms dea pr z f s)) m /\ snd (ns3d_bouss o ms dea pr z f s) m = RtoC 0)
  /\ (forall u, burgers o ms dea u m = RtoC 0 /\ burgers_skew o ms dea u m = RtoC 0)
  /\ (forall sigma s, nl1d o ms dea sigma s m = RtoC 0).
Proof.
  intros E.
  assert (Z : forall f, dealiasing dea f m = RtoC 0) by (intros f; unfold dealiasing; rewrite E; reflexivity).
  repeat split; intros.
  - apply Z.
  - unfold ns2d_uxuy. cbn [fst]. unfold ux_from_rot at 1. rewrite Z. ring.
  - unfold ns2d_uxuy. cbn [snd]. unfold uy_from_rot at 1. rewrite Z. ring.
  - destruct s. apply Z.
  - destruct s. apply Z.
  - destruct s. apply Z.
  - destruct s. apply Z.
  - destruct s. apply Z.
  - destruct s. apply Z.
  - destruct s. apply Z.
  - destruct s. apply Z.
  - destruct s. apply Z.
  - destruct s. apply Z.
  - destruct s. apply Z.
  - destruct s. apply Z.
  - unfold burgers, oddball. rewrite Z. destruct (_ =? _)%Z; reflexivity.
  - unfold burgers_skew, oddball. rewrite Z. destruct (_ =? _)%Z; reflexivity.
  - apply Z.
Qed.

(** the hypotheses are met: the modes of the truncation 2/3 of a grid 8 x 8 x 8, a shear; see also c52_example *)
Example c96_example : exists ms, good_modes o8 ms /\ In (1, 0, 0)%Z ms /\ forall m, In m ms -> solenoidal o8 shear_y m.
Proof.
  destruct c86_example as (ms & Hg & Hin & Hs & _). exists ms. split; [exact Hg|]. split; [exact Hin|]. intros m Hm. apply Hs. exact Hm.
Qed.

Print Assumptions c96_ns2d.
Print Assumptions c96_ns2d_strat.
Print Assumptions c96_ns2d_bouss.
Print Assumptions c96_burgers.
Print Assumptions c96_ns3d.
Print Assumptions c96_ns3d_strat.
Print Assumptions c96_ns3d_bouss.
Print Assumptions c96_truncated.
