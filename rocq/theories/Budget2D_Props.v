(** * Budgets of the two dimensional solvers: C52, C82, C83 *)

From Coq Require Import Reals Lra ZArith Lia List Bool Permutation.
From Coquelicot Require Import Coquelicot.
From Verif Require Import CExp DFT Alias_Model Alias_Proofs Alias_Props Oper_Model Budget_Model Budget_Spec Budget_Proofs Budget2D_Proofs.
Import ListNotations.
Local Open Scope R_scope.

(** ** Which modes *)

Definition interval (n : nat) : list Z := map (fun i => (Z.of_nat i - Z.of_nat n)%Z) (seq 0 (2 * n + 1)).

Lemma interval_in n z : (Z.abs z <= Z.of_nat n)%Z -> In z (interval n).
Proof.
  intros H. unfold interval. apply in_map_iff. exists (Z.to_nat (z + Z.of_nat n)). split; [lia|]. apply in_seq. lia.
Qed.

Lemma alias_free_of kept o ms : (forall m, In m ms -> kept m = true) -> kept_alias_free kept o -> alias_free o ms.
Proof. intros H K p q k Hp Hq Hk. apply K; apply H; assumption. Qed.

(** the truncation "spherical" in two dimensions, same resolution in both directions *)
Theorem c52_modes coef o : oper_pos o -> same_spacing_2d o -> 0 < coef <= 2 / 3 ->
  exists ms, (forall m, In m ms <-> kept_spherical_2d coef o m = true) /\ good_modes o ms.
Proof.
  intros Ho Sy Hc. pose proof Ho as (Nx & Ny & Nz & Lx0 & Ly0 & Lz0). pose proof PI_RGT_0 as HP.
  assert (Hx : 0 < deltakx o) by (apply Rdiv_lt_0_compat; lra). assert (Hy : 0 < deltaky o) by (apply Rdiv_lt_0_compat; lra).
  assert (NX : 0 < INR (nx o)) by (apply lt_0_INR; exact Nx). assert (NY : 0 < INR (ny o)) by (apply lt_0_INR; exact Ny).
  set (ms := filter (kept_spherical_2d coef o) (nodup mode_eq_dec (list_prod (list_prod (interval (nx o)) (interval (ny o))) [0%Z]))).
  assert (KM : 0 < kmax_spherical coef o).
  { unfold kmax_spherical. apply Rmult_lt_0_compat; [|lra]. apply Rmult_lt_0_compat; [apply Rmult_lt_0_compat; lra | exact NX]. }
  assert (Hin : forall m, In m ms <-> kept_spherical_2d coef o m = true).
  { intros m. unfold ms. rewrite filter_In, nodup_In. split; [tauto|]. intros H. split; [|exact H].
    destruct m as [[a b] c]. unfold kept_spherical_2d, is_2d, where_dealiased_spherical, K2_2d, geb, Kx, Ky, mx, my, mz in H. cbn [fst snd] in H.
    apply andb_true_iff in H. destruct H as [Hz H]. apply Z.eqb_eq in Hz. subst c.
    destruct (Rle_dec _ _) as [|L]; [discriminate|]. apply Rnot_le_lt in L.
    assert (BX : (deltakx o * IZR a) ^ 2 < kmax_spherical coef o ^ 2) by (pose proof (pow2_ge_0 (deltaky o * IZR b)); lra).
    assert (BY : (deltaky o * IZR b) ^ 2 < kmax_spherical coef o ^ 2) by (pose proof (pow2_ge_0 (deltakx o * IZR a)); lra).
    assert (G : forall d z n, 0 < d -> 0 < INR n -> d * INR n = deltakx o * INR (nx o) -> (d * IZR z) ^ 2 < kmax_spherical coef o ^ 2 -> (Z.abs z <= Z.of_nat n)%Z).
    { intros d z n Hd Hn E B. assert (Q : Rabs (d * IZR z) < kmax_spherical coef o).
      { apply Rsqr_lt_abs_0 in B || (rewrite <- !Rsqr_pow2 in B; apply Rsqr_lt_abs_0 in B). rewrite (Rabs_pos_eq (kmax_spherical coef o)) in B by lra. exact B. }
      rewrite Rabs_mult, (Rabs_pos_eq d) in Q by lra. rewrite Rabs_Zabs in Q.
      unfold kmax_spherical in Q. rewrite Rmult_assoc, <- E in Q.
      assert (d * IZR (Z.abs z) < d * INR n).
      { eapply Rlt_le_trans; [exact Q|]. assert (0 < d * INR n) by (apply Rmult_lt_0_compat; lra). 
        assert (coef * (d * INR n) <= 1 * (d * INR n)) by (apply Rmult_le_compat_r; lra). lra. }
      apply Rmult_lt_reg_l in H0; [|exact Hd]. rewrite INR_IZR_INZ in H0. apply lt_IZR in H0. lia. }
    apply in_prod; [apply in_prod; apply interval_in | left; reflexivity].
    - apply (G (deltakx o)); auto.
    - apply (G (deltaky o)); auto. }
  exists ms. split; [exact Hin|]. split; [exact Ho|]. split; [split|split].
  - apply NoDup_filter, NoDup_nodup.
  - intros m H. apply Hin in H. apply Hin. revert H. unfold kept_spherical_2d, is_2d, where_dealiased_spherical, K2_2d.
    rewrite Kx_opp, Ky_opp. replace ((- Kx o m) ^ 2 + (- Ky o m) ^ 2) with (Kx o m ^ 2 + Ky o m ^ 2) by ring.
    unfold mopp, mz. cbn [snd]. destruct (snd m =? 0)%Z eqn:E; [|discriminate]. apply Z.eqb_eq in E. rewrite E. exact (fun H => H).
  - apply Hin. unfold kept_spherical_2d, is_2d, where_dealiased_spherical, K2_2d, geb, Kx, Ky, mx, my, mz. cbn [fst snd Z.eqb andb].
    destruct (Rle_dec _ _) as [L|]; [exfalso|reflexivity].
    replace ((deltakx o * 0) ^ 2 + (deltaky o * 0) ^ 2) with 0 in L by ring.
    assert (0 < kmax_spherical coef o ^ 2) by (apply pow_lt; exact KM). lra.
  - apply (alias_free_of (kept_spherical_2d coef o)); [intros m Hm; apply Hin; exact Hm|].
    apply c17_spherical_2d_partial; [exact Ho | exact Sy | lra].
Qed.

(** ** C52: ns2d *)

Section NS2D.
Variable o : oper.
Variable ms : list mode.
Variable dea : mode -> bool.
Hypothesis Hg : good_modes o ms.
Hypothesis Hd : forall m, In m ms -> dea m = false.

Lemma energy_square rot : energy_2d o ms rot = total ms (fun m => (if no_xy m then 0 else / K2_not0 o m) * norm2 (rot m) / 2).
Proof.
  unfold energy_2d. apply total_ext. intros m _. destruct Hg as (Ho & _). pose proof (K2_not0_pos o m Ho) as P.
  unfold no_xy. unfold K2_not0 in *. destruct ((mx m =? 0)%Z && (my m =? 0)%Z); [unfold Rdiv; ring|].
  replace (wx o m ^ 2 + wy o m ^ 2) with (K2_2d o m).
  2:{ destruct Ho as (_ & _ & _ & A & B & _). unfold K2_2d, wx, wy, Kx, Ky, deltakx, deltaky. field. lra. }
  field. lra.
Qed.

Lemma derive_energy rot t F : moves ms rot t F -> real_field ms (rot t) ->
  is_derive (fun s => energy_2d o ms (rot s)) t (fst (lsum ms (fun k => phi o (rot t) (mopp k) * F k)%C)).
Proof.
  intros Hm Hr. apply (is_derive_ext (fun s => total ms (fun m => (if no_xy m then 0 else / K2_not0 o m) * norm2 (rot s m) / 2))).
  { intros s. symmetry. apply energy_square. }
  eapply is_derive_eq; [apply (is_derive_square (fun m => if no_xy m then 0 else / K2_not0 o m) ms rot t F Hm)|].
  f_equal. apply lsum_ext. intros m Hin. rewrite <- (Hr m Hin). unfold phi, str. rewrite no_xy_opp, K2_not0_opp.
  destruct (no_xy m); ring.
Qed.

Lemma derive_square rot t F : moves ms rot t F -> real_field ms (rot t) ->
  is_derive (fun s => square ms (rot s)) t (fst (lsum ms (fun k => rot t (mopp k) * F k)%C)).
Proof.
  intros Hm Hr. apply (is_derive_ext (fun s => total ms (fun m => 1 * norm2 (rot s m) / 2))).
  { intros s. apply total_ext. intros m _. unfold Rdiv. ring. }
  eapply is_derive_eq; [apply (is_derive_square (fun _ => 1) ms rot t F Hm)|].
  f_equal. apply lsum_ext. intros m Hin. rewrite <- (Hr m Hin). ring.
Qed.

Lemma sum_phi_ns2d beta rot : lsum ms (fun k => phi o rot (mopp k) * ns2d o ms dea beta rot k)%C = RtoC 0.
Proof.
  destruct Hg as (Ho & Hs & H0 & Ha).
  rewrite (lsum_ext ms _ (fun k => - (phi o rot (mopp k) * advection o ms rot rot k)
     - RtoC beta * (RtoC (if no_xy k then 0 else / K2_not0 o k) * rot (mopp k) * uy_from_rot o rot k))%C).
  - rewrite lsum_sub, lsum_neg, advection_energy, lsum_scal, uy_odd by assumption || (intros; rewrite no_xy_opp, K2_not0_opp; reflexivity). ring.
  - intros k Hk. rewrite (ns2d_eq o ms) by assumption. unfold phi at 1, str. unfold phi, str. rewrite no_xy_opp, K2_not0_opp.
    destruct (no_xy k); ring.
Qed.

Lemma sum_rot_ns2d beta rot : lsum ms (fun k => rot (mopp k) * ns2d o ms dea beta rot k)%C = RtoC 0.
Proof.
  destruct Hg as (Ho & Hs & H0 & Ha).
  rewrite (lsum_ext ms _ (fun k => - (rot (mopp k) * advection o ms rot rot k)
     - RtoC beta * (RtoC 1 * rot (mopp k) * uy_from_rot o rot k))%C).
  - rewrite lsum_sub, lsum_neg, advection_square, lsum_scal, (uy_odd o ms Hs (fun _ => 1)) by assumption || reflexivity. ring.
  - intros k Hk. rewrite (ns2d_eq o ms) by assumption. ring.
Qed.

(** the energy and the enstrophy do not change because of the nonlinear terms, with and without beta *)
Theorem c52_energy beta rot t : real_field ms (rot t) -> moves ms rot t (ns2d o ms dea beta (rot t)) ->
  is_derive (fun s => energy_2d o ms (rot s)) t 0.
Proof. intros Hr Hm. eapply is_derive_eq; [exact (derive_energy rot t _ Hm Hr)|]. rewrite sum_phi_ns2d. reflexivity. Qed.

Theorem c52_enstrophy beta rot t : real_field ms (rot t) -> moves ms rot t (ns2d o ms dea beta (rot t)) ->
  is_derive (fun s => square ms (rot s)) t 0.
Proof. intros Hr Hm. eapply is_derive_eq; [exact (derive_square rot t _ Hm Hr)|]. rewrite sum_rot_ns2d. reflexivity. Qed.

Theorem c52_mean beta rot : ns2d o ms dea beta rot (0, 0, 0)%Z = RtoC 0.
Proof.
  destruct Hg as (Ho & Hs & H0 & Ha). fold zero_mode. rewrite (ns2d_eq o ms) by assumption.
  rewrite advection_mean by assumption. unfold uy_from_rot.
  assert (Z : Kx o zero_mode = 0) by (unfold Kx, zero_mode, mx; cbn [fst]; ring). rewrite Z.
  replace (0 / K2_not0 o zero_mode) with 0 by (unfold Rdiv; ring). ring.
Qed.

Lemma wx_Kx m : wx o m = Kx o m.
Proof. destruct Hg as ((_ & _ & _ & A & B & _) & _). unfold wx, Kx, deltakx. field. lra. Qed.
Lemma wy_Ky m : wy o m = Ky o m.
Proof. destruct Hg as ((_ & _ & _ & A & B & _) & _). unfold wy, Ky, deltaky. field. lra. Qed.

Lemma vertical_eq rot m : vertical_velocity o rot m = uy_from_rot o rot m.
Proof.
  unfold vertical_velocity, uy_from_rot, K2_not0. destruct ((mx m =? 0)%Z && (my m =? 0)%Z) eqn:E.
  - destruct (no_xy_K o m E) as [-> _]. unfold Rdiv. rewrite Rmult_0_l. ring.
  - rewrite wx_Kx, wy_Ky. reflexivity.
Qed.

(** the parameter beta adds - beta u_y *)
Theorem c52_beta beta rot k : In k ms ->
  ns2d o ms dea beta rot k = (ns2d o ms dea 0 rot k - RtoC beta * vertical_velocity o rot k)%C.
Proof.
  destruct Hg as (Ho & Hs & H0 & Ha). intros Hk. rewrite !(ns2d_eq o ms) by assumption. rewrite vertical_eq. ring.
Qed.

(** ** with_uxuy: the same simulation described by the velocity *)

Lemma vel_of_rot ux uy m : incompressible_2d o ms ux uy -> In m ms ->
  ux_from_rot o (rot_from_vec o ux uy) m = ux m /\ uy_from_rot o (rot_from_vec o ux uy) m = uy m.
Proof.
  intros H Hm. destruct (H m Hm) as [D Z]. rewrite wx_Kx, wy_Ky in D. destruct Hg as (Ho & _).
  pose proof (K2_not0_pos o m Ho) as P. unfold ux_from_rot, uy_from_rot, rot_from_vec. unfold K2_not0 in *.
  destruct ((mx m =? 0)%Z && (my m =? 0)%Z) eqn:E.
  - pose proof E as E'. apply andb_true_iff in E'. rewrite !Z.eqb_eq in E'. destruct E' as [E1 E2]. destruct (Z E1 E2) as [-> ->].
    destruct (no_xy_K o m E) as [-> ->]. split; ring.
  - unfold K2_2d in *. set (a := Kx o m) in *. set (b := Ky o m) in *. clearbody a b.
    destruct (ux m) as [u1 u2]. destruct (uy m) as [v1 v2]. injection D as D1 D2.
    assert (D1' : a * u1 + b * v1 = 0) by lra. assert (D2' : a * u2 + b * v2 = 0) by lra. clear D1 D2 Z.
    assert (Q : forall x y n, (a ^ 2 + b ^ 2) * x = n * y -> n / (a ^ 2 + b ^ 2) * y = x) by (intros x y n HQ; apply (Rmult_eq_reg_l (a ^ 2 + b ^ 2)); [rewrite HQ; field; lra | lra]).
    split; apply C_eq; cbn.
    + transitivity (b / (a ^ 2 + b ^ 2) * (b * u1 - a * v1)); [unfold pow; field; unfold pow in P; lra|]. apply Q. 
      replace (b * (b * u1 - a * v1)) with (b ^ 2 * u1 - a * (b * v1)) by ring. replace (b * v1) with (- (a * u1)) by lra. ring.
    + transitivity (b / (a ^ 2 + b ^ 2) * (b * u2 - a * v2)); [unfold pow; field; unfold pow in P; lra|]. apply Q. 
      replace (b * (b * u2 - a * v2)) with (b ^ 2 * u2 - a * (b * v2)) by ring. replace (b * v2) with (- (a * u2)) by lra. ring.
    + transitivity (a / (a ^ 2 + b ^ 2) * (a * v1 - b * u1)); [unfold pow; field; unfold pow in P; lra|]. apply Q. 
      replace (a * (a * v1 - b * u1)) with (a ^ 2 * v1 - b * (a * u1)) by ring. replace (a * u1) with (- (b * v1)) by lra. ring.
    + transitivity (a / (a ^ 2 + b ^ 2) * (a * v2 - b * u2)); [unfold pow; field; unfold pow in P; lra|]. apply Q. 
      replace (a * (a * v2 - b * u2)) with (a ^ 2 * v2 - b * (a * u2)) by ring. replace (a * u2) with (- (b * v2)) by lra. ring.
Qed.

Lemma ifft_ext a b jx jy jz : (forall m, In m ms -> a m = b m) -> ifft o ms a jx jy jz = ifft o ms b jx jy jz.
Proof. intros H. unfold ifft, idft. apply lsum_ext. intros m Hm. rewrite (H m Hm). reflexivity. Qed.

Lemma uxuy_eq beta ux uy m : incompressible_2d o ms ux uy -> 
  fst (ns2d_uxuy o ms dea beta (ux, uy)) m = ux_from_rot o (ns2d o ms dea beta (rot_from_vec o ux uy)) m
  /\ snd (ns2d_uxuy o ms dea beta (ux, uy)) m = uy_from_rot o (ns2d o ms dea beta (rot_from_vec o ux uy)) m.
Proof.
  intros H. unfold ns2d_uxuy, ns2d. cbn [fst snd]. unfold ux_from_rot at 1 2, uy_from_rot at 1 2, dealiasing.
  assert (E : forall k, fft o (compute_Frot (ifft o ms ux) (ifft o ms uy) (ifft o ms (px_fft o (rot_from_vec o ux uy))) (ifft o ms (py_fft o (rot_from_vec o ux uy))) beta) k
    = fft o (compute_Frot (ifft o ms (ux_from_rot o (rot_from_vec o ux uy))) (ifft o ms (uy_from_rot o (rot_from_vec o ux uy)))
        (ifft o ms (px_fft o (rot_from_vec o ux uy))) (ifft o ms (py_fft o (rot_from_vec o ux uy))) beta) k).
  { intros k. apply fft_ext. intros jx jy jz.
    assert (EX := ifft_ext (ux_from_rot o (rot_from_vec o ux uy)) ux jx jy jz (fun m Hm => proj1 (vel_of_rot ux uy m H Hm))).
    assert (EY := ifft_ext (uy_from_rot o (rot_from_vec o ux uy)) uy jx jy jz (fun m Hm => proj2 (vel_of_rot ux uy m H Hm))).
    unfold compute_Frot. destruct (Req_EM_T beta 0); unfold gsub, gmul, gopp, lift2; rewrite EX, EY; reflexivity. }
  rewrite !E. split; reflexivity.
Qed.

(** the energy is conserved by the solver whose state is the velocity, and the tendencies have no divergence and no mean *)
Theorem c52_uxuy_energy beta ux uy t : real_field ms (ux t) -> real_field ms (uy t) -> incompressible_2d o ms (ux t) (uy t) ->
  moves ms ux t (fst (ns2d_uxuy o ms dea beta (ux t, uy t))) -> moves ms uy t (snd (ns2d_uxuy o ms dea beta (ux t, uy t))) ->
  is_derive (fun s => square ms (ux s) + square ms (uy s)) t 0.
Proof.
  intros Rx Ry Hi Mx My. pose proof Hg as (Ho & Hs & H0 & Ha).
  eapply is_derive_eq.
  { apply (is_derive_plus (fun s => square ms (ux s)) (fun s => square ms (uy s))); [exact (derive_square ux t _ Mx Rx) | exact (derive_square uy t _ My Ry)]. }
  set (F := ns2d o ms dea beta (rot_from_vec o (ux t) (uy t))).
  transitivity (fst (lsum ms (fun k => phi o (rot_from_vec o (ux t) (uy t)) (mopp k) * F k)%C)); [|unfold F; rewrite sum_phi_ns2d; reflexivity].
  transitivity (fst (lsum ms (fun k => ux t (mopp k) * fst (ns2d_uxuy o ms dea beta (ux t, uy t)) k) + lsum ms (fun k => uy t (mopp k) * snd (ns2d_uxuy o ms dea beta (ux t, uy t)) k))%C); [reflexivity|].
  f_equal. rewrite <- lsum_plus. apply lsum_ext. intros k Hk.
  destruct (uxuy_eq beta (ux t) (uy t) k Hi) as [E1 E2]. rewrite E1, E2.
  assert (Hk' : In (mopp k) ms) by (apply Hs; exact Hk).
  destruct (vel_of_rot (ux t) (uy t) (mopp k) Hi Hk') as [V1 V2]. rewrite <- V1, <- V2.
  fold F. set (r := rot_from_vec o (ux t) (uy t)). unfold ux_from_rot, uy_from_rot, phi, str.
  rewrite Kx_opp, Ky_opp, K2_not0_opp, no_xy_opp. pose proof (K2_not0_pos o k Ho) as P.
  destruct (no_xy k) eqn:E.
  - destruct (no_xy_K o k E) as [-> ->]. unfold Rdiv. rewrite Ropp_0, !Rmult_0_l. ring.
  - unfold K2_not0 in *. unfold no_xy in E. rewrite E in *. unfold K2_2d in *. 
    generalize (r (mopp k)) (F k). intros x y. set (a := Kx o k) in *. set (b := Ky o k) in *. clearbody a b.
    destruct x as [x1 x2], y as [y1 y2]. apply C_eq; cbn; unfold pow in P; field; lra.
Qed.

Theorem c52_uxuy_tendency beta ux uy : incompressible_2d o ms ux uy ->
  incompressible_2d o ms (fst (ns2d_uxuy o ms dea beta (ux, uy))) (snd (ns2d_uxuy o ms dea beta (ux, uy)))
  /\ (forall m, In m ms -> rot_from_vec o (fst (ns2d_uxuy o ms dea beta (ux, uy))) (snd (ns2d_uxuy o ms dea beta (ux, uy))) m
        = ns2d o ms dea beta (rot_from_vec o ux uy) m \/ (mx m = 0%Z /\ my m = 0%Z)).
Proof.
  intros Hi. pose proof Hg as (Ho & _). split.
  - intros m Hm. destruct (uxuy_eq beta ux uy m Hi) as [E1 E2]. rewrite E1, E2. rewrite wx_Kx, wy_Ky. unfold ux_from_rot, uy_from_rot. split.
    + unfold Rdiv. rewrite !RtoC_mult. ring.
    + intros Z1 Z2. unfold Kx, Ky. rewrite Z1, Z2. unfold Rdiv. rewrite !Rmult_0_r, !Rmult_0_l. split; ring.
  - intros m Hm. destruct ((mx m =? 0) && (my m =? 0))%Z eqn:E.
    + right. apply andb_true_iff in E. rewrite !Z.eqb_eq in E. exact E.
    + left. unfold rot_from_vec at 1. destruct (uxuy_eq beta ux uy m Hi) as [E1 E2]. rewrite E1, E2.
      generalize (ns2d o ms dea beta (rot_from_vec o ux uy)). intros F. unfold ux_from_rot, uy_from_rot.
      pose proof (K2_not0_pos o m Ho) as P. unfold K2_not0 in *. rewrite E in *. unfold K2_2d in *.
      destruct (F m) as [y1 y2]. set (a := Kx o m) in *. set (b := Ky o m) in *. clearbody a b.
      apply C_eq; cbn; unfold pow in P; field; lra.
Qed.

(** ** C82: ns2d.strat; C83: ns2d.bouss *)

Lemma fft_adv ux px uy py k : fft o (gsub (gmul (gopp ux) px) (gmul uy py)) k = (- (fft o (gmul ux px) k + fft o (gmul uy py) k))%C.
Proof.
  rewrite (fft_ext o _ (fun jx jy jz => (- RtoC 1) * gmul ux px jx jy jz + (- RtoC 1) * gmul uy py jx jy jz)%C).
  - rewrite fft_lin. ring.
  - intros jx jy jz. unfold gsub, gmul, gopp, lift2. ring.
Qed.

Lemma strat_eq N beta rot b k : In k ms ->
  fst (ns2d_strat o ms dea N beta (rot, b)) k = (- advection o ms rot rot k + px_fft o b k)%C
  /\ snd (ns2d_strat o ms dea N beta (rot, b)) k = (- advection o ms rot b k - RtoC (N ^ 2) * uy_from_rot o rot k)%C.
Proof.
  pose proof Hg as (Ho & Hs & H0 & Ha). intros Hk. unfold ns2d_strat. cbn [fst snd]. unfold dealiasing. rewrite (Hd k Hk). split.
  - rewrite fft_adv. reflexivity.
  - set (U := ifft o ms (uy_from_rot o rot)).
    rewrite (fft_ext o _ (fun jx jy jz => RtoC 1 * gsub (gmul (gopp (ifft o ms (ux_from_rot o rot))) (ifft o ms (px_fft o b))) (gmul U (ifft o ms (py_fft o b))) jx jy jz + (- RtoC (N ^ 2)) * U jx jy jz)%C).
    + rewrite fft_lin, fft_adv. unfold U. rewrite (fft_ifft o ms) by (assumption || apply Hs). unfold advection. ring.
    + intros jx jy jz. unfold gsub at 1, rsc, lift2. ring.
Qed.

Lemma bouss_eq rot b k : In k ms ->
  fst (ns2d_bouss o ms dea (rot, b)) k = (- advection o ms rot rot k + px_fft o b k)%C
  /\ snd (ns2d_bouss o ms dea (rot, b)) k = (- advection o ms rot b k)%C.
Proof.
  pose proof Hg as (Ho & Hs & H0 & Ha). intros Hk. unfold ns2d_bouss. cbn [fst snd]. unfold dealiasing. rewrite (Hd k Hk). split.
  - set (G := gsub _ _).
    rewrite (fft_ext o _ (fun jx jy jz => RtoC 1 * G jx jy jz + RtoC 1 * ifft o ms (px_fft o b) jx jy jz)%C).
    + rewrite fft_lin. unfold G. rewrite fft_adv. rewrite (fft_ifft o ms) by (assumption || apply Hs). unfold advection. ring.
    + intros jx jy jz. unfold gadd, lift2. ring.
  - rewrite fft_adv. reflexivity.
Qed.

Lemma buoyancy_work rot b : real_field ms rot ->
  fst (lsum ms (fun k => phi o rot (mopp k) * px_fft o b k)%C) = product ms (vertical_velocity o rot) b.
Proof.
  intros Hr. pose proof Hg as (Ho & _). unfold product. symmetry. apply total_lsum. intros m Hm. rewrite vertical_eq.
  unfold phi, str, px_fft, uy_from_rot. rewrite no_xy_opp, K2_not0_opp, (Hr m Hm).
  destruct (no_xy m) eqn:E.
  - destruct (no_xy_K o m E) as [-> _]. cbn. unfold Rdiv. ring.
  - cbn. unfold Rdiv. ring.
Qed.

Lemma buoyancy_back rot b : real_field ms b ->
  fst (lsum ms (fun k => b (mopp k) * uy_from_rot o rot k)%C) = product ms (vertical_velocity o rot) b.
Proof.
  intros Hr. unfold product. symmetry. apply total_lsum. intros m Hm. rewrite vertical_eq, (Hr m Hm).
  unfold uy_from_rot. cbn. unfold Rdiv. ring.
Qed.

(** kinetic energy: only the work of the buoyancy; potential energy: the opposite; the total is conserved *)
Section Strat.
Variables N beta t : R.
Variables rot b : R -> field.
Hypothesis HN : N <> 0.
Hypothesis Rr : real_field ms (rot t).
Hypothesis Rb : real_field ms (b t).
Hypothesis Mr : moves ms rot t (fst (ns2d_strat o ms dea N beta (rot t, b t))).
Hypothesis Mb : moves ms b t (snd (ns2d_strat o ms dea N beta (rot t, b t))).

Theorem c82_kinetic : is_derive (fun s => energy_2d o ms (rot s)) t (product ms (vertical_velocity o (rot t)) (b t)).
Proof.
  pose proof Hg as (Ho & Hs & H0 & Ha). eapply is_derive_eq; [exact (derive_energy rot t _ Mr Rr)|].
  rewrite <- buoyancy_work by exact Rr. f_equal.
  rewrite (lsum_ext ms _ (fun k => - (phi o (rot t) (mopp k) * advection o ms (rot t) (rot t) k) + phi o (rot t) (mopp k) * px_fft o (b t) k)%C).
  - rewrite lsum_plus, lsum_neg, advection_energy by assumption. ring.
  - intros k Hk. destruct (strat_eq N beta (rot t) (b t) k Hk) as [E _]. rewrite E. ring.
Qed.

Theorem c82_potential : is_derive (fun s => square ms (b s) / N ^ 2) t (- product ms (vertical_velocity o (rot t)) (b t)).
Proof.
  pose proof Hg as (Ho & Hs & H0 & Ha).
  assert (D : is_derive (fun s => square ms (b s)) t (- (N ^ 2 * product ms (vertical_velocity o (rot t)) (b t)))).
  { eapply is_derive_eq; [exact (derive_square b t _ Mb Rb)|].
    rewrite <- buoyancy_back by exact Rb.
    rewrite (lsum_ext ms _ (fun k => - (b t (mopp k) * advection o ms (rot t) (b t) k) - RtoC (N ^ 2) * (b t (mopp k) * uy_from_rot o (rot t) k))%C).
    - rewrite lsum_sub, lsum_neg, lsum_scal, advection_square by assumption. cbn. ring.
    - intros k Hk. destruct (strat_eq N beta (rot t) (b t) k Hk) as [_ E]. rewrite E. ring. }
  apply (is_derive_ext (fun s => / N ^ 2 * square ms (b s))); [intros s; unfold Rdiv; apply Rmult_comm|].
  eapply is_derive_eq; [apply (is_derive_scal (fun s => square ms (b s)) t (/ N ^ 2) _ D)|].
  cbn. set (P := product _ _ _). field. exact HN.
Qed.

Theorem c82_total : is_derive (fun s => energy_2d o ms (rot s) + square ms (b s) / N ^ 2) t 0.
Proof.
  eapply is_derive_eq; [apply (is_derive_plus _ _ t _ _ c82_kinetic c82_potential)|]. unfold plus. cbn. ring.
Qed.
End Strat.

Theorem c82_mean N beta rot b : fst (ns2d_strat o ms dea N beta (rot, b)) (0, 0, 0)%Z = RtoC 0
  /\ snd (ns2d_strat o ms dea N beta (rot, b)) (0, 0, 0)%Z = RtoC 0.
Proof.
  pose proof Hg as (Ho & Hs & H0 & Ha). fold zero_mode. destruct (strat_eq N beta rot b zero_mode H0) as [-> ->].
  rewrite !advection_mean by assumption. unfold px_fft, uy_from_rot.
  assert (Z : Kx o zero_mode = 0) by (unfold Kx, zero_mode, mx; cbn [fst]; ring). rewrite Z.
  replace (0 / K2_not0 o zero_mode) with 0 by (unfold Rdiv; ring). split; ring.
Qed.

Section Bouss.
Variable t : R.
Variables rot b : R -> field.
Hypothesis Rr : real_field ms (rot t).
Hypothesis Rb : real_field ms (b t).
Hypothesis Mr : moves ms rot t (fst (ns2d_bouss o ms dea (rot t, b t))).
Hypothesis Mb : moves ms b t (snd (ns2d_bouss o ms dea (rot t, b t))).

Theorem c83_kinetic : is_derive (fun s => energy_2d o ms (rot s)) t (product ms (vertical_velocity o (rot t)) (b t)).
Proof.
  pose proof Hg as (Ho & Hs & H0 & Ha). eapply is_derive_eq; [exact (derive_energy rot t _ Mr Rr)|].
  rewrite <- buoyancy_work by exact Rr. f_equal.
  rewrite (lsum_ext ms _ (fun k => - (phi o (rot t) (mopp k) * advection o ms (rot t) (rot t) k) + phi o (rot t) (mopp k) * px_fft o (b t) k)%C).
  - rewrite lsum_plus, lsum_neg, advection_energy by assumption. ring.
  - intros k Hk. destruct (bouss_eq (rot t) (b t) k Hk) as [E _]. rewrite E. ring.
Qed.

Theorem c83_square : is_derive (fun s => square ms (b s)) t 0.
Proof.
  pose proof Hg as (Ho & Hs & H0 & Ha). eapply is_derive_eq; [exact (derive_square b t _ Mb Rb)|].
  rewrite (lsum_ext ms _ (fun k => - (b t (mopp k) * advection o ms (rot t) (b t) k))%C).
  - rewrite lsum_neg, advection_square by assumption. cbn. ring.
  - intros k Hk. destruct (bouss_eq (rot t) (b t) k Hk) as [_ E]. rewrite E. ring.
Qed.
End Bouss.

Theorem c83_mean rot b : fst (ns2d_bouss o ms dea (rot, b)) (0, 0, 0)%Z = RtoC 0
  /\ snd (ns2d_bouss o ms dea (rot, b)) (0, 0, 0)%Z = RtoC 0.
Proof.
  pose proof Hg as (Ho & Hs & H0 & Ha). fold zero_mode. destruct (bouss_eq rot b zero_mode H0) as [-> ->].
  rewrite !advection_mean by assumption. unfold px_fft.
  assert (Z : Kx o zero_mode = 0) by (unfold Kx, zero_mode, mx; cbn [fst]; ring). rewrite Z. split; ring.
Qed.

(** ns2d.bouss is ns2d.strat with N = 0 *)
Theorem c83_strat_zero beta rot b m : In m ms -> fst (ns2d_bouss o ms dea (rot, b)) m = fst (ns2d_strat o ms dea 0 beta (rot, b)) m
  /\ snd (ns2d_bouss o ms dea (rot, b)) m = snd (ns2d_strat o ms dea 0 beta (rot, b)) m.
Proof.
  intros Hm. destruct (bouss_eq rot b m Hm) as [-> ->]. destruct (strat_eq 0 beta rot b m Hm) as [-> ->].
  replace (0 ^ 2) with 0 by ring. split; ring.
Qed.

Definition no_field : field := fun _ => RtoC 0.

(** without buoyancy the solver is ns2d with beta = 0, whatever beta is *)
Theorem c84_strat_without_buoyancy_partial N beta rot m : In m ms ->
  fst (ns2d_strat o ms dea N beta (rot, no_field)) m = ns2d o ms dea 0 rot m.
Proof.
  pose proof Hg as (Ho & Hs & H0 & Ha). intros Hm. destruct (strat_eq N beta rot no_field m Hm) as [-> _].
  rewrite (ns2d_eq o ms) by assumption. unfold px_fft, no_field. ring.
Qed.

End NS2D.

(** ** C84: the parameter beta *)

Definition o8 : oper := mkOper 8 8 8 (2 * PI) (2 * PI) (2 * PI).
Lemma o8_pos : oper_pos o8.
Proof. pose proof PI_RGT_0. repeat split; cbn; lia || lra. Qed.
Lemma o8_same : same_spacing_2d o8.
Proof. reflexivity. Qed.
Lemma o8_kept : kept_spherical_2d (2 / 3) o8 (1, 0, 0)%Z = true.
Proof.
  unfold kept_spherical_2d, is_2d, where_dealiased_spherical, K2_2d, geb, Kx, Ky, mx, my, mz, kmax_spherical, deltakx, deltaky.
  cbn [fst snd Z.eqb andb o8 Lx Ly nx]. destruct (Rle_dec _ _) as [L|]; [exfalso|reflexivity].
  pose proof PI_RGT_0. replace (2 * PI / (2 * PI)) with 1 in L by (field; lra).
  replace (INR 8) with 8 in L by (cbn; ring). lra.
Qed.
Lemma o8_modes : exists ms, good_modes o8 ms /\ In (1, 0, 0)%Z ms.
Proof.
  destruct (c52_modes (2 / 3) o8 o8_pos o8_same ltac:(lra)) as (ms & Hin & Hg). exists ms. split; [exact Hg|]. apply Hin. exact o8_kept.
Qed.

(** params.beta exists and has no effect in ns2d.strat: a vorticity field, without buoyancy, whose tendency is not the one
    of ns2d with the same beta *)
Theorem c84_beta_refuted : exists o ms rot m, good_modes o ms /\ In m ms /\ real_field ms rot
  /\ fst (ns2d_strat o ms (fun _ => false) 1 1 (rot, no_field)) m
     <> (ns2d o ms (fun _ => false) 0 rot m - RtoC 1 * vertical_velocity o rot m)%C
  /\ ns2d o ms (fun _ => false) 1 rot m = (ns2d o ms (fun _ => false) 0 rot m - RtoC 1 * vertical_velocity o rot m)%C.
Proof.
  destruct o8_modes as (ms & Hg & Hin). exists o8, ms, (fun _ => RtoC 1), (1, 0, 0)%Z.
  split; [exact Hg|]. split; [exact Hin|]. split; [intros m _; apply C_eq; cbn; lra|]. split.
  - rewrite (c84_strat_without_buoyancy_partial o8 ms _ Hg) by (exact Hin || reflexivity). intros E.
    assert (Z : vertical_velocity o8 (fun _ => RtoC 1) (1, 0, 0)%Z = RtoC 0).
    { replace (vertical_velocity o8 (fun _ => RtoC 1) (1, 0, 0)%Z) with (ns2d o8 ms (fun _ => false) 0 (fun _ => RtoC 1) (1, 0, 0)%Z
        - (ns2d o8 ms (fun _ => false) 0 (fun _ => RtoC 1) (1, 0, 0)%Z - RtoC 1 * vertical_velocity o8 (fun _ => RtoC 1) (1, 0, 0)%Z))%C by ring.
      rewrite <- E. ring. }
    unfold vertical_velocity, mx, my, wx, wy in Z. cbn [fst snd Z.eqb andb o8 Lx Ly] in Z. apply (f_equal snd) in Z. cbn in Z.
    pose proof PI_RGT_0. replace (2 * PI * 1 / (2 * PI)) with 1 in Z by (field; lra). replace (2 * PI * 0 / (2 * PI)) with 0 in Z by (field; lra). lra.
  - apply (c52_beta o8 ms _ Hg); [reflexivity | exact Hin].
Qed.

(** ** C85: check_energy_conservation *)

Lemma rsum_total ms f : rsum ms f = total ms f.
Proof. unfold rsum. symmetry. apply total_lsum. reflexivity. Qed.

(** half of the rate of change of the energy *)
Definition energy_rate (o : oper) (ms : list mode) (N : R) (rot b f_rot f_b : field) : R :=
  total ms (fun m => (if ((mx m =? 0) && (my m =? 0))%Z then 0 else fst (Cconj (rot m) * f_rot m)%C / (wx o m ^ 2 + wy o m ^ 2))
     + fst (Cconj (b m) * f_b m)%C / N ^ 2).

(** when the answer is yes, the energy does not increase more than the tolerance; the converse too *)
Theorem c85_answer_partial o ms N rot b f_rot f_b : oper_pos o -> N <> 0 ->
  check_energy_conservation o ms N rot b f_rot f_b = Some true ->
  energy_rate o ms N rot b f_rot f_b
  < / 10 ^ 14 * total ms (fun m => Rabs ((if ((mx m =? 0) && (my m =? 0))%Z then 0 else fst (Cconj (rot m) * f_rot m)%C / (wx o m ^ 2 + wy o m ^ 2))
     + fst (Cconj (b m) * f_b m)%C / N ^ 2)).
Proof.
  intros Ho HN. unfold check_energy_conservation. rewrite !rsum_total.
  set (pt := fun m : mode => _ + _ : R). set (g := fun m : mode => (if ((mx m =? 0) && (my m =? 0))%Z then 0 else fst (Cconj (rot m) * f_rot m)%C / (wx o m ^ 2 + wy o m ^ 2)) + fst (Cconj (b m) * f_b m)%C / N ^ 2).
  assert (E : forall m, pt m = 1 / 2 * g m).
  { intros m. unfold pt, g, K2_not0. pose proof (K2_not0_pos o m Ho) as P. unfold K2_not0 in P.
    destruct ((mx m =? 0)%Z && (my m =? 0)%Z).
    - field. exact HN.
    - replace (wx o m ^ 2 + wy o m ^ 2) with (K2_2d o m); [field; split; lra|].
      destruct Ho as (_ & _ & _ & A & B & _). unfold K2_2d, wx, wy, Kx, Ky, deltakx, deltaky. field. lra. }
  match goal with |- context [Req_EM_T ?x 0] => change x with (total ms (fun m => Rabs (pt m))) end.
  change (energy_rate o ms N rot b f_rot f_b) with (total ms g).
  match goal with |- _ -> _ < _ * ?x => change x with (total ms (fun m => Rabs (g m))) end.
  replace (total ms (fun m => Rabs (pt m))) with (1 / 2 * total ms (fun m => Rabs (g m))).
  2:{ rewrite <- total_scal. apply total_ext. intros m _. rewrite E, Rabs_mult, (Rabs_pos_eq (1 / 2)) by lra. reflexivity. }
  replace (total ms pt) with (1 / 2 * total ms g).
  2:{ rewrite <- total_scal. apply total_ext. intros m _. symmetry. apply E. }
  destruct (Req_EM_T _ 0) as [|Z]; [discriminate|]. destruct (Rlt_dec _ _) as [L|]; [|discriminate]. intros _.
  assert (P : 0 <= total ms (fun m => Rabs (g m))) by (apply total_pos; intros; apply Rabs_pos).
  set (A := total ms (fun m => Rabs (g m))) in *. assert (PA : 0 < A) by (destruct P as [P|P]; [exact P | exfalso; apply Z; rewrite <- P; ring]).
  apply (Rmult_lt_compat_r A) in L; [|exact PA].
  replace (1 / 2 * total ms g / (1 / 2 * A) * A) with (total ms g) in L by (field; lra). exact L.
Qed.

(** an energy which decreases at the largest possible rate is said conserved *)
Theorem c85_decreasing_refuted : exists o ms N rot b f_rot f_b, oper_pos o /\ symmetric_modes ms /\ real_field ms rot /\ real_field ms f_rot
  /\ check_energy_conservation o ms N rot b f_rot f_b = Some true
  /\ energy_rate o ms N rot b f_rot f_b
     = - total ms (fun m => Rabs ((if ((mx m =? 0) && (my m =? 0))%Z then 0 else fst (Cconj (rot m) * f_rot m)%C / (wx o m ^ 2 + wy o m ^ 2))
         + fst (Cconj (b m) * f_b m)%C / N ^ 2))
  /\ energy_rate o ms N rot b f_rot f_b = - 2.
Proof.
  exists o8, [(1, 0, 0)%Z; (-1, 0, 0)%Z], 1, (fun _ => RtoC 1), (fun _ => RtoC 0), (fun _ => RtoC (- 1)), (fun _ => RtoC 0).
  pose proof PI_RGT_0 as HP.
  assert (W1 : 2 * PI * 1 / (2 * PI) = 1) by (field; lra). assert (W2 : 2 * PI * 0 / (2 * PI) = 0) by (field; lra).
  assert (W3 : 2 * PI * -1 / (2 * PI) = -1) by (field; lra).
  assert (D1 : 2 * PI / (2 * PI) = 1) by (field; lra).
  split; [exact o8_pos|]. split; [|split; [|split; [|split; [|split]]]].
  - split; [repeat constructor; cbn; intuition discriminate|]. intros m [<-|[<-|[]]]; cbn; tauto.
  - intros m _. apply C_eq; cbn; lra.
  - intros m _. apply C_eq; cbn; lra.
  - unfold check_energy_conservation. rewrite !rsum_total. unfold total. cbn [fold_right].
    unfold K2_not0, K2_2d, Kx, Ky, deltakx, deltaky, mx, my. cbn [fst snd Z.eqb andb o8 Lx Ly Cconj Cmult RtoC]. rewrite D1.
    replace (1 / 2 * (1 / ((1 * 1) ^ 2 + (1 * 0) ^ 2)) * (1 * -1 - - 0 * 0) + 1 / (2 * 1 ^ 2) * (0 * 0 - - 0 * 0)) with (- (1 / 2)) by field.
    replace (1 / 2 * (1 / ((1 * -1) ^ 2 + (1 * 0) ^ 2)) * (1 * -1 - - 0 * 0) + 1 / (2 * 1 ^ 2) * (0 * 0 - - 0 * 0)) with (- (1 / 2)) by field.
    rewrite Rabs_Ropp, (Rabs_pos_eq (1 / 2)) by lra.
    destruct (Req_EM_T _ 0) as [E|_]; [exfalso; cbn in E; lra|]. destruct (Rlt_dec _ _) as [|L]; [reflexivity|]. exfalso. apply L.
    replace ((- (1 / 2) + (- (1 / 2) + 0)) / (1 / 2 + (1 / 2 + 0))) with (- (1)) by field. 
    assert (0 < / 10 ^ 14) by (apply Rinv_0_lt_compat; lra). lra.
  - unfold energy_rate, total. cbn [fold_right]. unfold wx, wy, mx, my. cbn [fst snd Z.eqb andb o8 Lx Ly Cconj Cmult RtoC]. rewrite W1, W2, W3.
    replace ((1 * -1 - - 0 * 0) / (1 ^ 2 + 0 ^ 2) + (0 * 0 - - 0 * 0) / 1 ^ 2) with (- (1)) by field.
    replace ((1 * -1 - - 0 * 0) / ((-1) ^ 2 + 0 ^ 2) + (0 * 0 - - 0 * 0) / 1 ^ 2) with (- (1)) by field.
    rewrite Rabs_Ropp, (Rabs_pos_eq 1) by lra. lra.
  - unfold energy_rate, total. cbn [fold_right]. unfold wx, wy, mx, my. cbn [fst snd Z.eqb andb o8 Lx Ly Cconj Cmult RtoC]. rewrite W1, W2, W3.
    replace ((1 * -1 - - 0 * 0) / (1 ^ 2 + 0 ^ 2) + (0 * 0 - - 0 * 0) / 1 ^ 2) with (- (1)) by field.
    replace ((1 * -1 - - 0 * 0) / ((-1) ^ 2 + 0 ^ 2) + (0 * 0 - - 0 * 0) / 1 ^ 2) with (- (1)) by field. lra.
Qed.

(** ** Examples: the hypotheses are met *)

Example c52_example : exists ms, good_modes o8 ms /\ In (1, 0, 0)%Z ms
  /\ real_field ms (fun _ => RtoC 1) /\ moves ms (fun s m => RtoC 1 + RtoC s * ns2d o8 ms (fun _ => false) 1 (fun _ => RtoC 1) m)%C 0 (ns2d o8 ms (fun _ => false) 1 (fun _ => RtoC 1)).
Proof.
  destruct o8_modes as (ms & Hg & Hin). exists ms. split; [exact Hg|]. split; [exact Hin|]. split; [intros m _; apply C_eq; cbn; lra|].
  intros m _. generalize (ns2d o8 ms (fun _ => false) 1 (fun _ => RtoC 1) m). intros z. split; cbn; auto_derive; trivial; ring.
Qed.

Example c52_uxuy_example : exists ms, good_modes o8 ms /\ In (1, 0, 0)%Z ms
  /\ incompressible_2d o8 ms (fun _ => RtoC 0) (fun m => if ((mx m =? 1) && (my m =? 0))%Z then RtoC 1 else if ((mx m =? -1) && (my m =? 0))%Z then RtoC 1 else RtoC 0).
Proof.
  destruct o8_modes as (ms & Hg & Hin). exists ms. split; [exact Hg|]. split; [exact Hin|]. intros m _. split.
  - destruct (my m =? 0)%Z eqn:E; rewrite ?andb_true_r, ?andb_false_r.
    + apply Z.eqb_eq in E. unfold wy. rewrite E. replace (2 * PI * 0 / Ly o8) with 0 by (unfold Rdiv; ring). ring.
    + ring.
  - intros -> ->. split; reflexivity.
Qed.

Print Assumptions c52_modes.
Print Assumptions c52_energy.
Print Assumptions c52_enstrophy.
Print Assumptions c52_mean.
Print Assumptions c52_beta.
Print Assumptions c52_uxuy_energy.
Print Assumptions c52_uxuy_tendency.
Print Assumptions c82_kinetic.
Print Assumptions c82_potential.
Print Assumptions c82_total.
Print Assumptions c82_mean.
Print Assumptions c83_kinetic.
Print Assumptions c83_square.
Print Assumptions c83_mean.
Print Assumptions c83_strat_zero.
Print Assumptions c84_strat_without_buoyancy_partial.
Print Assumptions c84_beta_refuted.
Print Assumptions c85_answer_partial.
Print Assumptions c85_decreasing_refuted.
