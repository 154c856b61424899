(** * Budgets of the three dimensional solvers: C86, C87, C88, C89 *)

From Coq Require Import Reals Lra ZArith Lia List Bool Permutation.
From Coquelicot Require Import Coquelicot.
From Verif Require Import CExp DFT Alias_Model Alias_Proofs Alias_Props Oper_Model Oper_Spec OperVec_Proofs
  Budget_Model Budget_Spec Budget_Proofs Budget2D_Proofs Budget2D_Props Budget3D_Proofs.
Import ListNotations.
Local Open Scope R_scope.

(** the modes kept by the truncation "spherical" in three dimensions *)
Theorem c88_modes coef o : oper_pos o -> same_spacing_3d o -> 0 < coef <= 2 / 3 ->
  exists ms, (forall m, In m ms <-> kept_spherical_3d coef o m = true) /\ good_modes o ms.
Proof.
  intros Ho [Sy Sz] Hc. pose proof Ho as (Nx & Ny & Nz & Lx0 & Ly0 & Lz0). pose proof PI_RGT_0 as HP.
  assert (Hx : 0 < deltakx o) by (apply Rdiv_lt_0_compat; lra). assert (Hy : 0 < deltaky o) by (apply Rdiv_lt_0_compat; lra).
  assert (Hz : 0 < deltakz o) by (apply Rdiv_lt_0_compat; lra).
  assert (NX : 0 < INR (nx o)) by (apply lt_0_INR; exact Nx). assert (NY : 0 < INR (ny o)) by (apply lt_0_INR; exact Ny).
  assert (NZ : 0 < INR (nz o)) by (apply lt_0_INR; exact Nz).
  set (ms := filter (kept_spherical_3d coef o) (nodup mode_eq_dec (list_prod (list_prod (interval (nx o)) (interval (ny o))) (interval (nz o))))).
  assert (KM : 0 < kmax_spherical coef o).
  { unfold kmax_spherical. apply Rmult_lt_0_compat; [|lra]. apply Rmult_lt_0_compat; [apply Rmult_lt_0_compat; lra | exact NX]. }
  assert (Hin : forall m, In m ms <-> kept_spherical_3d coef o m = true).
  { intros m. unfold ms. rewrite filter_In, nodup_In. split; [tauto|]. intros H. split; [|exact H].
    destruct m as [[a b] c]. unfold kept_spherical_3d, where_dealiased_spherical, K2_3d, geb, Kx, Ky, Kz, mx, my, mz in H. cbn [fst snd] in H.
    destruct (Rle_dec _ _) as [|L]; [discriminate|]. apply Rnot_le_lt in L.
    pose proof (pow2_ge_0 (deltakx o * IZR a)). pose proof (pow2_ge_0 (deltaky o * IZR b)). pose proof (pow2_ge_0 (deltakz o * IZR c)).
    assert (G : forall d z n, 0 < d -> 0 < INR n -> d * INR n = deltakx o * INR (nx o) -> (d * IZR z) ^ 2 < kmax_spherical coef o ^ 2 -> (Z.abs z <= Z.of_nat n)%Z).
    { intros d z n Hd Hn E B. assert (Q : Rabs (d * IZR z) < kmax_spherical coef o).
      { rewrite <- !Rsqr_pow2 in B. apply Rsqr_lt_abs_0 in B. rewrite (Rabs_pos_eq (kmax_spherical coef o)) in B by lra. exact B. }
      rewrite Rabs_mult, (Rabs_pos_eq d) in Q by lra. rewrite Rabs_Zabs in Q.
      unfold kmax_spherical in Q. rewrite Rmult_assoc, <- E in Q.
      assert (X : d * IZR (Z.abs z) < d * INR n).
      { eapply Rlt_le_trans; [exact Q|]. assert (0 < d * INR n) by (apply Rmult_lt_0_compat; lra).
        assert (coef * (d * INR n) <= 1 * (d * INR n)) by (apply Rmult_le_compat_r; lra). lra. }
      apply Rmult_lt_reg_l in X; [|exact Hd]. rewrite INR_IZR_INZ in X. apply lt_IZR in X. lia. }
    apply in_prod; [apply in_prod; apply interval_in | apply interval_in].
    - apply (G (deltakx o)); auto. lra.
    - apply (G (deltaky o)); auto. lra.
    - apply (G (deltakz o)); auto. lra. }
  exists ms. split; [exact Hin|]. split; [exact Ho|]. split; [split|split].
  - apply NoDup_filter, NoDup_nodup.
  - intros m H. apply Hin in H. apply Hin. revert H. unfold kept_spherical_3d, where_dealiased_spherical, K2_3d.
    rewrite Kx_opp, Ky_opp, Kz_opp. replace ((- Kx o m) ^ 2 + (- Ky o m) ^ 2 + (- Kz o m) ^ 2) with (Kx o m ^ 2 + Ky o m ^ 2 + Kz o m ^ 2) by ring.
    exact (fun H => H).
  - apply Hin. unfold kept_spherical_3d, where_dealiased_spherical, K2_3d, geb, Kx, Ky, Kz, mx, my, mz. cbn [fst snd].
    destruct (Rle_dec _ _) as [L|]; [exfalso|reflexivity].
    replace ((deltakx o * 0) ^ 2 + (deltaky o * 0) ^ 2 + (deltakz o * 0) ^ 2) with 0 in L by ring.
    assert (0 < kmax_spherical coef o ^ 2) by (apply pow_lt; exact KM). lra.
  - apply (alias_free_of (kept_spherical_3d coef o)); [intros m Hm; apply Hin; exact Hm|].
    apply c17_spherical_3d_partial; [exact Ho | split; assumption | lra].
Qed.

Section NS3D.
Variable o : oper.
Hypothesis Ho : oper_pos o.
Variable ms : list mode.
Hypothesis Hs : symmetric_modes ms.
Variable dea : mode -> bool.

(** the state of a simulation: real velocity, compatible with the projection, truncated *)
Definition state_3d (pr : projection) (no_vz_kz0 : bool) (v : vfield) : Prop :=
  vreal ms v /\ (forall m, In m ms -> allowed o pr no_vz_kz0 v m) /\ (forall m, In m ms -> dea m = true -> null_at v m).

Lemma null_opp v m : vreal ms v -> In m ms -> null_at v m -> null_at v (mopp m).
Proof.
  intros (R1 & R2 & R3) Hm (E1 & E2 & E3). unfold null_at. rewrite (R1 m Hm), (R2 m Hm), (R3 m Hm), E1, E2, E3.
  repeat split; apply C_eq; cbn; lra.
Qed.

Lemma derive_vdot v t F : vmoves ms v t F -> vreal ms (v t) ->
  is_derive (fun s => energy_3d ms (v s)) t (fst (vdot ms (v t) F)).
Proof.
  intros (M1 & M2 & M3) (R1 & R2 & R3).
  assert (D : forall a b, moves ms a t b -> real_field ms (a t) -> is_derive (fun s => square ms (a s)) t (fst (lsum ms (fun k => a t (mopp k) * b k)%C))).
  { intros a b Hm Hr. apply (is_derive_ext (fun s => total ms (fun m => 1 * norm2 (a s m) / 2))).
    { intros s. apply total_ext. intros m _. unfold Rdiv. ring. }
    eapply is_derive_eq; [apply (is_derive_square (fun _ => 1) ms a t b Hm)|].
    f_equal. apply lsum_ext. intros m Hin. rewrite <- (Hr m Hin). ring. }
  eapply is_derive_eq.
  { apply (is_derive_plus (fun s => square ms (cx (v s)) + square ms (cy (v s))) (fun s => square ms (cz (v s))));
      [apply (is_derive_plus (fun s => square ms (cx (v s))) (fun s => square ms (cy (v s)))); [exact (D _ _ M1 R1) | exact (D _ _ M2 R2)] | exact (D _ _ M3 R3)]. }
  unfold vdot, dot3, at_mode. cbn [fst snd].
  rewrite (lsum_plus ms (fun k => vxf (v t) (mopp k) * vxf F k + vyf (v t) (mopp k) * vyf F k)%C), lsum_plus. reflexivity.
Qed.

(** ** C86: the energy of ns3d, with any truncation *)
Theorem c86_energy pr no_vz_kz0 f v t : state_3d pr no_vz_kz0 (v t) ->
  vmoves ms v t (ns3d o ms dea pr no_vz_kz0 f (v t)) -> is_derive (fun s => energy_3d ms (v s)) t 0.
Proof.
  intros (Hr & Ha & Hn) Hm. eapply is_derive_eq; [exact (derive_vdot v t _ Hm Hr)|].
  unfold ns3d. rewrite (vdot_project o Ho ms Hs dea pr no_vz_kz0) by (exact Ha || (intros m Hin E; apply null_opp; auto)).
  rewrite vdot_cross_l by exact Hs. reflexivity.
Qed.

Lemma dealias_allowed pr b g m : allowed o pr b g m -> allowed o pr b (vdealiasing dea g) m.
Proof.
  intros (A & B & D). unfold allowed, solenoidal, no_rotz, null_at, cx, cy, cz, vdealiasing, dealiasing in *. cbn [fst snd].
  destruct (dea m).
  - split; [ring|]. split; [|reflexivity]. destruct pr; [exact I | split; [reflexivity | auto] | split; [ring | auto]].
  - split; [exact A|]. split; [exact B | exact D].
Qed.

(** the tendencies are compatible with the projection and truncated: the state remains so *)
Theorem c86_tendency pr no_vz_kz0 f v m : allowed o pr no_vz_kz0 (ns3d o ms dea pr no_vz_kz0 f v) m
  /\ (dea m = true -> null_at (ns3d o ms dea pr no_vz_kz0 f v) m).
Proof.
  split.
  - unfold ns3d. apply dealias_allowed. apply project_allowed. exact Ho.
  - intros E. unfold ns3d, null_at, vdealiasing, dealiasing, cx, cy, cz. cbn [fst snd]. rewrite E. auto.
Qed.

(** ** C87: the helicity *)

Lemma vorticity_curl v m : vxf (curl o v) m = cx (vorticity o v) m /\ vyf (curl o v) m = cy (vorticity o v) m /\ vzf (curl o v) m = cz (vorticity o v) m.
Proof.
  unfold curl, vorticity, vxf, vyf, vzf, cx, cy, cz, px_fft, py_fft, pz_fft. cbn [fst snd]. rewrite (w3x o Ho), (w3y o Ho), (w3z o Ho). repeat split; ring.
Qed.

Lemma curl_allowed v m : allowed o Perp false (curl o v) m.
Proof.
  split; [|split; [exact I | discriminate]]. unfold solenoidal. rewrite (w3x o Ho), (w3y o Ho), (w3z o Ho).
  unfold curl, cx, cy, cz, px_fft, py_fft, pz_fft. cbn [fst snd]. ring.
Qed.

Lemma curl_real v : vreal ms v -> vreal ms (curl o v).
Proof.
  intros (R1 & R2 & R3). repeat split; intros m Hm; unfold curl, cx, cy, cz, px_fft, py_fft, pz_fft, vxf, vyf, vzf in *; cbn [fst snd] in *;
    rewrite ?Kx_opp, ?Ky_opp, ?Kz_opp, ?(R1 m Hm), ?(R2 m Hm), ?(R3 m Hm); unfold cx, cy, cz in *; apply C_eq; cbn; ring.
Qed.

Lemma derive_prod (a b c d : R -> R) t a' b' c' d' : is_derive a t a' -> is_derive b t b' -> is_derive c t c' -> is_derive d t d' ->
  is_derive (fun s => a s * b s + c s * d s) t (a' * b t + a t * b' + (c' * d t + c t * d')).
Proof.
  intros H1 H2 H3 H4. apply (is_derive_plus (fun s => a s * b s) (fun s => c s * d s)).
  - apply (is_derive_mult a b t a' b' H1 H2). intros; apply Rmult_comm.
  - apply (is_derive_mult c d t c' d' H3 H4). intros; apply Rmult_comm.
Qed.

Lemma derive_product a b t a' b' : moves ms a t a' -> moves ms b t b' ->
  is_derive (fun s => product ms (a s) (b s)) t (product ms a' (b t) + product ms (a t) b').
Proof.
  intros Ma Mb. unfold product at 2 3. rewrite <- total_plus.
  apply (is_derive_total ms (fun s m => fst (a s m) * fst (b s m) + snd (a s m) * snd (b s m))). intros m Hm.
  destruct (Ma m Hm) as [A1 A2]. destruct (Mb m Hm) as [B1 B2].
  eapply is_derive_eq; [exact (derive_prod (fun s => fst (a s m)) (fun s => fst (b s m)) (fun s => snd (a s m)) (fun s => snd (b s m)) t _ _ _ _ A1 B1 A2 B2)|].
  cbn. ring.
Qed.

Lemma moves_lin a b (p q : mode -> R) t a' b' : moves ms a t a' -> moves ms b t b' ->
  moves ms (fun s m => Ci * (RtoC (p m) * a s m - RtoC (q m) * b s m))%C t (fun m => Ci * (RtoC (p m) * a' m - RtoC (q m) * b' m))%C.
Proof.
  intros Ma Mb m Hm. destruct (Ma m Hm) as [A1 A2]. destruct (Mb m Hm) as [B1 B2].
  assert (L : forall (x y : R -> R) x' y' c d, is_derive x t x' -> is_derive y t y' -> is_derive (fun s => c * x s - d * y s) t (c * x' - d * y')).
  { intros x y x' y' c d Hx Hy. apply (is_derive_minus (fun s => c * x s) (fun s => d * y s)); apply is_derive_scal; assumption. }
  split.
  - apply (is_derive_ext (fun s => q m * snd (b s m) - p m * snd (a s m))); [intros s; cbn; ring|].
    eapply is_derive_eq; [exact (L (fun s => snd (b s m)) (fun s => snd (a s m)) _ _ (q m) (p m) B2 A2)|]. cbn. ring.
  - apply (is_derive_ext (fun s => p m * fst (a s m) - q m * fst (b s m))); [intros s; cbn; ring|].
    eapply is_derive_eq; [exact (L (fun s => fst (a s m)) (fun s => fst (b s m)) _ _ (p m) (q m) A1 B1)|]. cbn. ring.
Qed.

Lemma derive_helicity v t F : vmoves ms v t F -> vreal ms (v t) ->
  is_derive (fun s => helicity o ms (v s)) t (2 * fst (vdot ms (curl o (v t)) F)).
Proof.
  intros (M1 & M2 & M3) Hr. pose proof (curl_real _ Hr) as (R1 & R2 & R3).
  pose proof (derive_product _ _ t _ _ M1 (moves_lin (fun s => cz (v s)) (fun s => cy (v s)) (wy o) (wz o) t _ _ M3 M2)) as D1.
  pose proof (derive_product _ _ t _ _ M2 (moves_lin (fun s => cx (v s)) (fun s => cz (v s)) (wz o) (wx o) t _ _ M1 M3)) as D2.
  pose proof (derive_product _ _ t _ _ M3 (moves_lin (fun s => cy (v s)) (fun s => cx (v s)) (wx o) (wy o) t _ _ M2 M1)) as D3.
  eapply is_derive_eq; [exact (is_derive_plus _ _ t _ _ (is_derive_plus _ _ t _ _ D1 D2) D3)|].
  unfold plus. cbn -[product vdot]. unfold product. rewrite <- !total_plus. unfold vdot. rewrite <- (total_lsum ms (fun k => fst (dot3 (at_mode (curl o (v t)) (mopp k)) (at_mode F k)))) by reflexivity.
  rewrite <- total_scal. apply total_ext. intros m Hm. unfold dot3, at_mode. cbn [fst snd].
  assert (E1 : vxf (curl o (v t)) (mopp m) = Cconj (vxf (curl o (v t)) m)) by exact (R1 m Hm).
  assert (E2 : vyf (curl o (v t)) (mopp m) = Cconj (vyf (curl o (v t)) m)) by exact (R2 m Hm).
  assert (E3 : vzf (curl o (v t)) (mopp m) = Cconj (vzf (curl o (v t)) m)) by exact (R3 m Hm).
  rewrite E1, E2, E3. destruct (vorticity_curl (v t) m) as (-> & -> & ->). unfold vorticity, cx, cy, cz, vxf, vyf, vzf. cbn. ring.
Qed.

Lemma curl_null v m : null_at v m -> null_at (curl o v) m.
Proof.
  intros (E1 & E2 & E3). unfold null_at, curl, cx, cy, cz, px_fft, py_fft, pz_fft, vxf, vyf, vzf in *. cbn [fst snd]. rewrite E1, E2, E3.
  repeat split; ring.
Qed.

Theorem c87_helicity v t : state_3d Perp false (v t) ->
  vmoves ms v t (ns3d o ms dea Perp false None (v t)) -> is_derive (fun s => helicity o ms (v s)) t 0.
Proof.
  intros (Hr & Ha & Hn) Hm. eapply is_derive_eq; [exact (derive_helicity v t _ Hm Hr)|].
  unfold ns3d. rewrite (vdot_project o Ho ms Hs dea Perp false).
  - cbn [modif_omega]. rewrite vdot_cross_r by exact Hs. cbn. ring.
  - intros m _. apply curl_allowed.
  - intros m Hin E. apply curl_null, null_opp; auto.
Qed.

End NS3D.

Section Good3.
Variable o : oper.
Variable ms : list mode.
Hypothesis Hg : good_modes o ms.
Variable dea : mode -> bool.
Hypothesis Hd : forall m, In m ms -> dea m = false.

Lemma fft_zero u : fft o u zero_mode = gmean o u.
Proof.
  unfold fft, dft, gmean. cbn [gx gy gz grid_of]. f_equal. apply nsum_ext. intros jx _. apply nsum_ext. intros jy _. apply nsum_ext. intros jz _.
  change (- mx zero_mode, - my zero_mode, - mz zero_mode)%Z with zero_mode. rewrite chi3_zero. ring.
Qed.

Lemma mean_product a b : gmean o (fun jx jy jz => ifft o ms a jx jy jz * ifft o ms b jx jy jz)%C = lsum ms (fun k => b (mopp k) * a k)%C.
Proof.
  destruct Hg as (Ho & Hs & H0 & Ha). rewrite <- (parseval o ms b (ifft o ms a) Hs). apply lsum_ext. intros k Hk.
  rewrite (fft_ifft o ms) by (assumption || apply Hs). reflexivity.
Qed.

Lemma gmean_sub u v : gmean o (fun jx jy jz => u jx jy jz - v jx jy jz)%C = (gmean o u - gmean o v)%C.
Proof.
  rewrite (gmean_ext o _ (fun jx jy jz => u jx jy jz + (- RtoC 1) * v jx jy jz)%C) by (intros; ring).
  rewrite (gmean_plus o u (fun jx jy jz => (- RtoC 1) * v jx jy jz)%C), gmean_scal. ring.
Qed.

Lemma mean_cross a b c d : fft o (gsub (gmul (ifft o ms a) (ifft o ms b)) (gmul (ifft o ms c) (ifft o ms d))) zero_mode
  = lsum ms (fun k => a (mopp k) * b k - c (mopp k) * d k)%C.
Proof.
  rewrite fft_zero. unfold gsub, gmul, lift2. rewrite gmean_sub. rewrite lsum_sub.
  rewrite <- (mean_product b a), <- (mean_product d c). 
  rewrite (gmean_ext o (fun jx jy jz => ifft o ms a jx jy jz * ifft o ms b jx jy jz)%C (fun jx jy jz => ifft o ms b jx jy jz * ifft o ms a jx jy jz)%C) by (intros; ring).
  rewrite (gmean_ext o (fun jx jy jz => ifft o ms c jx jy jz * ifft o ms d jx jy jz)%C (fun jx jy jz => ifft o ms d jx jy jz * ifft o ms c jx jy jz)%C) by (intros; ring).
  reflexivity.
Qed.

Lemma opp_dot v k : (forall m, In m ms -> solenoidal o v m) -> In k ms ->
  (RtoC (Kx o k) * vxf v (mopp k) + RtoC (Ky o k) * vyf v (mopp k) + RtoC (Kz o k) * vzf v (mopp k))%C = RtoC 0.
Proof.
  destruct Hg as (Ho & Hs & _). intros H Hk. pose proof (H _ (proj2 Hs k Hk)) as E. unfold solenoidal in E.
  rewrite (w3x o Ho), (w3y o Ho), (w3z o Ho), Kx_opp, Ky_opp, Kz_opp, !RtoC_opp in E. unfold cx, cy, cz, vxf, vyf, vzf in *.
  replace (RtoC (Kx o k) * fst (fst v) (mopp k) + RtoC (Ky o k) * snd (fst v) (mopp k) + RtoC (Kz o k) * snd v (mopp k))%C
    with (- (- RtoC (Kx o k) * fst (fst v) (mopp k) + - RtoC (Ky o k) * snd (fst v) (mopp k) + - RtoC (Kz o k) * snd v (mopp k)))%C by ring.
  rewrite E. ring.
Qed.

Lemma odd_square (K : mode -> R) v : (forall m, In m ms -> K (mopp m) = - K m) ->
  lsum ms (fun k => Ci * RtoC (K k) * dot3 (at_mode v (mopp k)) (at_mode v k))%C = RtoC 0.
Proof.
  destruct Hg as (Ho & Hs & _). intros HK. apply lsum_odd; [exact Hs|]. intros m Hm. rewrite mopp_mopp, (HK m Hm), RtoC_opp. unfold dot3. ring.
Qed.

Definition coriolis (f : option R) : R := match f with None => 0 | Some f => f end.

Lemma modif_eq f w m : vxf (modif_omega f w) m = vxf w m /\ vyf (modif_omega f w) m = vyf w m
  /\ vzf (modif_omega f w) m = (vzf w m + RtoC (coriolis f) * delta0 m)%C.
Proof.
  destruct f as [f|]; cbn [modif_omega coriolis]; [|split; [reflexivity|]; split; [reflexivity | ring]].
  unfold vxf, vyf, vzf. cbn [fst snd]. split; [reflexivity|]. split; [reflexivity|].
  unfold delta0, mode_eqb, zero_mode, mx, my, mz. cbn [fst snd]. destruct (_ && _); ring.
Qed.

Lemma sum_delta0 a : lsum ms (fun k => a (mopp k) * delta0 k)%C = a zero_mode.
Proof.
  destruct Hg as (Ho & Hs & H0 & Ha). rewrite (lsum_single ms _ zero_mode (proj1 Hs) H0).
  - unfold delta0. change (mopp zero_mode) with zero_mode. replace (mode_eqb zero_mode zero_mode) with true by (symmetry; apply mode_eqb_eq; reflexivity). ring.
  - intros x _ N. unfold delta0. destruct (mode_eqb x zero_mode) eqn:E; [apply mode_eqb_eq in E; contradiction | ring].
Qed.

Lemma curl_at v k : vxf (curl o v) k = (py_fft o (vzf v) k - pz_fft o (vyf v) k)%C
  /\ vyf (curl o v) k = (pz_fft o (vxf v) k - px_fft o (vzf v) k)%C /\ vzf (curl o v) k = (px_fft o (vyf v) k - py_fft o (vxf v) k)%C.
Proof. repeat split. Qed.

(** the mean of the Lamb vector *)
Lemma mean_lamb f v : (forall m, In m ms -> solenoidal o v m) ->
  at_mode (vfft o (vector_product (vifft o ms v) (vifft o ms (modif_omega f (curl o v))))) zero_mode
  = ((RtoC (coriolis f) * vyf v zero_mode)%C, (- (RtoC (coriolis f) * vxf v zero_mode))%C, RtoC 0).
Proof.
  intros Hv. pose proof Hg as (Ho & Hs & _). set (w := modif_omega f (curl o v)).
  transitivity (fft o (gsub (gmul (ifft o ms (vyf v)) (ifft o ms (vzf w))) (gmul (ifft o ms (vzf v)) (ifft o ms (vyf w)))) zero_mode,
    fft o (gsub (gmul (ifft o ms (vzf v)) (ifft o ms (vxf w))) (gmul (ifft o ms (vxf v)) (ifft o ms (vzf w)))) zero_mode,
    fft o (gsub (gmul (ifft o ms (vxf v)) (ifft o ms (vyf w))) (gmul (ifft o ms (vyf v)) (ifft o ms (vxf w)))) zero_mode); [reflexivity|].
  rewrite !mean_cross. unfold w. clear w. apply triple_eq.
  - transitivity (lsum ms (fun k => Ci * RtoC (Kx o k) * dot3 (at_mode v (mopp k)) (at_mode v k) + RtoC (coriolis f) * (vyf v (mopp k) * delta0 k))%C).
    + apply lsum_ext. intros k Hk. destruct (modif_eq f (curl o v) k) as (_ & -> & ->). destruct (curl_at v k) as (Q1 & Q2 & Q3). rewrite ?Q1, ?Q2, ?Q3. clear Q1 Q2 Q3. unfold px_fft, py_fft, pz_fft, dot3, at_mode. cbn [fst snd].
      pose proof (opp_dot v k Hv Hk) as E.
      replace (Ci * RtoC (Kx o k) * (vxf v (mopp k) * vxf v k + vyf v (mopp k) * vyf v k + vzf v (mopp k) * vzf v k))%C with
        (Ci * vxf v k * (RtoC (Kx o k) * vxf v (mopp k) + RtoC (Ky o k) * vyf v (mopp k) + RtoC (Kz o k) * vzf v (mopp k))
         + Ci * (RtoC (Kx o k) * (vyf v (mopp k) * vyf v k + vzf v (mopp k) * vzf v k) - vxf v k * (RtoC (Ky o k) * vyf v (mopp k) + RtoC (Kz o k) * vzf v (mopp k))))%C by ring.
      rewrite E. ring.
    + rewrite lsum_plus, odd_square, lsum_scal, sum_delta0 by (intros; apply Kx_opp). ring.
  - transitivity (lsum ms (fun k => Ci * RtoC (Ky o k) * dot3 (at_mode v (mopp k)) (at_mode v k) + (- RtoC (coriolis f)) * (vxf v (mopp k) * delta0 k))%C).
    + apply lsum_ext. intros k Hk. destruct (modif_eq f (curl o v) k) as (-> & _ & ->). destruct (curl_at v k) as (Q1 & Q2 & Q3). rewrite ?Q1, ?Q2, ?Q3. clear Q1 Q2 Q3. unfold px_fft, py_fft, pz_fft, dot3, at_mode. cbn [fst snd].
      pose proof (opp_dot v k Hv Hk) as E.
      replace (Ci * RtoC (Ky o k) * (vxf v (mopp k) * vxf v k + vyf v (mopp k) * vyf v k + vzf v (mopp k) * vzf v k))%C with
        (Ci * vyf v k * (RtoC (Kx o k) * vxf v (mopp k) + RtoC (Ky o k) * vyf v (mopp k) + RtoC (Kz o k) * vzf v (mopp k))
         + Ci * (RtoC (Ky o k) * (vxf v (mopp k) * vxf v k + vzf v (mopp k) * vzf v k) - vyf v k * (RtoC (Kx o k) * vxf v (mopp k) + RtoC (Kz o k) * vzf v (mopp k))))%C by ring.
      rewrite E. ring.
    + rewrite lsum_plus, odd_square, lsum_scal, sum_delta0 by (intros; apply Ky_opp). ring.
  - transitivity (lsum ms (fun k => Ci * RtoC (Kz o k) * dot3 (at_mode v (mopp k)) (at_mode v k))%C).
    + apply lsum_ext. intros k Hk. destruct (modif_eq f (curl o v) k) as (-> & -> & _). destruct (curl_at v k) as (Q1 & Q2 & Q3). rewrite ?Q1, ?Q2, ?Q3. clear Q1 Q2 Q3. unfold px_fft, py_fft, pz_fft, dot3, at_mode. cbn [fst snd].
      pose proof (opp_dot v k Hv Hk) as E.
      replace (Ci * RtoC (Kz o k) * (vxf v (mopp k) * vxf v k + vyf v (mopp k) * vyf v k + vzf v (mopp k) * vzf v k))%C with
        (Ci * vzf v k * (RtoC (Kx o k) * vxf v (mopp k) + RtoC (Ky o k) * vyf v (mopp k) + RtoC (Kz o k) * vzf v (mopp k))
         + Ci * (RtoC (Kz o k) * (vxf v (mopp k) * vxf v k + vyf v (mopp k) * vyf v k) - vzf v k * (RtoC (Kx o k) * vxf v (mopp k) + RtoC (Ky o k) * vyf v (mopp k))))%C by ring.
      rewrite E. ring.
    + apply odd_square. intros; apply Kz_opp.
Qed.

(** ** C88: the mean velocity is constant, and rotates at the frequency f *)
Theorem c88_momentum no_vz_kz0 f v : (forall m, In m ms -> solenoidal o v m) ->
  cx (ns3d o ms dea Perp no_vz_kz0 f v) (0, 0, 0)%Z = (RtoC (coriolis f) * cy v (0, 0, 0)%Z)%C
  /\ cy (ns3d o ms dea Perp no_vz_kz0 f v) (0, 0, 0)%Z = (- (RtoC (coriolis f) * cx v (0, 0, 0)%Z))%C
  /\ cz (ns3d o ms dea Perp no_vz_kz0 f v) (0, 0, 0)%Z = RtoC 0.
Proof.
  intros Hv. pose proof Hg as (Ho & Hs & H0 & Ha). fold zero_mode. pose proof (mean_lamb f v Hv) as E. unfold ns3d.
  set (g := vfft o _) in *.
  assert (P : projector o Perp zero_mode (at_mode g zero_mode) = at_mode g zero_mode).
  { unfold projector, project_perpk3d, project_kradial3d, rmul. cbn [fst snd].
    replace (Kx o zero_mode) with 0 by (unfold Kx, zero_mode, mx; cbn [fst]; ring).
    replace (Ky o zero_mode) with 0 by (unfold Ky, zero_mode, my; cbn [fst snd]; ring).
    replace (Kz o zero_mode) with 0 by (unfold Kz, zero_mode, mz; cbn [fst snd]; ring).
    unfold at_mode. cbn [fst snd]. apply triple_eq; ring. }
  assert (D : dea zero_mode = false) by (apply Hd; exact H0).
  set (w := projector o Perp zero_mode (at_mode g zero_mode)) in *.
  assert (X : cx (vdealiasing dea (project_state o Perp no_vz_kz0 g)) zero_mode = fst (fst w)) by (unfold vdealiasing, dealiasing, cx; cbn [fst snd]; rewrite D; reflexivity).
  assert (Y : cy (vdealiasing dea (project_state o Perp no_vz_kz0 g)) zero_mode = snd (fst w)) by (unfold vdealiasing, dealiasing, cy; cbn [fst snd]; rewrite D; reflexivity).
  rewrite X, Y, P, E. cbn [fst snd]. split; [reflexivity|]. split; [reflexivity|].
  unfold vdealiasing, dealiasing, cz. cbn [fst snd]. rewrite D.
  change (zero_kz0 no_vz_kz0 (vzf (on_modes (projector o Perp) g)) zero_mode = RtoC 0). unfold zero_kz0. destruct (_ && _); [reflexivity|].
  change (snd w = RtoC 0). rewrite P, E. reflexivity.
Qed.

(** ** C87: the helicity in a rotating frame *)
Theorem c87_helicity_rotating f v t : state_3d o ms dea Perp false (v t) ->
  vmoves ms v t (ns3d o ms dea Perp false f (v t)) -> is_derive (fun s => helicity o ms (v s)) t 0.
Proof.
  intros (Hr & Ha & Hn) Hm. pose proof Hg as (Ho & Hs & H0 & _). eapply is_derive_eq; [exact (derive_helicity o Ho ms v t _ Hm Hr)|].
  unfold ns3d. rewrite (vdot_project o Ho ms Hs dea Perp false).
  2:{ intros m _. apply curl_allowed. exact Ho. }
  2:{ intros m Hin E. rewrite (Hd m Hin) in E. discriminate. }
  set (w := modif_omega f (curl o (v t))). set (g := vfft o (vector_product (vifft o ms (v t)) (vifft o ms w))).
  assert (Z : vdot ms w g = RtoC 0) by (apply vdot_cross_r; exact Hs).
  assert (E : vdot ms w g = (vdot ms (curl o (v t)) g + RtoC (coriolis f) * vzf g zero_mode)%C).
  { unfold vdot. rewrite <- (lsum_opp ms (fun k => dot3 (at_mode w (mopp k)) (at_mode g k)) Hs) || idtac.
    rewrite (lsum_ext ms _ (fun k => dot3 (at_mode (curl o (v t)) (mopp k)) (at_mode g k) + RtoC (coriolis f) * (vzf g k * delta0 (mopp k)))%C).
    - rewrite lsum_plus, lsum_scal. f_equal. f_equal. rewrite lsum_opp by exact Hs.
      rewrite (lsum_ext ms _ (fun m => vzf g (mopp m) * delta0 m)%C) by (intros; rewrite mopp_mopp; reflexivity). apply sum_delta0.
    - intros k _. unfold dot3, at_mode. cbn [fst snd]. destruct (modif_eq f (curl o (v t)) (mopp k)) as (E1 & E2 & E3).
      fold w in E1, E2, E3. rewrite E1, E2, E3. ring. }
  assert (G : vzf g zero_mode = RtoC 0).
  { pose proof (mean_lamb f (v t) (fun m Hin => proj1 (Ha m Hin))) as L. fold w in L. fold g in L. apply (f_equal snd) in L. exact L. }
  rewrite Z, G in E.
  replace (vdot ms (curl o (v t)) g) with (RtoC 0) by (rewrite E at 1; ring). cbn. ring.
Qed.

(** ** C89: ns3d.strat *)

Lemma vdot_bouyancy v g b : vdot ms v (vxf g, vyf g, fun m => vzf g m + b m)%C = (vdot ms v g + lsum ms (fun k => vzf v (mopp k) * b k))%C.
Proof.
  unfold vdot. rewrite <- lsum_plus. apply lsum_ext. intros k _. unfold dot3, at_mode, vxf, vyf, vzf. cbn [fst snd]. ring.
Qed.

Lemma real_product a b : real_field ms a -> fst (lsum ms (fun k => a (mopp k) * b k)%C) = product ms a b.
Proof. intros H. symmetry. apply total_lsum. intros m Hm. rewrite (H m Hm). cbn. ring. Qed.

Lemma div_vb_at v b k : div_vb_fft o (vifft o ms v) b k
  = (Ci * RtoC (Kx o k) * fft o (gmul (ifft o ms (vxf v)) b) k + Ci * RtoC (Ky o k) * fft o (gmul (ifft o ms (vyf v)) b) k
     + Ci * RtoC (Kz o k) * fft o (gmul (ifft o ms (vzf v)) b) k)%C.
Proof. reflexivity. Qed.

Lemma transport v b : (forall m, In m ms -> solenoidal o v m) ->
  lsum ms (fun k => b (mopp k) * div_vb_fft o (vifft o ms v) (ifft o ms b) k)%C = RtoC 0.
Proof.
  intros Hv. pose proof Hg as (Ho & Hs & H0 & Ha).
  set (c := fun (K : mode -> R) s => (- Ci * RtoC (K s) * b s)%C).
  rewrite (lsum_ext ms _ (fun k => c (Kx o) (mopp k) * fft o (gmul (ifft o ms (vxf v)) (ifft o ms b)) k
     + c (Ky o) (mopp k) * fft o (gmul (ifft o ms (vyf v)) (ifft o ms b)) k
     + c (Kz o) (mopp k) * fft o (gmul (ifft o ms (vzf v)) (ifft o ms b)) k)%C).
  2:{ intros k _. rewrite div_vb_at. unfold c. rewrite Kx_opp, Ky_opp, Kz_opp, !RtoC_opp. ring. }
  rewrite (lsum_plus ms (fun k => c (Kx o) (mopp k) * fft o (gmul (ifft o ms (vxf v)) (ifft o ms b)) k
     + c (Ky o) (mopp k) * fft o (gmul (ifft o ms (vyf v)) (ifft o ms b)) k)%C), lsum_plus, !triple, <- !triads_plus by assumption.
  apply triads_anti23. intros p q s Hp Hq Hin E. unfold c.
  rewrite (Kx_sum0 o p q s E), (Ky_sum0 o p q s E), (Kz_sum0 o p q s E), !RtoC_minus, !RtoC_opp.
  pose proof (Hv p Hp) as D. unfold solenoidal in D. rewrite (w3x o Ho), (w3y o Ho), (w3z o Ho) in D. unfold cx, cy, cz, vxf, vyf, vzf in *.
  set (X := fst (fst v) p) in *. set (Y := snd (fst v) p) in *. set (Z := snd v p) in *.
  replace (X * b q * (- Ci * (- RtoC (Kx o p) - RtoC (Kx o q)) * b s) + Y * b q * (- Ci * (- RtoC (Ky o p) - RtoC (Ky o q)) * b s) + Z * b q * (- Ci * (- RtoC (Kz o p) - RtoC (Kz o q)) * b s)
    + (X * b s * (- Ci * RtoC (Kx o q) * b q) + Y * b s * (- Ci * RtoC (Ky o q) * b q) + Z * b s * (- Ci * RtoC (Kz o q) * b q)))%C
    with (Ci * b q * b s * (RtoC (Kx o p) * X + RtoC (Ky o p) * Y + RtoC (Kz o p) * Z))%C by ring.
  rewrite D. ring.
Qed.

Lemma drop_kz0 no_vz_kz0 b g : (no_vz_kz0 = true -> forall m, In m ms -> mz m = 0%Z -> b m = RtoC 0) ->
  lsum ms (fun k => b (mopp k) * dealiasing dea (zero_kz0 no_vz_kz0 g) k)%C = lsum ms (fun k => b (mopp k) * g k)%C.
Proof.
  intros H. pose proof Hg as (_ & Hs & _). apply lsum_ext. intros k Hk. unfold dealiasing. rewrite (Hd k Hk). unfold zero_kz0.
  destruct no_vz_kz0; cbn [andb]; [|reflexivity]. destruct (mz k =? 0)%Z eqn:E; [|reflexivity]. apply Z.eqb_eq in E.
  rewrite (H eq_refl (mopp k)); [ring | apply Hs; exact Hk | unfold mopp, mz in *; cbn [snd]; lia].
Qed.

Section Strat3.
Variables N t : R.
Variable pr : projection.
Variable no_vz_kz0 : bool.
Variable f : option R.
Variable v : R -> vfield.
Variable b : R -> field.
Hypothesis HN : N <> 0.
Hypothesis Sv : state_3d o ms dea pr no_vz_kz0 (v t).
Hypothesis Rb : real_field ms (b t).
Hypothesis Zb : no_vz_kz0 = true -> forall m, In m ms -> mz m = 0%Z -> b t m = RtoC 0.

Lemma kinetic_rate F : vmoves ms v t F ->
  (F = vdealiasing dea (project_state o pr no_vz_kz0
     (let g := vfft o (vector_product (vifft o ms (v t)) (vifft o ms (modif_omega f (curl o (v t))))) in (vxf g, vyf g, fun m => vzf g m + b t m)%C))) ->
  is_derive (fun s => energy_3d ms (v s)) t (product ms (cz (v t)) (b t)).
Proof.
  intros M ->. pose proof Hg as (Ho & Hs & H0 & Ha). destruct Sv as (Hr & Hal & Hn). eapply is_derive_eq; [exact (derive_vdot ms v t _ M Hr)|].
  rewrite (vdot_project o Ho ms Hs dea pr no_vz_kz0) by (exact Hal || (intros m Hin E; apply (null_opp ms); auto)).
  cbv zeta. rewrite vdot_bouyancy, vdot_cross_l by exact Hs. rewrite <- (real_product (cz (v t))) by apply Hr.
  unfold vzf, cz. cbn. ring.
Qed.

Theorem c89_kinetic : vmoves ms v t (fst (ns3d_strat o ms dea pr no_vz_kz0 f N (v t, b t))) ->
  is_derive (fun s => energy_3d ms (v s)) t (product ms (cz (v t)) (b t)).
Proof. intros M. exact (kinetic_rate _ M eq_refl). Qed.

Theorem c90_kinetic : vmoves ms v t (fst (ns3d_bouss o ms dea pr no_vz_kz0 f (v t, b t))) ->
  is_derive (fun s => energy_3d ms (v s)) t (product ms (cz (v t)) (b t)).
Proof. intros M. exact (kinetic_rate _ M eq_refl). Qed.

Lemma sol_v : forall m, In m ms -> solenoidal o (v t) m.
Proof. intros m Hm. apply Sv. exact Hm. Qed.

Theorem c89_potential : moves ms b t (snd (ns3d_strat o ms dea pr no_vz_kz0 f N (v t, b t))) ->
  is_derive (fun s => square ms (b s) / N ^ 2) t (- product ms (cz (v t)) (b t)).
Proof.
  intros M. pose proof Hg as (Ho & Hs & H0 & Ha).
  assert (D : is_derive (fun s => square ms (b s)) t (- (N ^ 2 * product ms (cz (v t)) (b t)))).
  { eapply is_derive_eq; [exact (derive_square ms b t _ M Rb)|]. cbn [snd ns3d_strat].
    rewrite (drop_kz0 no_vz_kz0 (b t)) by exact Zb.
    rewrite (lsum_ext ms _ (fun k => - (b t (mopp k) * div_vb_fft o (vifft o ms (v t)) (ifft o ms (b t)) k) - RtoC (N ^ 2) * (b t (mopp k) * cz (v t) k))%C) by (intros; unfold vzf, cz; ring).
    rewrite lsum_sub, lsum_neg, lsum_scal, transport by exact sol_v.
    transitivity (- (N ^ 2 * fst (lsum ms (fun k => b t (mopp k) * cz (v t) k)%C))); [cbn; ring|].
    rewrite (real_product (b t)) by exact Rb. f_equal. f_equal. apply total_ext. intros m _. ring. }
  apply (is_derive_ext (fun s => / N ^ 2 * square ms (b s))); [intros s; unfold Rdiv; apply Rmult_comm|].
  eapply is_derive_eq; [apply (is_derive_scal (fun s => square ms (b s)) t (/ N ^ 2) _ D)|].
  cbn. set (P := product _ _ _). field. exact HN.
Qed.

Theorem c89_total : vmoves ms v t (fst (ns3d_strat o ms dea pr no_vz_kz0 f N (v t, b t))) ->
  moves ms b t (snd (ns3d_strat o ms dea pr no_vz_kz0 f N (v t, b t))) ->
  is_derive (fun s => energy_3d ms (v s) + square ms (b s) / N ^ 2) t 0.
Proof.
  intros M1 M2. eapply is_derive_eq; [exact (is_derive_plus _ _ t _ _ (c89_kinetic M1) (c89_potential M2))|]. cbn. ring.
Qed.

Theorem c90_square : moves ms b t (snd (ns3d_bouss o ms dea pr no_vz_kz0 f (v t, b t))) -> is_derive (fun s => square ms (b s)) t 0.
Proof.
  intros M. pose proof Hg as (Ho & Hs & H0 & Ha).
  eapply is_derive_eq; [exact (derive_square ms b t _ M Rb)|]. cbn [snd ns3d_bouss].
  rewrite (drop_kz0 no_vz_kz0 (b t)) by exact Zb.
  rewrite (lsum_ext ms _ (fun k => - (b t (mopp k) * div_vb_fft o (vifft o ms (v t)) (ifft o ms (b t)) k))%C) by (intros; ring).
  rewrite lsum_neg, transport by exact sol_v. cbn. ring.
Qed.
End Strat3.

(** the tendencies of the velocity are compatible with the projection, those of b with no_vz_kz0 *)
Theorem c89_tendency pr no_vz_kz0 f N v b m : allowed o pr no_vz_kz0 (fst (ns3d_strat o ms dea pr no_vz_kz0 f N (v, b))) m
  /\ (no_vz_kz0 = true -> mz m = 0%Z -> snd (ns3d_strat o ms dea pr no_vz_kz0 f N (v, b)) m = RtoC 0).
Proof.
  pose proof Hg as (Ho & _). split.
  - cbn [fst ns3d_strat]. apply dealias_allowed. apply project_allowed. exact Ho.
  - intros -> E. cbn [snd ns3d_strat]. unfold dealiasing, zero_kz0. rewrite E. cbn [andb Z.eqb]. destruct (dea m); reflexivity.
Qed.

Theorem c90_mean pr no_vz_kz0 f v b : snd (ns3d_bouss o ms dea pr no_vz_kz0 f (v, b)) (0, 0, 0)%Z = RtoC 0.
Proof.
  cbn [snd ns3d_bouss]. unfold dealiasing, zero_kz0. destruct (dea _); [reflexivity|]. destruct (_ && _); [reflexivity|].
  unfold div_vb_fft, vifft, div, px_fft, py_fft, pz_fft. cbn [fst snd].
  replace (Kx o (0, 0, 0)%Z) with 0 by (unfold Kx, mx; cbn [fst]; ring).
  replace (Ky o (0, 0, 0)%Z) with 0 by (unfold Ky, my; cbn [fst snd]; ring).
  replace (Kz o (0, 0, 0)%Z) with 0 by (unfold Kz, mz; cbn [fst snd]; ring). ring.
Qed.

End Good3.

(** ** Examples: the hypotheses are met *)

Lemma o8_kept_3d : kept_spherical_3d (2 / 3) o8 (1, 0, 0)%Z = true.
Proof.
  unfold kept_spherical_3d, where_dealiased_spherical, K2_3d, geb, Kx, Ky, Kz, mx, my, mz, kmax_spherical, deltakx, deltaky, deltakz.
  cbn [fst snd o8 Lx Ly Lz nx]. destruct (Rle_dec _ _) as [L|]; [exfalso|reflexivity].
  pose proof PI_RGT_0. replace (2 * PI / (2 * PI)) with 1 in L by (field; lra).
  replace (INR 8) with 8 in L by (cbn; ring). lra.
Qed.

(** a shear vy(x): compatible with the perpendicular and toroidal projections *)
Definition shear_y : vfield := (fun _ => RtoC 0, fun m => if ((Z.abs (mx m) =? 1) && (my m =? 0) && (mz m =? 0))%Z then RtoC 1 else RtoC 0, fun _ => RtoC 0).

Example c86_example : exists ms, good_modes o8 ms /\ In (1, 0, 0)%Z ms
  /\ state_3d o8 ms (fun _ => false) Perp true shear_y /\ state_3d o8 ms (fun _ => false) Toroidal true shear_y /\ cy shear_y (1, 0, 0)%Z = RtoC 1.
Proof.
  destruct (c88_modes (2 / 3) o8 o8_pos ltac:(split; reflexivity) ltac:(lra)) as (ms & Hin & Hg).
  assert (Rv : vreal ms shear_y).
  { split; [|split]; intros m _; unfold shear_y, cx, cy, cz; cbn [fst snd]; [apply C_eq; cbn; lra| |apply C_eq; cbn; lra].
    replace ((Z.abs (mx (mopp m)) =? 1) && (my (mopp m) =? 0) && (mz (mopp m) =? 0))%Z with ((Z.abs (mx m) =? 1) && (my m =? 0) && (mz m =? 0))%Z.
    - destruct (_ && _); apply C_eq; cbn; lra.
    - unfold mopp, mx, my, mz. cbn [fst snd]. apply eq_true_iff_eq. rewrite !andb_true_iff, !Z.eqb_eq. lia. }
  assert (Sv : forall m, solenoidal o8 shear_y m).
  { intros m. unfold solenoidal, shear_y, cx, cy, cz. cbn [fst snd]. destruct (_ && _) eqn:E; [|ring].
    apply andb_true_iff in E. destruct E as [E _]. apply andb_true_iff in E. destruct E as [_ E]. apply Z.eqb_eq in E. unfold wy. rewrite E.
    replace (2 * PI * 0 / Ly o8) with 0 by (unfold Rdiv; ring). ring. }
  exists ms. split; [exact Hg|]. split; [apply Hin; exact o8_kept_3d|]. split; [|split].
  - split; [exact Rv|]. split; [|discriminate]. intros m _. split; [apply Sv|]. split; [exact I | reflexivity].
  - split; [exact Rv|]. split; [|discriminate]. intros m _. split; [apply Sv|]. split; [|reflexivity]. split; [reflexivity|].
    intros [E1 _]. unfold null_at, shear_y, cx, cy, cz. cbn [fst snd]. rewrite E1. auto.
  - reflexivity.
Qed.

Print Assumptions c86_energy.
Print Assumptions c86_tendency.
Print Assumptions c87_helicity.
Print Assumptions c87_helicity_rotating.
Print Assumptions c88_modes.
Print Assumptions c88_momentum.
Print Assumptions c89_kinetic.
Print Assumptions c89_potential.
Print Assumptions c89_total.
Print Assumptions c89_tendency.
Print Assumptions c90_kinetic.
Print Assumptions c90_square.
Print Assumptions c90_mean.
