(** * Budgets of the three dimensional solvers: proofs *)

From Coq Require Import Reals Lra ZArith Lia List Bool Permutation.
From Coquelicot Require Import Coquelicot.
From Verif Require Import CExp DFT Alias_Model Alias_Proofs Oper_Model Oper_Spec OperVec_Proofs Budget_Model Budget_Spec Budget_Proofs Budget2D_Proofs.
Import ListNotations.
Local Open Scope R_scope.

(** the states which the solver can have with the projection [pr] and no_vz_kz0 *)
Definition allowed (o : oper) (pr : projection) (no_vz_kz0 : bool) (v : vfield) (m : mode) : Prop :=
  solenoidal o v m
  /\ match pr with
     | Perp => True
     | Toroidal => cz v m = RtoC 0 /\ (shear_mode m -> null_at v m)
     | Poloidal => no_rotz o v m /\ (shear_mode m -> null_at v m)
     end
  /\ (no_vz_kz0 = true -> mz m = 0%Z -> cz v m = RtoC 0).

Section W3.
Variable o : oper.
Hypothesis Ho : oper_pos o.

Lemma w3x m : wx o m = Kx o m.
Proof. destruct Ho as (_ & _ & _ & A & B & D). unfold wx, Kx, deltakx. field. lra. Qed.
Lemma w3y m : wy o m = Ky o m.
Proof. destruct Ho as (_ & _ & _ & A & B & D). unfold wy, Ky, deltaky. field. lra. Qed.
Lemma w3z m : wz o m = Kz o m.
Proof. destruct Ho as (_ & _ & _ & A & B & D). unfold wz, Kz, deltakz. field. lra. Qed.

Lemma Kx_zero m : Kx o m = 0 <-> mx m = 0%Z.
Proof.
  destruct Ho as (_ & _ & _ & A & B & D). pose proof PI_RGT_0. unfold Kx. assert (0 < deltakx o) by (apply Rdiv_lt_0_compat; lra). split.
  - intros E. apply Rmult_integral in E. destruct E as [E|E]; [lra | apply eq_IZR; exact E].
  - intros ->. ring.
Qed.
Lemma Ky_zero m : Ky o m = 0 <-> my m = 0%Z.
Proof.
  destruct Ho as (_ & _ & _ & A & B & D). pose proof PI_RGT_0. unfold Ky. assert (0 < deltaky o) by (apply Rdiv_lt_0_compat; lra). split.
  - intros E. apply Rmult_integral in E. destruct E as [E|E]; [lra | apply eq_IZR; exact E].
  - intros ->. ring.
Qed.

Lemma shear_dec m : shear_mode m \/ (Kx o m <> 0 \/ Ky o m <> 0).
Proof.
  destruct (Z.eq_dec (mx m) 0) as [E1|E1]; [destruct (Z.eq_dec (my m) 0) as [E2|E2]|].
  - left. split; assumption.
  - right. right. rewrite Ky_zero. exact E2.
  - right. left. rewrite Kx_zero. exact E1.
Qed.

(** ** The projectors are symmetric and even *)

Definition dot3 (a b : C * C * C) : C := (fst (fst a) * fst (fst b) + snd (fst a) * snd (fst b) + snd a * snd b)%C.

Lemma inv_Kh_opp kx ky : inv_Kh (- kx) (- ky) = inv_Kh kx ky.
Proof. unfold inv_Kh, Kh2. replace ((- kx) ^ 2 + (- ky) ^ 2) with (kx ^ 2 + ky ^ 2) by ring. reflexivity. Qed.
Lemma inv_K_opp kx ky kz : inv_K (- kx) (- ky) (- kz) = inv_K kx ky kz.
Proof. unfold inv_K, K2, Kh2. replace ((- kx) ^ 2 + (- ky) ^ 2 + (- kz) ^ 2) with (kx ^ 2 + ky ^ 2 + kz ^ 2) by ring. reflexivity. Qed.
Lemma st_opp kx ky kz : sin_theta (- kx) (- ky) (- kz) = sin_theta kx ky kz.
Proof. unfold sin_theta. rewrite inv_K_opp. unfold Kh2. replace ((- kx) ^ 2 + (- ky) ^ 2) with (kx ^ 2 + ky ^ 2) by ring. reflexivity. Qed.
Lemma ct_opp kx ky kz : cos_theta (- kx) (- ky) (- kz) = - cos_theta kx ky kz.
Proof. unfold cos_theta. rewrite inv_K_opp. ring. Qed.
Lemma cp_opp kx ky : cos_phi (- kx) (- ky) = - cos_phi kx ky.
Proof. unfold cos_phi. rewrite inv_Kh_opp. ring. Qed.
Lemma sp_opp kx ky : sin_phi (- kx) (- ky) = - sin_phi kx ky.
Proof. unfold sin_phi. rewrite inv_Kh_opp. ring. Qed.

Lemma projector_sym pr m a b : dot3 (projector o pr (mopp m) a) b = dot3 a (projector o pr m b).
Proof.
  destruct a as [[a1 a2] a3], b as [[b1 b2] b3]. destruct pr; unfold projector, project_perpk3d, project_kradial3d, project_toroidal, project_poloidal, vp_from_vec, dot3, rmul; cbn [fst snd];
    rewrite Kx_opp, Ky_opp, ?Kz_opp, ?inv_K_opp, ?ct_opp, ?st_opp, ?cp_opp, ?sp_opp, ?RtoC_mult, ?RtoC_opp; ring.
Qed.

(** ** The allowed states are not changed by the projection *)

Lemma sum0_real (a b c : R) (x y z : C) : (RtoC a * x + RtoC b * y + RtoC c * z)%C = RtoC 0 ->
  (a * fst x + b * fst y + c * fst z = 0 /\ a * snd x + b * snd y + c * snd z = 0).
Proof. intros H. destruct x, y, z. injection H as E1 E2. cbn. split; lra. Qed.

Lemma allowed_fix pr b v m : allowed o pr b v m -> projector o pr m (at_mode v m) = at_mode v m.
Proof.
  intros (Hs & Hp & _). unfold solenoidal in Hs. rewrite w3x, w3y, w3z in Hs. unfold at_mode.
  assert (Rad : project_kradial3d (Kx o m) (Ky o m) (Kz o m) (vxf v m, vyf v m, vzf v m) = (RtoC 0, RtoC 0, RtoC 0)).
  { unfold project_kradial3d, rmul. cbn [fst snd]. unfold vxf, vyf, vzf, cx, cy, cz in *. rewrite Hs.
    rewrite !Cmult_0_r. reflexivity. }
  destruct pr; unfold projector.
  - unfold project_perpk3d. rewrite Rad. cbn [fst snd]. unfold Cminus. rewrite Copp_0, !Cplus_0_r. reflexivity.
  - destruct Hp as [Hz Hsh]. destruct (shear_dec m) as [Hm|Hm].
    + destruct (Hsh Hm) as (E1 & E2 & E3). unfold vxf, vyf, vzf, cx, cy, cz in *. rewrite E1, E2, E3. unfold project_toroidal, rmul. cbn [fst snd].
      apply triple_eq; ring.
    + rewrite <- (decompose (Kx o m) (Ky o m) (Kz o m) Hm (vxf v m, vyf v m, vzf v m)) at 2. rewrite Rad.
      assert (Pol : project_poloidal (Kx o m) (Ky o m) (Kz o m) (vxf v m, vyf v m, vzf v m) = (RtoC 0, RtoC 0, RtoC 0)).
      { unfold project_poloidal, vp_from_vec. cbn [fst snd]. unfold vxf, vyf, vzf, cx, cy, cz in *. rewrite Hz in *.
        unfold cos_phi, sin_phi, rmul.
        replace (RtoC (cos_theta (Kx o m) (Ky o m) (Kz o m) * (Kx o m * sqrt (inv_Kh (Kx o m) (Ky o m)))) * fst (fst v) m
          + RtoC (cos_theta (Kx o m) (Ky o m) (Kz o m) * (Ky o m * sqrt (inv_Kh (Kx o m) (Ky o m)))) * snd (fst v) m
          - RtoC (sin_theta (Kx o m) (Ky o m) (Kz o m)) * RtoC 0)%C with
          (RtoC (cos_theta (Kx o m) (Ky o m) (Kz o m) * sqrt (inv_Kh (Kx o m) (Ky o m)))
            * (RtoC (Kx o m) * fst (fst v) m + RtoC (Ky o m) * snd (fst v) m + RtoC (Kz o m) * RtoC 0))%C by (rewrite !RtoC_mult; ring).
        rewrite Hs. apply triple_eq; ring. }
      rewrite Pol. unfold vadd. destruct (project_toroidal _ _ _) as [[x y] z]. cbn [fst snd]. apply triple_eq; ring.
  - destruct Hp as [Hz Hsh]. destruct (shear_dec m) as [Hm|Hm].
    + destruct (Hsh Hm) as (E1 & E2 & E3). unfold vxf, vyf, vzf, cx, cy, cz in *. rewrite E1, E2, E3. unfold project_poloidal, vp_from_vec, rmul. cbn [fst snd].
      apply triple_eq; ring.
    + rewrite <- (decompose (Kx o m) (Ky o m) (Kz o m) Hm (vxf v m, vyf v m, vzf v m)) at 2. rewrite Rad.
      assert (Tor : project_toroidal (Kx o m) (Ky o m) (vxf v m, vyf v m, vzf v m) = (RtoC 0, RtoC 0, RtoC 0)).
      { unfold project_toroidal. cbn [fst snd]. unfold no_rotz in Hz. rewrite w3x, w3y in Hz. unfold vxf, vyf, vzf, cx, cy, cz in *.
        unfold cos_phi, sin_phi, rmul.
        replace (RtoC (- (Ky o m * sqrt (inv_Kh (Kx o m) (Ky o m)))) * fst (fst v) m
          + RtoC (Kx o m * sqrt (inv_Kh (Kx o m) (Ky o m))) * snd (fst v) m)%C with
          (RtoC (sqrt (inv_Kh (Kx o m) (Ky o m))) * (RtoC (Kx o m) * snd (fst v) m - RtoC (Ky o m) * fst (fst v) m))%C by (rewrite RtoC_opp, !RtoC_mult; ring).
        rewrite Hz. apply triple_eq; ring. }
      rewrite Tor. unfold vadd. destruct (project_poloidal _ _ _ _) as [[x y] z]. cbn [fst snd]. apply triple_eq; ring.
Qed.

(** ** What the projection gives is allowed *)

Lemma dot_zero a b c (x y z : C) : Cmult Ci (RtoC a * x + RtoC b * y + RtoC c * z)%C = RtoC 0 -> (RtoC a * x + RtoC b * y + RtoC c * z)%C = RtoC 0.
Proof. intros H. destruct (RtoC a * x + RtoC b * y + RtoC c * z)%C as [u w]. injection H as E1 E2. apply C_eq; cbn; lra. Qed.

Lemma tor_shear v m : shear_mode m -> project_toroidal (Kx o m) (Ky o m) v = (RtoC 0, RtoC 0, RtoC 0).
Proof.
  intros [E1 E2]. apply Kx_zero in E1. apply Ky_zero in E2. unfold project_toroidal, sin_phi, cos_phi, rmul. rewrite E1, E2.
  rewrite !Rmult_0_l, Ropp_0. apply triple_eq; ring.
Qed.
Lemma pol_shear v m : shear_mode m -> project_poloidal (Kx o m) (Ky o m) (Kz o m) v = (RtoC 0, RtoC 0, RtoC 0).
Proof.
  intros [E1 E2]. apply Kx_zero in E1. apply Ky_zero in E2. unfold project_poloidal, vp_from_vec, sin_phi, cos_phi, sin_theta, Kh2, rmul. rewrite E1, E2.
  replace ((0 ^ 2 + 0 ^ 2) * inv_K 0 0 (Kz o m)) with 0 by ring. rewrite sqrt_0, !Rmult_0_l, !Rmult_0_r, Ropp_0. apply triple_eq; ring.
Qed.

Lemma perp_sol m v : (RtoC (Kx o m) * fst (fst (project_perpk3d o m v)) + RtoC (Ky o m) * snd (fst (project_perpk3d o m v)) + RtoC (Kz o m) * snd (project_perpk3d o m v))%C = RtoC 0.
Proof.
  unfold project_perpk3d, project_kradial3d, rmul. cbn [fst snd]. destruct v as [[x y] z]. cbn [fst snd].
  set (a := Kx o m). set (b := Ky o m). set (c := Kz o m).
  destruct (Req_EM_T (K2 a b c) 0) as [E|E].
  - assert (Z : a = 0 /\ b = 0 /\ c = 0).
    { unfold K2, Kh2 in E. pose proof (pow2_ge_0 a). pose proof (pow2_ge_0 b). pose proof (pow2_ge_0 c).
      repeat split; apply Rsqr_0_uniq; unfold Rsqr; lra. }
    destruct Z as (-> & -> & ->). ring.
  - replace (RtoC a * (x - RtoC a * (RtoC (inv_K a b c) * (RtoC a * x + RtoC b * y + RtoC c * z)))
      + RtoC b * (y - RtoC b * (RtoC (inv_K a b c) * (RtoC a * x + RtoC b * y + RtoC c * z)))
      + RtoC c * (z - RtoC c * (RtoC (inv_K a b c) * (RtoC a * x + RtoC b * y + RtoC c * z))))%C
      with ((RtoC 1 - RtoC (inv_K a b c * K2 a b c)) * (RtoC a * x + RtoC b * y + RtoC c * z))%C.
    + unfold inv_K. rewrite nozero_id by exact E. replace (1 / K2 a b c * K2 a b c) with 1 by (field; exact E). ring.
    + unfold K2, Kh2, pow. rewrite RtoC_mult, !RtoC_plus, !RtoC_mult. ring.
Qed.

Lemma project_allowed pr b g m : allowed o pr b (project_state o pr b g) m.
Proof.
  assert (Zk : zero_kz0 b (vzf (on_modes (projector o pr) g)) m = vzf (on_modes (projector o pr) g) m
     \/ (b = true /\ mz m = 0%Z /\ zero_kz0 b (vzf (on_modes (projector o pr) g)) m = RtoC 0)).
  { unfold zero_kz0. destruct b; cbn [andb]; [|left; reflexivity]. destruct (mz m =? 0)%Z eqn:E; [right | left; reflexivity].
    apply Z.eqb_eq in E. auto. }
  assert (Kz0 : mz m = 0%Z -> Kz o m = 0) by (intros E; unfold Kz; rewrite E; ring).
  set (w := projector o pr m (at_mode g m)).
  assert (Wx : cx (project_state o pr b g) m = fst (fst w)) by reflexivity.
  assert (Wy : cy (project_state o pr b g) m = snd (fst w)) by reflexivity.
  assert (Wz : cz (project_state o pr b g) m = snd w \/ (b = true /\ mz m = 0%Z /\ cz (project_state o pr b g) m = RtoC 0)) by exact Zk.
  assert (Sol : (RtoC (Kx o m) * fst (fst w) + RtoC (Ky o m) * snd (fst w) + RtoC (Kz o m) * snd w)%C = RtoC 0).
  { unfold w. destruct pr; unfold projector.
    - apply perp_sol.
    - destruct (shear_dec m) as [Hm|Hm]; [rewrite (tor_shear _ m Hm); cbn [fst snd]; ring|].
      apply dot_zero. exact (tor_div (Kx o m) (Ky o m) (Kz o m) Hm (at_mode g m)).
    - destruct (shear_dec m) as [Hm|Hm]; [rewrite (pol_shear _ m Hm); cbn [fst snd]; ring|].
      apply dot_zero. exact (pol_div (Kx o m) (Ky o m) (Kz o m) Hm (at_mode g m)). }
  split; [|split].
  - unfold solenoidal. rewrite w3x, w3y, w3z, Wx, Wy. destruct Wz as [-> | (_ & E & ->)]; [exact Sol|].
    rewrite <- Sol at 2. rewrite (Kz0 E). ring.
  - destruct pr; [exact I | split | split].
    + destruct Wz as [-> | (_ & _ & ->)]; reflexivity.
    + intros Hm. unfold null_at. rewrite Wx, Wy. unfold w, projector in *. rewrite (tor_shear _ m Hm) in *. cbn [fst snd] in *.
      split; [reflexivity|]. split; [reflexivity|]. destruct Wz as [-> | (_ & _ & ->)]; reflexivity.
    + unfold no_rotz. rewrite w3x, w3y, Wx, Wy. unfold w, projector, project_poloidal, cos_phi, sin_phi, rmul. cbn [fst snd]. rewrite !RtoC_mult. ring.
    + intros Hm. unfold null_at. rewrite Wx, Wy. unfold w, projector in *. rewrite (pol_shear _ m Hm) in *. cbn [fst snd] in *.
      split; [reflexivity|]. split; [reflexivity|]. destruct Wz as [-> | (_ & _ & ->)]; reflexivity.
  - intros -> E. change (zero_kz0 true (vzf (on_modes (projector o pr) g)) m = RtoC 0). unfold zero_kz0. rewrite E. reflexivity.
Qed.

(** ** Sums *)

Variable ms : list mode.
Hypothesis Hs : symmetric_modes ms.
Variable dea : mode -> bool.

Definition vdot (v w : vfield) : C := lsum ms (fun k => dot3 (at_mode v (mopp k)) (at_mode w k)).

Lemma at_opp pr b v m : allowed o pr b v (mopp m) -> projector o pr (mopp m) (at_mode v (mopp m)) = at_mode v (mopp m).
Proof. apply allowed_fix. Qed.

(** projection, vertical velocity of the modes kz = 0 and dealiasing are not seen by an allowed field *)
Lemma vdot_project pr b v g : (forall m, In m ms -> allowed o pr b v m) -> (forall m, In m ms -> dea m = true -> null_at v (mopp m)) ->
  vdot v (vdealiasing dea (project_state o pr b g)) = vdot v g.
Proof.
  intros Hv Hd. unfold vdot. apply lsum_ext. intros k Hk. assert (Hk' := proj2 Hs k Hk).
  pose proof (Hv _ Hk') as A. 
  transitivity (dot3 (at_mode v (mopp k)) (projector o pr k (at_mode g k))).
  - set (w := projector o pr k (at_mode g k)). unfold dot3, at_mode. cbn [fst snd]. unfold vdealiasing, vxf, vyf, vzf. cbn [fst snd]. unfold dealiasing.
    destruct (dea k) eqn:E.
    + destruct (Hd k Hk E) as (E1 & E2 & E3). unfold cx, cy, cz in *. rewrite E1, E2, E3. ring.
    + f_equal. change (snd v (mopp k) * zero_kz0 b (vzf (on_modes (projector o pr) g)) k = snd v (mopp k) * snd w)%C. unfold zero_kz0.
      destruct (b && (mz k =? 0)%Z) eqn:E'; [|reflexivity]. apply andb_true_iff in E'. destruct E' as [-> E']. apply Z.eqb_eq in E'.
      destruct A as (_ & _ & A). assert (Z : snd v (mopp k) = RtoC 0) by (apply A; [reflexivity | unfold mopp, mz; cbn [snd]; unfold mz in E'; lia]).
      rewrite Z. ring.
  - rewrite <- projector_sym. rewrite (allowed_fix _ _ _ _ A). reflexivity.
Qed.

(** sums of products of a field and of the transform of a field on the grid *)
Lemma vdot_grid v u : vdot v (vfft o u)
  = gmean o (fun jx jy jz => fst (fst u) jx jy jz * ifft o ms (vxf v) jx jy jz + snd (fst u) jx jy jz * ifft o ms (vyf v) jx jy jz
      + snd u jx jy jz * ifft o ms (vzf v) jx jy jz)%C.
Proof.
  unfold vdot, dot3, at_mode, vfft, vxf, vyf, vzf. cbn [fst snd].
  rewrite (lsum_plus ms (fun k => fst (fst v) (mopp k) * fft o (fst (fst u)) k + snd (fst v) (mopp k) * fft o (snd (fst u)) k)%C).
  rewrite lsum_plus, !parseval by exact Hs. 
  rewrite <- !gmean_plus. reflexivity.
Qed.

(** v . (v x w) = w . (v x w) = 0 at each point *)
Lemma vdot_cross_l v w : vdot v (vfft o (vector_product (vifft o ms v) (vifft o ms w))) = RtoC 0.
Proof.
  rewrite vdot_grid. rewrite <- (gmean_zero o). apply gmean_ext. intros jx jy jz.
  unfold vector_product, vifft. cbn [fst snd]. unfold gsub, gmul, lift2. ring.
Qed.
Lemma vdot_cross_r v w : vdot w (vfft o (vector_product (vifft o ms v) (vifft o ms w))) = RtoC 0.
Proof.
  rewrite vdot_grid. rewrite <- (gmean_zero o). apply gmean_ext. intros jx jy jz.
  unfold vector_product, vifft. cbn [fst snd]. unfold gsub, gmul, lift2. ring.
Qed.

End W3.
