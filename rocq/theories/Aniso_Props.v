(** Theorems on the forced region of tcrandom_anisotropic (C123-C124) *)

From Coq Require Import Reals Bool Arith ZArith Lra Lia.
From Verif Require Import Aniso_Model.
Local Open Scope R_scope.

(** ** Specification *)

(** the region in the plane (horizontal wavenumber, vertical wavenumber), [reverse] if the modes with
    negative vertical wavenumbers are also wanted; [a]: angle between the wavevector and the vertical *)
Definition in_box (kmin kmax a : R) (reverse : bool) (kh kv : R) : Prop :=
  sin a * kmin <= kh <= sin a * kmax
  /\ (cos a * kmin <= kv <= cos a * kmax
      \/ reverse = true /\ cos a * kmin <= - kv <= cos a * kmax).

(** the sector of half angle d / 2 around the direction [a] *)
Definition in_sector (kmin kmax a d : R) (reverse : bool) (kh kv : R) : Prop :=
  exists k th, kmin <= k <= kmax /\ a - d / 2 <= th <= a + d / 2
  /\ kh = k * sin th /\ (kv = k * cos th \/ reverse = true /\ - kv = k * cos th).

Definition wanted (p : aniso) (kh kv : R) : Prop :=
  match delta_angle p with
  | None => in_box (kmin p) (kmax p) (angle p) (kz_negative_enable p) kh kv
  | Some d => in_sector (kmin p) (kmax p) (angle p) d (kz_negative_enable p) kh kv
  end.

Definition horizontal (x y : R) : R := sqrt (x * x + y * y).

(** the mode of wavenumbers (ikx deltakx, iky deltaky) is in the arrays of oper_coarse and forced *)
Definition forced_2d (g : nat -> nat) (p : aniso) (ikx iky : Z) : Prop :=
  exists i0 i1, (i0 < ny_coarse_2d g p)%nat /\ (i1 < nkx_coarse g p)%nat
  /\ Z.of_nat i1 = ikx /\ wavenumber (ny_coarse_2d g p) i0 = iky
  /\ cond_no_forcing_2d g p i0 i1 = false.

Definition forced_3d (g : nat -> nat) (p : aniso) (ikx iky ikz : Z) : Prop :=
  exists i0 i1 i2, (i0 < nz_coarse_3d g p)%nat /\ (i1 < ny_coarse_3d g p)%nat /\ (i2 < nkx_coarse g p)%nat
  /\ Z.of_nat i2 = ikx /\ wavenumber (ny_coarse_3d g p) i1 = iky /\ wavenumber (nz_coarse_3d g p) i0 = ikz
  /\ cond_no_forcing_3d g p i0 i1 i2 = false.

(** parameters: the region is between the horizontal and the vertical directions *)
Definition proper (p : aniso) : Prop :=
  0 < kmin p <= kmax p /\ 0 < deltakx p /\ 0 < deltaky p /\ 0 < deltakz p
  /\ match delta_angle p with
     | None => 0 <= angle p <= PI / 2
     | Some d => 0 <= d /\ 0 <= angle p - d / 2 /\ angle p + d / 2 <= PI / 2
     end.

(** ** Lemmas *)

Lemma gtb_spec a b : reflect (b < a) (gtb a b).
Proof. unfold gtb. destruct (Rlt_dec b a); constructor; assumption. Qed.

Lemma gtb_false a b : gtb a b = false <-> a <= b.
Proof. destruct (gtb_spec a b); split; intros; try discriminate; try reflexivity; lra. Qed.

Lemma int_trunc_lt x : 0 <= x -> x < IZR (int_trunc x + 1) /\ (0 <= int_trunc x)%Z.
Proof.
  intros H. unfold int_trunc. destruct (Rle_dec 0 x) as [_|N]; [|contradiction].
  destruct (archimed x) as [A B]. replace (up x - 1 + 1)%Z with (up x) by lia. split; [lra|].
  assert (0 < up x)%Z by (apply lt_IZR; lra). lia.
Qed.

Section Grid.
Variable g : nat -> nat.
Hypothesis Hg : forall n, (n <= g n)%nat.

(** the largest wanted wavenumber of a direction is below the Nyquist wavenumber of oper_coarse *)
Lemma coarse_size_lt km dk (z : Z) : 0 < dk -> 0 <= km -> Rabs (dk * IZR z) <= km ->
  (2 * Z.abs z < Z.of_nat (coarse_size g km dk))%Z.
Proof.
  intros Hd Hk H. assert (Q : 0 <= km / dk) by (apply Rmult_le_pos; [exact Hk|left; apply Rinv_0_lt_compat; exact Hd]).
  destruct (int_trunc_lt _ Q) as [L P]. unfold coarse_size.
  pose proof (Hg (Z.to_nat (int_trunc (km / dk) + 1))) as G.
  assert (A : (Z.abs z < int_trunc (km / dk) + 1)%Z).
  { apply lt_IZR. rewrite abs_IZR. rewrite Rabs_mult, (Rabs_pos_eq dk) in H by lra.
    apply Rle_lt_trans with (km / dk); [|exact L]. apply Rmult_le_reg_l with dk; [exact Hd|].
    replace (dk * (km / dk)) with km by (field; lra). exact H. }
  lia.
Qed.

Lemma wavenumber_index n z : (1 <= n)%nat -> (2 * Z.abs z < Z.of_nat (2 * n))%Z ->
  exists i, (i < 2 * n)%nat /\ wavenumber (2 * n) i = z /\ i <> n
  /\ (i = (2 * n - 1)%nat <-> z = (-1)%Z).
Proof.
  intros Hn Hz. unfold wavenumber. replace (2 * n / 2)%nat with n by (rewrite Nat.mul_comm, Nat.div_mul; [reflexivity|discriminate]).
  destruct (Z_le_gt_dec 0 z) as [P|N].
  - exists (Z.to_nat z). split; [lia|]. destruct (Nat.leb_spec (Z.to_nat z) n); [|lia]. split; [lia|]. split; [lia|]. lia.
  - exists (Z.to_nat (z + Z.of_nat (2 * n))). split; [lia|].
    destruct (Nat.leb_spec (Z.to_nat (z + Z.of_nat (2 * n))) n); [lia|]. split; [lia|]. split; lia.
Qed.
End Grid.

Lemma acos_polar k kh kv : 0 < k -> 0 <= kh -> kh * kh + kv * kv = k * k ->
  0 <= acos (kv / k) <= PI /\ kv = k * cos (acos (kv / k)) /\ kh = k * sin (acos (kv / k)).
Proof.
  intros Hk Hh E. assert (B : -1 <= kv / k <= 1).
  { assert (Q : (kv / k) * (kv / k) <= 1).
    { replace ((kv / k) * (kv / k)) with (kv * kv / (k * k)) by (field; lra).
      apply Rmult_le_reg_r with (k * k); [nra|]. replace (kv * kv / (k * k) * (k * k)) with (kv * kv) by (field; lra). nra. }
    split; nra. }
  pose proof (acos_bound (kv / k)) as A. split; [exact A|].
  assert (Cc : kv = k * cos (acos (kv / k))) by (rewrite cos_acos by exact B; field; lra).
  split; [exact Cc|].
  assert (S0 : 0 <= sin (acos (kv / k))) by (apply sin_ge_0; lra).
  pose proof (sin2_cos2 (acos (kv / k))) as T. unfold Rsqr in T.
  set (s := sin (acos (kv / k))) in *. set (c := cos (acos (kv / k))) in *.
  assert (Q : kh * kh = (k * s) * (k * s)) by (rewrite Cc in E; nra).
  assert (0 <= k * s) by (apply Rmult_le_pos; lra). nra.
Qed.

Lemma polar_unique k kh kv k' th : 0 < k -> 0 <= kh -> kh * kh + kv * kv = k * k ->
  0 < k' -> 0 <= th <= PI -> kh = k' * sin th -> kv = k' * cos th -> k' = k /\ th = acos (kv / k).
Proof.
  intros Hk Hh E Hk' Ht Eh Ev. pose proof (sin2_cos2 th) as T. unfold Rsqr in T.
  assert (Ek : k' = k).
  { assert (Q : k' * k' = k * k).
    { rewrite <- E, Eh, Ev. replace (k' * sin th * (k' * sin th) + k' * cos th * (k' * cos th))
        with (k' * k' * (sin th * sin th + cos th * cos th)) by ring. rewrite T. ring. }
    nra. }
  split; [exact Ek|]. rewrite Ev, Ek. replace (k * cos th / k) with (cos th) by (field; lra).
  symmetry. apply acos_cos. exact Ht.
Qed.

(** ** The masks and the regions *)

Lemma box_spec p kh kv : delta_angle p = None ->
  cond_box p kh kv = false <-> in_box (kmin p) (kmax p) (angle p) (kz_negative_enable p) kh kv.
Proof.
  intros D. unfold cond_box, in_box, khmax_forcing, kvmax_forcing. rewrite D.
  rewrite orb_false_iff. rewrite orb_false_iff, !gtb_false.
  destruct (kz_negative_enable p).
  - rewrite andb_false_iff, !orb_false_iff, !gtb_false. split; [intros [[] [[]|[]]]|intros ([] & [[]|(_ & [])])].
    + split; [lra|left; lra].
    + split; [lra|right; split; [reflexivity|lra]].
    + split; [lra|left; lra].
    + split; [lra|right; lra].
  - rewrite orb_false_iff, !gtb_false. split; [intros [[] []]|intros ([] & [[]|(Q & _)])].
    + split; [lra|left; lra].
    + split; lra.
    + discriminate.
Qed.

Lemma sector_spec p d kh kv : delta_angle p = Some d -> proper p -> 0 <= kh ->
  cond_sector p d (sqrt (kh * kh + kv * kv)) kv = false
  <-> in_sector (kmin p) (kmax p) (angle p) d (kz_negative_enable p) kh kv.
Proof.
  intros D (Hk & _ & _ & _ & P) Hh. rewrite D in P. destruct P as (Hd & Hlo & Hhi).
  pose proof PI_RGT_0 as HPI.
  set (k := sqrt (kh * kh + kv * kv)). assert (N0 : 0 <= kh * kh + kv * kv) by nra.
  assert (Ek : k * k = kh * kh + kv * kv) by (apply sqrt_sqrt; exact N0). pose proof (sqrt_pos (kh * kh + kv * kv)) as K0.
  fold k in K0. unfold cond_sector, in_sector.
  rewrite orb_false_iff, orb_false_iff, !gtb_false.
  assert (H5 : 0.5 * d = d / 2) by lra. rewrite H5.
  split.
  - intros [[Hmax Hmin] Ht]. assert (Kp : 0 < k) by lra.
    destruct (Req_EM_T k 0) as [E|_]; [lra|].
    destruct (acos_polar k kh kv Kp Hh ltac:(lra)) as (A & Ev & Eh). set (th := acos (kv / k)) in *.
    destruct (kz_negative_enable p).
    + rewrite andb_false_iff, !orb_false_iff, !gtb_false in Ht. destruct Ht as [Ht|Ht].
      * exists k, th. split; [lra|]. split; [lra|]. split; [exact Eh|left; exact Ev].
      * exists k, (PI - th). split; [lra|]. split; [lra|]. split; [rewrite sin_PI_x; exact Eh|right].
        split; [reflexivity|]. rewrite Rtrigo_facts.cos_pi_minus. lra.
    + rewrite orb_false_iff, !gtb_false in Ht. exists k, th. split; [lra|]. split; [lra|]. split; [exact Eh|left; exact Ev].
  - intros (k' & th & Hk' & Hth & Eh & Ev). assert (Kp' : 0 < k') by lra.
    destruct Ev as [Ev|[Rv Ev]].
    + assert (Kp : 0 < k).
      { destruct (Req_dec k 0) as [Z|Z]; [|lra]. exfalso. rewrite Z in Ek. pose proof (sin2_cos2 th) as T. unfold Rsqr in T.
        assert (k' * k' = 0); [|nra]. rewrite <- (Rmult_1_r (k' * k')), <- T. rewrite Eh, Ev in Ek. lra. }
      destruct (polar_unique k kh kv k' th Kp Hh ltac:(lra) Kp' ltac:(lra) Eh Ev) as [E1 E2].
      destruct (Req_EM_T k 0) as [Z|_]; [lra|]. rewrite <- E2. split; [split; lra|].
      assert (F : gtb th (angle p + d / 2) || gtb (angle p - d / 2) th = false)
        by (rewrite orb_false_iff, !gtb_false; lra).
      rewrite F. destruct (kz_negative_enable p); reflexivity.
    + assert (Kp : 0 < k).
      { destruct (Req_dec k 0) as [Z|Z]; [|lra]. exfalso. rewrite Z in Ek. pose proof (sin2_cos2 th) as T. unfold Rsqr in T.
        assert (k' * k' = 0); [|nra]. rewrite <- (Rmult_1_r (k' * k')), <- T. replace (kv * kv) with ((- kv) * (- kv)) in Ek by ring.
        rewrite Eh, Ev in Ek. lra. }
      destruct (polar_unique k kh kv k' (PI - th) Kp Hh ltac:(lra) Kp' ltac:(lra)) as [E1 E2].
      * rewrite sin_PI_x. exact Eh.
      * rewrite Rtrigo_facts.cos_pi_minus. lra.
      * destruct (Req_EM_T k 0) as [Z|_]; [lra|]. rewrite <- E2. split; [split; lra|]. rewrite Rv.
        assert (F : gtb (PI - angle p - d / 2) (PI - th) || gtb (PI - th) (PI - angle p + d / 2) = false)
          by (rewrite orb_false_iff, !gtb_false; lra).
        rewrite F, andb_false_r. reflexivity.
Qed.

(** bounds of the wanted wavenumbers *)
Lemma wanted_bounds p kh kv : proper p -> wanted p kh kv ->
  0 <= khmax_forcing p /\ 0 <= kvmax_forcing p /\ 0 <= kh <= khmax_forcing p /\ Rabs kv <= kvmax_forcing p.
Proof.
  intros (Hk & _ & _ & _ & P) W. unfold wanted in W. pose proof PI_RGT_0 as HPI.
  unfold khmax_forcing, kvmax_forcing. destruct (delta_angle p) as [d|].
  - destruct P as (Hd & Hlo & Hhi). replace (0.5 * d) with (d / 2) by lra.
    destruct W as (k & th & Hkk & Hth & Eh & Ev).
    assert (S : 0 <= sin th <= sin (angle p + d / 2)).
    { split; [apply sin_ge_0; lra|]. apply sin_incr_1; lra. }
    assert (Cc : 0 <= cos th <= cos (angle p - d / 2)).
    { split; [apply cos_ge_0; lra|]. apply cos_decr_1; lra. }
    split; [apply Rmult_le_pos; lra|]. split; [apply Rmult_le_pos; lra|].
    split; [split|].
    + rewrite Eh. apply Rmult_le_pos; lra.
    + rewrite Eh, (Rmult_comm k). apply Rmult_le_compat; lra.
    + assert (B : 0 <= k * cos th <= cos (angle p - d / 2) * kmax p).
      { split; [apply Rmult_le_pos; lra|]. rewrite (Rmult_comm k). apply Rmult_le_compat; lra. }
      destruct Ev as [->|[_ Ev]]; [apply Rabs_le; lra|apply Rabs_le; lra].
  - assert (S : 0 <= sin (angle p)) by (apply sin_ge_0; lra).
    assert (Cc : 0 <= cos (angle p)) by (apply cos_ge_0; lra).
    destruct W as [Wh Wv].
    pose proof (Rmult_le_pos _ _ S (Rlt_le _ _ (proj1 Hk))). pose proof (Rmult_le_pos _ _ Cc (Rlt_le _ _ (proj1 Hk))).
    assert (0 <= kmax p) by lra.
    split; [apply Rmult_le_pos; lra|]. split; [apply Rmult_le_pos; lra|]. split; [lra|].
    apply Rabs_le. destruct Wv as [Wv|[_ Wv]]; lra.
Qed.

Lemma horizontal_bound x y m : horizontal x y <= m -> Rabs x <= m /\ Rabs y <= m.
Proof.
  unfold horizontal. intros H. pose proof (sqrt_pos (x * x + y * y)).
  assert (E : sqrt (x * x + y * y) * sqrt (x * x + y * y) = x * x + y * y) by (apply sqrt_sqrt; nra).
  set (s := sqrt (x * x + y * y)) in *. split; apply Rabs_le; split; nra.
Qed.

Section Theorems.
Variable g : nat -> nat.
Hypothesis Hg : forall n, (n <= g n)%nat.
Variable p : aniso.
Hypothesis Hp : proper p.

Lemma mask_2d i0 i1 : (i0 =? ny_coarse_2d g p / 2)%nat = false -> (i1 =? nkx_coarse g p - 1)%nat = false ->
  cond_no_forcing_2d g p i0 i1 = false
  <-> wanted p (deltakx p * INR i1) (deltaky p * IZR (wavenumber (ny_coarse_2d g p) i0)).
Proof.
  intros E0 E1. unfold cond_no_forcing_2d, wanted. rewrite E0, E1, !orb_false_r.
  assert (0 <= deltakx p * INR i1) by (apply Rmult_le_pos; [destruct Hp as (_ & ? & _); lra|apply pos_INR]).
  destruct (delta_angle p) as [d|] eqn:D; [apply sector_spec; assumption|apply box_spec; exact D].
Qed.

Lemma mask_3d i0 i1 i2 : (i0 =? nz_coarse_3d g p / 2)%nat = false -> (i1 =? ny_coarse_3d g p - 1)%nat = false ->
  cond_no_forcing_3d g p i0 i1 i2 = false
  <-> wanted p (horizontal (deltakx p * INR i2) (deltaky p * IZR (wavenumber (ny_coarse_3d g p) i1)))
        (deltakz p * IZR (wavenumber (nz_coarse_3d g p) i0)).
Proof.
  intros E0 E1. unfold cond_no_forcing_3d, wanted. rewrite E0, E1, !orb_false_r.
  set (x := deltakx p * INR i2). set (y := deltaky p * _). set (z := deltakz p * _).
  destruct (delta_angle p) as [d|] eqn:D; [|apply box_spec; exact D].
  replace (x * x + y * y + z * z) with (horizontal x y * horizontal x y + z * z).
  - apply sector_spec; [exact D|exact Hp|apply sqrt_pos].
  - unfold horizontal. rewrite sqrt_sqrt; [ring|nra].
Qed.

Lemma half_even n : (2 * n / 2 = n)%nat.
Proof. rewrite Nat.mul_comm. apply Nat.div_mul. discriminate. Qed.

(** 2D: the forced modes are the modes of the region *)
Lemma region_2d ikx iky : (0 <= ikx)%Z ->
  forced_2d g p ikx iky <-> wanted p (deltakx p * IZR ikx) (deltaky p * IZR iky).
Proof.
  intros Hx. pose proof Hp as (_ & Hdx & Hdy & _). split.
  - intros (i0 & i1 & H0 & H1 & E1 & E0 & Hc). pose proof Hc as Hc'. unfold cond_no_forcing_2d in Hc'.
    rewrite !orb_false_iff in Hc'. destruct Hc' as [[_ F0] F1].
    apply (mask_2d i0 i1 F0 F1) in Hc. rewrite E0 in Hc. rewrite <- E1, <- INR_IZR_INZ. exact Hc.
  - intros W. destruct (wanted_bounds p _ _ Hp W) as (B1 & B2 & B3 & B4).
    assert (Lx : (2 * Z.abs ikx < Z.of_nat (nx_coarse g p))%Z).
    { apply coarse_size_lt; auto. rewrite Rabs_pos_eq; lra. }
    assert (Ly : (2 * Z.abs iky < Z.of_nat (ny_coarse_2d g p))%Z) by (apply coarse_size_lt; auto).
    unfold forced_2d.
    assert (M : exists n, ny_coarse_2d g p = (2 * n)%nat) by (unfold ny_coarse_2d, coarse_size; eexists; reflexivity).
    assert (M' : exists n, nx_coarse g p = (2 * n)%nat) by (unfold nx_coarse, coarse_size; eexists; reflexivity).
    destruct M as [n En], M' as [n' En']. 
    destruct (wavenumber_index n iky) as (i0 & I1 & I2 & I3 & _); [lia|rewrite <- En; exact Ly|].
    exists i0, (Z.to_nat ikx). rewrite En. split; [exact I1|].
    unfold nkx_coarse. rewrite En', half_even. split; [lia|]. split; [lia|]. split; [exact I2|].
    apply mask_2d.
    + rewrite En, half_even. apply Nat.eqb_neq. exact I3.
    + unfold nkx_coarse. rewrite En', half_even. apply Nat.eqb_neq. lia.
    + rewrite En, I2, INR_IZR_INZ, Z2Nat.id by lia. exact W.
Qed.

(** 3D: except for ky = - deltaky *)
Lemma region_3d ikx iky ikz : (0 <= ikx)%Z ->
  forced_3d g p ikx iky ikz
  <-> iky <> (-1)%Z /\ wanted p (horizontal (deltakx p * IZR ikx) (deltaky p * IZR iky)) (deltakz p * IZR ikz).
Proof.
  intros Hx. pose proof Hp as (_ & Hdx & Hdy & Hdz & _).
  assert (M : exists n, ny_coarse_3d g p = (2 * n)%nat) by (unfold ny_coarse_3d, coarse_size; eexists; reflexivity).
  assert (M' : exists n, nx_coarse g p = (2 * n)%nat) by (unfold nx_coarse, coarse_size; eexists; reflexivity).
  assert (M'' : exists n, nz_coarse_3d g p = (2 * n)%nat) by (unfold nz_coarse_3d, coarse_size; eexists; reflexivity).
  destruct M as [n En], M' as [n' En'], M'' as [n'' En''].
  split.
  - intros (i0 & i1 & i2 & H0 & H1 & H2 & E2 & E1 & E0 & Hc). pose proof Hc as Hc'. unfold cond_no_forcing_3d in Hc'.
    rewrite !orb_false_iff in Hc'. destruct Hc' as [[_ F0] F1].
    apply (mask_3d i0 i1 i2 F0 F1) in Hc. rewrite E0, E1 in Hc. rewrite <- E2, <- INR_IZR_INZ. split; [|exact Hc].
    apply Nat.eqb_neq in F1. rewrite En in *. unfold wavenumber in E1. rewrite half_even in E1.
    destruct (Nat.leb_spec i1 n); lia.
  - intros [N W]. destruct (wanted_bounds p _ _ Hp W) as (B1 & B2 & B3 & B4).
    destruct (horizontal_bound _ _ _ (proj2 B3)) as [Bx By].
    assert (Lx : (2 * Z.abs ikx < Z.of_nat (nx_coarse g p))%Z) by (apply coarse_size_lt; auto).
    assert (Ly : (2 * Z.abs iky < Z.of_nat (ny_coarse_3d g p))%Z) by (apply coarse_size_lt; auto).
    assert (Lz : (2 * Z.abs ikz < Z.of_nat (nz_coarse_3d g p))%Z) by (apply coarse_size_lt; auto).
    rewrite En in Ly. rewrite En'' in Lz.
    destruct (wavenumber_index n iky) as (i1 & I1 & I2 & I3 & I4); [lia|exact Ly|].
    destruct (wavenumber_index n'' ikz) as (i0 & J1 & J2 & J3 & _); [lia|exact Lz|].
    exists i0, i1, (Z.to_nat ikx). rewrite En, En''. split; [exact J1|]. split; [exact I1|].
    unfold nkx_coarse. rewrite En', half_even. split; [lia|]. split; [lia|]. split; [exact I2|]. split; [exact J2|].
    apply mask_3d.
    + rewrite En'', half_even. apply Nat.eqb_neq. exact J3.
    + rewrite En. apply Nat.eqb_neq. tauto.
    + rewrite En, En'', I2, J2, INR_IZR_INZ, Z2Nat.id by lia. exact W.
Qed.
End Theorems.

(** ** C123: the forced modes are the modes of the region *)

Theorem c123_2d : forall (g : nat -> nat) (p : aniso), (forall n, (n <= g n)%nat) -> proper p ->
  forall ikx iky, (0 <= ikx)%Z ->
  forced_2d g p ikx iky <-> wanted p (deltakx p * IZR ikx) (deltaky p * IZR iky).
Proof. intros g p Hg Hp ikx iky. apply region_2d; assumption. Qed.

(** 3D: the modes with iky = -1 are missing *)
Theorem c123_3d_partial : forall (g : nat -> nat) (p : aniso), (forall n, (n <= g n)%nat) -> proper p ->
  forall ikx iky ikz, (0 <= ikx)%Z ->
  forced_3d g p ikx iky ikz
  <-> iky <> (-1)%Z /\ wanted p (horizontal (deltakx p * IZR ikx) (deltaky p * IZR iky)) (deltakz p * IZR ikz).
Proof. intros g p Hg Hp ikx iky ikz. apply region_3d; assumption. Qed.

Definition ex_quarter (r : bool) : aniso := mkAniso 1 4 (PI / 4) (Some (PI / 6)) r 1 1 1.

Lemma ex_quarter_proper r : proper (ex_quarter r).
Proof.
  pose proof PI_RGT_0. unfold proper, ex_quarter. cbn. lra.
Qed.

Lemma sqrt2_sq : sqrt 2 * sqrt 2 = 2.
Proof. apply sqrt_sqrt. lra. Qed.

(** the mode (2, 2) of the default angle is forced *)
Example c123_2d_example : forced_2d (fun n => n) (ex_quarter false) 2 2
  /\ ~ forced_2d (fun n => n) (ex_quarter false) 2 (-2) /\ forced_2d (fun n => n) (ex_quarter true) 2 (-2).
Proof.
  pose proof PI_RGT_0 as HPI. pose proof sqrt2_sq as S2. pose proof (sqrt_lt_R0 2 ltac:(lra)) as P2.
  assert (V : sin (PI / 4) = / sqrt 2 /\ cos (PI / 4) = / sqrt 2).
  { rewrite sin_PI4, cos_PI4. split; field; lra. }
  destruct V as [V1 V2].
  assert (T : 2 * sqrt 2 * / sqrt 2 = 2) by (field; lra).
  assert (B : 1 <= 2 * sqrt 2 <= 4) by (split; nra).
  split; [|split].
  - apply c123_2d; [auto|apply ex_quarter_proper|discriminate|]. unfold wanted. cbn. exists (2 * sqrt 2), (PI / 4).
    rewrite V1, V2, T. split; [lra|]. split; [lra|]. split; [lra|left; lra].
  - rewrite c123_2d; [|auto|apply ex_quarter_proper|discriminate]. unfold wanted. cbn.
    intros (k & th & Hk & Hth & _ & [E|[E _]]); [|discriminate].
    assert (0 <= cos th) by (apply cos_ge_0; lra). assert (0 <= k * cos th) by (apply Rmult_le_pos; lra). lra.
  - apply c123_2d; [auto|apply ex_quarter_proper|discriminate|]. unfold wanted. cbn. exists (2 * sqrt 2), (PI / 4).
    rewrite V1, V2, T. split; [lra|]. split; [lra|]. split; [lra|right; split; [reflexivity|lra]].
Qed.

(** every wanted mode with ky = deltaky is forced, its mirror image with ky = - deltaky, at the same
    place in the plane (kh, kz), is not *)
Theorem c123_3d_asymmetry : forall (g : nat -> nat) (p : aniso), (forall n, (n <= g n)%nat) -> proper p ->
  forall ikx ikz, (0 <= ikx)%Z ->
  wanted p (horizontal (deltakx p * IZR ikx) (deltaky p * 1)) (deltakz p * IZR ikz) ->
  wanted p (horizontal (deltakx p * IZR ikx) (deltaky p * -1)) (deltakz p * IZR ikz)
  /\ forced_3d g p ikx 1 ikz /\ ~ forced_3d g p ikx (-1) ikz.
Proof.
  intros g p Hg Hp ikx ikz Hx W. split; [|split].
  - replace (horizontal (deltakx p * IZR ikx) (deltaky p * -1)) with (horizontal (deltakx p * IZR ikx) (deltaky p * 1)); [exact W|].
    unfold horizontal. f_equal. ring.
  - apply c123_3d_partial; [exact Hg|exact Hp|exact Hx|]. split; [discriminate|exact W].
  - rewrite c123_3d_partial by assumption. intros [N _]. apply N. reflexivity.
Qed.

(** a shell of horizontal wavevectors *)
Definition ex_horizontal : aniso := mkAniso 1 2 (PI / 2) None false 1 1 1.

Lemma ex_horizontal_proper : proper ex_horizontal.
Proof. pose proof PI_RGT_0. unfold proper, ex_horizontal. cbn. lra. Qed.

Theorem c123_3d_refuted : exists (p : aniso) (ikx iky ikz : Z),
  proper p /\ (0 <= ikx)%Z
  /\ wanted p (horizontal (deltakx p * IZR ikx) (deltaky p * IZR iky)) (deltakz p * IZR ikz)
  /\ forall g, (forall n, (n <= g n)%nat) -> forced_3d g p ikx (- iky) ikz /\ ~ forced_3d g p ikx iky ikz.
Proof.
  exists ex_horizontal, 1%Z, (-1)%Z, 0%Z.
  assert (W : forall y, y * y = 1 -> wanted ex_horizontal (horizontal (1 * 1) y) (1 * 0)).
  { intros y Hy. unfold wanted, in_box, horizontal. cbn. rewrite sin_PI2, cos_PI2, Hy.
    pose proof (sqrt_lt_R0 2 ltac:(lra)). pose proof sqrt2_sq. replace (1 * 1 * (1 * 1) + 1) with 2 by lra.
    split; [split; nra|left; lra]. }
  split; [apply ex_horizontal_proper|]. split; [discriminate|]. split; [apply W; cbn; lra|].
  intros g Hg. destruct (c123_3d_asymmetry g ex_horizontal Hg ex_horizontal_proper 1 0) as (_ & A & B); [discriminate| |split; assumption].
  apply (W (1 * 1)). lra.
Qed.

(** a sector which goes beyond the horizontal plane: nothing of it with kx > 0 is in oper_coarse *)
Theorem c123_wide_refuted : exists (p : aniso) (d : R), delta_angle p = Some d /\ 0 < kmin p <= kmax p
  /\ 0 < deltakx p /\ 0 < deltaky p /\ 0 <= angle p - d / 2 /\ angle p + d / 2 <= PI
  /\ wanted p (deltakx p * 3) (deltaky p * 0) /\ ~ forced_2d (fun n => n) p 3 0.
Proof.
  pose proof PI_RGT_0 as HPI.
  exists (mkAniso 1 4 (PI / 2) (Some PI) false 1 1 1), PI. cbn.
  split; [reflexivity|]. split; [lra|]. split; [lra|]. split; [lra|]. split; [lra|]. split; [lra|]. split.
  - unfold wanted. cbn. exists 3, (PI / 2). rewrite sin_PI2, cos_PI2. split; [lra|]. split; [lra|]. split; [lra|left; lra].
  - intros (i0 & i1 & _ & H1 & E1 & _). unfold nkx_coarse, nx_coarse, khmax_forcing, coarse_size in H1. cbn [delta_angle angle kmax deltakx] in H1.
    replace (PI / 2 + 0.5 * PI) with PI in H1 by lra. rewrite sin_PI in H1.
    replace (0 * 4 / 1) with 0 in H1 by lra.
    assert (U : int_trunc 0 = 0%Z).
    { unfold int_trunc. destruct (Rle_dec 0 0) as [_|N]; [|lra]. destruct (archimed 0) as [A B].
      assert (0 < up 0)%Z by (apply lt_IZR; lra). assert (up 0 < 2)%Z by (apply lt_IZR; lra). lia. }
    rewrite U in H1. change (Z.to_nat (0 + 1)) with 1%nat in H1. change (2 * 1 / 2 + 1)%nat with 2%nat in H1. lia.
Qed.

(** ** C124: the parameter angle *)

(** the wavevector (kh, kv) makes the angle [phi] with the horizontal plane *)
Definition above_horizontal (kh kv phi : R) : Prop := kh = sqrt (kh * kh + kv * kv) * cos phi /\ kv = sqrt (kh * kh + kv * kv) * sin phi.

Lemma polar_norm k th : 0 < k -> sqrt (k * sin th * (k * sin th) + k * cos th * (k * cos th)) = k.
Proof.
  intros Hk. pose proof (sin2_cos2 th) as T. unfold Rsqr in T.
  replace (k * sin th * (k * sin th) + k * cos th * (k * cos th)) with (k * k * (sin th * sin th + cos th * cos th)) by ring.
  rewrite T, Rmult_1_r. apply sqrt_square. lra.
Qed.

(** the angle of a forced mode is measured from the vertical: with the horizontal it is the complementary angle *)
Theorem c124_complementary_partial : forall (g : nat -> nat) (p : aniso) (d : R),
  (forall n, (n <= g n)%nat) -> proper p -> delta_angle p = Some d -> kz_negative_enable p = false ->
  forall ikx iky, (0 <= ikx)%Z -> forced_2d g p ikx iky ->
  exists phi, above_horizontal (deltakx p * IZR ikx) (deltaky p * IZR iky) phi
  /\ PI / 2 - angle p - d / 2 <= phi <= PI / 2 - angle p + d / 2.
Proof.
  intros g p d Hg Hp D Hr ikx iky Hx F. apply c123_2d in F; [|exact Hg|exact Hp|exact Hx].
  unfold wanted in F. rewrite D, Hr in F. destruct F as (k & th & Hk & Hth & Eh & [Ev|[E _]]); [|discriminate].
  exists (PI / 2 - th). split; [|lra]. unfold above_horizontal. rewrite Eh, Ev.
  destruct Hp as (Hk0 & _). rewrite polar_norm by lra. rewrite cos_shift, sin_shift. split; reflexivity.
Qed.

(** a region closer to the vertical than pi / 4: no forced mode is in the documented sector *)
Theorem c124_never : forall (g : nat -> nat) (p : aniso) (d : R),
  (forall n, (n <= g n)%nat) -> proper p -> delta_angle p = Some d -> angle p + d / 2 < PI / 4 ->
  forall ikx iky phi, (0 <= ikx)%Z -> forced_2d g p ikx iky ->
  above_horizontal (deltakx p * IZR ikx) (deltaky p * IZR iky) phi ->
  ~ (angle p - d / 2 <= phi <= angle p + d / 2).
Proof.
  intros g p d Hg Hp D Ha ikx iky phi Hx F [A1 A2] Hphi. apply c123_2d in F; [|exact Hg|exact Hp|exact Hx].
  pose proof Hp as (Hk0 & _ & _ & _ & P). rewrite D in P. destruct P as (Hd & Hlo & Hhi).
  pose proof PI_RGT_0 as HPI.
  unfold wanted in F. rewrite D in F. destruct F as (k & th & Hk & Hth & Eh & Ev).
  set (x := deltakx p * IZR ikx) in *. set (y := deltaky p * IZR iky) in *.
  assert (N : sqrt (x * x + y * y) = k).
  { rewrite Eh. destruct Ev as [->|[_ Ev]].
    - apply polar_norm. lra.
    - replace (y * y) with ((- y) * (- y)) by ring. rewrite Ev. apply polar_norm. lra. }
  rewrite N in A1, A2.
  assert (Es : sin th = cos phi) by (apply Rmult_eq_reg_l with k; lra).
  assert (L1 : sin th < sin (PI / 4)) by (apply sin_increasing_1; lra).
  assert (L2 : cos (PI / 4) < cos phi) by (apply cos_decreasing_1; lra).
  rewrite sin_PI4 in L1. rewrite cos_PI4 in L2. lra.
Qed.

(** angle = 0: the forced modes are vertical *)
Definition ex_zero : aniso := mkAniso 1 2 0 (Some 0) false 1 1 1.

Lemma ex_zero_proper : proper ex_zero.
Proof. pose proof PI_RGT_0. unfold proper, ex_zero. cbn. lra. Qed.

Theorem c124_refuted : exists (p : aniso) (d : R) (ikx iky : Z),
  proper p /\ delta_angle p = Some d /\ (0 <= ikx)%Z
  /\ forall g, (forall n, (n <= g n)%nat) ->
     forced_2d g p ikx iky /\ above_horizontal (deltakx p * IZR ikx) (deltaky p * IZR iky) (PI / 2)
     /\ ~ (angle p - d / 2 <= PI / 2 <= angle p + d / 2).
Proof.
  pose proof PI_RGT_0 as HPI. exists ex_zero, 0, 0%Z, 1%Z.
  split; [apply ex_zero_proper|]. split; [reflexivity|]. split; [discriminate|]. intros g Hg. split; [|split].
  - apply c123_2d; [exact Hg|apply ex_zero_proper|discriminate|]. unfold wanted. cbn. exists 1, 0.
    rewrite sin_0, cos_0. split; [lra|]. split; [lra|]. split; [lra|left; lra].
  - unfold above_horizontal. cbn. rewrite cos_PI2, sin_PI2. replace (1 * 0 * (1 * 0) + 1 * 1 * (1 * 1)) with 1 by ring.
    rewrite sqrt_1. split; ring.
  - cbn. lra.
Qed.

Example c124_never_example : proper ex_zero /\ delta_angle ex_zero = Some 0 /\ angle ex_zero + 0 / 2 < PI / 4
  /\ forced_2d (fun n => n) ex_zero 0 1.
Proof.
  pose proof PI_RGT_0. split; [apply ex_zero_proper|]. split; [reflexivity|]. split; [cbn; lra|].
  apply c123_2d; [auto|apply ex_zero_proper|discriminate|]. unfold wanted. cbn. exists 1, 0.
  rewrite sin_0, cos_0. split; [lra|]. split; [lra|]. split; [lra|left; lra].
Qed.

Print Assumptions c123_2d.
Print Assumptions c123_3d_partial.
Print Assumptions c123_3d_asymmetry.
Print Assumptions c123_3d_refuted.
Print Assumptions c123_wide_refuted.
Print Assumptions c124_complementary_partial.
Print Assumptions c124_never.
Print Assumptions c124_refuted.
