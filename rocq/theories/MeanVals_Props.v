(** C149: length scales; C150, C151: isotropy coefficients; C152: spectral fluxes; C153, C154: mean values and their cache. *)
From Coq Require Import String Reals List Bool Lia Lra Psatz Arith.
From Verif Require Import HMeans_Model HMeans_Props MeanVals_Model.
Import ListNotations.
Local Open Scope R_scope.

(** ** Sums *)

Lemma sumn_le n f g : (forall i, (i < n)%nat -> f i <= g i) -> sumn n f <= sumn n g.
Proof. induction n as [|n IH]; intros H; cbn; [lra|]. pose proof (H n (Nat.lt_succ_diag_r n)). assert (sumn n f <= sumn n g) by (apply IH; intros; apply H; lia). lra. Qed.
Lemma sumn_zero_ext n f : (forall i, (i < n)%nat -> f i = 0) -> sumn n f = 0.
Proof. intros H. rewrite (sumn_ext n f (fun _ => 0) H). apply sumn_zero. Qed.
Lemma sumn_minus n f g : sumn n (fun i => f i - g i) = sumn n f - sumn n g.
Proof. induction n as [|n IH]; cbn; [lra|]. rewrite IH. ring. Qed.
Lemma sumn_pos n f i : (forall j, (j < n)%nat -> 0 <= f j) -> (i < n)%nat -> 0 < f i -> 0 < sumn n f.
Proof.
  intros P Hi H. destruct (Rle_lt_or_eq_dec 0 (sumn n f) (sumn_nonneg n f P)) as [L|E]; [exact L|].
  rewrite (sumn_zero_terms n f P (eq_sym E) i Hi) in H. lra.
Qed.

(** ** C149 *)

(** mean over a spectrum *)
Definition spectral_mean (n : nat) (e f : nat -> R) : R := sumn n (fun i => e i * f i) / sumn n e.

Theorem c149_lengths_partial : forall (n : nat) (k e : nat -> R) (j : nat),
  (forall i, (i < n)%nat -> 0 <= e i) -> (forall i, (i < n)%nat -> 0 <= k i) -> (j < n)%nat -> 0 < e j -> 0 < k j ->
  exists l1 l2, length_scales n k e = Some (l1, l2)
  /\ l1 * spectral_mean n e k = 2 * PI /\ l2 ^ 2 * spectral_mean n e (fun i => k i ^ 2) = (2 * PI) ^ 2
  /\ 0 < l2 /\ l2 <= l1
  /\ (forall kmax, (forall i, (i < n)%nat -> k i <= kmax) -> 2 * PI / kmax <= l2)
  /\ (forall kmin, 0 < kmin -> (forall i, (i < n)%nat -> e i = 0 \/ kmin <= k i) -> l1 <= 2 * PI / kmin).
Proof.
  intros n k e j Pe Pk Hj Ej Kj. unfold length_scales, spectral_mean.
  set (s0 := sumn n e). set (s1 := sumn n (fun i => e i * k i)). set (s2 := sumn n (fun i => e i * k i ^ 2)).
  assert (S0 : 0 < s0) by (apply (sumn_pos n e j); assumption).
  assert (S1 : 0 < s1).
  { apply (sumn_pos n _ j); [|exact Hj|apply Rmult_lt_0_compat; assumption]. intros i Hi. apply Rmult_le_pos; [apply Pe|apply Pk]; exact Hi. }
  assert (S2 : 0 < s2).
  { apply (sumn_pos n _ j); [|exact Hj|apply Rmult_lt_0_compat; [exact Ej|apply pow_lt; exact Kj]].
    intros i Hi. apply Rmult_le_pos; [apply Pe; exact Hi|apply pow2_ge_0]. }
  assert (CS : s1 ^ 2 <= s0 * s2).
  { set (m := s1 / s0).
    assert (V : 0 <= sumn n (fun i => e i * (k i - m) ^ 2)).
    { apply sumn_nonneg. intros i Hi. apply Rmult_le_pos; [apply Pe; exact Hi|apply pow2_ge_0]. }
    assert (E : sumn n (fun i => e i * (k i - m) ^ 2) = s2 - 2 * m * s1 + m ^ 2 * s0).
    { rewrite (sumn_ext n _ (fun i => (e i * k i ^ 2 + (- 2 * m) * (e i * k i)) + m ^ 2 * e i)) by (intros; ring).
      rewrite !sumn_plus, !sumn_scal. unfold s0, s1, s2. ring. }
    rewrite E in V. assert (F : s2 - 2 * m * s1 + m ^ 2 * s0 = (s0 * s2 - s1 ^ 2) / s0) by (unfold m; field; lra).
    rewrite F in V. apply Rmult_le_compat_r with (r := s0) in V; [|lra].
    replace ((s0 * s2 - s1 ^ 2) / s0 * s0) with (s0 * s2 - s1 ^ 2) in V by (field; lra). lra. }
  destruct (Req_EM_T s1 0) as [E|_]; [lra|]. destruct (Req_EM_T s2 0) as [E|_]; [lra|].
  pose proof PI_RGT_0 as HP.
  assert (Q : 0 < s0 / s2) by (apply Rdiv_lt_0_compat; assumption).
  assert (HQ : sqrt (s0 / s2) ^ 2 = s0 / s2) by (apply pow2_sqrt; lra).
  pose proof (sqrt_lt_R0 _ Q) as SQ.
  eexists. eexists. split; [reflexivity|]. split; [field; lra|]. split; [|split; [|split; [|split]]].
  - rewrite Rpow_mult_distr, HQ. field. lra.
  - apply Rmult_lt_0_compat; lra.
  - replace (2 * PI * s0 / s1) with (2 * PI * (s0 / s1)) by (field; lra). apply Rmult_le_compat_l; [lra|].
    assert (0 < s0 / s1) by (apply Rdiv_lt_0_compat; assumption).
    rewrite <- (sqrt_pow2 (s0 / s1)) by lra. apply sqrt_le_1_alt.
    replace ((s0 / s1) ^ 2) with (s0 / s2 * (s0 * s2 / s1 ^ 2)) by (field; lra).
    rewrite <- (Rmult_1_r (s0 / s2)) at 1. apply Rmult_le_compat_l; [lra|].
    apply Rmult_le_reg_r with (s1 ^ 2); [apply pow_lt; exact S1|]. replace (s0 * s2 / s1 ^ 2 * s1 ^ 2) with (s0 * s2) by (field; lra). lra.
  - intros kmax Hk. assert (Pm : 0 < kmax) by (pose proof (Hk j Hj); lra).
    replace (2 * PI / kmax) with (2 * PI * (/ kmax)) by reflexivity. apply Rmult_le_compat_l; [lra|].
    assert (0 < / kmax) by (apply Rinv_0_lt_compat; exact Pm).
    rewrite <- (sqrt_pow2 (/ kmax)) by lra. apply sqrt_le_1_alt.
    assert (B : s2 <= kmax ^ 2 * s0).
    { unfold s2, s0. rewrite <- sumn_scal. apply sumn_le. intros i Hi. rewrite (Rmult_comm (kmax ^ 2)). apply Rmult_le_compat_l; [apply Pe; exact Hi|].
      apply pow_incr. split; [apply Pk|apply Hk]; exact Hi. }
    apply Rmult_le_reg_r with (kmax ^ 2 * s2); [apply Rmult_lt_0_compat; [apply pow_lt|]; assumption|].
    replace ((/ kmax) ^ 2 * (kmax ^ 2 * s2)) with s2 by (field; lra). replace (s0 / s2 * (kmax ^ 2 * s2)) with (kmax ^ 2 * s0) by (field; lra). exact B.
  - intros kmin Pm Hk.
    assert (B : kmin * s0 <= s1).
    { unfold s1, s0. rewrite <- sumn_scal. apply sumn_le. intros i Hi. destruct (Hk i Hi) as [E|L]; [rewrite E; lra|].
      rewrite (Rmult_comm kmin). apply Rmult_le_compat_l; [apply Pe; exact Hi|exact L]. }
    apply Rmult_le_reg_r with (kmin * s1); [apply Rmult_lt_0_compat; assumption|].
    replace (2 * PI * s0 / s1 * (kmin * s1)) with (2 * PI * (kmin * s0)) by (field; lra).
    replace (2 * PI / kmin * (kmin * s1)) with (2 * PI * s1) by (field; lra). apply Rmult_le_compat_l; lra.
Qed.

(** the modes which are uniform in the direction are counted: the length is larger than the domain (2 pi here) *)
Theorem c149_domain_refuted : exists (n : nat) (k e : nat -> R) (L l1 l2 : R), (forall i, k i = INR i * (2 * PI / L)) /\ (forall i, 0 <= e i)
  /\ length_scales n k e = Some (l1, l2) /\ L < l1 /\ L < l2.
Proof.
  pose proof PI_RGT_0 as HP.
  exists 2%nat, INR, (fun i => match i with O => 3 | _ => 1 end), (2 * PI). unfold length_scales. cbn [sumn INR].
  destruct (Req_EM_T _ _) as [E|_]; [exfalso; cbn in E; lra|]. destruct (Req_EM_T _ _) as [E|_]; [exfalso; cbn in E; lra|].
  eexists. eexists. split; [intros i; field; lra|]. split; [intros [|i]; lra|]. split; [reflexivity|]. split.
  - replace (2 * PI * (0 + 3 + 1) / (0 + 3 * 0 + 1 * 1)) with (4 * (2 * PI)) by field. lra.
  - replace ((0 + 3 + 1) / (0 + 3 * 0 ^ 2 + 1 * 1 ^ 2)) with (2 ^ 2) by field. rewrite sqrt_pow2 by lra. lra.
Qed.

Example c149_example : let k := fun i => INR i in let e := fun i : nat => 1 in
  (forall i, (i < 4)%nat -> 0 <= e i) /\ (forall i, (i < 4)%nat -> 0 <= k i) /\ 0 < e 2%nat /\ 0 < k 2%nat.
Proof. cbn zeta. split; [intros; lra|]. split; [intros; apply pos_INR|]. cbn. lra. Qed.

(** ** C150 *)

(** sum over the wavenumbers which are not zero *)
Definition sum_not0 (n : nat) (s : nat -> R) : R := sumn n s - s O.

Theorem c150_coefficient_partial : forall (n : nat) (kz sx sy sz : nat -> R), (1 < n)%nat -> 0 < kz 1%nat ->
  (forall i, (i < n)%nat -> 0 <= sx i) -> (forall i, (i < n)%nat -> 0 <= sy i) -> (forall i, (i < n)%nat -> 0 <= sz i) ->
  0 < sum_not0 n sx + sum_not0 n sy + sumn n sz ->
  exists c, isotropy_velocities n kz sx sy sz = Some c
  /\ c * (sum_not0 n sx + sum_not0 n sy + sumn n sz) = 3 * sumn n sz
  /\ 0 <= c <= 3
  /\ (c = 1 <-> sum_not0 n sx + sum_not0 n sy = 2 * sumn n sz).
Proof.
  intros n kz sx sy sz Hn Hk Px Py Pz HT. unfold isotropy_velocities.
  assert (Z : forall s, sumn n (zero_first (fun i => s i * kz 1%nat)) = kz 1%nat * sum_not0 n s).
  { intros s. unfold sum_not0. destruct n as [|n]; [lia|]. change (S n) with (1 + n)%nat. rewrite !sumn_add. cbn [sumn].
    rewrite (sumn_ext n _ (fun i => kz 1%nat * s (1 + i)%nat)) by (intros; cbn; ring). rewrite sumn_scal. cbn [zero_first]. ring. }
  rewrite !Z. rewrite (sumn_ext n (fun i => sz i * kz 1%nat) (fun i => kz 1%nat * sz i)) by (intros; ring). rewrite sumn_scal.
  assert (N : forall s, (forall i, (i < n)%nat -> 0 <= s i) -> 0 <= sum_not0 n s).
  { intros s Ps. unfold sum_not0. destruct n as [|n]; [lia|]. change (S n) with (1 + n)%nat. rewrite sumn_add. cbn [sumn].
    assert (0 <= sumn n (fun i => s (1 + i)%nat)) by (apply sumn_nonneg; intros; apply Ps; lia). lra. }
  pose proof (N sx Px) as Nx. pose proof (N sy Py) as Ny. pose proof (sumn_nonneg n sz Pz) as Nz.
  set (x := sum_not0 n sx) in *. set (y := sum_not0 n sy) in *. set (z := sumn n sz) in *. set (q := kz 1%nat) in *. clearbody x y z q.
  assert (T : 0 < q * x + q * y + q * z) by (replace (q * x + q * y + q * z) with (q * (x + y + z)) by ring; apply Rmult_lt_0_compat; assumption).
  destruct (Req_EM_T (q * x + q * y + q * z) 0) as [E|_]; [lra|].
  eexists. split; [reflexivity|].
  replace (3 * (q * z) / (q * x + q * y + q * z)) with (3 * z / (x + y + z)) by (field; split; lra).
  assert (E : 3 * z / (x + y + z) * (x + y + z) = 3 * z) by (field; lra).
  set (c := 3 * z / (x + y + z)) in *. clearbody c. split; [exact E|]. split; [split|].
  - apply Rnot_lt_le. intros H. assert (c * (x + y + z) < 0) by nra. lra.
  - apply Rnot_lt_le. intros H. assert (3 * (x + y + z) < c * (x + y + z)) by (apply Rmult_lt_compat_r; lra). lra.
  - split; [intros ->; lra|]. intros H. apply Rmult_eq_reg_r with (x + y + z); lra.
Qed.

(** the three components have the same spectrum: the coefficient is not one *)
Theorem c150_isotropic_refuted : exists (n : nat) (kz s : nat -> R) (c : R), (forall i, kz i = INR i) /\ (forall i, 0 < s i)
  /\ isotropy_velocities n kz s s s = Some c /\ c = 3 / 2.
Proof.
  exists 2%nat, INR, (fun _ => 1). unfold isotropy_velocities. cbn [sumn zero_first INR].
  destruct (Req_EM_T _ _) as [E|_]; [exfalso; lra|]. eexists. split; [reflexivity|]. split; [intros; lra|]. split; [reflexivity|]. field.
Qed.

Example c150_example : let s := fun _ : nat => 1 in (1 < 2)%nat /\ 0 < INR 1 /\ 0 < sum_not0 2 s + sum_not0 2 s + sumn 2 s.
Proof. cbn zeta. unfold sum_not0. cbn. split; [lia|]. lra. Qed.

(** ** C151 *)

Lemma sum2_ext nz nh f g : (forall iz ih, (iz < nz)%nat -> (ih < nh)%nat -> f iz ih = g iz ih) -> sum2 nz nh f = sum2 nz nh g.
Proof. intros H. apply sumn_ext. intros iz Hz. apply sumn_ext. intros ih Hh. apply H; assumption. Qed.
Lemma sum2_scal nz nh c f : sum2 nz nh (fun iz ih => c * f iz ih) = c * sum2 nz nh f.
Proof. unfold sum2. rewrite <- sumn_scal. apply sumn_ext. intros. apply sumn_scal. Qed.
Lemma sum2_plus nz nh f g : sum2 nz nh (fun iz ih => f iz ih + g iz ih) = sum2 nz nh f + sum2 nz nh g.
Proof. unfold sum2. rewrite <- sumn_plus. apply sumn_ext. intros. apply sumn_plus. Qed.
Lemma sum2_le nz nh f g : (forall iz ih, (iz < nz)%nat -> (ih < nh)%nat -> f iz ih <= g iz ih) -> sum2 nz nh f <= sum2 nz nh g.
Proof. intros H. apply sumn_le. intros iz Hz. apply sumn_le. intros ih Hh. apply H; assumption. Qed.
Lemma sum2_nonneg nz nh f : (forall iz ih, (iz < nz)%nat -> (ih < nh)%nat -> 0 <= f iz ih) -> 0 <= sum2 nz nh f.
Proof. intros H. apply sumn_nonneg. intros iz Hz. apply sumn_nonneg. intros ih Hh. apply H; assumption. Qed.

(** dissipation of the energy E *)
Definition dissipates (nu_2 nu_4 : R) (nz nh : nat) (kz kh : nat -> R) (E dKh dKz : nat -> nat -> R) : Prop :=
  forall iz ih, (iz < nz)%nat -> (ih < nh)%nat -> let k2 := kh ih ^ 2 + kz iz ^ 2 in dKh iz ih + dKz iz ih = (nu_2 * k2 + nu_4 * k2 ^ 2) * E iz ih.

Lemma freq_cancel nu_2 nu_4 k e : 0 <= nu_2 -> 0 <= nu_4 -> 0 < nu_2 + nu_4 -> 0 < k ->
  (nu_2 * k + nu_4 * k ^ 2) * e / (nu_2 * k + nu_4 * k ^ 2) = e.
Proof.
  intros P2 P4 P Pk. assert (0 < k ^ 2) by (apply pow_lt; exact Pk). field. apply Rgt_not_eq.
  destruct (Rle_lt_or_eq_dec 0 nu_2 P2) as [L|L].
  - assert (0 < nu_2 * k) by (apply Rmult_lt_0_compat; assumption). assert (0 <= nu_4 * k ^ 2) by (apply Rmult_le_pos; lra). lra.
  - assert (0 < nu_4 * k ^ 2) by (apply Rmult_lt_0_compat; lra). rewrite <- L. lra.
Qed.

Theorem c151_coefficient_partial : forall (nu_2 nu_4 : R) (nz nh : nat) (kz kh : nat -> R) (E dKh dKz : nat -> nat -> R),
  0 <= nu_2 -> 0 <= nu_4 -> 0 < nu_2 + nu_4 -> kz O = 0 -> kh O = 0 -> (forall i, (0 < i)%nat -> 0 < kz i) -> (forall i, (0 < i)%nat -> 0 < kh i) ->
  (forall iz ih, (iz < nz)%nat -> (ih < nh)%nat -> 0 <= E iz ih) -> dissipates nu_2 nu_4 nz nh kz kh E dKh dKz ->
  0 < sum2 nz nh (fun iz ih => dKh iz ih + dKz iz ih) ->
  exists c, isotropy_dissipation nu_2 nu_4 nz nh kz kh dKh dKz = Some c
  /\ (1 - 2 / 3 * c) * sum2 nz nh (fun iz ih => dKh iz ih + dKz iz ih) = sum2 nz nh (fun iz ih => (nu_2 * kz iz ^ 2 + nu_4 * kz iz ^ 4) * E iz ih)
  /\ 0 <= c <= 3 / 2
  /\ (nu_4 = 0 -> c = 1 <-> sum2 nz nh (fun iz ih => kh ih ^ 2 * E iz ih) = 2 * sum2 nz nh (fun iz ih => kz iz ^ 2 * E iz ih)).
Proof.
  intros nu_2 nu_4 nz nh kz kh E dKh dKz P2 P4 P Z0 H0 Pz Ph PE D HT. unfold isotropy_dissipation.
  set (T := sum2 nz nh (fun iz ih => dKh iz ih + dKz iz ih)) in *.
  set (SZ := sum2 nz nh (fun iz ih => (nu_2 * kz iz ^ 2 + nu_4 * kz iz ^ 4) * E iz ih)).
  destruct (Req_EM_T T 0) as [X|_]; [lra|].
  match goal with |- context [Some ((1 - ?s / T) / _)] => assert (Es : s = SZ) end.
  { apply sum2_ext. intros iz ih Hz Hh. rewrite (D iz ih Hz Hh). destruct iz as [|iz], ih as [|ih].
    - rewrite Z0. ring.
    - rewrite Z0. ring.
    - rewrite freq_cancel; [reflexivity|assumption|assumption|assumption|]. pose proof (pow_lt _ 2 (Pz (S iz) (Nat.lt_0_succ _))). pose proof (pow2_ge_0 (kh O)). lra.
    - rewrite freq_cancel; [reflexivity|assumption|assumption|assumption|]. pose proof (pow_lt _ 2 (Pz (S iz) (Nat.lt_0_succ _))). pose proof (pow2_ge_0 (kh (S ih))). lra. }
  rewrite Es. clear Es.
  eexists. split; [reflexivity|].
  assert (L : SZ <= T).
  { apply sum2_le. intros iz ih Hz Hh. rewrite (D iz ih Hz Hh). apply Rmult_le_compat_r; [apply PE; assumption|].
    pose proof (pow2_ge_0 (kh ih)). pose proof (pow2_ge_0 (kz iz)). replace (kz iz ^ 4) with ((kz iz ^ 2) ^ 2) by ring.
    apply Rplus_le_compat; apply Rmult_le_compat_l; try assumption; [lra|]. apply pow_incr. lra. }
  assert (N : 0 <= SZ).
  { apply sum2_nonneg. intros iz ih Hz Hh. apply Rmult_le_pos; [|apply PE; assumption].
    pose proof (pow2_ge_0 (kz iz)). replace (kz iz ^ 4) with ((kz iz ^ 2) ^ 2) by ring. pose proof (pow2_ge_0 (kz iz ^ 2)).
    apply Rplus_le_le_0_compat; apply Rmult_le_pos; assumption. }
  assert (Ec : (1 - 2 / 3 * ((1 - SZ / T) / (1 - 1 / 3))) * T = SZ) by (field; lra).
  set (c := (1 - SZ / T) / (1 - 1 / 3)) in *. split; [exact Ec|]. split.
  - split; apply Rnot_lt_le; intros H.
    + assert (1 * T < (1 - 2 / 3 * c) * T) by (apply Rmult_lt_compat_r; lra). lra.
    + assert ((1 - 2 / 3 * c) * T < 0 * T) by (apply Rmult_lt_compat_r; lra). lra.
  - intros ->. set (A := sum2 nz nh (fun iz ih => kh ih ^ 2 * E iz ih)). set (B := sum2 nz nh (fun iz ih => kz iz ^ 2 * E iz ih)).
    assert (ES : SZ = nu_2 * B) by (unfold SZ, B; rewrite <- sum2_scal; apply sum2_ext; intros; ring).
    assert (ET : T = nu_2 * (A + B)).
    { unfold T, A, B. rewrite <- sum2_plus, <- sum2_scal. apply sum2_ext. intros iz ih Hz Hh. rewrite (D iz ih Hz Hh). ring. }
    assert (0 < nu_2) by lra. split; intros H1.
    + rewrite H1 in Ec. rewrite ES, ET in Ec. apply Rmult_eq_reg_l with nu_2; lra.
    + apply Rmult_eq_reg_r with T; [|lra]. rewrite ES in Ec. rewrite ET in *. rewrite H1 in *. lra.
Qed.

(** hyperviscosity: the energy of the gradients is isotropic and the coefficient is not one *)
Theorem c151_hyper_refuted : exists (kz kh : nat -> R) (E dKh dKz : nat -> nat -> R) (c : R), (forall i, kz i = INR i) /\ (forall i, kh i = INR i)
  /\ (forall iz ih, 0 <= E iz ih) /\ dissipates 0 1 2 2 kz kh E dKh dKz
  /\ sum2 2 2 (fun iz ih => kh ih ^ 2 * E iz ih) = 2 * sum2 2 2 (fun iz ih => kz iz ^ 2 * E iz ih)
  /\ isotropy_dissipation 0 1 2 2 kz kh dKh dKz = Some c /\ c = 6 / 5.
Proof.
  set (E := fun iz ih : nat => match iz, ih with O, S O => 1 | S O, S O => 1 | _, _ => 0 end).
  exists INR, INR, E, (fun iz ih => (INR ih ^ 2 + INR iz ^ 2) ^ 2 * E iz ih), (fun _ _ => 0).
  unfold isotropy_dissipation, sum2. cbn [sumn INR E].
  destruct (Req_EM_T _ _) as [X|_]; [exfalso; cbn in X; lra|]. eexists.
  split; [reflexivity|]. split; [reflexivity|]. split.
  { intros [|[|iz]] [|[|ih]]; cbn; lra. }
  split. { intros iz ih _ _. cbn zeta. ring. }
  split; [cbn; lra|]. split; [reflexivity|]. cbn. field.
Qed.

Example c151_example : let E := fun iz ih : nat => 1 in let d := fun iz ih : nat => (INR ih ^ 2 + INR iz ^ 2) * E iz ih in
  dissipates 1 0 2 2 INR INR E d (fun _ _ => 0) /\ 0 < sum2 2 2 (fun iz ih => d iz ih + 0).
Proof. cbn zeta. split; [intros iz ih _ _; cbn zeta; ring|]. unfold sum2. cbn. lra. Qed.

(** ** C152 *)

Theorem c152_fluxes : forall (nz nh : nat) (kz kh : nat -> R) (key : string) (spectrum : nat -> nat -> R), (0 < nz)%nat -> (0 < nh)%nat ->
  let s := if String.prefix "transfer" key then -1 else 1 in
  let dk := kz 1%nat * kh 1%nat in
  let hflux := fst (fluxes nz nh kz kh key spectrum) in let zflux := snd (fluxes nz nh kz kh key spectrum) in
  (forall ih, hflux ih = s * dk * sum2 nz (S ih) spectrum) /\ (forall iz, zflux iz = s * dk * sum2 (S iz) nh spectrum)
  /\ hflux (nh - 1)%nat = s * dk * sum2 nz nh spectrum /\ zflux (nz - 1)%nat = hflux (nh - 1)%nat.
Proof.
  intros nz nh kz kh key spectrum Nz Nh s dk hflux zflux.
  assert (H : forall ih, hflux ih = s * dk * sum2 nz (S ih) spectrum).
  { intros ih. unfold hflux, fluxes, cumsum, sum2. cbn [fst]. fold s. rewrite sumn_scal.
    assert (X : forall m, sumn m (fun j => sumn nz (fun iz => spectrum iz j)) = sumn nz (fun iz => sumn m (fun ih => spectrum iz ih))).
    { induction m as [|m IH]; cbn; [now rewrite sumn_zero|]. rewrite IH, <- sumn_plus. reflexivity. }
    rewrite X. unfold dk. ring. }
  assert (Z : forall iz, zflux iz = s * dk * sum2 (S iz) nh spectrum).
  { intros iz. unfold zflux, fluxes, cumsum, sum2. cbn [snd]. fold s. rewrite sumn_scal. unfold dk. ring. }
  split; [exact H|]. split; [exact Z|]. rewrite Z, !H. replace (S (nh - 1)) with nh by lia. replace (S (nz - 1)) with nz by lia. split; reflexivity.
Qed.

(** transfers which conserve the energy: the flux is the energy transferred to the larger wavenumbers and ends at zero;
    dissipation: the flux increases *)
Theorem c152_signs : forall (nz nh : nat) (kz kh : nat -> R) (key : string) (spectrum : nat -> nat -> R), (0 < nz)%nat -> (0 < nh)%nat ->
  0 <= kz 1%nat * kh 1%nat ->
  (sum2 nz nh spectrum = 0 -> String.prefix "transfer" key = true -> forall ih, (ih < nh)%nat ->
     fst (fluxes nz nh kz kh key spectrum) ih = kz 1%nat * kh 1%nat * sumn nz (fun iz => sumn (nh - S ih) (fun j => spectrum iz (S ih + j)%nat)))
  /\ ((forall iz ih, (iz < nz)%nat -> (ih < nh)%nat -> 0 <= spectrum iz ih) -> String.prefix "transfer" key = false ->
     (forall ih, (S ih < nh)%nat -> fst (fluxes nz nh kz kh key spectrum) ih <= fst (fluxes nz nh kz kh key spectrum) (S ih))
     /\ forall iz, (S iz < nz)%nat -> snd (fluxes nz nh kz kh key spectrum) iz <= snd (fluxes nz nh kz kh key spectrum) (S iz)).
Proof.
  intros nz nh kz kh key spectrum Nz Nh Pk.
  destruct (c152_fluxes nz nh kz kh key spectrum Nz Nh) as (H & Z & _). cbn zeta in H, Z. split.
  - intros T P ih Hh. rewrite H, P.
    assert (X : sum2 nz nh spectrum = sum2 nz (S ih) spectrum + sumn nz (fun iz => sumn (nh - S ih) (fun j => spectrum iz (S ih + j)%nat))).
    { unfold sum2. rewrite <- sumn_plus. apply sumn_ext. intros iz _. rewrite <- sumn_add. f_equal. lia. }
    rewrite T in X. replace (sum2 nz (S ih) spectrum) with (- sumn nz (fun iz => sumn (nh - S ih) (fun j => spectrum iz (S ih + j)%nat))) by lra. ring.
  - intros PS P. rewrite P in H, Z. split.
    + intros ih Hh. rewrite !H, Rmult_1_l. apply Rmult_le_compat_l; [exact Pk|]. unfold sum2. apply sumn_le. intros iz Hz.
      assert (X : sumn (S (S ih)) (fun j => spectrum iz j) = sumn (S ih) (fun j => spectrum iz j) + spectrum iz (S ih)) by reflexivity.
      pose proof (PS iz (S ih) Hz Hh). rewrite X. lra.
    + intros iz Hz. rewrite !Z, Rmult_1_l. apply Rmult_le_compat_l; [exact Pk|]. unfold sum2.
      assert (X : sumn (S (S iz)) (fun j => sumn nh (fun ih => spectrum j ih)) = sumn (S iz) (fun j => sumn nh (fun ih => spectrum j ih)) + sumn nh (fun ih => spectrum (S iz) ih)) by reflexivity.
      rewrite X.
      assert (0 <= sumn nh (fun ih => spectrum (S iz) ih)) by (apply sumn_nonneg; intros; apply PS; assumption). lra.
Qed.

Example c152_example : let sp := fun iz ih : nat => match ih with O => 1 | _ => -1 end in sum2 2 2 sp = 0 /\ String.prefix "transfer" "transfer_Kh" = true.
Proof. cbn zeta. split; [unfold sum2; cbn; lra|reflexivity]. Qed.

(** ** C153 *)

(** records of the same file later: new records after those already saved; a saved time after tmax *)
Definition more {A : Type} (l l' : list (R * A)) : Prop := exists new, l' = l ++ new /\ increasing (map fst l').
Definition covers {A : Type} (l : list (R * A)) (tmax : R) : Prop := exists r, In r l /\ tmax <= fst r.

Lemma nearest_first_unique times t i j : nearest times t i -> nearest times t j ->
  (forall k, (k < i)%nat -> Rabs (nth i times 0 - t) < Rabs (nth k times 0 - t)) ->
  (forall k, (k < j)%nat -> Rabs (nth j times 0 - t) < Rabs (nth k times 0 - t)) -> i = j.
Proof.
  intros [Li Ni] [Lj Nj] Fi Fj. destruct (lt_eq_lt_dec i j) as [[H|H]|H]; [|exact H|].
  - specialize (Fj i H). specialize (Ni j Lj). lra.
  - specialize (Fi j H). specialize (Nj i Li). lra.
Qed.

Lemma index_time_more times new t s : increasing (times ++ new) -> In s times -> t <= s -> index_time (times ++ new) t = index_time times t.
Proof.
  intros I Hs Ht. assert (N : times <> []) by (destruct times; [contradiction|discriminate]).
  assert (N' : times ++ new <> []) by (destruct times; [contradiction|discriminate]).
  destruct (index_time_spec times t N) as [[L1 A1] F1]. destruct (index_time_spec (times ++ new) t N') as [[L2 A2] F2].
  set (i := index_time times t) in *. set (j := index_time (times ++ new) t) in *.
  destruct (In_nth times s 0 Hs) as (m & Hm & Em).
  assert (Lj : (j < length times)%nat).
  { destruct (le_lt_dec (length times) j) as [H|H]; [|exact H]. exfalso.
    assert (Hmj : (m < j)%nat) by lia. specialize (I m j Hmj L2). rewrite app_nth1 in I by exact Hm. rewrite Em in I.
    assert (Hm' : (m < length (times ++ new))%nat) by (rewrite app_length; lia). specialize (A2 m Hm'). rewrite (app_nth1 times new 0 Hm), Em in A2.
    rewrite !Rabs_right in A2 by lra. lra. }
  symmetry. apply (nearest_first_unique times t).
  - split; assumption.
  - split; [exact Lj|]. intros k Hk. assert (Hk' : (k < length (times ++ new))%nat) by (rewrite app_length; lia). specialize (A2 k Hk').
    rewrite !app_nth1 in A2 by assumption. exact A2.
  - exact F1.
  - intros k Hk. specialize (F2 k Hk). rewrite !app_nth1 in F2 by lia. exact F2.
Qed.

Lemma index_time_order times tmin tmax : times <> [] -> increasing times -> tmin <= tmax -> (index_time times tmin <= index_time times tmax)%nat.
Proof.
  intros N I T. destruct (index_time_spec times tmin N) as [[L1 A1] F1]. destruct (index_time_spec times tmax N) as [[L2 A2] F2].
  set (i := index_time times tmin) in *. set (j := index_time times tmax) in *.
  destruct (le_lt_dec i j) as [H|H]; [exact H|]. exfalso. specialize (F1 j H). specialize (A2 i L1). specialize (I j i H L1).
  unfold Rabs in F1, A2. repeat destruct (Rcase_abs _); lra.
Qed.

Lemma increasing_prefix (l l' : list R) : increasing (l ++ l') -> increasing l.
Proof.
  intros H i j Hij Hj. assert (Hj' : (j < length (l ++ l'))%nat) by (rewrite app_length; lia). specialize (H i j Hij Hj').
  rewrite !app_nth1 in H by lia. exact H.
Qed.

Lemma select_more {A : Type} (l l' : list (R * A)) tmin tmax : more l l' -> covers l tmax -> tmin <= tmax ->
  select l' (Some tmin) (Some tmax) = select l (Some tmin) (Some tmax).
Proof.
  intros (new & -> & I) (r & Hr & Tr) T. unfold select. rewrite map_app in *.
  assert (Hs : In (fst r) (map fst l)) by (apply in_map; exact Hr).
  rewrite !(index_time_more (map fst l) (map fst new) _ (fst r) I Hs) by lra.
  assert (N : map fst l <> []) by (destruct (map fst l); [contradiction|discriminate]).
  pose proof (index_time_order (map fst l) tmin tmax N (increasing_prefix _ _ I) T) as Ord.
  destruct (index_time_spec (map fst l) tmax N) as [[L _] _]. rewrite map_length in L.
  set (i := index_time (map fst l) tmin) in *. set (j := index_time (map fst l) tmax) in *.
  assert (D : skipn i (l ++ new) = skipn i l ++ new) by (rewrite skipn_app; replace (i - length l)%nat with O by lia; reflexivity).
  rewrite D, firstn_app. rewrite skipn_length. replace (j + 1 - i - (length l - i))%nat with O by lia. rewrite firstn_O, app_nil_r. reflexivity.
Qed.

(** the values which do not depend on the budget *)
Definition same_values (v v' : values) : Prop := v_means v = v_means v' /\ v_velocity v = v_velocity v' /\ v_lengths v = v_lengths v'.

Definition more_data (d d' : data) : Prop := more (d_means d) (d_means d') /\ more (d_spectra d) (d_spectra d') /\ more (d_budget d) (d_budget d').
Definition covers_data (d : data) (tmax : R) : Prop := covers (d_means d) tmax /\ covers (d_spectra d) tmax /\ covers (d_budget d) tmax.

(** the records saved after tmax do not change the values, but for I_dissipation *)
Theorem c153_window_partial : forall (g : grids) (d d' : data) (tmin tmax : R), more_data d d' -> covers_data d tmax -> tmin <= tmax ->
  same_values (compute_mean_values g d' tmin tmax) (compute_mean_values g d tmin tmax).
Proof.
  intros g d d' tmin tmax (M1 & M2 & _) (C1 & C2 & _) T. unfold same_values, compute_mean_values. cbn [v_means v_velocity v_lengths].
  rewrite (select_more _ _ tmin tmax M1 C1 T), (select_more _ _ tmin tmax M2 C2 T). split; [reflexivity|]. split; reflexivity.
Qed.

Lemma sum_list_seq (f : nat -> R) : forall n i, sum_list (map f (seq i n)) = sumn n (fun k => f (i + k)%nat).
Proof.
  induction n as [|n IH]; intros i; [reflexivity|]. rewrite seq_S, map_app. cbn [map sumn].
  unfold sum_list. rewrite fold_right_app. cbn [fold_right]. rewrite Rplus_0_r.
  assert (F : forall l a, fold_right Rplus a l = fold_right Rplus 0 l + a) by (induction l as [|x l IHl]; intros a; cbn; [lra|rewrite IHl; lra]).
  rewrite F. fold (sum_list (map f (seq i n))). rewrite IH. reflexivity.
Qed.

(** [i, j]: the records used between tmin and tmax *)
Definition window {A : Type} (l : list (R * A)) (tmin tmax : R) (i j : nat) : Prop :=
  nearest (map fst l) tmin i /\ nearest (map fst l) tmax j /\ (i <= j)%nat.

Lemma mean_window {A : Type} (l : list (R * A)) (def : R * A) tmin tmax : l <> [] -> increasing (map fst l) -> tmin <= tmax ->
  exists i j, window l tmin tmax i j /\ forall f : A -> R,
    mean (select l (Some tmin) (Some tmax)) f * INR (j + 1 - i) = sumn (j + 1 - i) (fun k => f (snd (nth (i + k)%nat l def))).
Proof.
  intros N I T. assert (N' : map fst l <> []) by (destruct l; [contradiction|discriminate]).
  destruct (index_time_spec (map fst l) tmin N') as [A1 F1]. destruct (index_time_spec (map fst l) tmax N') as [A2 F2].
  pose proof (index_time_order (map fst l) tmin tmax N' I T) as Ord.
  exists (index_time (map fst l) tmin), (index_time (map fst l) tmax). split; [split; [exact A1|split; [exact A2|exact Ord]]|]. intros f. unfold select.
  set (i := index_time (map fst l) tmin) in *. set (j := index_time (map fst l) tmax) in *.
  destruct A2 as [L2 _]. rewrite map_length in L2. rewrite (nth_range l def i (j + 1 - i)) by lia.
  unfold mean. rewrite !map_map, map_length, seq_length.
  unfold Rdiv. rewrite Rmult_assoc, Rinv_l by (apply not_0_INR; lia). rewrite Rmult_1_r. apply sum_list_seq.
Qed.

(** the averages are the means of the records between those which are the nearest to tmin and tmax; the coefficients are
    those of the averaged spectra *)
Theorem c153_averages_partial : forall (g : grids) (d : data) (tmin tmax : R), d_means d <> [] -> d_spectra d <> [] ->
  increasing (map fst (d_means d)) -> increasing (map fst (d_spectra d)) -> tmin <= tmax ->
  exists i j i' j' s, window (d_means d) tmin tmax i j /\ window (d_spectra d) tmin tmax i' j'
  /\ (forall key, v_means (compute_mean_values g d tmin tmax) key * INR (j + 1 - i) = sumn (j + 1 - i) (fun k => snd (nth (i + k)%nat (d_means d) (0, fun _ => 0)) key))
  /\ (forall key n, s key n * INR (j' + 1 - i') = sumn (j' + 1 - i') (fun k => snd (nth (i' + k)%nat (d_spectra d) (0, fun _ _ => 0)) key n))
  /\ v_velocity (compute_mean_values g d tmin tmax) = isotropy_velocities (nkz g) (gkz g) (s "spectra_vx_kz"%string) (s "spectra_vy_kz"%string) (s "spectra_vz_kz"%string)
  /\ v_lengths (compute_mean_values g d tmin tmax) = [length_scales (nkx g) (gkx g) (s "spectra_E_kx"%string); length_scales (nky g) (gky g) (s "spectra_E_ky"%string); length_scales (nkz g) (gkz g) (s "spectra_E_kz"%string)].
Proof.
  intros g d tmin tmax N1 N2 I1 I2 T.
  destruct (mean_window (d_means d) (0, fun _ => 0) tmin tmax N1 I1 T) as (i & j & W & M).
  destruct (mean_window (d_spectra d) (0, fun _ _ => 0) tmin tmax N2 I2 T) as (i' & j' & W' & M').
  exists i, j, i', j', (fun key n => mean (select (d_spectra d) (Some tmin) (Some tmax)) (fun r => r key n)).
  split; [exact W|]. split; [exact W'|]. split; [intros key; apply (M (fun r => r key))|]. split; [intros key n; apply (M' (fun r => r key n))|]. split; reflexivity.
Qed.

(** I_dissipation is averaged up to the end of the simulation whatever tmax *)
Definition budget_at (z : nat) : string -> nat -> nat -> R :=
  fun key iz ih => if String.eqb key "diss_Kh" then (if Nat.eqb iz z && Nat.eqb ih (1 - z) then 1 else 0) else 0.
Theorem c153_dissipation_refuted : exists (g : grids) (d d' : data) (tmin tmax a b : R), more_data d d' /\ covers_data d tmax /\ tmin <= tmax
  /\ v_dissipation (compute_mean_values g d tmin tmax) = Some a /\ v_dissipation (compute_mean_values g d' tmin tmax) = Some b /\ a <> b.
Proof.
  exists (mkGrids 2 2 2 2 INR INR INR INR 1 0), (mkData [(0, fun _ => 1)] [(0, fun _ _ => 1)] [(0, budget_at 0)]),
    (mkData [(0, fun _ => 1)] [(0, fun _ _ => 1)] [(0, budget_at 0); (1, budget_at 1)]), 0, 0, (3 / 2), (3 / 4).
  assert (I1 : increasing [0]) by (intros i j Hi Hj; cbn in Hj; lia).
  split. { split; [exists []; split; [reflexivity|exact I1]|]. split; [exists []; split; [reflexivity|exact I1]|].
    exists [(1, budget_at 1)]. split; [reflexivity|]. intros [|[|i]] [|[|j]] Hi Hj; cbn in Hj |- *; try lia; lra. }
  split. { split; [eexists; split; [left; reflexivity|cbn; lra]|]. split; eexists; (split; [left; reflexivity|cbn; lra]). }
  split; [lra|]. unfold compute_mean_values. cbn [v_dissipation nkz nkh gkz gkh gnu2 gnu4 d_budget].
  assert (X : index_time [0] 0 = O).
  { destruct (index_time_spec [0] 0 ltac:(discriminate)) as [[L _] _]. cbn [length] in L. lia. }
  assert (Y : index_time [0; 1] 0 = O).
  { destruct (index_time_spec [0; 1] 0 ltac:(discriminate)) as [[L A] _]. cbn [length] in L. destruct (index_time [0; 1] 0) as [|[|k]]; [reflexivity| |lia].
    specialize (A 0%nat ltac:(cbn; lia)). cbn [nth] in A. rewrite !Rabs_right in A by lra. lra. }
  unfold select. cbn [map fst length]. rewrite X, Y. cbn [Nat.sub Nat.add skipn firstn map snd].
  unfold isotropy_dissipation, mean, sum2, budget_at. cbn [length map sum_list fold_right sumn INR String.eqb Ascii.eqb Bool.eqb Nat.eqb andb Nat.sub].
  split; [|split; [|lra]].
  - destruct (Req_EM_T _ _) as [E|_]; [exfalso; cbn in E; lra|]. f_equal. cbn. field.
  - destruct (Req_EM_T _ _) as [E|_]; [exfalso; cbn in E; lra|]. f_equal. cbn. field.
Qed.

Example c153_example : let d := mkData [(0, fun _ => 1); (2, fun _ => 3)] [(0, fun _ _ => 1)] [(0, fun _ _ _ => 1)] in
  d_means d <> [] /\ d_spectra d <> [] /\ increasing (map fst (d_means d)) /\ increasing (map fst (d_spectra d)) /\ 0 <= 1.
Proof.
  cbn zeta. split; [discriminate|]. split; [discriminate|]. split; [intros [|[|i]] [|[|j]] Hi Hj; cbn in Hj |- *; try lia; lra|].
  split; [intros i j Hi Hj; cbn in Hj; lia|lra].
Qed.

(** ** C154 *)

Lemma same_key_eq a b : same_key a b = true <-> a = b.
Proof.
  destruct a as [[x y] s], b as [[x' y'] s']. unfold same_key.
  destruct (Req_EM_T x x') as [->|E]; [|split; [discriminate|intros X; injection X; intros; congruence]].
  destruct (Req_EM_T y y') as [->|E]; [|split; [discriminate|intros X; injection X; intros; congruence]].
  cbn [andb]. destruct s as [u|], s' as [v|].
  - rewrite String.eqb_eq. split; [intros ->; reflexivity|intros X; injection X; intros; assumption].
  - split; discriminate.
  - split; discriminate.
  - split; reflexivity.
Qed.

Lemma cached_in c k v : cached c k = Some v -> In (k, v) c.
Proof.
  induction c as [|[k' v'] c IH]; [discriminate|]. cbn. destruct (same_key k k') eqn:E.
  - intros X. injection X as ->. left. apply same_key_eq in E. now subst.
  - intros X. right. apply IH. exact X.
Qed.
Lemma store_in c k v k' v' : In (k', v') (store c k v) -> (k', v') = (k, v) \/ In (k', v') c.
Proof.
  induction c as [|[k1 v1] c IH]; cbn; [intros [X|X]; [left; now symmetry|contradiction]|].
  destruct (same_key k k1) eqn:E.
  - apply same_key_eq in E. subst k1. intros [X|X]; [left; now symmetry|right; right; exact X].
  - intros [X|X]; [right; left; exact X|]. destruct (IH X) as [Y|Y]; [left; exact Y|right; right; exact Y].
Qed.

(** what the call would give without cache *)
Definition fresh (g : grids) (d : data) (t_start t_last : R) (tmin tmax : limit) (f : option customize) : option values :=
  match get_mean_values g d t_start t_last [] tmin tmax false f with Some (v, _) => Some v | None => None end.

(** the calls in the life of a directory: the simulation can be continued between the calls, the functions are determined
    by their source, tmax is before the last saved times *)
Inductive history (g : grids) (source : string -> values -> values) : data -> cache_dir -> Prop :=
| h_start d : history g source d []
| h_more d d' c : history g source d c -> more_data d d' -> history g source d' c
| h_call d c t_start t_last tmin tmax use_cache f v c' : history g source d c ->
    (forall s h, f = Some (s, h) -> h = source s) ->
    (forall x y, resolve_min t_start t_last tmin = Some x -> resolve_max t_start t_last tmax = Some y -> x <= y /\ covers_data d y) ->
    get_mean_values g d t_start t_last c tmin tmax use_cache f = Some (v, c') -> history g source d c'.

Definition apply (source : string -> values -> values) (s : option string) (v : values) : values := match s with None => v | Some s => source s v end.

Lemma covers_more {A : Type} (l l' : list (R * A)) t : more l l' -> covers l t -> covers l' t.
Proof. intros (new & -> & _) (r & Hr & T). exists r. split; [apply in_or_app; left; exact Hr|exact T]. Qed.
Lemma covers_more_data d d' t : more_data d d' -> covers_data d t -> covers_data d' t.
Proof. intros (M1 & M2 & M3) (C1 & C2 & C3). split; [|split]; eapply covers_more; eassumption. Qed.

Lemma same_values_trans a b c : same_values a b -> same_values b c -> same_values a c.
Proof. intros (A1 & A2 & A3) (B1 & B2 & B3). unfold same_values. rewrite A1, A2, A3. split; [assumption|]. split; assumption. Qed.
Lemma same_values_refl a : same_values a a.
Proof. split; [reflexivity|]. split; reflexivity. Qed.
Lemma same_values_sym a b : same_values a b -> same_values b a.
Proof. intros (A1 & A2 & A3). unfold same_values. rewrite A1, A2, A3. split; [reflexivity|]. split; reflexivity. Qed.

Section History.
Variable g : grids.
Variable source : string -> values -> values.
Hypothesis congr : forall s v v', same_values v v' -> same_values (source s v) (source s v').

Lemma apply_congr s v v' : same_values v v' -> same_values (apply source s v) (apply source s v').
Proof. destruct s; cbn; [apply congr|trivial]. Qed.

Lemma history_valid d c : history g source d c -> forall x y s v, In (x, y, s, v) c ->
  x <= y /\ covers_data d y /\ same_values v (apply source s (compute_mean_values g d x y)).
Proof.
  induction 1 as [d|d d' c H IH M|d c t_start t_last tmin tmax use_cache f v c' H IH Hf Ht G]; intros x y s w Hw.
  - contradiction.
  - destruct (IH x y s w Hw) as (A & B & C). split; [exact A|]. split; [apply (covers_more_data d); assumption|].
    eapply same_values_trans; [exact C|]. apply apply_congr. apply same_values_sym. apply c153_window_partial; assumption.
  - unfold get_mean_values in G. destruct (resolve_min t_start t_last tmin) as [x0|] eqn:Ex; [|discriminate].
    destruct (resolve_max t_start t_last tmax) as [y0|] eqn:Ey; [|discriminate]. destruct (Ht x0 y0 eq_refl eq_refl) as [T C].
    destruct (if use_cache then _ else None) as [v0|]; injection G as <- <-.
    + apply IH. exact Hw.
    + apply store_in in Hw. destruct Hw as [Hw|Hw]; [|apply IH; exact Hw]. injection Hw as -> -> -> ->.
      split; [exact T|]. split; [exact C|]. destruct f as [[s0 h]|]; cbn [fst snd apply]; [rewrite (Hf s0 h eq_refl)|]; apply same_values_refl.
Qed.
End History.

(** the values given by the cache are those which would be computed again, but for I_dissipation *)
Theorem c154_cache_partial : forall (g : grids) (source : string -> values -> values) (d : data) (c : cache_dir),
  (forall s v v', same_values v v' -> same_values (source s v) (source s v')) -> history g source d c ->
  forall t_start t_last tmin tmax use_cache f v c', (forall s h, f = Some (s, h) -> h = source s) ->
  get_mean_values g d t_start t_last c tmin tmax use_cache f = Some (v, c') ->
  exists w, fresh g d t_start t_last tmin tmax f = Some w /\ same_values v w /\ (use_cache = false -> v = w).
Proof.
  intros g source d c Cg H t_start t_last tmin tmax use_cache f v c' Hf G. unfold fresh. unfold get_mean_values in *.
  destruct (resolve_min t_start t_last tmin) as [x|]; [|discriminate]. destruct (resolve_max t_start t_last tmax) as [y|]; [|discriminate].
  eexists. split; [reflexivity|].
  destruct use_cache.
  - destruct (cached c _) as [v0|] eqn:E; injection G as <- <-.
    + split; [|discriminate]. apply cached_in in E. destruct (history_valid g source Cg d c H _ _ _ _ E) as (_ & _ & S).
      destruct f as [[s h]|]; cbn [fst snd apply] in *; [rewrite (Hf s h eq_refl)|]; exact S.
    + split; [apply same_values_refl|reflexivity].
  - injection G as <- <-. split; [apply same_values_refl|reflexivity].
Qed.

(** the same values again for the same call, and an error exactly for a text which is not t_start+... or t_last-... *)
Theorem c154_again : forall (g : grids) (d d' : data) (t_start t_last : R) (c : cache_dir) (tmin tmax : limit) (use_cache : bool) (f f' : option customize) (v : values) (c' : cache_dir),
  match f, f' with None, None => True | Some (s, _), Some (s', _) => s = s' | _, _ => False end ->
  get_mean_values g d t_start t_last c tmin tmax use_cache f = Some (v, c') ->
  get_mean_values g d' t_start t_last c' tmin tmax true f' = Some (v, c').
Proof.
  intros g d d' t_start t_last c tmin tmax use_cache f f' v c' Hf G. unfold get_mean_values in *.
  destruct (resolve_min t_start t_last tmin) as [x|]; [|discriminate]. destruct (resolve_max t_start t_last tmax) as [y|]; [|discriminate].
  assert (K : match f' with Some f0 => Some (fst f0) | None => None end = match f with Some f0 => Some (fst f0) | None => None end).
  { destruct f as [[s h]|], f' as [[s' h']|]; try contradiction; cbn; [now rewrite Hf|reflexivity]. }
  rewrite K. set (k := (x, y, match f with Some f0 => Some (fst f0) | None => None end)) in *.
  assert (CS : forall c w, cached (store c k w) k = Some w).
  { clearbody k. clear. induction c as [|[k1 v1] c IH]; intros w; cbn [cached store].
    - destruct (same_key k k) eqn:E; [reflexivity|]. exfalso. assert (same_key k k = true) by (apply same_key_eq; reflexivity). congruence.
    - destruct (same_key k k1) eqn:E; cbn [cached]; rewrite E; [reflexivity|apply IH]. }
  destruct use_cache.
  - destruct (cached c k) as [v0|] eqn:E; injection G as <- <-; [rewrite E; reflexivity|rewrite CS; reflexivity].
  - injection G as <- <-. rewrite CS. reflexivity.
Qed.

Theorem c154_limits : forall (g : grids) (d : data) (t_start t_last : R) (tmin tmax : limit) (f : option customize),
  (fresh g d t_start t_last tmin tmax f = None <-> tmin = LOther \/ tmax = LOther)
  /\ (forall x y, tmin = LTime x -> tmax = LTime y -> fresh g d t_start t_last tmin tmax None = Some (compute_mean_values g d x y))
  /\ (forall x y s h, fresh g d t_start t_last (LTime x) (LTime y) (Some (s, h)) = Some (h (compute_mean_values g d x y)))
  /\ fresh g d t_start t_last LNone LNone None = Some (compute_mean_values g d t_start t_last)
  /\ (forall x y, fresh g d t_start t_last (LStart x) (LLast y) None = Some (compute_mean_values g d (t_start + x) (t_last - y)))
  /\ (forall x y, fresh g d t_start t_last (LLast x) (LStart y) None = Some (compute_mean_values g d (t_last - x) (t_start + y))).
Proof.
  intros. split.
  - unfold fresh, get_mean_values. destruct tmin, tmax; cbn; split; intros H; try discriminate; try reflexivity; try (destruct H; discriminate); auto.
  - split; [intros x y -> ->; reflexivity|]. split; [intros; reflexivity|]. split; [reflexivity|]. split; intros; reflexivity.
Qed.

(** tmax after the last saved time, simulation continued: the cached values are those of the short simulation *)
Theorem c154_stale_refuted : exists (g : grids) (d d' : data) (c' : cache_dir) (v w : values), more_data d d'
  /\ get_mean_values g d 0 0 [] (LTime 0) (LTime 10) true None = Some (v, c')
  /\ get_mean_values g d' 0 10 c' (LTime 0) (LTime 10) true None = Some (v, c')
  /\ fresh g d' 0 10 (LTime 0) (LTime 10) None = Some w
  /\ v_means v "epsK"%string = 1 /\ v_means w "epsK"%string = 2.
Proof.
  set (d := mkData [(0, fun _ => 1)] [(0, fun _ _ => 1)] [(0, fun _ _ _ => 1)]).
  set (d' := mkData [(0, fun _ => 1); (10, fun _ => 3)] [(0, fun _ _ => 1)] [(0, fun _ _ _ => 1)]).
  set (g := mkGrids 2 2 2 2 INR INR INR INR 1 0).
  exists g, d, d', [((0, 10, None), compute_mean_values g d 0 10)], (compute_mean_values g d 0 10), (compute_mean_values g d' 0 10).
  assert (I1 : increasing [0]) by (intros i j Hi Hj; cbn in Hj; lia).
  split. { split; [exists [(10, fun _ => 3)]; split; [reflexivity|]; intros [|[|i]] [|[|j]] Hi Hj; cbn in Hj |- *; try lia; lra|].
    split; exists []; (split; [reflexivity|exact I1]). }
  split; [reflexivity|]. split.
  { unfold get_mean_values. cbn [resolve_min resolve_max cached]. assert (E : same_key (0, 10, None) (0, 10, None) = true) by (apply same_key_eq; reflexivity). rewrite E. reflexivity. }
  split; [reflexivity|].
  assert (X : forall t, index_time [0] t = O).
  { intros t. destruct (index_time_spec [0] t ltac:(discriminate)) as [[L _] _]. cbn [length] in L. lia. }
  assert (Y : index_time [0; 10] 0 = O).
  { destruct (index_time_spec [0; 10] 0 ltac:(discriminate)) as [[L A] _]. cbn [length] in L. destruct (index_time [0; 10] 0) as [|[|k]]; [reflexivity| |lia].
    specialize (A 0%nat ltac:(cbn; lia)). cbn [nth] in A. rewrite !Rabs_right in A by lra. lra. }
  assert (Z : index_time [0; 10] 10 = 1%nat).
  { destruct (index_time_spec [0; 10] 10 ltac:(discriminate)) as [[L A] _]. cbn [length] in L. destruct (index_time [0; 10] 10) as [|[|k]]; [|reflexivity|lia].
    specialize (A 1%nat ltac:(cbn; lia)). cbn [nth] in A. rewrite Rabs_left, Rabs_right in A by lra. lra. }
  unfold compute_mean_values. cbn [v_means]. unfold select. cbn [d d' d_means map fst length]. rewrite !X, Y, Z.
  cbn [Nat.sub Nat.add skipn firstn map snd]. unfold mean. cbn [map sum_list fold_right length INR]. split; lra.
Qed.

(** two functions with the same source (closures, for example in a loop): the second one is not applied *)
Theorem c154_closure_refuted : exists (g : grids) (d : data) (f f' : customize) (c' : cache_dir) (v w : values), fst f = fst f'
  /\ get_mean_values g d 0 0 [] LNone LNone true (Some f) = Some (v, c')
  /\ get_mean_values g d 0 0 c' LNone LNone true (Some f') = Some (v, c')
  /\ fresh g d 0 0 LNone LNone (Some f') = Some w /\ v_means v "N"%string <> v_means w "N"%string.
Proof.
  set (d := mkData [(0, fun _ => 1)] [(0, fun _ _ => 1)] [(0, fun _ _ _ => 1)]). set (g := mkGrids 2 2 2 2 INR INR INR INR 1 0).
  set (h := fun (x : R) (v : values) => mkValues (fun _ => x) (v_velocity v) (v_lengths v) (v_dissipation v)).
  exists g, d, ("lambda"%string, h 1), ("lambda"%string, h 2), [((0, 0, Some "lambda"%string), h 1 (compute_mean_values g d 0 0))], (h 1 (compute_mean_values g d 0 0)), (h 2 (compute_mean_values g d 0 0)).
  split; [reflexivity|]. split; [reflexivity|]. split.
  { unfold get_mean_values. cbn [resolve_min resolve_max cached fst]. assert (E : same_key (0, 0, Some "lambda"%string) (0, 0, Some "lambda"%string) = true) by (apply same_key_eq; reflexivity). rewrite E. reflexivity. }
  split; [reflexivity|]. cbn. lra.
Qed.

Example c154_example : let d := mkData [(0, fun _ => 1); (2, fun _ => 3)] [(0, fun _ _ => 1); (2, fun _ _ => 1)] [(0, fun _ _ _ => 1); (2, fun _ _ _ => 1)] in
  0 <= 1 /\ covers_data d 1 /\ history (mkGrids 2 2 2 2 INR INR INR INR 1 0) (fun _ v => v) d [].
Proof.
  cbn zeta. split; [lra|]. split; [|constructor].
  split; [eexists; split; [right; left; reflexivity|cbn; lra]|]. split; eexists; (split; [right; left; reflexivity|cbn; lra]).
Qed.

Print Assumptions c149_lengths_partial.
Print Assumptions c149_domain_refuted.
Print Assumptions c150_coefficient_partial.
Print Assumptions c150_isotropic_refuted.
Print Assumptions c151_coefficient_partial.
Print Assumptions c151_hyper_refuted.
Print Assumptions c152_fluxes.
Print Assumptions c152_signs.
Print Assumptions c153_window_partial.
Print Assumptions c153_averages_partial.
Print Assumptions c153_dissipation_refuted.
Print Assumptions c154_cache_partial.
Print Assumptions c154_again.
Print Assumptions c154_limits.
Print Assumptions c154_stale_refuted.
Print Assumptions c154_closure_refuted.
