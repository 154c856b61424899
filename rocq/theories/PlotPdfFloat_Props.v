(** Theorems on the separations of plot_pdf in double precision (C299) *)

From Coq Require Import Reals Lra ZArith Lia List Arith.
From Flocq Require Import Core.Core IEEE754.BinarySingleNaN.
From Verif Require Import Float64_Model Float64_Props Float64Saves_Props Float64Slots_Props PlotPdfFloat_Model.
Import ListNotations.
Local Open Scope R_scope.
Local Notation fexp := (FLT_exp (-1074) 53).
Local Notation rnd := (round radix2 fexp ZnearestE).
Definition P53'' : Prec_gt_0 53 := eq_refl.

(** ** Lemmas *)

Lemma bpow_quot e : bpow radix2 e = IZR (2 ^ Z.max e 0) / IZR (2 ^ Z.max (- e) 0).
Proof.
  change 2%Z with (radix_val radix2). rewrite !IZR_Zpower by lia. unfold Rdiv. rewrite <- bpow_opp, <- bpow_plus. f_equal. lia.
Qed.

Lemma nat_of_value x k : is_finite x = true -> 0 <= B2R x ->
  (IZR (Z.of_nat k) <= B2R x < IZR (Z.of_nat k) + 1 -> trunc_nat x = k)
  /\ (IZR (Z.of_nat k) - 1 < B2R x <= IZR (Z.of_nat k) -> ceil_nat x = k).
Proof.
  intros F P. destruct x as [s|s| |s m e h]; try discriminate.
  - cbn. split; intros H.
    + assert (Z.of_nat k <= 0)%Z by (apply le_IZR; lra). lia.
    + assert (Z.of_nat k - 1 < 0)%Z by (apply lt_IZR; rewrite minus_IZR; lra). lia.
  - assert (s = false) as ->.
    { destruct s; [exfalso|reflexivity]. unfold B2R in P. pose proof (F2R_lt_0 radix2 (Float radix2 (Zneg m) e) ltac:(reflexivity)).
      cbn [cond_Zopp Z.opp] in P. lra. }
    assert (V : B2R (@B754_finite prec emax false m e h) = IZR (Zpos m * 2 ^ Z.max e 0) / IZR (2 ^ Z.max (- e) 0)).
    { unfold B2R, F2R. cbn [cond_Zopp Fnum Fexp]. rewrite bpow_quot, mult_IZR. unfold Rdiv. ring. }
    unfold trunc_nat, ceil_nat. cbn [B2SF]. rewrite V. clear V P F h. set (A := (Zpos m * 2 ^ Z.max e 0)%Z). set (Q := (2 ^ Z.max (- e) 0)%Z).
    assert (Q0 : (0 < Q)%Z) by (apply Z.pow_pos_nonneg; lia). assert (Q0' : 0 < IZR Q) by (apply IZR_lt; exact Q0).
    assert (E : IZR A = IZR A / IZR Q * IZR Q) by (field; lra). set (q := IZR A / IZR Q) in *.
    split; intros [H1 H2].
    + assert (L1 : (Z.of_nat k * Q <= A)%Z) by (apply le_IZR; rewrite mult_IZR; nra).
      assert (L2 : (A < (Z.of_nat k + 1) * Q)%Z) by (apply lt_IZR; rewrite mult_IZR, plus_IZR; nra).
      rewrite <- (Z.div_unique A Q (Z.of_nat k) (A - Q * Z.of_nat k)); [lia|left; nia|ring].
    + assert (L1 : ((Z.of_nat k - 1) * Q < A)%Z) by (apply lt_IZR; rewrite mult_IZR, minus_IZR; nra).
      assert (L2 : (A <= Z.of_nat k * Q)%Z) by (apply le_IZR; rewrite mult_IZR; nra).
      rewrite <- (Z.div_unique (- A) Q (- Z.of_nat k) (- A + Q * Z.of_nat k)); [lia|left; nia|ring].
Qed.

Lemma of_nat_value n : (Z.of_nat n < 2 ^ 53)%Z -> B2R (of_nat n) = IZR (Z.of_nat n) /\ is_finite (of_nat n) = true.
Proof.
  intros H. unfold of_nat. pose proof (binary_normalize_correct prec emax prec_pos prec_emax mode_NE (Z.of_nat n) 0 false) as C. cbv zeta in C.
  assert (G : F2R (Float radix2 (Z.of_nat n) 0) = IZR (Z.of_nat n)) by (unfold F2R; cbn; ring). rewrite G in C.
  change (round radix2 (SpecFloat.fexp prec emax) (round_mode mode_NE) (IZR (Z.of_nat n))) with (rnd (IZR (Z.of_nat n))) in C.
  rewrite fmt_IZR in C by lia. rewrite Rlt_bool_true in C; [tauto|].
  rewrite Rabs_pos_eq by (apply IZR_le; lia). apply Rlt_le_trans with (bpow radix2 53).
  - rewrite <- IZR_Zpower by lia. apply IZR_lt. exact H.
  - apply bpow_le. unfold emax. lia.
Qed.

(** the rounded fifth *)
Lemma fifth n : (0 < n < 2 ^ 31)%Z -> let s := rnd (IZR n / 5) in
  Rabs (s - IZR n / 5) <= / 8388608 /\ IZR n < s * (5 + / 2251799813685248).
Proof.
  intros H. cbv zeta. set (x := IZR n / 5). assert (Hn : 1 <= IZR n < 2147483648) by (split; [apply IZR_le|apply IZR_lt]; lia).
  assert (X : / 5 <= x < 2147483648) by (unfold x; lra).
  destruct (mag radix2 x) as [g Hg] eqn:Eg. assert (Mx : mag radix2 x = g :> Z) by (rewrite Eg; reflexivity).
  clear Eg. specialize (Hg ltac:(lra)). rewrite Rabs_pos_eq in Hg by lra.
  assert (G1 : (g <= 31)%Z).
  { assert (bpow radix2 (g - 1) < bpow radix2 31) by (change (bpow radix2 31) with 2147483648; lra). apply lt_bpow in H0. lia. }
  assert (G2 : (-3 < g)%Z).
  { apply (lt_bpow radix2). change (bpow radix2 (-3)) with (/ 8). lra. }
  assert (Ce : cexp radix2 fexp x = (g - 53)%Z) by (unfold cexp, FLT_exp; rewrite Mx; lia).
  unfold round, scaled_mantissa. rewrite Ce. set (e := (g - 53)%Z) in *. unfold F2R. cbn [Fnum Fexp].
  set (y := x * bpow radix2 (- e)). set (M := ZnearestE y).
  pose proof (Znearest_half (fun z => negb (Z.even z)) y) as Hh. fold M in Hh. apply Rabs_le_inv in Hh.
  pose proof (bpow_gt_0 radix2 e) as be.
  assert (Ey : x = y * bpow radix2 e) by (unfold y; rewrite Rmult_assoc, <- bpow_plus; replace (- e + e)%Z with 0%Z by lia; cbn; ring).
  assert (Y : 4503599627370496 <= y).
  { change 4503599627370496 with (bpow radix2 52). unfold y. apply Rmult_le_reg_r with (bpow radix2 e); [exact be|].
    rewrite Rmult_assoc, <- !bpow_plus. replace (52 + e)%Z with (g - 1)%Z by (unfold e; lia). replace (- e + e)%Z with 0%Z by lia. cbn [bpow]. lra. }
  assert (EN : 5 * y = IZR (n * 2 ^ (- e - 2) * 4)).
  { rewrite !mult_IZR. change 2%Z with (radix_val radix2) at 1. rewrite IZR_Zpower by (unfold e; lia).
    unfold y, x. replace (bpow radix2 (- e)) with (bpow radix2 (- e - 2) * 4); [field|].
    change 4 with (bpow radix2 2). rewrite <- bpow_plus. f_equal. lia. }
  set (N4 := (n * 2 ^ (- e - 2))%Z) in *.
  assert (be2 : bpow radix2 e <= / 4194304) by (change (/ 4194304) with (bpow radix2 (-22)); apply bpow_le; unfold e; lia).
  split.
  - rewrite Ey. replace (IZR M * bpow radix2 e - y * bpow radix2 e) with ((IZR M - y) * bpow radix2 e) by ring.
    rewrite Rabs_mult, (Rabs_pos_eq (bpow radix2 e)) by lra. assert (Rabs (IZR M - y) <= / 2) by (apply Rabs_le; lra).
    pose proof (Rabs_pos (IZR M - y)). nra.
  - assert (D : (N4 * 4 - 5 * M <= 2)%Z).
    { enough (N4 * 4 - 5 * M < 3)%Z by lia. apply lt_IZR. rewrite minus_IZR, <- EN, mult_IZR. lra. }
    assert (M1 : (4503599627370496 <= M)%Z).
    { enough (4503599627370495 < M)%Z by lia. apply lt_IZR. lra. }
    assert (S : 5 * y < IZR M * (5 + / 2251799813685248)).
    { rewrite EN. assert (Dr : IZR (N4 * 4) - 5 * IZR M <= 2) by (rewrite <- mult_IZR, <- minus_IZR; apply IZR_le; exact D).
      destruct (Z.eq_dec M 4503599627370496) as [->|NE].
      - assert (N4 * 4 - 5 * 4503599627370496 <= 0)%Z by lia.
        assert (IZR (N4 * 4) <= 22517998136852480) by (apply IZR_le; lia). lra.
      - assert (4503599627370497 <= IZR M) by (apply IZR_le; lia). lra. }
    replace (IZR n) with (5 * x) by (unfold x; field). rewrite Ey. nra.
Qed.

Lemma rnd_ge_int k y : (Z.abs k < 2 ^ 53)%Z -> IZR k <= y -> IZR k <= rnd y.
Proof. intros K H. rewrite <- (fmt_IZR k K). apply round_le; [apply FLT_exp_valid; exact P53''|apply valid_rnd_N|exact H]. Qed.

Lemma rnd_le_16 k y : (Z.abs k < 2 ^ 53)%Z -> y <= IZR k / 16 -> rnd y <= IZR k / 16.
Proof.
  intros K H. apply round_le_generic; [apply FLT_exp_valid; exact P53''|apply valid_rnd_N| |exact H].
  apply (fmt_dyadic _ k (-4)); [|exact K]. split; [change (bpow radix2 (-4)) with (/ 16); reflexivity|lia].
Qed.

(** a number slightly larger than 5 is rounded to 5 *)
Lemma rnd_5 y : y < 5 + / 2251799813685248 -> rnd y <= 5.
Proof.
  intros H. assert (F5 : generic_format radix2 fexp 5) by (apply (fmt_dyadic _ 5 0); [split; [cbn; lra|lia]|lia]).
  apply round_N_le_midp; [apply FLT_exp_valid; exact P53''|exact F5|].
  rewrite succ_eq_pos by lra. rewrite ulp_neq_0 by lra. unfold cexp.
  rewrite (mag_unique radix2 5 3) by (rewrite Rabs_pos_eq by lra; cbn; lra).
  change (FLT_exp (-1074) 53 3) with (-50)%Z. change (bpow radix2 (-50)) with (/ 1125899906842624). lra.
Qed.

Lemma small_not_huge y : Rabs y <= 4503599627370496 -> not_huge y.
Proof. intros H. unfold not_huge. pose proof b1023_big. lra. Qed.

Lemma div_value (x y : float) : is_finite x = true -> B2R y <> 0 -> Rabs (B2R x / B2R y) <= 4503599627370496 ->
  B2R (Bdiv mode_NE x y) = rnd (B2R x / B2R y) /\ is_finite (Bdiv mode_NE x y) = true.
Proof.
  intros F N H. pose proof (Bdiv_correct prec emax prec_pos prec_emax mode_NE x y N) as D.
  change (round radix2 (SpecFloat.fexp prec emax) (round_mode mode_NE) (B2R x / B2R y)) with (rnd (B2R x / B2R y)) in D.
  rewrite Rlt_bool_true in D by exact (rnd_not_huge _ (small_not_huge _ H)). destruct D as (D1 & D2 & _). split; [exact D1|exact (eq_trans D2 F)].
Qed.

Lemma mult_value (x y : float) : is_finite x = true -> is_finite y = true -> Rabs (B2R x * B2R y) <= 4503599627370496 ->
  B2R (Bmult mode_NE x y) = rnd (B2R x * B2R y) /\ is_finite (Bmult mode_NE x y) = true.
Proof.
  intros F G H. pose proof (Bmult_correct prec emax prec_pos prec_emax mode_NE x y) as D.
  change (round radix2 (SpecFloat.fexp prec emax) (round_mode mode_NE) (B2R x * B2R y)) with (rnd (B2R x * B2R y)) in D.
  rewrite Rlt_bool_true in D by exact (rnd_not_huge _ (small_not_huge _ H)). destruct D as (D1 & D2 & _). split; [exact D1|].
  etransitivity; [exact D2|]. rewrite F, G. reflexivity.
Qed.

Lemma read_out valmin l i : In i l -> (length valmin <= i)%nat -> read valmin l = None.
Proof.
  induction l as [|j l IH]; intros I H; [destruct I|]. cbn [read]. destruct I as [->|I].
  - apply nth_error_None in H. rewrite H. reflexivity.
  - rewrite (IH I H). destruct (nth_error valmin j); reflexivity.
Qed.

(** ** C299 *)

(** the default number of curves: the indices of the floats are the exact ones, for all numbers of separations *)
Theorem c299_float_default : forall n, (0 < n)%nat -> (Z.of_nat n < 2 ^ 31)%Z ->
  irx_float n 5 = map (fun k => (k * n / 5)%nat) [0; 1; 2; 3; 4]%nat.
Proof.
  intros n P L. set (N := Z.of_nat n) in *. assert (N1 : (0 < N)%Z) by lia.
  assert (Nr : 1 <= IZR N <= 2147483648) by (split; apply IZR_le; lia).
  destruct (of_nat_value n ltac:(fold N; lia)) as [Vn Fn]. destruct (of_nat_value 5 ltac:(lia)) as [V5 F5]. fold N in Vn.
  change (IZR (Z.of_nat 5)) with 5 in V5.
  destruct (div_value (of_nat n) (of_nat 5)) as [Vs Fs]; [exact Fn|rewrite V5; lra|rewrite Vn, V5, Rabs_pos_eq; lra|].
  rewrite Vn, V5 in Vs. unfold irx_float. set (step := Bdiv mode_NE (of_nat n) (of_nat 5)) in *.
  destruct (fifth N ltac:(lia)) as [E1 E2]. rewrite <- Vs in E1, E2. apply Rabs_le_inv in E1. set (s := B2R step) in *.
  assert (s0 : 0 < s <= 2147483648) by (split; lra).
  assert (Q1 : IZR N / s < 5 + / 2251799813685248) by (apply Rmult_lt_reg_r with s; [lra|]; replace (IZR N / s * s) with (IZR N) by (field; lra); lra).
  assert (Q2 : 72 / 16 <= IZR N / s) by (apply Rmult_le_reg_r with s; [lra|]; replace (IZR N / s * s) with (IZR N) by (field; lra); lra).
  destruct (div_value (of_nat n) step) as [Vq Fq]; [exact Fn|fold s; lra|rewrite Vn; fold s; rewrite Rabs_pos_eq; lra|].
  rewrite Vn in Vq. fold s in Vq.
  assert (R1 : 72 / 16 <= rnd (IZR N / s)).
  { apply round_ge_generic; [apply FLT_exp_valid; exact P53''|apply valid_rnd_N| |exact Q2].
    apply (fmt_dyadic _ 72 (-4)); [|lia]. split; [change (bpow radix2 (-4)) with (/ 16); reflexivity|lia]. }
  pose proof (rnd_5 _ Q1) as R2.
  assert (C : ceil_nat (Bdiv mode_NE (of_nat n) step) = 5%nat).
  { apply nat_of_value; [exact Fq|rewrite Vq; lra|]. rewrite Vq. change (IZR (Z.of_nat 5)) with 5. lra. }
  rewrite C. change (seq 0 5) with [0; 1; 2; 3; 4]%nat. apply map_ext_in. intros i I.
  assert (Hi : (i <= 4)%nat) by (cbn in I; lia). clear I.
  destruct (of_nat_value i ltac:(lia)) as [Vi Fi]. set (J := Z.of_nat i) in *. assert (HJ : (0 <= J <= 4)%Z) by lia.
  assert (HJr : 0 <= IZR J <= 4) by (split; apply IZR_le; lia).
  destruct (mult_value (of_nat i) step Fi Fs) as [Vm Fm]; [rewrite Vi; fold s; rewrite Rabs_pos_eq; nra|].
  rewrite Vi in Vm. fold s in Vm.
  pose proof (Nat.div_mod (i * n) 5 ltac:(lia)) as DM. pose proof (Nat.mod_upper_bound (i * n) 5 ltac:(lia)) as MB.
  set (k := (i * n / 5)%nat) in *. set (r := ((i * n) mod 5)%nat) in *.
  assert (DZ : (J * N = 5 * Z.of_nat k + Z.of_nat r)%Z) by lia.
  assert (KB : (0 <= Z.of_nat k <= 2 ^ 33)%Z) by nia.
  assert (DR : IZR J * IZR N = 5 * IZR (Z.of_nat k) + IZR (Z.of_nat r)) by (rewrite <- !mult_IZR, <- plus_IZR; f_equal; exact DZ).
  assert (K0 : 0 <= IZR (Z.of_nat k)) by (apply IZR_le; lia).
  apply nat_of_value; [exact Fm| |]; rewrite Vm.
  { apply (rnd_ge_int 0); [lia|]. nra. }
  destruct (Nat.eq_dec r 0) as [R0|R0].
  - (* an exact product *)
    assert (X : IZR J * s = IZR (Z.of_nat k)).
    { rewrite R0 in DR. change (IZR (Z.of_nat 0)) with 0 in DR. destruct (Z.eq_dec J 0) as [J0|J0]; [assert (JR : IZR J = 0) by (rewrite J0; reflexivity); rewrite JR in DR |- *; lra|].
      assert (D5 : (N mod 5 = 0)%Z).
      { rewrite R0 in DZ. pose proof (Z.div_mod N 5 ltac:(lia)) as DN. pose proof (Z.mod_pos_bound N 5 ltac:(lia)) as DB. assert (J = 1 \/ J = 2 \/ J = 3 \/ J = 4)%Z as [W|[W|[W|W]]] by lia; rewrite W in DZ; clear - DZ DN DB; lia. }
      assert (E5 : N = (5 * (N / 5))%Z) by (pose proof (Z.div_mod N 5 ltac:(lia)); lia).
      assert (S5 : s = IZR (N / 5)).
      { rewrite Vs. rewrite E5 at 1. rewrite mult_IZR. replace (5 * IZR (N / 5) / 5) with (IZR (N / 5)) by field. apply fmt_IZR.
        rewrite Z.abs_eq by (apply Z.div_pos; lia). lia. }
      rewrite S5. apply (f_equal IZR) in E5. rewrite mult_IZR in E5. nra. }
    rewrite X, fmt_IZR by lia. lra.
  - assert (Rr : 1 <= IZR (Z.of_nat r) <= 4) by (split; apply IZR_le; lia).
    assert (Y : IZR (Z.of_nat k) + 3 / 16 <= IZR J * s <= IZR (Z.of_nat k) + 15 / 16) by (split; nra).
    split; [apply rnd_ge_int; [lia|lra]|].
    assert (B : rnd (IZR J * s) <= IZR (16 * Z.of_nat k + 15) / 16).
    { apply rnd_le_16; [lia|]. rewrite plus_IZR, mult_IZR. lra. }
    rewrite plus_IZR, mult_IZR in B. lra.
Qed.

(** 17 separations (nx = 34), 7 curves: n / (n / 7) is rounded to a number larger than 7, there are 8 indices and the last
    one, 17, is not an index of the separations: IndexError for all files *)
Theorem c299_float_refuted : exists n nb, (0 < nb <= 7)%nat /\ (nb <= n)%nat
  /\ irx_float n nb = [0; 2; 4; 7; 9; 12; 14; 17]%nat
  /\ forall valmin, length valmin = n -> read valmin (irx_float n nb) = None.
Proof.
  exists 17%nat, 7%nat. assert (E : irx_float 17 7 = [0; 2; 4; 7; 9; 12; 14; 17]%nat) by (vm_compute; reflexivity).
  split; [lia|]. split; [lia|]. split; [exact E|]. intros valmin L. rewrite E. apply read_out with (i := 17%nat); [cbn; auto 10|lia].
Qed.

(** with the default number of curves and the same file *)
Example c299_float_example : irx_float 17 5 = [0; 3; 6; 10; 13]%nat.
Proof. vm_compute. reflexivity. Qed.

Print Assumptions c299_float_refuted.
Print Assumptions c299_float_default.
