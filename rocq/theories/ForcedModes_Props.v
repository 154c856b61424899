(** * Forced modes of the random and proportional forcings: C260 and C261 *)

From Coq Require Import Reals Lra Lia Psatz ZArith List Bool.
From Flocq Require Import Core.Core.
From Verif Require Import ForcedModes_Model.
Import ListNotations.
Local Open Scope R_scope.

(** ** Specification: the wavevectors (ikx, iky, ikz), ikx >= 0, and their norm; the modes which are forced *)
Definition norm2 (dkx dky : R) (ikx iky : Z) : R := sqrt ((dkx * IZR ikx) ^ 2 + (dky * IZR iky) ^ 2).
Definition norm3 (dkx dky dkz : R) (ikx iky ikz : Z) : R := sqrt ((dkx * IZR ikx) ^ 2 + (dky * IZR iky) ^ 2 + (dkz * IZR ikz) ^ 2).

(** the position i of the wave number k on an axis of N points: k = i modulo N, -N/2 < k <= N/2 *)
Definition at_index (N i k : Z) : Prop := (0 <= i < N)%Z /\ (- (N / 2) < k <= N / 2)%Z /\ exists q, (k = i + q * N)%Z.

Definition forced2 (dkx dky kmin kmax : R) (N ikx iky : Z) : Prop :=
  (0 <= ikx <= N / 2)%Z /\ exists i0, at_index N i0 iky /\ cond_no_f2 dkx dky kmin kmax N i0 ikx = false.
Definition forced3 (dkx dky dkz kmin kmax : R) (N ikx iky ikz : Z) : Prop :=
  (0 <= ikx <= N / 2)%Z /\ exists i0 i1, at_index N i0 ikz /\ at_index N i1 iky /\ cond_no_f3 dkx dky dkz kmin kmax N i0 i1 ikx = false.

(** modes of the coarse grid which are not at its limits *)
Definition inside (N k : Z) : Prop := (2 * Z.abs k < N)%Z.

Lemma Rltb_false x y : Rltb x y = false <-> y <= x.
Proof. unfold Rltb. destruct (Rlt_dec x y); split; intros; lra || congruence. Qed.
Lemma Rltb_true x y : Rltb x y = true <-> x < y.
Proof. unfold Rltb. destruct (Rlt_dec x y); split; intros; lra || congruence. Qed.

Section Even.
Variable h : Z.
Hypothesis H0 : (0 < h)%Z.
Let N := (2 * h)%Z.

Lemma half : (N / 2 = h)%Z.
Proof. unfold N. rewrite Z.mul_comm. apply Z.div_mul. lia. Qed.

Lemma wavenumber_at i k : at_index N i k -> wavenumber N i = k.
Proof.
  intros (A & B & q & C). unfold wavenumber. rewrite half in *. unfold N in *. destruct (Z.leb_spec i h) as [L|L].
  - assert (q = 0)%Z by nia. lia.
  - assert (q = -1)%Z by nia. lia.
Qed.

Lemma at_exists k : inside N k -> exists i, at_index N i k /\ i <> (N / 2)%Z.
Proof.
  unfold inside, at_index. intros I. rewrite half. unfold N in *. destruct (Z_le_dec 0 k) as [L|L].
  - exists k. split; [|lia]. split; [lia|]. split; [lia|]. exists 0%Z. lia.
  - exists (k + 2 * h)%Z. split; [|lia]. split; [lia|]. split; [lia|]. exists (-1)%Z. lia.
Qed.

Lemma at_inside i k : at_index N i k -> i <> (N / 2)%Z -> inside N k.
Proof.
  intros (A & B & q & C) D. rewrite half in *. unfold inside, N in *.
  assert (k <> h)%Z; [intros ->; assert (q = 0 \/ q <> 0)%Z as [->|Q] by lia; [lia|nia]|]. lia.
Qed.

(** the modes which are forced are those of the shell which are inside of the coarse grid *)
Theorem c260_forced2 : forall dkx dky kmin kmax ikx iky, (0 <= ikx)%Z ->
  forced2 dkx dky kmin kmax N ikx iky <-> kmin <= norm2 dkx dky ikx iky <= kmax /\ inside N ikx /\ inside N iky.
Proof.
  intros dkx dky kmin kmax ikx iky P. unfold forced2, cond_no_f2. split.
  - intros (A & i0 & B & C). rewrite !orb_false_iff, !Rltb_false, !Z.eqb_neq in C. destruct C as (((C1 & C2) & C3) & C4).
    rewrite (wavenumber_at i0 iky B) in C1, C2. unfold norm2. cbn [pow]. rewrite !Rmult_1_r. split; [lra|].
    split; [unfold inside; rewrite half in *; unfold N in *; lia|apply (at_inside i0); assumption].
  - intros (S & I1 & I2). split; [rewrite half; unfold inside, N in *; lia|].
    destruct (at_exists iky I2) as (i0 & A & D). exists i0. split; [exact A|].
    rewrite !orb_false_iff, !Rltb_false, !Z.eqb_neq, (wavenumber_at i0 iky A). unfold norm2 in S. cbn [pow] in S. rewrite !Rmult_1_r in S.
    split; [split; [lra|exact D]|]. rewrite half in *. unfold inside, N in *. lia.
Qed.

Theorem c260_forced3 : forall dkx dky dkz kmin kmax ikx iky ikz, (0 <= ikx)%Z ->
  forced3 dkx dky dkz kmin kmax N ikx iky ikz
  <-> kmin <= norm3 dkx dky dkz ikx iky ikz <= kmax /\ inside N ikx /\ inside N iky /\ inside N ikz.
Proof.
  intros dkx dky dkz kmin kmax ikx iky ikz P. unfold forced3, cond_no_f3. split.
  - intros (A & i0 & i1 & B0 & B1 & C). rewrite !orb_false_iff, !Rltb_false, !Z.eqb_neq in C. destruct C as ((((C1 & C2) & C3) & C4) & C5).
    rewrite (wavenumber_at i0 ikz B0), (wavenumber_at i1 iky B1) in C1, C2. unfold norm3. cbn [pow]. rewrite !Rmult_1_r. split; [lra|].
    split; [unfold inside; rewrite half in *; unfold N in *; lia|]. split; [apply (at_inside i1)|apply (at_inside i0)]; assumption.
  - intros (S & I1 & I2 & I3). split; [rewrite half; unfold inside, N in *; lia|].
    destruct (at_exists ikz I3) as (i0 & A0 & D0). destruct (at_exists iky I2) as (i1 & A1 & D1). exists i0, i1. split; [exact A0|]. split; [exact A1|].
    rewrite !orb_false_iff, !Rltb_false, !Z.eqb_neq, (wavenumber_at i0 ikz A0), (wavenumber_at i1 iky A1). unfold norm3 in S. cbn [pow] in S. rewrite !Rmult_1_r in S.
    split; [split; [split; [lra|exact D0]|exact D1]|]. rewrite half in *. unfold inside, N in *. lia.
Qed.

(** ** Domains with equal edges *)
Lemma abs_le_sqrt x y : Rabs x <= sqrt (x ^ 2 + y ^ 2).
Proof. rewrite <- sqrt_Rsqr_abs. apply sqrt_le_1_alt. unfold Rsqr. nra. Qed.

Lemma shell_inside dk nkmax ik y : 0 < dk -> nkmax < IZR h -> sqrt ((dk * IZR ik) ^ 2 + y ^ 2) <= k_lim dk nkmax -> inside N ik.
Proof.
  intros P L S. pose proof (abs_le_sqrt (dk * IZR ik) y) as A. unfold k_lim in S. rewrite Rabs_mult, (Rabs_pos_eq dk) in A by lra.
  assert (B : Rabs (IZR ik) < IZR h) by nra. rewrite <- abs_IZR in B. apply lt_IZR in B. unfold inside, N. lia.
Qed.

(** all the modes of the shell are forced when half of the size of the coarse grid is larger than nkmax_forcing *)
Theorem c260_square_partial : forall dk nkmin nkmax ikx iky, 0 < dk -> nkmax < IZR h -> (0 <= ikx)%Z ->
  forced2 dk dk (k_lim dk nkmin) (k_lim dk nkmax) N ikx iky <-> dk * nkmin <= norm2 dk dk ikx iky <= dk * nkmax.
Proof.
  intros dk nkmin nkmax ikx iky P L X. rewrite c260_forced2 by exact X. unfold k_lim at 1 2. split; [tauto|]. intros S. split; [exact S|]. split.
  - apply (shell_inside dk nkmax ikx (dk * IZR iky)); [exact P|exact L|apply S].
  - apply (shell_inside dk nkmax iky (dk * IZR ikx)); [exact P|exact L|]. rewrite Rplus_comm. apply S.
Qed.

Theorem c260_cube_partial : forall dk nkmin nkmax ikx iky ikz, 0 < dk -> nkmax < IZR h -> (0 <= ikx)%Z ->
  forced3 dk dk dk (k_lim dk nkmin) (k_lim dk nkmax) N ikx iky ikz <-> dk * nkmin <= norm3 dk dk dk ikx iky ikz <= dk * nkmax.
Proof.
  intros dk nkmin nkmax ikx iky ikz P L X. rewrite c260_forced3 by exact X. unfold k_lim at 1 2. split; [tauto|]. intros S. split; [exact S|].
  set (a := dk * IZR ikx) in *. set (b := dk * IZR iky) in *. set (c := dk * IZR ikz) in *. unfold norm3 in S. fold a b c in S.
  assert (Q : forall u v, 0 <= v -> sqrt (u ^ 2 + (sqrt v) ^ 2) = sqrt (u ^ 2 + v)) by (intros u v V; rewrite pow2_sqrt by exact V; reflexivity).
  split; [|split].
  - apply (shell_inside dk nkmax ikx (sqrt (b ^ 2 + c ^ 2))); [exact P|exact L|]. fold a. rewrite Q by nra. rewrite <- Rplus_assoc. apply S.
  - apply (shell_inside dk nkmax iky (sqrt (a ^ 2 + c ^ 2))); [exact P|exact L|]. fold b. rewrite Q by nra. replace (b ^ 2 + (a ^ 2 + c ^ 2)) with (a ^ 2 + b ^ 2 + c ^ 2) by ring. apply S.
  - apply (shell_inside dk nkmax ikz (sqrt (a ^ 2 + b ^ 2))); [exact P|exact L|]. fold c. rewrite Q by nra. replace (c ^ 2 + (a ^ 2 + b ^ 2)) with (a ^ 2 + b ^ 2 + c ^ 2) by ring. apply S.
Qed.

(** when half of the size is nkmax_forcing, the modes of the axes at nkmax_forcing are missing, and only them *)
Theorem c260_limit_partial : forall dk nkmin ikx iky, 0 < dk -> (0 <= ikx)%Z ->
  forced2 dk dk (k_lim dk nkmin) (k_lim dk (IZR h)) N ikx iky
  <-> dk * nkmin <= norm2 dk dk ikx iky <= dk * IZR h /\ ~ (ikx = h /\ iky = 0)%Z /\ ~ (ikx = 0 /\ Z.abs iky = h)%Z.
Proof.
  intros dk nkmin ikx iky P X. rewrite c260_forced2 by exact X. unfold k_lim at 1 2. split.
  - intros (S & A & B). split; [exact S|]. unfold inside, N in *. lia.
  - intros (S & A & B). split; [exact S|].
    assert (Q : (ikx * ikx + iky * iky <= h * h)%Z).
    { apply le_IZR. rewrite plus_IZR, !mult_IZR. destruct S as (_ & S). unfold norm2 in S.
      apply (Rmult_le_reg_l (dk * dk)); [nra|]. assert (HH : 0 < IZR h) by (apply IZR_lt; exact H0).
      apply Rsqr_incr_1 in S; [|apply sqrt_pos|nra]. rewrite Rsqr_sqrt in S by nra. unfold Rsqr in S. nra. }
    unfold inside, N. nia.
Qed.
End Even.

(** ** The size of the coarse grid *)
Lemma pow_loop_ge fuel : forall x i, (0 <= i)%Z -> x <= IZR (2 ^ (i + Z.of_nat fuel)) -> x <= IZR (2 ^ pow_loop fuel x i) /\ (i <= pow_loop fuel x i)%Z.
Proof.
  induction fuel as [|n IH]; intros x i P L; cbn [pow_loop].
  - rewrite Z.add_0_r in L. split; [exact L|lia].
  - destruct (Rltb (IZR (2 ^ i)) x) eqn:E.
    + destruct (IH x (i + 1)%Z) as [A B]; [lia| |split; [exact A|lia]]. rewrite Nat2Z.inj_succ in L. replace (i + 1 + Z.of_nat n)%Z with (i + Z.succ (Z.of_nat n))%Z by lia. exact L.
    + apply Rltb_false in E. split; [exact E|lia].
Qed.

(** without pulp: a power of two which is not smaller than 2 nkmax_forcing *)
Theorem c261_fallback : forall nkmax, 0 < nkmax -> exists j, (0 <= j)%Z /\ fft_size None nkmax = (2 ^ j)%Z /\ 2 * nkmax <= IZR (fft_size None nkmax).
Proof.
  intros nkmax P. unfold fft_size. destruct (archimed (2 * nkmax)) as [U _].
  assert (U0 : (0 < up (2 * nkmax))%Z) by (apply lt_IZR; lra).
  destruct (pow_loop_ge (Z.to_nat (up (2 * nkmax))) (2 * nkmax) 0) as [A B]; [lia| |eexists; split; [exact B|split; [reflexivity|exact A]]].
  rewrite Z.add_0_l, Z2Nat.id by lia. apply Rle_trans with (IZR (up (2 * nkmax))); [lra|]. apply IZR_le.
  apply Z.lt_le_incl. apply Z.pow_gt_lin_r; lia.
Qed.

(** with fftw_grid_size (a size which is not smaller than its argument): even, and for an integer nkmax_forcing not smaller than 2 nkmax_forcing *)
Theorem c261_size : forall g (n : Z), (forall m, (0 < m)%Z -> (m <= g m)%Z) -> (0 < n)%Z ->
  fft_size (Some g) (IZR n) = (2 * g n)%Z /\ 2 * IZR n <= IZR (fft_size (Some g) (IZR n)).
Proof.
  intros g n G P. unfold fft_size. rewrite Zrnd_IZR by apply valid_rnd_N. split; [reflexivity|].
  rewrite mult_IZR. apply Rmult_le_compat_l; [lra|]. apply IZR_le. apply G. exact P.
Qed.

(** ** The initialisation *)
Lemma in_range n i : In i (range n) <-> (0 <= i < n)%Z.
Proof.
  unfold range. rewrite in_map_iff. split.
  - intros (k & <- & K). apply in_seq in K. lia.
  - intros H. exists (Z.to_nat i). split; [lia|]. apply in_seq. lia.
Qed.

(** a forcing which is accepted has a coarse grid smaller than the grid of the simulation and at least one forced mode *)
Theorem c261_accepted : forall g dkx dky nx ny nkmin nkmax N, init2 g dkx dky nx ny nkmin nkmax = Forced N <->
  nkmin <= nkmax /\ N = fft_size g nkmax /\ (N <= nx /\ N <= ny)%Z
  /\ exists i0 ikx, (0 <= i0 < N)%Z /\ (0 <= ikx <= N / 2)%Z
     /\ cond_no_f2 dkx dky (k_lim (Rmax dkx dky) nkmin) (k_lim (Rmax dkx dky) nkmax) N i0 ikx = false.
Proof.
  intros g dkx dky nx ny nkmin nkmax N. unfold init2. destruct (Rltb nkmax nkmin) eqn:E1.
  { apply Rltb_true in E1. split; [discriminate|intros (A & _); lra]. }
  apply Rltb_false in E1. set (M := fft_size g nkmax). unfold check_forcing_shape. cbn [forallb]. rewrite andb_true_r.
  destruct (M <=? ny)%Z eqn:Ey; [apply Z.leb_le in Ey|apply Z.leb_gt in Ey; cbn; split; [discriminate|intros (_ & -> & B & _); lia]].
  destruct (M <=? nx)%Z eqn:Ex; [apply Z.leb_le in Ex|apply Z.leb_gt in Ex; cbn; split; [discriminate|intros (_ & -> & B & _); lia]].
  cbn [andb negb].
  match goal with |- context [if ?b then _ else _] => destruct b eqn:E end.
  - split.
    + intros [= <-]. split; [exact E1|]. split; [reflexivity|]. split; [lia|].
      apply existsb_exists in E as (i0 & I0 & E). apply existsb_exists in E as (ikx & I1 & E). apply in_range in I0, I1.
      exists i0, ikx. split; [exact I0|]. split; [lia|]. apply negb_true_iff. exact E.
    + intros (_ & -> & _). reflexivity.
  - split; [discriminate|]. intros (_ & -> & _ & i0 & ikx & I0 & I1 & C). exfalso.
    apply not_true_iff_false in E. apply E. apply existsb_exists. exists i0. split; [apply in_range; exact I0|].
    apply existsb_exists. exists ikx. split; [apply in_range; lia|]. fold M. rewrite C. reflexivity.
Qed.

(** a coarse grid which is small enough: the forced modes are kept by the truncation of the simulation *)
Theorem c261_kept_partial : forall coef n h k, (0 < h)%Z -> inside (2 * h) k -> IZR (h - 1) <= coef * (IZR n / 2) -> axis_dealiased coef n k = false.
Proof.
  intros coef n h k H I L. unfold axis_dealiased. apply Rltb_false. rewrite <- abs_IZR. eapply Rle_trans; [|exact L]. apply IZR_le. unfold inside in I. lia.
Qed.

(** ** Counter-examples *)
(** Lx = 2 Ly, nkmax_forcing = 5: the mode ikx = 10 is in the shell and in the grid of the simulation (48 x 24), it is not forced *)
Theorem c260_refuted : exists dkx dky nx ny nkmin nkmax ikx iky, 0 < dkx /\ dky = 2 * dkx /\ (2 * ikx < nx)%Z /\
  k_lim (Rmax dkx dky) nkmin <= norm2 dkx dky ikx iky <= k_lim (Rmax dkx dky) nkmax /\
  forall g, (5 <= g 5 <= 10)%Z ->
    init2 (Some g) dkx dky nx ny nkmin nkmax = Forced (2 * g 5%Z)
    /\ ~ forced2 dkx dky (k_lim (Rmax dkx dky) nkmin) (k_lim (Rmax dkx dky) nkmax) (2 * g 5%Z) ikx iky.
Proof.
  exists 1, 2, 48%Z, 24%Z, 4, 5, 10%Z, 0%Z. split; [lra|]. split; [lra|]. split; [lia|].
  assert (M : Rmax 1 2 = 2) by (apply Rmax_right; lra). rewrite M. unfold k_lim.
  split.
  { unfold norm2. replace ((1 * 10) ^ 2 + (2 * 0) ^ 2) with (10 * 10) by ring. rewrite sqrt_square by lra. lra. }
  intros g G. split.
  - apply c261_accepted. split; [lra|]. unfold fft_size. rewrite Zrnd_IZR by apply valid_rnd_N. split; [reflexivity|]. split; [lia|].
    destruct (proj2 (c260_forced2 (g 5%Z) ltac:(lia) 1 2 (k_lim (Rmax 1 2) 4) (k_lim (Rmax 1 2) 5) 0 4 ltac:(lia))) as (A & i0 & (B & _) & C).
    + rewrite M. unfold k_lim, norm2. replace ((1 * 0) ^ 2 + (2 * 4) ^ 2) with (8 * 8) by ring. rewrite sqrt_square by lra. split; [lra|]. unfold inside. lia.
    + exists i0, 0%Z. split; [exact B|]. split; [exact A|exact C].
  - rewrite c260_forced2 by lia. intros (_ & I & _). unfold inside in I. lia.
Qed.

(** equal edges, nkmin_forcing = nkmax_forcing = 4: the simulation is refused ("0 modes forced") although the mode ikx = 4 is in the grid;
    with fftw_grid_size(4) = 4 and without it *)
Theorem c261_refuted : exists dk nx nkmin nkmax, 0 < dk /\ (32 <= nx)%Z /\ nkmin <= nkmax /\
  k_lim dk nkmin <= norm2 dk dk 4 0 <= k_lim dk nkmax /\
  forall g, g 4%Z = 4%Z -> init2 (Some g) dk dk nx nx nkmin nkmax = ValueError_0_modes /\ init2 None dk dk nx nx nkmin nkmax = ValueError_0_modes.
Proof.
  exists 1, 32%Z, 4, 4. split; [lra|]. split; [lia|]. split; [lra|]. unfold k_lim. split.
  { unfold norm2. replace ((1 * 4) ^ 2 + (1 * 0) ^ 2) with (4 * 4) by ring. rewrite sqrt_square by lra. lra. }
  assert (M : Rmax 1 1 = 1) by (apply Rmax_left; lra).
  assert (F : forall o, fft_size o 4 = 8%Z -> init2 o 1 1 32 32 4 4 = ValueError_0_modes).
  { intros o O. destruct (init2 o 1 1 32 32 4 4) as [| | |N] eqn:E; [exfalso|exfalso|reflexivity|exfalso].
    - unfold init2 in E. destruct (Rltb 4 4) eqn:L; [apply Rltb_true in L; lra|]. rewrite O in E. cbn [check_forcing_shape forallb Z.leb Z.compare Pos.compare Pos.compare_cont andb negb] in E.
      destruct (existsb _ _); discriminate.
    - unfold init2 in E. destruct (Rltb 4 4) eqn:L; [apply Rltb_true in L; lra|]. rewrite O in E. cbn [check_forcing_shape forallb Z.leb Z.compare Pos.compare Pos.compare_cont andb negb] in E.
      destruct (existsb _ _); discriminate.
    - apply c261_accepted in E as (_ & -> & _ & i0 & ikx & I0 & I1 & C). rewrite O, M in *. change (8 / 2)%Z with 4%Z in I1.
      assert (X : forced2 1 1 (k_lim 1 4) (k_lim 1 (IZR 4)) (2 * 4) ikx (wavenumber 8 i0)).
      { split; [exact I1|]. exists i0. split; [|exact C]. unfold at_index, wavenumber. change (8 / 2)%Z with 4%Z. change (2 * 4 / 2)%Z with 4%Z.
        destruct (Z.leb_spec i0 4); (split; [lia|]; split; [lia|]); [exists 0%Z|exists (-1)%Z]; lia. }
      apply (c260_limit_partial 4) in X; [|lia|lra|lia]. destruct X as ((L & U) & X1 & X2).
      assert (Q : norm2 1 1 ikx (wavenumber 8 i0) = 4) by lra. unfold norm2 in Q. apply (f_equal (fun x => x * x)) in Q.
      rewrite sqrt_sqrt in Q by nra. set (k := wavenumber 8 i0) in *.
      assert (QZ : (ikx * ikx + k * k = 16)%Z) by (apply eq_IZR; rewrite plus_IZR, !mult_IZR; lra).
      assert (Z.abs k <= 4)%Z by nia. assert (KC : (ikx = 0 \/ ikx = 1 \/ ikx = 2 \/ ikx = 3 \/ ikx = 4)%Z) by lia.
      destruct KC as [-> | [-> | [-> | [-> | ->]]]]; try (apply X2; split; [reflexivity|nia]); try (apply X1; split; [reflexivity|nia]).
      all: (assert (k = 0 \/ k = 1 \/ k = -1 \/ k = 2 \/ k = -2 \/ k = 3 \/ k = -3 \/ k = 4 \/ k = -4)%Z as K by lia); lia. }
  intros g G. split; apply F.
  - unfold fft_size. rewrite Zrnd_IZR by apply valid_rnd_N. rewrite G. reflexivity.
  - unfold fft_size. replace (up (2 * 4)) with 9%Z.
    + change (Z.to_nat 9) with 9%nat. cbn [pow_loop].
      change (2 ^ 0)%Z with 1%Z. change (2 ^ (0 + 1))%Z with 2%Z. change (2 ^ (0 + 1 + 1))%Z with 4%Z. change (2 ^ (0 + 1 + 1 + 1))%Z with 8%Z.
      replace (Rltb (IZR 1) (2 * 4)) with true by (symmetry; apply Rltb_true; lra).
      replace (Rltb (IZR 2) (2 * 4)) with true by (symmetry; apply Rltb_true; lra).
      replace (Rltb (IZR 4) (2 * 4)) with true by (symmetry; apply Rltb_true; lra).
      replace (Rltb (IZR 8) (2 * 4)) with false by (symmetry; apply Rltb_false; lra). reflexivity.
    + apply tech_up; lra.
Qed.

(** a forcing which is accepted with modes removed by the truncation: 12 x 12 points, nkmax_forcing = 6, coef_dealiasing = 2/3 *)
Theorem c261_dealiased_refuted : exists nx nkmin nkmax ikx, forall g, g 6%Z = 6%Z ->
  init2 (Some g) 1 1 nx nx nkmin nkmax = Forced 12 /\ forced2 1 1 (k_lim 1 nkmin) (k_lim 1 nkmax) 12 ikx 0 /\ axis_dealiased (2 / 3) nx ikx = true.
Proof.
  exists 12%Z, 5, 6, 5%Z. intros g G.
  assert (M : Rmax 1 1 = 1) by (apply Rmax_left; lra).
  assert (F : forced2 1 1 (k_lim 1 5) (k_lim 1 6) 12 5 0).
  { apply (c260_forced2 6 ltac:(lia)); [lia|]. unfold k_lim, norm2. replace ((1 * 5) ^ 2 + (1 * 0) ^ 2) with (5 * 5) by ring. rewrite sqrt_square by lra.
    split; [lra|]. unfold inside. lia. }
  split; [|split; [exact F|apply Rltb_true; rewrite Rabs_pos_eq; lra]].
  apply c261_accepted. split; [lra|]. split; [unfold fft_size; rewrite Zrnd_IZR by apply valid_rnd_N; rewrite G; reflexivity|]. split; [lia|].
  destruct F as (A & i0 & (B & _) & C). exists i0, 5%Z. rewrite M. split; [exact B|]. split; [exact A|exact C].
Qed.

(** hypotheses: equal edges, nkmax_forcing = 5, a coarse grid of 12 points *)
Example c260_example : 0 < 1 /\ 5 < IZR 6 /\ forced2 1 1 (k_lim 1 4) (k_lim 1 5) (2 * 6) 3 4.
Proof.
  split; [lra|]. split; [lra|]. apply (c260_square_partial 6); [lia|lra|lra|lia|]. unfold norm2. replace ((1 * 3) ^ 2 + (1 * 4) ^ 2) with (5 * 5) by ring.
  rewrite sqrt_square; lra.
Qed.

Print Assumptions c260_forced2.
Print Assumptions c260_forced3.
Print Assumptions c260_square_partial.
Print Assumptions c260_cube_partial.
Print Assumptions c260_limit_partial.
Print Assumptions c260_refuted.
Print Assumptions c261_fallback.
Print Assumptions c261_size.
Print Assumptions c261_accepted.
Print Assumptions c261_kept_partial.
Print Assumptions c261_refuted.
Print Assumptions c261_dealiased_refuted.
