(** * Outputs saved when a multiple of the period is passed, in double precision: C259 *)

From Coq Require Import Reals Lra ZArith Lia List Bool.
From Flocq Require Import Core.Core IEEE754.BinarySingleNaN Relative Plus_error.
From Verif Require Import Float64_Model Float64_Props Float64Saves_Props.
Import ListNotations.
Local Open Scope R_scope.

Local Notation fexp := (FLT_exp (-1074) 53).
Local Notation rnd := (round radix2 fexp ZnearestE).
Local Instance P53' : Prec_gt_0 53 := eq_refl.

(** ** The operator // *)
Lemma bounded_digits m e : SpecFloat.bounded prec emax m e = true -> (Zpos m < 2 ^ 53)%Z /\ (-1074 <= e)%Z.
Proof.
  unfold SpecFloat.bounded. rewrite andb_true_iff. intros (C & _). unfold SpecFloat.canonical_mantissa in C. apply Zeq_bool_eq in C.
  unfold SpecFloat.fexp, SpecFloat.emin, emax, prec in C.
  assert (D : (Zpos (SpecFloat.digits2_pos m) <= 53)%Z) by lia. split; [|lia].
  rewrite Digits.Zpos_digits2_pos in D. pose proof (Digits.Zdigits_correct radix2 (Zpos m)) as (_ & U). cbn [Z.abs] in U.
  eapply Z.lt_le_trans; [exact U|]. change (2 ^ 53)%Z with (Zpower radix2 53). apply Zpower_le. exact D.
Qed.

Lemma floor_bounds x p : 0 < p -> IZR (Zfloor (x / p)) * p <= x < (IZR (Zfloor (x / p)) + 1) * p.
Proof.
  intros P. pose proof (Zfloor_lb (x / p)) as A. pose proof (Zfloor_ub (x / p)) as B.
  assert (E : x / p * p = x) by (field; lra). split; nra.
Qed.

(** the remainder is exact *)
Lemma fmod_value x p : finite x -> finite p -> 0 <= value x -> 0 < value p ->
  finite (fmod x p) /\ value (fmod x p) = value x - IZR (Zfloor (value x / value p)) * value p.
Proof.
  intros Fx Fp Px Pp. pose proof (floor_bounds (value x) (value p) Pp) as FB. unfold fmod.
  destruct p as [sp|sp| |sp mp ep Bp]; try discriminate; [unfold value in Pp; cbn in Pp; lra|].
  destruct x as [sx|sx| |sx mx ex Bx]; try discriminate; cbn [B2SF].
  { split; [reflexivity|]. unfold value at 1 2 3. cbn [B2R]. unfold Rdiv. rewrite Rmult_0_l.
    replace (Zfloor 0) with 0%Z by (symmetry; apply (Zfloor_IZR 0)). lra. }
  assert (sx = false) as ->.
  { destruct sx; [exfalso|reflexivity]. unfold value, B2R in Px. pose proof (F2R_lt_0 radix2 (Float radix2 (Zneg mx) ex) ltac:(reflexivity)).
    cbn [cond_Zopp Z.opp] in Px. lra. }
  assert (sp = false) as ->.
  { destruct sp; [exfalso|reflexivity]. unfold value, B2R in Pp. pose proof (F2R_lt_0 radix2 (Float radix2 (Zneg mp) ep) ltac:(reflexivity)).
    cbn [cond_Zopp Z.opp] in Pp. lra. }
  cbn [cond_Zopp]. destruct (bounded_digits mx ex Bx) as (Mx & Ex). destruct (bounded_digits mp ep Bp) as (Mp & Ep).
  set (e := Z.min ex ep). set (A := (Zpos mx * 2 ^ (ex - e))%Z). set (B := (Zpos mp * 2 ^ (ep - e))%Z).
  assert (He : (-1074 <= e)%Z) by lia.
  assert (B0 : (0 < B)%Z) by (unfold B; assert (0 < 2 ^ (ep - e))%Z by (apply Z.pow_pos_nonneg; lia); nia).
  assert (A0 : (0 <= A)%Z) by (unfold A; assert (0 < 2 ^ (ex - e))%Z by (apply Z.pow_pos_nonneg; lia); nia).
  assert (R : (0 <= A mod B < 2 ^ 53)%Z).
  { pose proof (Z.mod_pos_bound A B B0) as MB. split; [lia|].
    destruct (Z.min_dec ex ep) as [X|X]; fold e in X.
    - apply Z.le_lt_trans with A; [apply Z.mod_le; assumption|]. unfold A. rewrite X, Z.sub_diag. lia.
    - apply Z.lt_trans with B; [lia|]. unfold B. rewrite X, Z.sub_diag. lia. }
  assert (shift : forall m k, (e <= k)%Z -> F2R (Float radix2 m k) = IZR (m * 2 ^ (k - e)) * bpow radix2 e).
  { intros m k K. rewrite (F2R_change_exp radix2 e m k K). reflexivity. }
  assert (VX : value (@B754_finite prec emax false mx ex Bx) = IZR A * bpow radix2 e) by (apply shift; lia).
  assert (VP : value (@B754_finite prec emax false mp ep Bp) = IZR B * bpow radix2 e) by (apply shift; lia).
  pose proof (bpow_gt_0 radix2 e) as be.
  assert (Q : Zfloor (value (@B754_finite prec emax false mx ex Bx) / value (@B754_finite prec emax false mp ep Bp)) = (A / B)%Z).
  { rewrite VX, VP. rewrite <- (Zfloor_div A B) by lia. f_equal. field. split; ((apply not_0_IZR; lia) || (apply Rgt_not_eq; lra)). }
  assert (V : F2R (Float radix2 (A mod B) e) = value (@B754_finite prec emax false mx ex Bx)
    - IZR (Zfloor (value (@B754_finite prec emax false mx ex Bx) / value (@B754_finite prec emax false mp ep Bp))) * value (@B754_finite prec emax false mp ep Bp)).
  { rewrite Q, VX, VP. unfold F2R. cbn [Fnum Fexp]. pose proof (Z.div_mod A B ltac:(lia)) as DM. apply (f_equal IZR) in DM. rewrite plus_IZR, mult_IZR in DM. rewrite DM. ring. }
  pose proof (binary_normalize_correct prec emax prec_pos prec_emax mode_NE (A mod B) e false) as C. cbv zeta in C.
  assert (G : rnd (F2R (Float radix2 (A mod B) e)) = F2R (Float radix2 (A mod B) e)).
  { apply round_generic; [apply valid_rnd_N|]. apply (fmt_dyadic _ (A mod B) e); [split; [reflexivity|exact He]|lia]. }
  change (round radix2 (SpecFloat.fexp prec emax) (round_mode mode_NE) (F2R (Float radix2 (A mod B) e))) with (rnd (F2R (Float radix2 (A mod B) e))) in C.
  rewrite G in C. rewrite Rlt_bool_true in C.
  - destruct C as (C1 & C2 & _). split; [exact C2|]. unfold value at 1. rewrite C1. exact V.
  - rewrite V. pose proof (abs_B2R_lt_emax prec emax (@B754_finite prec emax false mp ep Bp)) as L.
    change (B2R (@B754_finite prec emax false mp ep Bp)) with (value (@B754_finite prec emax false mp ep Bp)) in L.
    apply Rle_lt_trans with (2 := L). rewrite (Rabs_pos_eq (value (B754_finite false mp ep Bp))) by lra. rewrite Rabs_pos_eq; lra.
Qed.

Lemma u_ro_small : u_ro radix2 53 = bpow radix2 (-53).
Proof. unfold u_ro. change (bpow radix2 (- (53) + 1)) with (/ 4503599627370496). change (bpow radix2 (-53)) with (/ 9007199254740992). lra. Qed.

Lemma bm53 : bpow radix2 (-53) = / 9007199254740992.
Proof. reflexivity. Qed.

Lemma b1023_big : 4503599627370496 <= bpow radix2 1023.
Proof. apply Rle_trans with (bpow radix2 52); [cbn; lra|apply bpow_le; lia]. Qed.

(** the quotient is at a distance smaller than 3/8 of the integer *)
Lemma quotient x p : finite x -> finite p -> 0 <= value x <= bpow radix2 1023 -> 0 < value p -> value x < 1125899906842624 * value p ->
  let d := Bdiv mode_NE (sub x (fmod x p)) p in
  finite d /\ 0 <= value d /\ Rabs (value d - IZR (Zfloor (value x / value p))) <= 3 / 8.
Proof.
  intros Fx Fp Px Pp L. cbv zeta.
  destruct (fmod_value x p Fx Fp (proj1 Px) Pp) as (Fm & Vm). pose proof (floor_bounds (value x) (value p) Pp) as FB.
  set (q := Zfloor (value x / value p)) in *.
  assert (Q0 : (0 <= q)%Z) by (apply le_IZR; assert (-1 < IZR q) by nra; apply IZR_le; assert (-1 < q)%Z by (apply lt_IZR; assumption); lia).
  assert (Q0' : 0 <= IZR q) by (apply IZR_le; exact Q0).
  assert (Q1 : IZR q <= 1125899906842624).
  { apply IZR_le. enough (q < 1125899906842624)%Z by lia. apply lt_IZR. apply Rmult_lt_reg_r with (value p); lra. }
  destruct (sub_value x (fmod x p) Fx Fm) as [Vs Fs].
  { unfold not_huge. rewrite Vm. rewrite Rabs_pos_eq; nra. }
  assert (E1 : exists e1, Rabs e1 <= bpow radix2 (-53) /\ value (sub x (fmod x p)) = IZR q * value p * (1 + e1)).
  { destruct (FLT_plus_error_N_ex radix2 (-1074) 53 (fun z => negb (Z.even z)) (value x) (- value (fmod x p)) (fmt x) (generic_format_opp _ _ _ (fmt _))) as (e1 & B1 & V1).
    exists e1. split.
    - eapply Rle_trans; [exact B1|]. rewrite u_ro_small, bm53. lra.
    - rewrite Vs. unfold Rminus. rewrite V1. rewrite Vm. ring. }
  destruct E1 as (e1 & B1 & V1). rewrite bm53 in B1. apply Rabs_le_inv in B1.
  set (s := sub x (fmod x p)) in *.
  assert (VP : value s / value p = IZR q * (1 + e1)) by (rewrite V1; field; lra).
  pose proof (Bdiv_correct prec emax prec_pos prec_emax mode_NE s p ltac:(unfold value in Pp; lra)) as D.
  change (round radix2 (SpecFloat.fexp prec emax) (round_mode mode_NE) (B2R s / B2R p)) with (rnd (value s / value p)) in D.
  assert (NH : not_huge (value s / value p)).
  { rewrite VP. unfold not_huge. pose proof b1023_big. rewrite Rabs_pos_eq; nra. }
  rewrite Rlt_bool_true in D by exact (rnd_not_huge _ NH). destruct D as (D1 & D2 & _).
  split; [exact (eq_trans D2 Fs)|]. change (B2R (Bdiv mode_NE s p) = rnd (value s / value p)) in D1. unfold value at 1 2. rewrite D1. rewrite VP.
  split.
  { apply round_ge_generic; [apply FLT_exp_valid; exact P53'|apply valid_rnd_N|apply generic_format_0|nra]. }
  destruct (Z.eq_dec q 0) as [Z|NZ].
  { rewrite Z, Rmult_0_l, round_0 by apply valid_rnd_N. rewrite Rminus_0_r, Rabs_R0. lra. }
  assert (Q2 : 1 <= IZR q) by (apply IZR_le; lia).
  destruct (relative_error_N_FLT_ex radix2 (-1074) 53 ltac:(exact P53') (fun z => negb (Z.even z)) (IZR q * (1 + e1))) as (e2 & B2 & V2).
  { rewrite Rabs_pos_eq by nra. apply Rle_trans with (bpow radix2 (-1)); [apply bpow_le; lia|]. change (bpow radix2 (-1)) with (/ 2). nra. }
  fold (u_ro radix2 53) in B2. rewrite u_ro_small, bm53 in B2. apply Rabs_le_inv in B2. change (rnd (IZR q * (1 + e1)) = IZR q * (1 + e1) * (1 + e2)) in V2. rewrite V2.
  replace (IZR q * (1 + e1) * (1 + e2) - IZR q) with (IZR q * (e1 + e2 + e1 * e2)) by ring. rewrite Rabs_mult, (Rabs_pos_eq (IZR q)) by lra.
  assert (Rabs (e1 + e2 + e1 * e2) <= 3 * / 9007199254740992) by (apply Rabs_le; nra).
  pose proof (Rabs_pos (e1 + e2 + e1 * e2)). nra.
Qed.

Lemma fmt_IZR n : (Z.abs n < 2 ^ 53)%Z -> rnd (IZR n) = IZR n.
Proof. intros H. apply round_generic; [apply valid_rnd_N|]. apply (fmt_dyadic _ n 0); [split; [cbn; lra|lia]|exact H]. Qed.

Lemma rnd_3_8 : rnd (3 / 8) = 3 / 8.
Proof. apply round_generic; [apply valid_rnd_N|]. apply (fmt_dyadic _ 3 (-3)); [split; [cbn; lra|lia]|lia]. Qed.
Lemma rnd_5_8 : rnd (5 / 8) = 5 / 8.
Proof. apply round_generic; [apply valid_rnd_N|]. apply (fmt_dyadic _ 5 (-3)); [split; [cbn; lra|lia]|lia]. Qed.

(** the operator // gives the integer part of the exact quotient (which is smaller than 2^50) *)
Theorem c259_floordiv : forall x p, finite x -> finite p -> 0 <= value x <= bpow radix2 1023 -> 0 < value p -> value x < bpow radix2 50 * value p ->
  finite (floordiv x p) /\ value (floordiv x p) = IZR (Zfloor (value x / value p)).
Proof.
  intros x p Fx Fp Px Pp L. change (bpow radix2 50) with 1125899906842624 in L. destruct (quotient x p Fx Fp Px Pp L) as (Fd & Pd & Dd).
  pose proof (floor_bounds (value x) (value p) Pp) as FB.
  set (q := Zfloor (value x / value p)) in *. unfold floordiv. set (d := Bdiv mode_NE (sub x (fmod x p)) p) in *.
  assert (Q0 : (0 <= q)%Z) by (apply le_IZR; assert (-1 < IZR q) by nra; apply IZR_le; assert (-1 < q)%Z by (apply lt_IZR; assumption); lia).
  assert (Q1 : (q < 1125899906842624)%Z) by (apply lt_IZR; apply Rmult_lt_reg_r with (value p); lra).
  assert (Q0' : 0 <= IZR q) by (apply IZR_le; exact Q0). assert (Q1' : IZR q < 1125899906842624) by (apply IZR_lt; exact Q1).
  destruct (Bnearbyint_correct prec emax prec_emax mode_DN d) as (N1 & N2 & _).
  set (fl := Bnearbyint mode_DN d) in *. assert (Ff : finite fl) by (unfold finite; rewrite N2; exact Fd).
  assert (Vf : value fl = IZR (Zfloor (value d))).
  { unfold value at 1. rewrite N1. unfold round, scaled_mantissa, F2R, cexp, FIX_exp. cbn. rewrite !Rmult_1_r. reflexivity. }
  apply Rabs_le_inv in Dd. pose proof (Zfloor_lb (value d)) as Z1. pose proof (Zfloor_ub (value d)) as Z2.
  assert (S : not_huge (value d - value fl)) by (unfold not_huge; rewrite Vf; pose proof b1023_big; apply Rabs_le; lra).
  destruct (sub_value d fl Fd Ff S) as [Vs Fs]. rewrite Vf in Vs.
  assert (VH : value half = / 2) by (unfold value, half, B2R, F2R; cbn; lra).
  assert (V1 : value one = 1) by (unfold value, one, B2R, F2R; cbn; lra).
  destruct (Rle_lt_dec (IZR q) (value d)) as [C|C].
  - assert (Zfloor (value d) = q) as E by (apply Zfloor_imp; rewrite plus_IZR; lra). rewrite E in *.
    replace (lt half (sub d fl)) with false; [split; [exact Ff|exact Vf]|].
    symmetry. apply not_true_iff_false. intros T. apply (lt_iff half (sub d fl) eq_refl Fs) in T. rewrite VH, Vs in T.
    assert (rnd (value d - IZR q) <= 3 / 8) by (rewrite <- rnd_3_8; apply rnd_le; lra). lra.
  - assert (Zfloor (value d) = q - 1)%Z as E by (apply Zfloor_imp; rewrite plus_IZR, minus_IZR; lra). rewrite E, minus_IZR in *.
    replace (lt half (sub d fl)) with true.
    + destruct (add_value fl one Ff eq_refl) as [Va Fa].
      { unfold not_huge. rewrite Vf, V1. pose proof b1023_big. apply Rabs_le. lra. }
      split; [exact Fa|]. rewrite Va, Vf, V1. replace (IZR q - 1 + 1) with (IZR q) by ring. apply fmt_IZR. lia.
    + symmetry. apply (lt_iff half (sub d fl) eq_refl Fs). rewrite VH, Vs.
      assert (5 / 8 <= rnd (value d - (IZR q - 1))) by (rewrite <- rnd_5_8; apply rnd_le; lra). lra.
Qed.

(** ** The test of the outputs *)
Lemma eps_value : value f1em15 = 5070602400912918 / 5070602400912917605986812821504.
Proof. unfold value, f1em15, B2R, F2R. cbn. lra. Qed.

(** periods and times for which the number of periods is smaller than 2^50 *)
Definition in_range (p t : float) : Prop := finite t /\ 0 <= value t /\ value t + 1 <= bpow radix2 50 /\ value t + 1 < bpow radix2 50 * value p.

Lemma floor_lt_iff a b : (Zfloor a < Zfloor b)%Z <-> exists k, a < IZR k <= b.
Proof.
  split.
  - intros H. exists (Zfloor b). split; [|apply Zfloor_lb]. eapply Rlt_le_trans; [apply Zfloor_ub|]. rewrite <- plus_IZR. apply IZR_le. lia.
  - intros (k & A & B). apply Z.lt_le_trans with k.
    + apply lt_IZR. eapply Rle_lt_trans; [apply Zfloor_lb|exact A].
    + apply Zfloor_lub. exact B.
Qed.

Lemma add_eps t : finite t -> 0 <= value t -> value t + 1 <= bpow radix2 50 ->
  finite (add t f1em15) /\ value (add t f1em15) = rnd (value t + value f1em15)
  /\ value t <= value (add t f1em15) <= value t + 2 * value f1em15.
Proof.
  intros F P B. pose proof eps_value as E. destruct (add_value t f1em15 F eq_refl) as [V G].
  { unfold not_huge. pose proof b1023_big. change (bpow radix2 50) with 1125899906842624 in B. rewrite Rabs_pos_eq; lra. }
  split; [exact G|]. split; [exact V|]. rewrite V. split.
  - rewrite <- (rnd_value t) at 1. apply rnd_le. lra.
  - pose proof (proj2 (round_N_pt radix2 fexp (fun z => negb (Z.even z)) (value t + value f1em15)) (value t) (fmt t)) as N.
    replace (value t - (value t + value f1em15)) with (- value f1em15) in N by ring. rewrite Rabs_Ropp, (Rabs_pos_eq (value f1em15)) in N by lra.
    apply Rabs_le_inv in N. change (round radix2 fexp (Znearest (fun z => negb (Z.even z))) (value t + value f1em15)) with (rnd (value t + value f1em15)) in N. lra.
Qed.

(** a save is done exactly when a multiple of the period has been passed since the last save: it is not after the sum of the
    time and 1e-15, in double precision *)
Theorem c259_test : forall p t tl, finite p -> 0 < value p -> in_range p t -> in_range p tl ->
  has_to_online_save t tl p = true <-> exists k, value tl < IZR k * value p <= rnd (value t + value f1em15).
Proof.
  intros p t tl Fp Pp (Ft & Pt & Ht & Lt) (Fl & Pl & Hl & Ll). pose proof eps_value as E. pose proof b1023_big as B.
  change (bpow radix2 50) with 1125899906842624 in *.
  destruct (add_eps t Ft Pt Ht) as (Fa & Va & La).
  destruct (c259_floordiv tl p Fl Fp) as [F1 V1]; [lra|exact Pp|change (bpow radix2 50) with 1125899906842624; lra|].
  destruct (c259_floordiv (add t f1em15) p Fa Fp) as [F2 V2]; [lra|exact Pp|change (bpow radix2 50) with 1125899906842624; lra|].
  unfold has_to_online_save. rewrite (lt_iff _ _ F1 F2), V1, V2.
  assert (X : IZR (Zfloor (value tl / value p)) < IZR (Zfloor (value (add t f1em15) / value p)) <-> (Zfloor (value tl / value p) < Zfloor (value (add t f1em15) / value p))%Z).
  { split; [apply lt_IZR|apply IZR_lt]. }
  rewrite X, floor_lt_iff, Va. split; intros (k & H1 & H2); exists k.
  - apply (Rmult_lt_compat_r (value p)) in H1; [|exact Pp]. apply (Rmult_le_compat_r (value p)) in H2; [|lra].
    replace (value tl / value p * value p) with (value tl) in H1 by (field; lra).
    replace (rnd (value t + value f1em15) / value p * value p) with (rnd (value t + value f1em15)) in H2 by (field; lra). split; assumption.
  - split.
    + apply Rmult_lt_reg_r with (value p); [exact Pp|]. replace (value tl / value p * value p) with (value tl) by (field; lra). exact H1.
    + apply Rmult_le_reg_r with (value p); [exact Pp|]. replace (rnd (value t + value f1em15) / value p * value p) with (rnd (value t + value f1em15)) by (field; lra). exact H2.
Qed.

(** from the time 16, the 1e-15 has no effect *)
Theorem c259_absorbed : forall t, finite t -> 16 <= value t -> rnd (value t + value f1em15) = value t.
Proof.
  intros t F L. pose proof eps_value as E. apply Rle_antisym.
  - apply (round_N_le_midp radix2 fexp); [apply fmt|]. rewrite succ_eq_pos by lra.
    assert (U : / 281474976710656 <= ulp radix2 fexp (value t)).
    { apply Rle_trans with (spacing 16); [|apply spacing_le; lra]. unfold spacing. rewrite ulp_neq_0 by lra. unfold cexp.
      rewrite (mag_unique_pos radix2 16 5) by (cbn; lra). unfold FLT_exp. cbn. lra. }
    lra.
  - rewrite <- (rnd_value t) at 1. apply rnd_le. lra.
Qed.

(** ** Time steps which are multiples of a power of two: saved every q steps *)
Section Exact.
Variables (p dt te : float) (m e : Z) (q : nat).
Hypothesis Fp : finite p.
Hypothesis Fd : finite dt.
Hypothesis Pd : 0 < value dt.
Hypothesis Hh : value te + value dt <= bpow radix2 1023.
Hypothesis Dd : dyadic (value dt) m e.
Hypothesis Q0 : (0 < q)%nat.
Hypothesis Qp : value p = INR q * value dt.
(** the time step is larger than 2e-15 *)
Hypothesis Big : 2 * value f1em15 < value dt.
Hypothesis R1 : value te + 1 <= bpow radix2 50.
Hypothesis R2 : value te + 1 < bpow radix2 50 * value p.

Lemma slot_test k j : (Z.of_nat k * m < 2 ^ 53)%Z -> INR k * value dt <= value te -> (j <= k)%nat ->
  has_to_online_save (time_after k dt zero) (time_after j dt zero) p = Nat.ltb (j / q) (k / q).
Proof.
  intros B L J.
  assert (Pm : (0 < m)%Z) by (destruct Dd as (D & _); rewrite D in Pd; pose proof (bpow_gt_0 radix2 e); apply lt_IZR; nra).
  assert (JL : INR j * value dt <= INR k * value dt) by (apply Rmult_le_compat_r; [lra|apply le_INR; exact J]).
  destruct (times_exact dt te Fd Pd Hh m e Dd k B L) as [Fk Vk].
  destruct (times_exact dt te Fd Pd Hh m e Dd j) as [Fj Vj]; [nia|lra|].
  pose proof (pos_INR j) as Pj. pose proof (pos_INR k) as Pk.
  assert (Pq : 1 <= INR q) by (apply (le_INR 1); lia). assert (Pp : 0 < value p) by nra.
  assert (Gk : in_range p (time_after k dt zero)) by (unfold in_range; rewrite Vk; repeat split; try assumption; try nra; lra).
  assert (Gj : in_range p (time_after j dt zero)) by (unfold in_range; rewrite Vj; repeat split; try assumption; try nra; lra).
  destruct (add_eps (time_after k dt zero)) as (_ & Va & La); [apply Gk..|]. rewrite Va, Vk in La.
  apply eq_true_iff_eq. rewrite (c259_test p _ _ Fp Pp Gk Gj), Vk, Vj, Nat.ltb_lt. split.
  - intros (i & H1 & H2). rewrite Qp in H1, H2.
    assert (I1 : INR j < IZR i * INR q) by nra. assert (I2 : IZR i * INR q < INR k + 1) by nra.
    rewrite !INR_IZR_INZ, <- mult_IZR in I1, I2. rewrite <- plus_IZR in I2. apply lt_IZR in I1, I2.
    assert (I0 : (0 < i)%Z) by nia. rewrite <- (Z2Nat.id i) in I1, I2 by lia. set (n := Z.to_nat i) in *.
    apply Nat.lt_le_trans with n.
    + apply Nat.div_lt_upper_bound; lia.
    + apply Nat.div_le_lower_bound; lia.
  - intros H. exists (Z.of_nat (k / q)). rewrite <- INR_IZR_INZ, Qp.
    pose proof (Nat.div_mod j q ltac:(lia)) as D1. pose proof (Nat.mod_upper_bound j q ltac:(lia)) as D2. pose proof (Nat.mul_div_le k q ltac:(lia)) as D3.
    assert (N1 : (j < k / q * q)%nat) by nia. assert (N2 : (k / q * q <= k)%nat) by lia.
    apply lt_INR in N1. apply le_INR in N2. rewrite mult_INR in N1, N2. split; [nra|]. apply Rle_trans with (INR k * value dt); [nra|lra].
Qed.

Lemma slot_exact n : forall i j, (Z.of_nat (i + n) * m < 2 ^ 53)%Z -> INR (i + n) * value dt <= value te -> (j <= i)%nat -> (i / q = j / q)%nat ->
  slot_saves p (time_after j dt zero) (map (fun k => time_after k dt zero) (seq (S i) n))
  = map (fun k => time_after k dt zero) (filter (fun k => Nat.eqb (k mod q) 0) (seq (S i) n)).
Proof.
  assert (Pm : (0 < m)%Z) by (destruct Dd as (D & _); rewrite D in Pd; pose proof (bpow_gt_0 radix2 e); apply lt_IZR; nra).
  induction n as [|n IH]; intros i j B L J K; [reflexivity|]. cbn [seq map slot_saves filter].
  assert (IL : INR (S i) * value dt <= value te) by (eapply Rle_trans; [|exact L]; apply Rmult_le_compat_r; [lra|apply le_INR; lia]).
  rewrite slot_test by (nia || lia || exact IL).
  pose proof (Nat.div_mod i q ltac:(lia)) as D1. pose proof (Nat.mod_upper_bound i q ltac:(lia)) as D2.
  pose proof (Nat.div_mod (S i) q ltac:(lia)) as D3. pose proof (Nat.mod_upper_bound (S i) q ltac:(lia)) as D4.
  rewrite <- K. destruct (Nat.ltb_spec (i / q) (S i / q)) as [H|H].
  - assert (X : (S i mod q = 0)%nat) by nia. rewrite X. cbn [Nat.eqb map]. f_equal.
    apply IH; [|replace (S i + n)%nat with (i + S n)%nat by lia; exact L|lia|reflexivity]. replace (S i + n)%nat with (i + S n)%nat by lia. exact B.
  - assert (Y : (S i / q = i / q)%nat) by (assert (i / q <= S i / q)%nat by (apply Nat.div_le_mono; lia); lia).
    assert (X : (S i mod q <> 0)%nat) by (rewrite Y in D3; nia). apply Nat.eqb_neq in X. rewrite X.
    apply IH; [|replace (S i + n)%nat with (i + S n)%nat by lia; exact L|lia|congruence]. replace (S i + n)%nat with (i + S n)%nat by lia. exact B.
Qed.

Theorem c259_exact_partial : forall n, (Z.of_nat n * m < 2 ^ 53)%Z -> INR n * value dt <= value te ->
  slot_saves p zero (map (fun k => time_after k dt zero) (seq 1 n))
  = map (fun k => time_after k dt zero) (filter (fun k => Nat.eqb (k mod q) 0) (seq 1 n)).
Proof. intros n B L. exact (slot_exact n 0 0 B L (Nat.le_refl _) eq_refl). Qed.
End Exact.

(** deltat0 = 0.1 and a period equal to 1: saved at the steps 10 and 11, then 20, 30, 40, 51 and 61 *)
Theorem c259_refuted : exists dt p, Rabs (value dt - 1 / 10) <= / 2 * spacing (1 / 10) /\ value p = 1
  /\ map B2SF (slot_saves p zero (map (fun k => time_after k dt zero) (seq 1 62))) = map (fun k => B2SF (time_after k dt zero)) [10; 11; 20; 30; 40; 51; 61]%nat.
Proof.
  exists f01, f1. split; [|split].
  - assert (V1 : value f01 = 7205759403792794 / 72057594037927936) by (unfold value, f01, B2R, F2R; cbn; lra).
    unfold spacing. rewrite ulp_neq_0 by lra. unfold cexp. rewrite (mag_unique_pos radix2 (1 / 10) (-3)) by (cbn; lra).
    rewrite V1. unfold FLT_exp. cbn. apply Rabs_le. lra.
  - unfold value, f1, B2R, F2R. cbn. lra.
  - vm_compute. reflexivity.
Qed.

(** hypotheses: a period 1, the times 0 and 10, a time step 1/8 *)
Example c259_example : finite f1 /\ 0 < value f1 /\ in_range f1 f10 /\ in_range f1 zero /\ dyadic (value f0125) 1 (-3) /\ 2 * value f1em15 < value f0125
  /\ value f1 = INR 8 * value f0125.
Proof.
  assert (W : value f1 = 1) by (unfold value, f1, B2R, F2R; cbn; lra). assert (T : value f10 = 10) by (unfold value, f10, B2R, F2R; cbn; lra).
  assert (Z : value zero = 0) by reflexivity.
  split; [reflexivity|]. unfold in_range. rewrite W, T, Z. change (bpow radix2 50) with 1125899906842624.
  split; [lra|]. split; [split; [reflexivity|]; lra|]. split; [split; [reflexivity|]; lra|].
  assert (D : value f0125 = / 8) by (unfold value, f0125, B2R, F2R; cbn; lra). rewrite D, eps_value.
  split; [split; [cbn; lra|lia]|]. split; [lra|]. cbn [INR]. lra.
Qed.

(** a time is saved if the test says so with the last saved time *)
Theorem c259_last_saved : forall p t0 l t, slot_saves p t0 (l ++ [t])
  = slot_saves p t0 l ++ (if has_to_online_save t (last (slot_saves p t0 l) t0) p then [t] else []).
Proof.
  intros p t0 l t; revert t0; induction l as [| x l IH]; intros t0; cbn [app slot_saves].
  - cbn [last]; destruct (has_to_online_save t t0 p); reflexivity.
  - destruct (has_to_online_save x t0 p); [| apply IH].
    rewrite IH; cbn [app]; f_equal; f_equal.
    replace (last (x :: slot_saves p x l) t0) with (last (slot_saves p x l) x); [reflexivity |].
    generalize (slot_saves p x l); intros r; clear; revert x t0; induction r as [| y r IH]; intros x t0; [reflexivity |].
    change (last (x :: y :: r) t0) with (last (y :: r) t0); rewrite <- IH; symmetry.
    destruct r as [| z r]; [reflexivity |]; change (last (y :: z :: r) x) with (last (z :: r) x); rewrite <- IH.
    change (last (y :: z :: r) y) with (last (z :: r) y) || idtac; rewrite ?IH; auto.
Qed.

Print Assumptions c259_floordiv.
Print Assumptions c259_test.
Print Assumptions c259_absorbed.
Print Assumptions c259_exact_partial.
Print Assumptions c259_refuted.
Print Assumptions c259_last_saved.
