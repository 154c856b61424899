(** * Times of a simulation in double precision: C257 and C258 *)

From Coq Require Import Reals Lra ZArith Lia List Bool.
From Flocq Require Import Core.Core IEEE754.BinarySingleNaN.
From Verif Require Import Float64_Model.
Import ListNotations.
Local Open Scope R_scope.

(** ** Specification: the real numbers given by the floats *)
Definition value (x : float) : R := B2R x.
Definition finite (x : float) : Prop := is_finite x = true.
(** the distance between the double precision numbers around x *)
Definition spacing (x : R) : R := ulp radix2 (FLT_exp (-1074) 53) x.
Definition not_huge (x : R) : Prop := Rabs x <= bpow radix2 1023.
(** an integer with less than 53 bits, times a power of two *)
Definition dyadic (x : R) (m e : Z) : Prop := x = IZR m * bpow radix2 e /\ (-1074 <= e)%Z.

Local Notation fexp := (FLT_exp (-1074) 53).
Local Notation rnd := (round radix2 fexp ZnearestE).

Local Instance P53 : Prec_gt_0 53 := eq_refl.

(** ** Lemmas on the operations *)
Lemma fmt x : generic_format radix2 fexp (value x).
Proof. exact (generic_format_B2R prec emax x). Qed.

Lemma rnd_value x : rnd (value x) = value x.
Proof. apply round_generic; [apply valid_rnd_N|apply fmt]. Qed.

Lemma rnd_le x y : x <= y -> rnd x <= rnd y.
Proof. apply round_le; [apply FLT_exp_valid; exact P53|apply valid_rnd_N]. Qed.

Lemma fmt_dyadic x m e : dyadic x m e -> (Z.abs m < 2 ^ 53)%Z -> generic_format radix2 fexp x.
Proof.
  intros (-> & E) M. apply generic_format_FLT. exists (Float radix2 m e); [reflexivity|exact M|exact E].
Qed.

Lemma fmt_1023 : generic_format radix2 fexp (bpow radix2 1023).
Proof. apply generic_format_bpow. unfold FLT_exp. lia. Qed.

Lemma rnd_not_huge x : not_huge x -> Rabs (rnd x) < bpow radix2 emax.
Proof.
  intros H. unfold not_huge in H. apply Rle_lt_trans with (bpow radix2 1023); [|apply bpow_lt; reflexivity].
  apply abs_round_le_generic; [apply FLT_exp_valid; exact P53|apply valid_rnd_N|apply fmt_1023|exact H].
Qed.

Lemma add_value x y : finite x -> finite y -> not_huge (value x + value y) -> value (add x y) = rnd (value x + value y) /\ finite (add x y).
Proof.
  intros Fx Fy H. pose proof (Bplus_correct prec emax prec_pos prec_emax mode_NE x y Fx Fy) as C.
  rewrite Rlt_bool_true in C; [split; apply C|exact (rnd_not_huge _ H)].
Qed.

Lemma sub_value x y : finite x -> finite y -> not_huge (value x - value y) -> value (sub x y) = rnd (value x - value y) /\ finite (sub x y).
Proof.
  intros Fx Fy H. pose proof (Bminus_correct prec emax prec_pos prec_emax mode_NE x y Fx Fy) as C.
  rewrite Rlt_bool_true in C; [split; apply C|exact (rnd_not_huge _ H)].
Qed.

Lemma lt_iff x y : finite x -> finite y -> (lt x y = true <-> value x < value y).
Proof.
  intros Fx Fy. unfold lt. rewrite (Bltb_correct prec emax x y Fx Fy). change (B2R x) with (value x). change (B2R y) with (value y).
  destruct (Rlt_bool_spec (value x) (value y)); split; intros; lra || congruence.
Qed.

Lemma ge_iff x y : finite x -> finite y -> (ge x y = true <-> value y <= value x).
Proof.
  intros Fx Fy. unfold ge. rewrite (Bleb_correct prec emax y x Fy Fx). change (B2R x) with (value x). change (B2R y) with (value y).
  destruct (Rle_bool_spec (value y) (value x)); split; intros; lra || congruence.
Qed.

Lemma spacing_le x y : 0 <= x -> x <= y -> spacing x <= spacing y.
Proof. intros A B. unfold spacing. apply ulp_le; [apply FLT_exp_valid; exact P53|apply FLT_exp_monotone|]. rewrite !Rabs_pos_eq; lra. Qed.

Lemma rnd_error x : Rabs (rnd x - x) <= / 2 * spacing x.
Proof. apply error_le_half_ulp. apply FLT_exp_valid. exact P53. Qed.

Lemma spacing_pos x : 0 < spacing x.
Proof.
  unfold spacing. destruct (Req_dec x 0) as [->|N].
  - rewrite ulp_FLT_0 by exact P53. apply bpow_gt_0.
  - rewrite ulp_neq_0 by exact N. apply bpow_gt_0.
Qed.

(** ** The loop *)
Lemma time_after_S n dt t : time_after n dt (add t dt) = time_after (S n) dt t.
Proof. induction n as [|n IH]; [reflexivity|]. cbn [time_after] in *. rewrite IH. reflexivity. Qed.

(** when the loop ends: the time is not before t_end, all the previous ones are (for all the floats, also nan and infinities) *)
Theorem c257_end : forall fuel dt te t it it' t', main_loop fuel dt te t it = Some (it', t') ->
  exists n, it' = (it + n)%nat /\ t' = time_after n dt t /\ lt t' te = false /\ forall k, (k < n)%nat -> lt (time_after k dt t) te = true.
Proof.
  induction fuel as [|fuel IH]; intros dt te t it it' t' H; cbn [main_loop] in H; destruct (lt t te) eqn:E.
  - discriminate.
  - injection H as <- <-. exists 0%nat. split; [lia|]. split; [reflexivity|]. split; [exact E|lia].
  - apply IH in H as (n & A & B & C & D). exists (S n). split; [lia|]. split; [rewrite B; apply time_after_S|]. split; [exact C|].
    intros [|k] K; [exact E|]. rewrite <- time_after_S. apply D. lia.
  - injection H as <- <-. exists 0%nat. split; [lia|]. split; [reflexivity|]. split; [exact E|lia].
Qed.

Lemma main_loop_reach n : forall fuel dt te t it, (n <= fuel)%nat -> (forall k, (k < n)%nat -> lt (time_after k dt t) te = true) ->
  lt (time_after n dt t) te = false -> main_loop fuel dt te t it = Some ((it + n)%nat, time_after n dt t).
Proof.
  induction n as [|n IH]; intros fuel dt te t it L A B.
  - cbn [time_after] in *. destruct fuel; cbn [main_loop]; rewrite B, Nat.add_0_r; reflexivity.
  - destruct fuel as [|fuel]; [lia|]. cbn [main_loop]. pose proof (A 0%nat ltac:(lia)) as A0. cbn [time_after] in A0. rewrite A0.
    rewrite IH; [rewrite time_after_S; f_equal; f_equal; lia|lia| |rewrite time_after_S; exact B].
    intros k K. rewrite time_after_S. apply A. lia.
Qed.

Section Fixed.
Variables dt te : float.
Hypothesis Fd : finite dt.
Hypothesis Fe : finite te.
Hypothesis Pd : 0 < value dt.
Hypothesis Hh : value te + value dt <= bpow radix2 1023.

Let u : R := spacing (value te + value dt).

Lemma step_value t : finite t -> 0 <= value t -> value t < value te ->
  finite (add t dt) /\ value (add t dt) = rnd (value t + value dt) /\ value t <= value (add t dt)
  /\ Rabs (value (add t dt) - (value t + value dt)) <= / 2 * u.
Proof.
  intros F P L. destruct (add_value t dt F Fd) as [V G].
  { unfold not_huge. rewrite Rabs_pos_eq; lra. }
  split; [exact G|]. split; [exact V|]. split.
  - rewrite V. apply round_ge_generic; [apply FLT_exp_valid; exact P53|apply valid_rnd_N|apply fmt|lra].
  - rewrite V. eapply Rle_trans; [apply rnd_error|]. apply Rmult_le_compat_l; [lra|]. apply spacing_le; lra.
Qed.

(** the times do not decrease; the error of the sum *)
Lemma times_bound t0 n : finite t0 -> 0 <= value t0 -> (forall k, (k < n)%nat -> lt (time_after k dt t0) te = true) ->
  finite (time_after n dt t0) /\ value t0 <= value (time_after n dt t0)
  /\ Rabs (value (time_after n dt t0) - (value t0 + INR n * value dt)) <= INR n * (/ 2 * u).
Proof.
  intros F P. induction n as [|n IH]; intros A.
  - cbn [time_after INR]. split; [exact F|]. split; [lra|]. replace (value t0 - (value t0 + 0 * value dt)) with 0 by ring. rewrite Rabs_R0. lra.
  - destruct IH as (G & M & E); [intros k K; apply A; lia|]. pose proof (A n ltac:(lia)) as L. apply (lt_iff _ _ G Fe) in L.
    destruct (step_value (time_after n dt t0) G ltac:(lra) L) as (G' & _ & M' & E'). cbn [time_after].
    split; [exact G'|]. split; [lra|]. rewrite S_INR.
    replace (value (add (time_after n dt t0) dt) - (value t0 + (INR n + 1) * value dt))
      with ((value (add (time_after n dt t0) dt) - (value (time_after n dt t0) + value dt)) + (value (time_after n dt t0) - (value t0 + INR n * value dt))) by ring.
    eapply Rle_trans; [apply Rabs_triang|]. lra.
Qed.

(** the run ends if the time step is not smaller than the distance between the floats: each step is at least half of it *)
Theorem c257_terminates_partial : forall n t it, finite t -> 0 <= value t -> u <= value dt -> value te - value t <= INR n * (value dt / 2) ->
  exists k t', main_loop n dt te t it = Some (k, t') /\ finite t' /\ value te <= value t'.
Proof.
  induction n as [|n IH]; intros t it F P U L; cbn [main_loop]; destruct (lt t te) eqn:E.
  - apply (lt_iff _ _ F Fe) in E. cbn in L. lra.
  - exists it, t. split; [reflexivity|]. split; [exact F|]. apply Rnot_lt_le. intros C. apply (lt_iff _ _ F Fe) in C. congruence.
  - apply (lt_iff _ _ F Fe) in E. destruct (step_value t F P E) as (G & _ & M & B).
    apply Rabs_le_inv in B. apply IH; [exact G|lra|exact U|]. rewrite S_INR in L. lra.
  - exists it, t. split; [reflexivity|]. split; [exact F|]. apply Rnot_lt_le. intros C. apply (lt_iff _ _ F Fe) in C. congruence.
Qed.

(** a run from 0 until the float which is the nearest to n dt does n or n + 1 steps *)
Theorem c257_steps_partial : forall n fuel it' t', Rabs (value te - INR n * value dt) <= / 2 * u -> INR (n + 2) * u <= 2 * value dt ->
  main_loop fuel dt te zero 0 = Some (it', t') -> it' = n \/ it' = S n.
Proof.
  intros n fuel it' t' N S H. apply c257_end in H as (k & K & T & E & A). cbn in K. subst k. apply Rabs_le_inv in N.
  pose proof (spacing_pos (value te + value dt)) as UP. fold u in UP. rewrite plus_INR in S. cbn [INR] in S.
  assert (Z : value zero = 0) by reflexivity.
  assert (FT : forall k, (k <= it')%nat -> finite (time_after k dt zero) /\ Rabs (value (time_after k dt zero) - INR k * value dt) <= INR k * (/ 2 * u)).
  { intros k K. destruct (times_bound zero k) as (G & _ & B); [reflexivity|rewrite Z; lra|intros j J; apply A; lia|].
    rewrite Z, Rplus_0_l in B. split; assumption. }
  pose proof (pos_INR n) as PN.
  destruct (Nat.lt_trichotomy it' n) as [L|[L|L]]; [exfalso|left; exact L|].
  - destruct (FT it' (Nat.le_refl _)) as [G B]. apply Rabs_le_inv in B.
    assert (X : value te <= value t') by (apply Rnot_lt_le; intros C; rewrite T in C, E; apply (lt_iff _ _ G Fe) in C; congruence).
    rewrite T in X. assert (I : INR it' + 1 <= INR n) by (rewrite <- S_INR; apply le_INR; lia).
    pose proof (pos_INR it') as PI'. nra.
  - destruct (Nat.eq_dec it' (Datatypes.S n)) as [->|NE]; [right; reflexivity|exfalso].
    destruct (FT (Datatypes.S n) ltac:(lia)) as [G B]. apply Rabs_le_inv in B. pose proof (A (Datatypes.S n) ltac:(lia)) as X.
    apply (lt_iff _ _ G Fe) in X. rewrite S_INR in B. nra.
Qed.

(** time steps which are exact multiples of a power of two: the times are exact *)
Section Exact.
Variables (m e : Z).
Hypothesis Dd : dyadic (value dt) m e.

Lemma times_exact n : (Z.of_nat n * m < 2 ^ 53)%Z -> INR n * value dt <= value te -> finite (time_after n dt zero) /\ value (time_after n dt zero) = INR n * value dt.
Proof.
  assert (Pm : (0 < m)%Z).
  { destruct Dd as (D & _). rewrite D in Pd. pose proof (bpow_gt_0 radix2 e). apply lt_IZR. nra. }
  induction n as [|n IH]; intros B L.
  - split; [reflexivity|]. cbn. rewrite Rmult_0_l. reflexivity.
  - rewrite S_INR in L. destruct IH as [F V]; [lia|lra|]. cbn [time_after].
    pose proof (pos_INR n) as PN.
    destruct (add_value (time_after n dt zero) dt F Fd) as [W G].
    { unfold not_huge. rewrite V, Rabs_pos_eq by nra. lra. }
    split; [exact G|]. rewrite W, V, S_INR. replace (INR n * value dt + value dt) with ((INR n + 1) * value dt) by ring.
    apply round_generic; [apply valid_rnd_N|]. apply (fmt_dyadic _ (Z.of_nat (S n) * m) e); [|lia].
    split; [|apply Dd]. destruct Dd as (D & _). rewrite D. rewrite mult_IZR, <- INR_IZR_INZ, S_INR. ring.
Qed.

Theorem c257_exact_partial : forall n fuel, (Z.of_nat n * m < 2 ^ 53)%Z -> value te = INR n * value dt -> (n <= fuel)%nat ->
  exists t', main_loop fuel dt te zero 0 = Some (n, t') /\ value t' = value te.
Proof.
  intros n fuel B E L.
  assert (Pm : (0 < m)%Z).
  { destruct Dd as (D & _). rewrite D in Pd. pose proof (bpow_gt_0 radix2 e). apply lt_IZR. nra. }
  destruct (times_exact n B) as [F V]; [lra|].
  exists (time_after n dt zero). split; [|rewrite V, E; reflexivity].
  rewrite (main_loop_reach n) by (exact L || (intros k K; destruct (times_exact k) as [G W]; [nia|rewrite E; apply Rmult_le_compat_r; [lra|apply le_INR; lia]|];
    apply (lt_iff _ _ G Fe); rewrite W, E; apply Rmult_lt_compat_r; [exact Pd|apply lt_INR; exact K])
    || (destruct (lt (time_after n dt zero) te) eqn:C; [apply (lt_iff _ _ F Fe) in C; lra|reflexivity])).
  reflexivity.
Qed.
End Exact.
End Fixed.

(** 0.1, 1. and 10. *)
Definition f01 : float := @B754_finite prec emax false 7205759403792794 (-56) eq_refl.
Definition f1 : float := @B754_finite prec emax false 4503599627370496 (-52) eq_refl.
Definition f10 : float := @B754_finite prec emax false 5629499534213120 (-49) eq_refl.

(** deltat0 = 0.1, t_end = 1.: 11 steps, the end at 1.0999999999999999 *)
Theorem c257_refuted : exists dt te ten it t, Rabs (value dt - 1 / 10) <= / 2 * spacing (1 / 10) /\ value te = 1 /\ value ten = 10
  /\ Bmult mode_NE ten dt = te /\ main_loop 100 dt te zero 0 = Some (it, t) /\ it = 11%nat /\ 10999 / 10000 <= value t.
Proof.
  exists f01, f1, f10, 11%nat, (time_after 11 f01 zero).
  assert (V1 : value f01 = 7205759403792794 / 72057594037927936).
  { unfold value, f01, B2R, F2R. cbn. lra. }
  split; [|split; [|split; [|split; [|split; [|split]]]]].
  - unfold spacing. rewrite ulp_neq_0 by lra. unfold cexp. rewrite (mag_unique_pos radix2 (1 / 10) (-3)) by (cbn; lra).
    rewrite V1. unfold FLT_exp. cbn. apply Rabs_le. lra.
  - unfold value, f1, B2R, F2R. cbn. lra.
  - unfold value, f10, B2R, F2R. cbn. lra.
  - apply B2SF_inj. vm_compute. reflexivity.
  - apply (main_loop_reach 11 100 f01 f1 zero 0%nat); [lia| |vm_compute; reflexivity].
    intros k K. do 11 (destruct k as [|k]; [vm_compute; reflexivity|]). lia.
  - reflexivity.
  - assert (E : B2SF (time_after 11 f01 zero) = SpecFloat.S754_finite false 4953959590107545 (-52)) by (vm_compute; reflexivity).
    unfold value. rewrite <- SF2R_B2SF, E. unfold SF2R, F2R. cbn. lra.
Qed.

(** a time step smaller than half of the distance between the floats: the run does not end *)
Definition f2_53 : float := @B754_finite prec emax false 4503599627370496 1 eq_refl.
Lemma absorbed n : time_after n f1 f2_53 = f2_53.
Proof. induction n as [|n IH]; [reflexivity|]. cbn [time_after]. rewrite IH. apply B2SF_inj. vm_compute. reflexivity. Qed.

Theorem c257_endless_refuted : exists dt t te, 0 < value dt /\ value t < value te /\ forall fuel it, main_loop fuel dt te t it = None.
Proof.
  exists f1, f2_53, (@B754_finite prec emax false 4503599627370497 1 eq_refl). split; [|split].
  - unfold value, f1, B2R, F2R. cbn. lra.
  - unfold value, f2_53, B2R, F2R. cbn. lra.
  - induction fuel as [|fuel IH]; intros it; [vm_compute; reflexivity|].
    cbn [main_loop]. replace (lt f2_53 _) with true by (vm_compute; reflexivity).
    replace (add f2_53 f1) with f2_53 by (symmetry; exact (absorbed 1)). apply IH.
Qed.

(** hypotheses: 0.1 until 1. (n = 10, 11 steps) *)
Example c257_example : finite f01 /\ finite f1 /\ 0 < value f01 /\ value f1 + value f01 <= bpow radix2 1023
  /\ Rabs (value f1 - INR 10 * value f01) <= / 2 * spacing (value f1 + value f01)
  /\ INR (10 + 2) * spacing (value f1 + value f01) <= 2 * value f01.
Proof.
  assert (V : value f01 = 7205759403792794 / 72057594037927936) by (unfold value, f01, B2R, F2R; cbn; lra).
  assert (W : value f1 = 1) by (unfold value, f1, B2R, F2R; cbn; lra).
  assert (U : spacing (value f1 + value f01) = / 4503599627370496).
  { unfold spacing. rewrite ulp_neq_0 by lra. unfold cexp. rewrite (mag_unique_pos radix2 (value f1 + value f01) 1) by (rewrite V, W; cbn; lra). reflexivity. }
  split; [reflexivity|]. split; [reflexivity|]. rewrite U, V, W. cbn [INR Nat.add]. split; [lra|]. split; [|split; [apply Rabs_le|]; lra].
  apply Rle_trans with (bpow radix2 1); [cbn; lra|apply bpow_le; lia].
Qed.

Print Assumptions c257_end.
Print Assumptions c257_terminates_partial.
Print Assumptions c257_steps_partial.
Print Assumptions c257_exact_partial.
Print Assumptions c257_refuted.
Print Assumptions c257_endless_refuted.
