(** * Outputs with a period in double precision: C258 *)

From Coq Require Import Reals Lra ZArith Lia List Bool.
From Flocq Require Import Core.Core IEEE754.BinarySingleNaN.
From Verif Require Import Float64_Model Float64_Props.
Import ListNotations.
Local Open Scope R_scope.

Local Notation fexp := (FLT_exp (-1074) 53).
Local Notation rnd := (round radix2 fexp ZnearestE).

Lemma last_def {A} (l : list A) : forall x d d', last (x :: l) d = last (x :: l) d'.
Proof. induction l as [|y l IH]; intros x d d'; [reflexivity|]. exact (IH y d d'). Qed.

Section Saves.
Variable p : float.
Hypothesis Fp : finite p.
Hypothesis Pp : 0 < value p.

(** times: finite floats between 0 and 2^1023 *)
Definition good (t : float) : Prop := finite t /\ 0 <= value t <= bpow radix2 1023.

Lemma diff_not_huge t s : good t -> good s -> not_huge (value t - value s).
Proof. intros (_ & A) (_ & B). unfold not_huge. apply Rabs_le. lra. Qed.

(** the test: a difference which is not smaller than the period is always seen; a save is done at least one period after the
    previous one, up to half of the distance between the floats around the period *)
Theorem c258_test : forall t s, good t -> good s ->
  (value p <= value t - value s -> ge (sub t s) p = true)
  /\ (ge (sub t s) p = true -> value p - / 2 * spacing (value p) <= value t - value s).
Proof.
  intros t s Gt Gs. destruct (sub_value t s (proj1 Gt) (proj1 Gs) (diff_not_huge t s Gt Gs)) as [V F].
  rewrite (ge_iff _ _ F Fp), V. split; intros H.
  - rewrite <- (rnd_value p). apply rnd_le. exact H.
  - destruct (Rle_lt_dec (value p) (value t - value s)) as [L|L].
    + pose proof (spacing_pos (value p)). lra.
    + destruct (Rle_lt_dec 0 (value t - value s)) as [Z|Z].
      * pose proof (rnd_error (value t - value s)) as E. apply Rabs_le_inv in E.
        pose proof (spacing_le (value t - value s) (value p) Z ltac:(lra)). lra.
      * exfalso. assert (rnd (value t - value s) <= rnd 0) by (apply rnd_le; lra). rewrite round_0 in H0 by apply valid_rnd_N. lra.
Qed.

Lemma saves_app tl a b : online_saves p tl (a ++ b) = online_saves p tl a ++ online_saves p (last (online_saves p tl a) tl) b.
Proof.
  revert tl. induction a as [|t a IH]; intros tl; [reflexivity|]. cbn [app online_saves].
  destruct (ge (sub t tl) p).
  - rewrite IH. cbn [app]. f_equal. f_equal. f_equal. destruct (online_saves p t a) as [|x l]; [reflexivity|].
    change (last (t :: x :: l) tl) with (last (x :: l) tl). apply last_def.
  - apply IH.
Qed.

(** at every time of the loop, the last save is less than one period ago *)
Theorem c258_last_partial : forall t0 ts t, good t0 -> Forall good ts -> good t ->
  value t - value (last (saves p t0 (ts ++ [t])) t0) < value p.
Proof.
  intros t0 ts t G0 Gs Gt. unfold saves. rewrite saves_app. cbn [online_saves].
  set (l := online_saves p t0 ts). set (s := last l t0).
  assert (GS : good s).
  { unfold s, l. clear -G0 Gs. revert t0 G0. induction Gs as [|x ts Gx Gs IH]; intros t0 G0; [exact G0|]. cbn [online_saves].
    destruct (ge (sub x t0) p); [|apply IH; exact G0]. specialize (IH x Gx).
    destruct (online_saves p x ts) as [|y l]; [exact Gx|]. change (last (x :: y :: l) t0) with (last (y :: l) t0). rewrite (last_def l y t0 x). exact IH. }
  destruct (ge (sub t s) p) eqn:E.
  - change (t0 :: l ++ [t]) with ((t0 :: l) ++ [t]). rewrite last_last. lra.
  - rewrite app_nil_r. replace (last (t0 :: l) t0) with s.
    + apply Rnot_le_lt. intros L. apply (proj1 (c258_test t s Gt GS)) in L. congruence.
    + unfold s. destruct l; reflexivity.
Qed.

(** two successive saves are separated by one period, up to the rounding *)
Fixpoint separated (s : float) (l : list float) : Prop :=
  match l with [] => True | t :: r => value p - / 2 * spacing (value p) <= value t - value s /\ separated t r end.

Theorem c258_separated_partial : forall t0 ts, good t0 -> Forall good ts -> separated t0 (online_saves p t0 ts).
Proof.
  intros t0 ts G0 Gs. revert t0 G0. induction Gs as [|x ts Gx Gs IH]; intros t0 G0; [exact I|]. cbn [online_saves].
  destruct (ge (sub x t0) p) eqn:E; [|apply IH; exact G0]. split; [apply c258_test; assumption|apply IH; exact Gx].
Qed.

(** time steps which are multiples of a power of two and a period which is a multiple of the time step: saved every q steps *)
Section Exact.
Variables (dt te : float) (m e : Z) (q : nat).
Hypothesis Fd : finite dt.
Hypothesis Pd : 0 < value dt.
Hypothesis Hh : value te + value dt <= bpow radix2 1023.
Hypothesis Dd : dyadic (value dt) m e.
Hypothesis Q0 : (0 < q)%nat.
Hypothesis Qp : value p = INR q * value dt.

Lemma exact_test k j : (Z.of_nat k * m < 2 ^ 53)%Z -> INR k * value dt <= value te -> (j <= k)%nat ->
  ge (sub (time_after k dt zero) (time_after j dt zero)) p = Nat.leb q (k - j).
Proof.
  intros B L J.
  assert (Pm : (0 < m)%Z) by (destruct Dd as (D & _); rewrite D in Pd; pose proof (bpow_gt_0 radix2 e); apply lt_IZR; nra).
  assert (JL : INR j * value dt <= INR k * value dt) by (apply Rmult_le_compat_r; [lra|apply le_INR; exact J]).
  destruct (times_exact dt te Fd Pd Hh m e Dd k B L) as [Fk Vk].
  destruct (times_exact dt te Fd Pd Hh m e Dd j) as [Fj Vj]; [nia|lra|].
  pose proof (pos_INR j) as Pj. pose proof (pos_INR k) as Pk.
  destruct (sub_value (time_after k dt zero) (time_after j dt zero) Fk Fj) as [V F].
  { unfold not_huge. rewrite Vk, Vj. apply Rabs_le. nra. }
  assert (E : value (sub (time_after k dt zero) (time_after j dt zero)) = INR (k - j) * value dt).
  { rewrite V, Vk, Vj. rewrite minus_INR by exact J. replace (INR k * value dt - INR j * value dt) with ((INR k - INR j) * value dt) by ring.
    apply round_generic; [apply valid_rnd_N|]. apply (fmt_dyadic _ (Z.of_nat (k - j) * m) e); [|nia].
    destruct Dd as (D & De). split; [|exact De]. rewrite D, mult_IZR, <- INR_IZR_INZ, minus_INR by exact J. ring. }
  apply eq_true_iff_eq. rewrite (ge_iff _ _ F Fp), E, Qp, Nat.leb_le. split; intros H.
  - apply INR_le. apply Rmult_le_reg_r with (value dt); assumption.
  - apply Rmult_le_compat_r; [lra|apply le_INR; exact H].
Qed.

(** the steps of the saves, from the step of the last save *)
Definition steps (j n : nat) : list nat := filter (fun k => Nat.eqb ((k - j) mod q) 0) (seq (S j) n).

Lemma exact_saves n : forall i j, (Z.of_nat (i + n) * m < 2 ^ 53)%Z -> INR (i + n) * value dt <= value te -> (j <= i)%nat -> (i - j < q)%nat ->
  online_saves p (time_after j dt zero) (map (fun k => time_after k dt zero) (seq (S i) n))
  = map (fun k => time_after k dt zero) (filter (fun k => Nat.eqb ((k - j) mod q) 0) (seq (S i) n)).
Proof.
  assert (Pm : (0 < m)%Z) by (destruct Dd as (D & _); rewrite D in Pd; pose proof (bpow_gt_0 radix2 e); apply lt_IZR; nra).
  induction n as [|n IH]; intros i j B L J K; [reflexivity|]. cbn [seq map online_saves filter].
  assert (IL : INR (S i) * value dt <= value te) by (eapply Rle_trans; [|exact L]; apply Rmult_le_compat_r; [lra|apply le_INR; lia]).
  rewrite exact_test by (nia || lia || exact IL).
  destruct (Nat.leb_spec q (S i - j)) as [H|H].
  - assert (X : (S i - j)%nat = q) by lia. rewrite X, Nat.mod_same by lia. cbn [Nat.eqb map]. f_equal.
    rewrite IH by (lia || (replace (S i + n)%nat with (i + S n)%nat by lia; assumption)). f_equal. apply filter_ext_in. intros k Hk. apply in_seq in Hk.
    replace (k - j)%nat with (k - S i + 1 * q)%nat by lia. rewrite Nat.mod_add by lia. reflexivity.
  - rewrite Nat.mod_small by exact H. replace (Nat.eqb (S i - j) 0) with false by (symmetry; apply Nat.eqb_neq; lia).
    apply IH; [|replace (S i + n)%nat with (i + S n)%nat by lia; exact L|lia|lia]. replace (S i + n)%nat with (i + S n)%nat by lia. exact B.
Qed.

Theorem c258_exact_partial : forall n, (Z.of_nat n * m < 2 ^ 53)%Z -> INR n * value dt <= value te ->
  saves p zero (map (fun k => time_after k dt zero) (seq 1 n))
  = map (fun k => time_after k dt zero) (filter (fun k => Nat.eqb (k mod q) 0) (seq 0 (S n))).
Proof.
  intros n B L. unfold saves. pose proof (exact_saves n 0 0 B L (Nat.le_refl _) ltac:(lia)) as E. cbn [time_after] in E. rewrite E.
  cbn [seq filter]. rewrite Nat.mod_0_l by lia. cbn [Nat.eqb map]. f_equal. f_equal. apply filter_ext. intros k. rewrite Nat.sub_0_r. reflexivity.
Qed.
End Exact.
End Saves.

(** deltat0 = 0.1 and period_save = 0.1: 7 of the 11 times are saved *)
Theorem c258_refuted : exists dt p, p = dt /\ Rabs (value dt - 1 / 10) <= / 2 * spacing (1 / 10)
  /\ map B2SF (saves p zero (map (fun k => time_after k dt zero) (seq 1 10))) = map (fun k => B2SF (time_after k dt zero)) [0; 1; 2; 3; 5; 7; 9]%nat.
Proof.
  exists f01, f01. split; [reflexivity|]. split.
  - assert (V1 : value f01 = 7205759403792794 / 72057594037927936) by (unfold value, f01, B2R, F2R; cbn; lra).
    unfold spacing. rewrite ulp_neq_0 by lra. unfold cexp. rewrite (mag_unique_pos radix2 (1 / 10) (-3)) by (cbn; lra).
    rewrite V1. unfold FLT_exp. cbn. apply Rabs_le. lra.
  - vm_compute. reflexivity.
Qed.

(** hypotheses: 1/8 and 1/4, until 1 *)
Definition f0125 : float := @B754_finite prec emax false 4503599627370496 (-55) eq_refl.
Definition f025 : float := @B754_finite prec emax false 4503599627370496 (-54) eq_refl.
Example c258_example : finite f0125 /\ finite f025 /\ value f0125 = 1 / 8 /\ dyadic (value f0125) 1 (-3) /\ value f025 = INR 2 * value f0125
  /\ good zero /\ good f01 /\ value f1 = INR 8 * value f0125 /\ value f1 + value f0125 <= bpow radix2 1023.
Proof.
  assert (A : value f0125 = 1 / 8) by (unfold value, f0125, B2R, F2R; cbn; lra).
  assert (B : value f025 = 1 / 4) by (unfold value, f025, B2R, F2R; cbn; lra).
  assert (C : value f1 = 1) by (unfold value, f1, B2R, F2R; cbn; lra).
  assert (D : value f01 = 7205759403792794 / 72057594037927936) by (unfold value, f01, B2R, F2R; cbn; lra).
  assert (H : 2 <= bpow radix2 1023) by (change 2 with (bpow radix2 1); apply bpow_le; lia).
  split; [reflexivity|]. split; [reflexivity|]. split; [exact A|]. split; [split; [rewrite A; cbn; lra|lia]|].
  split; [rewrite A, B; cbn; lra|]. split; [split; [reflexivity|cbn [value zero B2R]; lra]|]. split; [split; [reflexivity|lra]|].
  split; [rewrite A, C; cbn; lra|lra].
Qed.

Print Assumptions c258_test.
Print Assumptions c258_last_partial.
Print Assumptions c258_separated_partial.
Print Assumptions c258_exact_partial.
Print Assumptions c258_refuted.
