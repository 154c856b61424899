(** * Theorems on the temporal and spatiotemporal spectra (C132-C137) *)

From Coq Require Import Reals Lra Lia ZArith List Bool.
From Coquelicot Require Import Complex.
From Verif Require Import CExp DFT TSpec_Model.
Import ListNotations.
Open Scope R_scope.

(** ** Specification *)

(** mean of the square of a time series *)
Definition mean_square (n : nat) (x : nat -> C) : R :=
  rsum n (fun j => Cmod (x j) ^ 2) / INR n.

(** ** Sums *)

Lemma rsum_ext n f g : (forall i, (i < n)%nat -> f i = g i) -> rsum n f = rsum n g.
Proof. induction n as [|n IH]; cbn; intros H; [easy|]. rewrite IH, H; auto. Qed.
Lemma rsum_plus n f g : rsum n (fun i => f i + g i) = rsum n f + rsum n g.
Proof. induction n as [|n IH]; cbn; [ring|]. rewrite IH. ring. Qed.
Lemma rsum_scal n c f : rsum n (fun i => c * f i) = c * rsum n f.
Proof. induction n as [|n IH]; cbn; [ring|]. rewrite IH. ring. Qed.
Lemma rsum_scal_r n c f : rsum n (fun i => f i * c) = rsum n f * c.
Proof. induction n as [|n IH]; cbn; [ring|]. rewrite IH. ring. Qed.
Lemma rsum_zero n : rsum n (fun _ => 0) = 0.
Proof. induction n as [|n IH]; cbn; [easy|]. rewrite IH. ring. Qed.
Lemma rsum_rsum n m f : rsum n (fun i => rsum m (fun j => f i j)) = rsum m (fun j => rsum n (fun i => f i j)).
Proof.
  induction n as [|n IH]; cbn; [now rewrite rsum_zero|]. rewrite IH, <- rsum_plus. reflexivity.
Qed.
Lemma rsum_point n i (v : R) : (i < n)%nat -> rsum n (fun j => if (j =? i)%nat then v else 0) = v.
Proof.
  induction n as [|n IH]; intros H; [lia|]. cbn [rsum].
  destruct (Nat.eqb_spec n i) as [->|Hn].
  - rewrite (rsum_ext i _ (fun _ => 0)); [rewrite rsum_zero; ring|].
    intros j Hj. destruct (Nat.eqb_spec j i); [lia|easy].
  - rewrite IH by lia. ring.
Qed.
Lemma rsum_point_zero n (v : R) i : (n <= i)%nat -> rsum n (fun j => if (j =? i)%nat then v else 0) = 0.
Proof.
  intros H. rewrite (rsum_ext n _ (fun _ => 0)); [apply rsum_zero|].
  intros j Hj. destruct (Nat.eqb_spec j i); [lia|easy].
Qed.
Lemma rsum_shift n f : rsum (S n) f = f O + rsum n (fun i => f (S i)).
Proof. induction n as [|n IH]; [cbn; ring|]. cbn [rsum] in *. rewrite IH. ring. Qed.
Lemma rsum_split n m f : rsum (n + m) f = rsum n f + rsum m (fun i => f (n + i)%nat).
Proof.
  induction m as [|m IH]; [rewrite Nat.add_0_r; cbn; ring|].
  rewrite Nat.add_succ_r. cbn [rsum]. rewrite IH. ring.
Qed.
Lemma rsum_rev n f : rsum n (fun i => f (n - 1 - i)%nat) = rsum n f.
Proof.
  induction n as [|n IH]; [easy|]. rewrite rsum_shift. cbn [rsum].
  replace (S n - 1 - 0)%nat with n by lia.
  rewrite (rsum_ext n _ (fun i => f (n - 1 - i)%nat)); [rewrite IH; ring|].
  intros i Hi. f_equal. lia.
Qed.
Lemma rsum_list_plus {A} (l : list A) f g : rsum_list l (fun a => f a + g a) = rsum_list l f + rsum_list l g.
Proof. unfold rsum_list. induction l as [|a l IH]; cbn; [ring|]. rewrite IH. ring. Qed.
Lemma rsum_list_scal {A} (l : list A) c f : rsum_list l (fun a => c * f a) = c * rsum_list l f.
Proof. unfold rsum_list. induction l as [|a l IH]; cbn; [ring|]. rewrite IH. ring. Qed.
Lemma rsum_list_ext {A} (l : list A) f g : (forall a, In a l -> f a = g a) -> rsum_list l f = rsum_list l g.
Proof. unfold rsum_list. induction l as [|a l IH]; cbn; intros H; [easy|]. rewrite H, IH; auto. Qed.
Lemma rsum_rsum_list {A} n (l : list A) f :
  rsum n (fun i => rsum_list l (f i)) = rsum_list l (fun a => rsum n (fun i => f i a)).
Proof.
  unfold rsum_list. induction l as [|a l IH]; cbn; [apply rsum_zero|]. rewrite rsum_plus, IH. reflexivity.
Qed.

(** ** Parseval *)

Lemma chi_conj n m j : Cconj (chi n m j) = chi n (- m) j.
Proof.
  unfold chi, cis, cexp, Cconj. cbn [fst snd].
  replace (2 * PI * IZR (- m) * INR j / INR n) with (- (2 * PI * IZR m * INR j / INR n)).
  - rewrite cos_neg, sin_neg. apply C_eq; cbn; ring.
  - rewrite opp_IZR. unfold Rdiv. ring.
Qed.

Lemma cnorm2_conj z : RtoC (cnorm2 z) = (z * Cconj z)%C.
Proof. destruct z. unfold cnorm2. apply C_eq; cbn; ring. Qed.

Lemma nsum_conj n f : Cconj (nsum n f) = nsum n (fun i => Cconj (f i)).
Proof.
  induction n as [|n IH]; cbn; [apply C_eq; cbn; ring|].
  rewrite <- IH. destruct (nsum n f), (f n). apply C_eq; cbn; ring.
Qed.

Lemma Cconj_mult' a b : Cconj (a * b) = (Cconj a * Cconj b)%C.
Proof. destruct a, b. apply C_eq; cbn; ring. Qed.

Lemma nsum_nsum n m f : nsum n (fun i => nsum m (fun j => f i j)) = nsum m (fun j => nsum n (fun i => f i j)).
Proof.
  induction n as [|n IH]; cbn; [now rewrite nsum_zero|]. rewrite IH, <- nsum_plus. reflexivity.
Qed.

Lemma nsum_RtoC n f : nsum n (fun i => RtoC (f i)) = RtoC (rsum n f).
Proof. induction n as [|n IH]; cbn; [easy|]. rewrite IH, RtoC_plus. reflexivity. Qed.

Lemma nsum_point n i (g : nat -> C) : (i < n)%nat ->
  nsum n (fun j => if (j =? i)%nat then g j else RtoC 0) = g i.
Proof.
  induction n as [|n IH]; intros H; [lia|]. cbn [nsum].
  destruct (Nat.eqb_spec n i) as [->|Hn].
  - rewrite (nsum_ext i _ (fun _ => RtoC 0)); [rewrite nsum_zero; ring|].
    intros j Hj. destruct (Nat.eqb_spec j i); [lia|easy].
  - rewrite IH by lia. ring.
Qed.

Lemma sum_fft n x : (0 < n)%nat ->
  rsum n (fun k => cnorm2 (fft_time n x k)) = INR n * rsum n (fun j => cnorm2 (x j)).
Proof.
  intros Hn. apply RtoC_inj. rewrite <- nsum_RtoC, RtoC_mult, <- nsum_RtoC.
  rewrite (nsum_ext n _ (fun k => nsum n (fun j => nsum n (fun l =>
    (x j * Cconj (x l) * chi n (Z.of_nat l - Z.of_nat j) k)%C)))).
  2:{ intros k _. rewrite cnorm2_conj. unfold fft_time at 2. rewrite nsum_conj.
      unfold fft_time. rewrite <- nsum_scal_r. apply nsum_ext. intros j _.
      rewrite <- nsum_scal. apply nsum_ext. intros l _.
      rewrite Cconj_mult', chi_conj, Z.opp_involutive.
      assert (E : (chi n (Z.of_nat l - Z.of_nat j) k = chi n (- Z.of_nat k) j * chi n (Z.of_nat k) l)%C).
      { unfold chi. rewrite <- cis_plus. f_equal.
        rewrite minus_IZR, opp_IZR, <- !INR_IZR_INZ. unfold Rdiv. ring. }
      rewrite E. ring. }
  rewrite nsum_nsum.
  rewrite (nsum_ext n _ (fun j => RtoC (INR n) * RtoC (cnorm2 (x j)))%C); [apply nsum_scal|].
  intros j Hj. rewrite nsum_nsum.
  rewrite (nsum_ext n _ (fun l => if (l =? j)%nat then (RtoC (INR n) * (x j * Cconj (x l)))%C else RtoC 0)).
  2:{ intros l Hl. rewrite nsum_scal. change (nsum n (fun i => chi n (Z.of_nat l - Z.of_nat j) i)) with (nsum n (chi n (Z.of_nat l - Z.of_nat j))).
      rewrite orthogonality by exact Hn. destruct (Nat.eqb_spec l j) as [->|Hlj].
      - rewrite Z.sub_diag, Z.mod_0_l by lia. cbn [Z.eqb]. ring.
      - destruct (Z.eqb_spec ((Z.of_nat l - Z.of_nat j) mod Z.of_nat n) 0) as [E|E]; [|ring]. exfalso.
        apply Z.mod_divide in E; [|lia]. destruct E as [q E].
        assert (q = 0 \/ 1 <= q \/ q <= -1)%Z as [->|[Hq|Hq]] by lia; [lia| |];
          clear - E Hq Hj Hl; nia. }
  rewrite (nsum_point n j (fun l => RtoC (INR n) * (x j * Cconj (x l)))%C Hj), cnorm2_conj. reflexivity.
Qed.

Lemma cnorm2_Cmod z : Cmod z ^ 2 = cnorm2 z.
Proof.
  unfold Cmod, cnorm2. apply pow2_sqrt. pose proof (pow2_ge_0 (fst z)). pose proof (pow2_ge_0 (snd z)). lra.
Qed.

Lemma parseval_periodogram n x : (0 < n)%nat -> rsum n (periodogram n x) = mean_square n x.
Proof.
  intros Hn. assert (HN : INR n <> 0) by (apply not_0_INR; lia).
  unfold periodogram. unfold Rdiv. rewrite rsum_scal_r, sum_fft by exact Hn.
  unfold mean_square. rewrite (rsum_ext n (fun j => Cmod (x j) ^ 2) (fun j => cnorm2 (x j))) by (intros; apply cnorm2_Cmod).
  field. exact HN.
Qed.

Lemma periodogram_nonneg n x k : (0 < n)%nat -> 0 <= periodogram n x k.
Proof.
  intros Hn. unfold periodogram, cnorm2. apply Rmult_le_pos.
  - pose proof (pow2_ge_0 (fst (fft_time n x k))). pose proof (pow2_ge_0 (snd (fft_time n x k))). lra.
  - apply Rlt_le, Rinv_0_lt_compat, pow_lt, lt_0_INR. exact Hn.
Qed.

(** the sums of the one-sided spectra *)
Lemma onesided_sum n s q : (q <= n)%nat ->
  rsum (S q) (onesided n s) = rsum (S q) s + rsum q (fun i => s (n - S i)%nat).
Proof.
  intros Hq. rewrite (rsum_shift q (onesided n s)), (rsum_shift q s).
  rewrite (rsum_ext q _ (fun i => s (S i) + s (n - S i)%nat)) by reflexivity.
  rewrite rsum_plus. unfold onesided. ring.
Qed.

Lemma tail_sum n s a q : n = (a + q)%nat ->
  rsum q (fun i => s (n - S i)%nat) = rsum q (fun i => s (a + i)%nat).
Proof.
  intros ->. rewrite <- (rsum_rev q (fun i => s (a + i)%nat)). apply rsum_ext. intros i Hi. f_equal. lia.
Qed.

Lemma onesided_odd p s : rsum (p + 1) (onesided (2 * p + 1) s) = rsum (2 * p + 1) s.
Proof.
  rewrite Nat.add_1_r, onesided_sum by lia.
  rewrite (tail_sum (2 * p + 1) s (S p) p) by lia.
  rewrite <- rsum_split. f_equal. lia.
Qed.

Lemma onesided_even_double p s : (0 < p)%nat ->
  rsum (p + 1) (onesided (2 * p) s) = rsum (2 * p) s + s p.
Proof.
  intros Hp. rewrite Nat.add_1_r, onesided_sum by lia.
  rewrite (tail_sum (2 * p) s p p) by lia. cbn [rsum].
  replace (2 * p)%nat with (p + p)%nat by lia. rewrite (rsum_split p p). ring.
Qed.

Lemma onesided_even_lost p s : (0 < p)%nat ->
  rsum p (onesided (2 * p) s) = rsum (2 * p) s - s p.
Proof.
  intros Hp. destruct p as [|p]; [lia|]. rewrite onesided_sum by lia.
  rewrite (tail_sum (2 * S p) s (S p + 1) p) by lia.
  replace (2 * S p)%nat with (S p + 1 + p)%nat by lia. rewrite rsum_split, (rsum_split (S p) 1).
  cbn [rsum]. rewrite Nat.add_0_r. ring.
Qed.

(** ** C132: the temporal spectra *)

Section Temporal.
Variables (period_save : R) (n : nat) (probes : list (nat -> C)).
Hypothesis Hper : 0 < period_save.
Hypothesis Hn : (0 < n)%nat.
Hypothesis Hpr : probes <> [].

(** frequency step of the periodogram of these series *)
Definition domega_of (period : R) (n : nat) : R := 2 * PI / (INR n * period).

Lemma domega_pos : 0 < domega_of period_save n.
Proof.
  unfold domega_of. apply Rdiv_lt_0_compat; [pose proof PI_RGT_0; lra|].
  apply Rmult_lt_0_compat; [now apply lt_0_INR|exact Hper].
Qed.

Definition mean_probes (f : (nat -> C) -> R) : R := rsum_list probes f / INR (length probes).

Lemma spectrum_first x k :
  snd (fst (compute_spectrum period_save None n x)) k = periodogram n x k / domega_of period_save n.
Proof.
  unfold compute_spectrum, domega_of. cbn. f_equal.
  assert (INR n <> 0) by (apply not_0_INR; lia). field. split; lra.
Qed.

Lemma mean_spectrum_sum (q : nat) :
  rsum q (fun k => rsum_list probes (fun x => snd (fst (compute_spectrum period_save None n x)) k)
                   / INR (length probes))
  = mean_probes (fun x => rsum q (periodogram n x)) / domega_of period_save n.
Proof.
  unfold mean_probes, Rdiv. rewrite rsum_scal_r.
  rewrite (rsum_rsum_list q probes (fun k x => snd (fst (compute_spectrum period_save None n x)) k)).
  rewrite (rsum_list_ext probes _ (fun x => / domega_of period_save n * rsum q (periodogram n x))).
  - rewrite rsum_list_scal. ring.
  - intros x _. rewrite <- rsum_scal. apply rsum_ext. intros k _.
    rewrite (spectrum_first x k). unfold Rdiv. ring.
Qed.
End Temporal.

(** For an odd number of instants the sum of the one-sided spectrum (times the step of the
    frequencies) is the mean over the probes of the mean square of the series, and the
    frequencies are 0, domega, 2 domega... *)
Theorem c132_odd_partial : forall period_save n probes nomega omegas spectrum st,
  0 < period_save -> Nat.odd n = true -> probes <> [] ->
  temporal_compute_spectra period_save None n probes = (nomega, omegas, spectrum, st) ->
  rsum nomega spectrum * domega_of period_save n = mean_probes probes (mean_square n)
  /\ (forall m, (m < nomega)%nat -> omegas m = INR m * domega_of period_save n).
Proof.
  intros period n probes nomega omegas spectrum st Hper Hodd Hpr H.
  apply Nat.odd_spec in Hodd as [p ->].
  assert (Hn : (0 < 2 * p + 1)%nat) by lia.
  assert (HN : INR (2 * p + 1) <> 0) by (apply not_0_INR; lia).
  unfold temporal_compute_spectra in H. cbn [compute_spectrum] in H.
  assert (Ed : ((2 * p + 1) / 2)%nat = p) by (symmetry; apply Nat.div_unique with 1%nat; lia).
  pose proof (f_equal (fun r => fst (fst (fst r))) H) as H1.
  pose proof (f_equal (fun r => snd (fst (fst r))) H) as H2.
  pose proof (f_equal (fun r => snd (fst r)) H) as H3.
  cbv beta iota delta [fst snd] in H1, H2, H3. clear H. subst. rewrite Ed. split.
  - rewrite onesided_odd.
    pose proof (mean_spectrum_sum period (2 * p + 1) probes Hper Hn (2 * p + 1)) as E.
    cbn [compute_spectrum fst snd] in E. rewrite E.
    pose proof (domega_pos period (2 * p + 1) Hper Hn) as Hd.
    unfold mean_probes. rewrite (rsum_list_ext probes _ (mean_square (2 * p + 1)))
      by (intros; now apply parseval_periodogram).
    field. split; [apply not_0_INR; destruct probes; [easy|discriminate]|lra].
  - intros m Hm. unfold fftfreq.
    assert (Ed2 : ((2 * p + 1 + 1) / 2)%nat = (p + 1)%nat) by (symmetry; apply Nat.div_unique with 0%nat; lia).
    rewrite Ed2. destruct (Nat.ltb_spec m (p + 1)); [|lia].
    unfold domega_of. field. split; [lra|exact HN].
Qed.

(** For an even number the power of the largest frequency is counted twice and this frequency is
    negative. *)
Theorem c132_even : forall period_save p probes nomega omegas spectrum st,
  0 < period_save -> (0 < p)%nat -> probes <> [] ->
  temporal_compute_spectra period_save None (2 * p) probes = (nomega, omegas, spectrum, st) ->
  nomega = (p + 1)%nat
  /\ rsum nomega spectrum * domega_of period_save (2 * p)
     = mean_probes probes (mean_square (2 * p)) + mean_probes probes (fun x => periodogram (2 * p) x p)
  /\ omegas p = - (INR p * domega_of period_save (2 * p)).
Proof.
  intros period p probes nomega omegas spectrum st Hper Hp Hpr H.
  assert (Hn : (0 < 2 * p)%nat) by lia.
  assert (HN : INR (2 * p) <> 0) by (apply not_0_INR; lia).
  unfold temporal_compute_spectra in H. cbn [compute_spectrum] in H.
  assert (Ed : ((2 * p) / 2)%nat = p) by (symmetry; apply Nat.div_unique with 0%nat; lia).
  pose proof (f_equal (fun r => fst (fst (fst r))) H) as H1.
  pose proof (f_equal (fun r => snd (fst (fst r))) H) as H2.
  pose proof (f_equal (fun r => snd (fst r)) H) as H3.
  cbv beta iota delta [fst snd] in H1, H2, H3. clear H. subst. rewrite Ed. split; [reflexivity|]. split.
  - rewrite onesided_even_double by exact Hp.
    pose proof (mean_spectrum_sum period (2 * p) probes Hper Hn (2 * p)) as E.
    cbn [compute_spectrum fst snd] in E. rewrite E.
    pose proof (domega_pos period (2 * p) Hper Hn) as Hd.
    assert (Hl : INR (length probes) <> 0) by (apply not_0_INR; destruct probes; [easy|discriminate]).
    rewrite (rsum_list_ext probes _ (fun x => / domega_of period (2 * p) * periodogram (2 * p) x p)).
    2:{ intros x _. unfold domega_of. field. repeat split; first [exact HN|pose proof PI_RGT_0; lra]. }
    rewrite rsum_list_scal.
    unfold mean_probes. rewrite (rsum_list_ext probes _ (mean_square (2 * p)))
      by (intros; now apply parseval_periodogram).
    field. split; [exact Hl|lra].
  - unfold fftfreq.
    assert (Ed2 : ((2 * p + 1) / 2)%nat = p) by (symmetry; apply Nat.div_unique with 1%nat; lia).
    rewrite Ed2, Nat.ltb_irrefl. unfold domega_of. rewrite mult_INR. cbn [INR].
    assert (INR p <> 0) by (apply not_0_INR; lia). field. split; lra.
Qed.

(** a series of two instants 1, -1: its mean square is 1, the spectrum gives 2 *)
Definition alternating (j : nat) : C := if Nat.even j then RtoC 1 else RtoC (-1).

Lemma alternating_fft : fft_time 2 alternating 1 = RtoC 2.
Proof.
  unfold fft_time, alternating, chi, cis, cexp. cbn.
  replace (2 * PI * -1 * 0 / (1 + 1)) with 0 by field.
  replace (2 * PI * -1 * 1 / (1 + 1)) with (- PI) by field.
  rewrite exp_0, cos_0, sin_0, cos_neg, sin_neg, cos_PI, sin_PI. apply C_eq; cbn; ring.
Qed.

Lemma alternating_power : periodogram 2 alternating 1 = 1.
Proof. unfold periodogram. rewrite alternating_fft. unfold cnorm2. cbn. field. Qed.

Lemma alternating_square : mean_square 2 alternating = 1.
Proof.
  unfold mean_square. cbn [rsum]. rewrite !cnorm2_Cmod. unfold alternating, cnorm2. cbn. field.
Qed.

Theorem c132_even_refuted : exists period_save n probes nomega omegas spectrum st m,
  0 < period_save /\ (1 < n)%nat /\ probes <> []
  /\ temporal_compute_spectra period_save None n probes = (nomega, omegas, spectrum, st)
  /\ rsum nomega spectrum * domega_of period_save n = 2 * mean_probes probes (mean_square n)
  /\ mean_probes probes (mean_square n) = 1
  /\ (m < nomega)%nat /\ omegas m < 0.
Proof.
  destruct (temporal_compute_spectra 1 None (2 * 1) [alternating]) as [[[nomega omegas] spectrum] st] eqn:E.
  destruct (c132_even 1 1 [alternating] nomega omegas spectrum st) as (H1 & H2 & H3); auto; [lra|easy|].
  exists 1, (2 * 1)%nat, [alternating], nomega, omegas, spectrum, st, 1%nat.
  assert (Hm : mean_probes [alternating] (mean_square (2 * 1)) = 1).
  { unfold mean_probes. cbn [rsum_list fold_right length Nat.mul Nat.add]. rewrite alternating_square. cbn. field. }
  split; [lra|]. split; [lia|]. split; [easy|]. split; [exact E|]. split; [|split; [exact Hm|split; [lia|]]].
  - rewrite H2, Hm. unfold mean_probes. cbn [rsum_list fold_right length Nat.mul Nat.add].
    rewrite alternating_power. cbn. field.
  - rewrite H3. unfold domega_of. cbn. pose proof PI_RGT_0. 
    replace (1 * (2 * PI / ((1 + 1) * 1))) with PI by field. lra.
Qed.

Example c132_example : exists nomega omegas spectrum st,
  temporal_compute_spectra 1 None 3 [alternating] = (nomega, omegas, spectrum, st)
  /\ rsum nomega spectrum * domega_of 1 3 = mean_probes [alternating] (mean_square 3).
Proof.
  destruct (temporal_compute_spectra 1 None 3 [alternating]) as [[[nomega omegas] spectrum] st] eqn:E.
  exists nomega, omegas, spectrum, st. split; [reflexivity|].
  eapply c132_odd_partial; [| | |exact E]; [lra|reflexivity|easy].
Qed.

(** ** C133: the spatiotemporal spectra *)

(** number of modes of the full Fourier space given by a recorded mode (kx >= 0 only) when the
    largest kx is not recorded *)
Definition both_signs (q : kmode) : R := if Req_EM_T (kx q) 0 then 1 else 2.

Lemma contribution_sum nkz nkh deltakz deltakh q i :
  (0 < nkz)%nat -> (1 < nkh)%nat ->
  rsum nkz (fun jz => rsum nkh (fun jh => contribution nkz nkh deltakz deltakh q jz jh i))
  = both_signs q * values q i.
Proof.
  intros Hz Hh.
  set (v := if Req_EM_T (kx q) 0 then values q i else 2 * values q i).
  assert (Ev : both_signs q * values q i = v).
  { unfold both_signs, v. destruct (Req_EM_T (kx q) 0); ring. }
  set (ikz := Nat.min (round_of (kz q / deltakz)) (nkz - 1)).
  rewrite (rsum_ext nkz _ (fun jz => if (jz =? ikz)%nat then v else 0)).
  - rewrite rsum_point by (unfold ikz; lia). now symmetry.
  - intros jz _. unfold contribution. fold v ikz. destruct (jz =? ikz)%nat; [|apply rsum_zero].
    destruct (Nat.leb_spec (nkh - 1) (int_of (kh q / deltakh))).
    + apply rsum_point. lia.
    + rewrite rsum_plus, !rsum_point by lia. ring.
Qed.

(** The (kz, kh, omega) spectrum summed over kz and kh is the one-sided spectrum of all the modes. *)
Theorem c133_kzkh : forall nkz nkh deltakz deltakh n modes m,
  0 < deltakz -> 0 < deltakh -> (0 < nkz)%nat -> (1 < nkh)%nat ->
  rsum nkz (fun jz => rsum nkh (fun jh =>
    compute_spectrum_kzkhomega nkz nkh deltakz deltakh n modes jz jh m)) * (deltakz * deltakh)
  = onesided n (fun i => rsum_list modes (fun q => both_signs q * values q i)) m.
Proof.
  intros nkz nkh deltakz deltakh n modes m Hz Hh Hnz Hnh.
  assert (E : forall i, rsum nkz (fun jz => rsum nkh (fun jh =>
      rsum_list modes (fun q => contribution nkz nkh deltakz deltakh q jz jh i)))
    = rsum_list modes (fun q => both_signs q * values q i)).
  { intros i. rewrite (rsum_ext nkz _ (fun jz => rsum_list modes (fun q =>
      rsum nkh (fun jh => contribution nkz nkh deltakz deltakh q jz jh i)))).
    - rewrite (rsum_rsum_list nkz modes (fun jz q => rsum nkh (fun jh => contribution nkz nkh deltakz deltakh q jz jh i))).
      apply rsum_list_ext. intros q _. now apply contribution_sum.
    - intros jz _. apply (rsum_rsum_list nkh modes (fun jh q => contribution nkz nkh deltakz deltakh q jz jh i)). }
  unfold compute_spectrum_kzkhomega.
  set (c := deltakz * deltakh). assert (Hc : c <> 0) by (unfold c; apply Rmult_integral_contrapositive; lra).
  rewrite (rsum_ext nkz _ (fun jz => rsum nkh (fun jh =>
    onesided n (fun i => rsum_list modes (fun q => contribution nkz nkh deltakz deltakh q jz jh i)) m) * / c))
    by (intros; unfold Rdiv; apply rsum_scal_r).
  rewrite rsum_scal_r, Rmult_assoc, Rinv_l, Rmult_1_r by exact Hc.
  destruct m as [|m]; cbn [onesided]; [apply E|].
  rewrite <- (E (S m)), <- (E (n - S m)%nat), <- rsum_plus. apply rsum_ext. intros jz _.
  now rewrite rsum_plus.
Qed.

Lemma int_part_nonneg x : 0 <= x -> (0 <= Int_part x)%Z /\ IZR (Int_part x) <= x < IZR (Int_part x) + 1.
Proof.
  intros H. destruct (base_Int_part x) as [H1 H2].
  assert ((-1 < Int_part x)%Z) by (apply lt_IZR; lra). split; [lia|]. lra.
Qed.
Lemma int_of_bounds x : 0 <= x -> INR (int_of x) <= x < INR (int_of x) + 1.
Proof.
  intros H. destruct (int_part_nonneg x H) as [H1 H2]. unfold int_of.
  rewrite INR_IZR_INZ, Z2Nat.id by exact H1. exact H2.
Qed.
Lemma int_of_unique x k : INR k <= x < INR k + 1 -> int_of x = k.
Proof.
  intros H. pose proof (pos_INR k) as Hk. destruct (int_of_bounds x) as [H1 H2]; [lra|].
  assert (INR k < INR (int_of x + 1)) by (rewrite plus_INR; cbn; lra).
  assert (INR (int_of x) < INR (k + 1)) by (rewrite plus_INR; cbn; lra).
  apply INR_lt in H0. apply INR_lt in H3. lia.
Qed.

(** A mode on the points of the (kz, kh) grid is in the corresponding cell only; the shares of any
    mode are not negative. *)
Theorem c133_cells : forall nkz nkh deltakz deltakh q jz jh i,
  0 < deltakz -> 0 < deltakh -> (0 < nkz)%nat -> (1 < nkh)%nat -> 0 <= kh q -> 0 <= values q i ->
  0 <= contribution nkz nkh deltakz deltakh q jz jh i
  /\ (forall a b, (a < nkz)%nat -> (b < nkh)%nat -> kz q = INR a * deltakz -> kh q = INR b * deltakh ->
       contribution nkz nkh deltakz deltakh q jz jh i
       = if ((jz =? a) && (jh =? b))%nat then both_signs q * values q i else 0).
Proof.
  intros nkz nkh deltakz deltakh q jz jh i Hz Hh Hnz Hnh Hk Hv.
  set (v := if Req_EM_T (kx q) 0 then values q i else 2 * values q i).
  assert (Ev : both_signs q * values q i = v).
  { unfold both_signs, v. destruct (Req_EM_T (kx q) 0); ring. }
  assert (Hv' : 0 <= v) by (unfold v; destruct (Req_EM_T (kx q) 0); lra).
  assert (Hkd : 0 <= kh q / deltakh) by (apply Rmult_le_pos; [exact Hk|apply Rlt_le, Rinv_0_lt_compat, Hh]).
  destruct (int_of_bounds _ Hkd) as [B1 B2].
  unfold contribution. fold v. split.
  - destruct (jz =? _)%nat; [|lra]. destruct (_ <=? _)%nat; [destruct (jh =? _)%nat; lra|].
    set (ikh := int_of (kh q / deltakh)) in *.
    assert (Hs : (kh q - deltakh * INR ikh) / deltakh = kh q / deltakh - INR ikh) by (field; lra).
    rewrite Hs.
    assert (0 <= (1 - (kh q / deltakh - INR ikh)) * v) by (apply Rmult_le_pos; lra).
    assert (0 <= (kh q / deltakh - INR ikh) * v) by (apply Rmult_le_pos; lra).
    destruct (jh =? ikh)%nat, (jh =? ikh + 1)%nat; lra.
  - intros a b Ha Hb Ea Eb. rewrite Ev, Ea, Eb.
    replace (INR a * deltakz / deltakz) with (INR a) by (field; lra).
    replace (INR b * deltakh / deltakh) with (INR b) by (field; lra).
    assert (Er : round_of (INR a) = a) by (apply (int_of_unique (INR a + / 2)); lra).
    assert (Ei : int_of (INR b) = b) by (apply int_of_unique; lra).
    rewrite Er, Ei. replace (Nat.min a (nkz - 1)) with a by lia.
    destruct (jz =? a)%nat; cbn [andb]; [|reflexivity].
    destruct (Nat.leb_spec (nkh - 1) b).
    + replace (nkh - 1)%nat with b by lia. reflexivity.
    + replace ((INR b * deltakh - deltakh * INR b) / deltakh) with 0 by (field; lra).
      destruct (jh =? b)%nat, (jh =? b + 1)%nat; ring.
Qed.

(** The two shares keep the horizontal wavenumber: the mean of kh over the cells is the kh of the mode. *)
Theorem c133_first_moment : forall nkz nkh deltakz deltakh q i,
  0 < deltakh -> (0 < nkz)%nat -> 0 <= kh q -> kh q < INR (nkh - 1) * deltakh ->
  rsum nkz (fun jz => rsum nkh (fun jh => INR jh * deltakh * contribution nkz nkh deltakz deltakh q jz jh i))
  = kh q * (both_signs q * values q i).
Proof.
  intros nkz nkh deltakz deltakh q i Hh Hz Hk Hm.
  set (v := if Req_EM_T (kx q) 0 then values q i else 2 * values q i).
  assert (Ev : both_signs q * values q i = v).
  { unfold both_signs, v. destruct (Req_EM_T (kx q) 0); ring. }
  assert (Hkd : 0 <= kh q / deltakh) by (apply Rmult_le_pos; [exact Hk|apply Rlt_le, Rinv_0_lt_compat, Hh]).
  destruct (int_of_bounds _ Hkd) as [B1 B2].
  set (ikz := Nat.min (round_of (kz q / deltakz)) (nkz - 1)). set (ikh := int_of (kh q / deltakh)) in *.
  assert (Hi : (ikh < nkh - 1)%nat).
  { apply INR_lt. apply Rle_lt_trans with (kh q / deltakh); [exact B1|]. apply Rmult_lt_reg_r with deltakh; [exact Hh|].
    replace (kh q / deltakh * deltakh) with (kh q) by (field; lra). exact Hm. }
  rewrite Ev. rewrite (rsum_ext nkz _ (fun jz => if (jz =? ikz)%nat then kh q * v else 0)).
  - apply rsum_point. unfold ikz. lia.
  - intros jz _. unfold contribution. fold v ikz ikh. destruct (jz =? ikz)%nat.
    + destruct (Nat.leb_spec (nkh - 1) ikh); [lia|].
      set (c := (kh q - deltakh * INR ikh) / deltakh).
      rewrite (rsum_ext nkh _ (fun jh => (if (jh =? ikh)%nat then INR ikh * deltakh * (1 - c) * v else 0) + (if (jh =? ikh + 1)%nat then INR (ikh + 1) * deltakh * c * v else 0))).
      * rewrite rsum_plus, !rsum_point by lia. rewrite plus_INR. cbn [INR]. unfold c. field. lra.
      * intros jh _. destruct (Nat.eqb_spec jh ikh), (Nat.eqb_spec jh (ikh + 1)); subst; try lia; ring.
    + rewrite (rsum_ext nkh _ (fun _ => 0)); [apply rsum_zero|]. intros; ring.
Qed.
Example c133_first_moment_example : 0 <= 1 / 2 /\ 1 / 2 < INR (3 - 1) * 1. Proof. cbn. lra. Qed.

(** the recorded mode of a series *)
Definition recorded (period_save : R) (st : attrs) (n : nat) (k : R * R * R) (x : nat -> C) : kmode :=
  let '(kx, kz, kh) := k in mkMode kx kz kh (snd (fst (st_compute_spectra period_save st n x))).

Lemma recorded_values period n k x i : (0 < n)%nat -> 0 < period ->
  values (recorded period None n k x) i = periodogram n x i / domega_of period n.
Proof.
  intros Hn Hp. destruct k as [[k1 k2] k3]. cbn. unfold domega_of. f_equal.
  assert (INR n <> 0) by (apply not_0_INR; lia). field. split; lra.
Qed.

Definition record_modes (period : R) (st : attrs) (n : nat) (data : list (R * R * R * (nat -> C))) : list kmode :=
  map (fun d => recorded period st n (fst d) (snd d)) data.
Definition weight_of (k : R * R * R) : R := if Req_EM_T (fst (fst k)) 0 then 1 else 2.

Lemma sum_modes period n data i : (0 < n)%nat -> 0 < period ->
  rsum_list (record_modes period None n data) (fun q => both_signs q * values q i)
  = rsum_list data (fun d => weight_of (fst d) * (periodogram n (snd d) i / domega_of period n)).
Proof.
  intros Hn Hp. unfold record_modes, rsum_list. induction data as [|d data IH]; cbn [map fold_right]; [easy|].
  rewrite IH, recorded_values by assumption. f_equal. f_equal.
  destruct d as [[[k1 k2] k3] x]. reflexivity.
Qed.

(** For an odd number of instants, the sum over kz, kh and omega is the mean over the time of the
    sum over the modes. *)
Theorem c133_energy_partial : forall period_save n data nkz nkh deltakz deltakh,
  0 < period_save -> Nat.odd n = true -> 0 < deltakz -> 0 < deltakh -> (0 < nkz)%nat -> (1 < nkh)%nat ->
  rsum (st_nomegas n) (fun m => rsum nkz (fun jz => rsum nkh (fun jh =>
    compute_spectrum_kzkhomega nkz nkh deltakz deltakh n (record_modes period_save None n data) jz jh m)))
  * (deltakz * deltakh * domega_of period_save n)
  = rsum_list data (fun d => weight_of (fst d) * mean_square n (snd d)).
Proof.
  intros period n data nkz nkh deltakz deltakh Hp Hodd Hz Hh Hnz Hnh.
  rewrite <- Rmult_assoc, <- rsum_scal_r.
  rewrite (rsum_ext (st_nomegas n) _ (onesided n (fun i =>
    rsum_list (record_modes period None n data) (fun q => both_signs q * values q i))))
    by (intros; now apply c133_kzkh).
  apply Nat.odd_spec in Hodd as [p ->].
  assert (Hn : (0 < 2 * p + 1)%nat) by lia.
  unfold st_nomegas. replace ((2 * p + 1 + 1) / 2)%nat with (p + 1)%nat
    by (apply Nat.div_unique with 0%nat; lia).
  rewrite onesided_odd.
  rewrite (rsum_ext _ _ (fun i => rsum_list data (fun d => weight_of (fst d) * (periodogram (2 * p + 1) (snd d) i / domega_of period (2 * p + 1)))))
    by (intros; now apply sum_modes).
  rewrite (rsum_rsum_list (2 * p + 1) data (fun i d => weight_of (fst d) * (periodogram (2 * p + 1) (snd d) i / domega_of period (2 * p + 1)))).
  pose proof (domega_pos period (2 * p + 1) Hp Hn) as Hd.
  rewrite (Rmult_comm _ (domega_of period (2 * p + 1))), <- rsum_list_scal. apply rsum_list_ext. intros d _.
  rewrite rsum_scal. unfold Rdiv. rewrite rsum_scal_r, parseval_periodogram by exact Hn.
  field. lra.
Qed.

(** For an even number the largest frequency is not in the one-sided spectra. *)
Theorem c133_even : forall period_save p data nkz nkh deltakz deltakh,
  0 < period_save -> (0 < p)%nat -> 0 < deltakz -> 0 < deltakh -> (0 < nkz)%nat -> (1 < nkh)%nat ->
  rsum (st_nomegas (2 * p)) (fun m => rsum nkz (fun jz => rsum nkh (fun jh =>
    compute_spectrum_kzkhomega nkz nkh deltakz deltakh (2 * p)
      (record_modes period_save None (2 * p) data) jz jh m)))
  * (deltakz * deltakh * domega_of period_save (2 * p))
  = rsum_list data (fun d => weight_of (fst d) * (mean_square (2 * p) (snd d) - periodogram (2 * p) (snd d) p)).
Proof.
  intros period p data nkz nkh deltakz deltakh Hp Hpp Hz Hh Hnz Hnh.
  rewrite <- Rmult_assoc, <- rsum_scal_r.
  rewrite (rsum_ext (st_nomegas (2 * p)) _ (onesided (2 * p) (fun i =>
    rsum_list (record_modes period None (2 * p) data) (fun q => both_signs q * values q i))))
    by (intros; now apply c133_kzkh).
  assert (Hn : (0 < 2 * p)%nat) by lia.
  unfold st_nomegas. replace ((2 * p + 1) / 2)%nat with p by (apply Nat.div_unique with 1%nat; lia).
  rewrite onesided_even_lost by exact Hpp.
  rewrite (rsum_ext _ _ (fun i => rsum_list data (fun d => weight_of (fst d) * (periodogram (2 * p) (snd d) i / domega_of period (2 * p)))))
    by (intros; now apply sum_modes).
  rewrite sum_modes by assumption.
  rewrite (rsum_rsum_list (2 * p) data (fun i d => weight_of (fst d) * (periodogram (2 * p) (snd d) i / domega_of period (2 * p)))).
  pose proof (domega_pos period (2 * p) Hp Hn) as Hd.
  rewrite (Rmult_comm _ (domega_of period (2 * p))), Rmult_minus_distr_l, <- !rsum_list_scal.
  unfold Rminus. rewrite (Ropp_mult_distr_l 1) || idtac.
  replace (- rsum_list data (fun a => domega_of period (2 * p) * (weight_of (fst a) * (periodogram (2 * p) (snd a) p / domega_of period (2 * p)))))
    with (rsum_list data (fun a => (-1) * (domega_of period (2 * p) * (weight_of (fst a) * (periodogram (2 * p) (snd a) p / domega_of period (2 * p))))))
    by (rewrite (rsum_list_scal data (-1)); ring).
  rewrite <- rsum_list_plus. apply rsum_list_ext. intros d _.
  rewrite rsum_scal. unfold Rdiv. rewrite rsum_scal_r, parseval_periodogram by exact Hn.
  field. lra.
Qed.

Theorem c133_energy_refuted : exists period_save n data nkz nkh deltakz deltakh,
  0 < period_save /\ (1 < n)%nat /\ 0 < deltakz /\ 0 < deltakh /\ (0 < nkz)%nat /\ (1 < nkh)%nat
  /\ rsum (st_nomegas n) (fun m => rsum nkz (fun jz => rsum nkh (fun jh =>
       compute_spectrum_kzkhomega nkz nkh deltakz deltakh n (record_modes period_save None n data) jz jh m)))
     * (deltakz * deltakh * domega_of period_save n) = 0
  /\ rsum_list data (fun d => weight_of (fst d) * mean_square n (snd d)) = 1.
Proof.
  exists 1, (2 * 1)%nat, [((0, 0, 0), alternating)], 1%nat, 2%nat, 1, 1.
  split; [lra|]. split; [lia|]. split; [lra|]. split; [lra|]. split; [lia|]. split; [lia|]. split.
  - rewrite c133_even by (try lra; lia). cbn [rsum_list fold_right fst snd Nat.mul Nat.add].
    rewrite alternating_square, alternating_power. ring.
  - cbn [rsum_list fold_right fst snd Nat.mul Nat.add]. rewrite alternating_square.
    unfold weight_of. cbn. destruct (Req_EM_T 0 0); [ring|easy].
Qed.

Example c133_example :
  rsum (st_nomegas 3) (fun m => rsum 2 (fun jz => rsum 2 (fun jh =>
    compute_spectrum_kzkhomega 2 2 1 1 3 (record_modes 1 None 3 [((1, 1, 1), alternating)]) jz jh m)))
  * (1 * 1 * domega_of 1 3) = weight_of (1, 1, 1) * mean_square 3 alternating + 0.
Proof. apply c133_energy_partial; try lra; try lia; reflexivity. Qed.

(** ** C134: two calls on the same output object *)

(** Normalisation after a first call with n1 instants: the attribute domega is the one of the
    first call. *)
Theorem c134_second_call : forall period_save n1 probes1 r1 w1 s1 st n2 probes2 nomega omegas spectrum st',
  0 < period_save -> (0 < n1)%nat -> Nat.odd n2 = true -> probes2 <> [] ->
  temporal_compute_spectra period_save None n1 probes1 = (r1, w1, s1, st) ->
  temporal_compute_spectra period_save st n2 probes2 = (nomega, omegas, spectrum, st') ->
  rsum nomega spectrum * domega_of period_save n2
  = INR n1 / INR n2 * mean_probes probes2 (mean_square n2).
Proof.
  intros period n1 probes1 r1 w1 s1 st n2 probes2 nomega omegas spectrum st' Hper Hn1 Hodd Hpr H1 H2.
  apply Nat.odd_spec in Hodd as [p ->].
  assert (Hn : (0 < 2 * p + 1)%nat) by lia.
  assert (HN : INR (2 * p + 1) <> 0) by (apply not_0_INR; lia).
  assert (HN1 : INR n1 <> 0) by (apply not_0_INR; lia).
  pose proof (f_equal snd H1) as E. cbn in E. subst st. clear H1.
  unfold temporal_compute_spectra in H2. cbn [compute_spectrum fst snd] in H2.
  assert (Ed : ((2 * p + 1) / 2)%nat = p) by (symmetry; apply Nat.div_unique with 1%nat; lia).
  pose proof (f_equal (fun r => fst (fst (fst r))) H2) as E1.
  pose proof (f_equal (fun r => snd (fst r)) H2) as E3.
  cbv beta iota delta [fst snd] in E1, E3. clear H2. subst nomega spectrum. rewrite Ed.
  rewrite onesided_odd. set (d1 := 2 * PI * (1 / period) / INR n1).
  assert (Hl : INR (length probes2) <> 0) by (apply not_0_INR; destruct probes2; [easy|discriminate]).
  assert (Hd1 : d1 <> 0).
  { unfold d1. pose proof PI_RGT_0. apply Rmult_integral_contrapositive. split; [|now apply Rinv_neq_0_compat].
    apply Rmult_integral_contrapositive. split; [lra|]. unfold Rdiv. rewrite Rmult_1_l. apply Rinv_neq_0_compat. lra. }
  unfold Rdiv at 1. rewrite rsum_scal_r.
  rewrite (rsum_rsum_list (2 * p + 1) probes2 (fun k x => periodogram (2 * p + 1) x k / d1)).
  rewrite (rsum_list_ext probes2 _ (fun x => / d1 * mean_square (2 * p + 1) x)).
  2:{ intros x _. unfold Rdiv. rewrite rsum_scal_r, parseval_periodogram by exact Hn. ring. }
  rewrite rsum_list_scal. unfold mean_probes, d1, domega_of. pose proof PI_RGT_0.
  field. repeat split; first [assumption|lra].
Qed.

(** with the same number of instants the normalisation is right *)
Theorem c134_same_number_partial : forall period_save n probes1 r1 w1 s1 st probes2 nomega omegas spectrum st',
  0 < period_save -> Nat.odd n = true -> probes2 <> [] ->
  temporal_compute_spectra period_save None n probes1 = (r1, w1, s1, st) ->
  temporal_compute_spectra period_save st n probes2 = (nomega, omegas, spectrum, st') ->
  rsum nomega spectrum * domega_of period_save n = mean_probes probes2 (mean_square n).
Proof.
  intros period n probes1 r1 w1 s1 st probes2 nomega omegas spectrum st' Hper Hodd Hpr H1 H2.
  assert (Hn : (0 < n)%nat) by (apply Nat.odd_spec in Hodd as [p ->]; lia).
  rewrite (c134_second_call period n probes1 r1 w1 s1 st n probes2 nomega omegas spectrum st') by assumption.
  assert (INR n <> 0) by (apply not_0_INR; lia). field_simplify; [|assumption]. reflexivity.
Qed.

Definition constant (j : nat) : C := RtoC 1.
Lemma constant_square n : (0 < n)%nat -> mean_square n constant = 1.
Proof.
  intros Hn. unfold mean_square. rewrite (rsum_ext n _ (fun _ => 1)).
  - assert (E : forall m, rsum m (fun _ => 1) = INR m).
    { induction m as [|m IH]; [easy|]. rewrite S_INR. cbn [rsum]. now rewrite IH. }
    rewrite E. field. apply not_0_INR. lia.
  - intros j _. rewrite cnorm2_Cmod. unfold constant, cnorm2. cbn. ring.
Qed.

(** The spectra of 15 instants and then of 3 instants with the same object: five times the power. *)
Theorem c134_second_call_refuted : exists period_save n1 n2 probes r1 w1 s1 st nomega omegas spectrum st',
  0 < period_save /\ Nat.odd n1 = true /\ Nat.odd n2 = true /\ probes <> []
  /\ temporal_compute_spectra period_save None n1 probes = (r1, w1, s1, st)
  /\ temporal_compute_spectra period_save st n2 probes = (nomega, omegas, spectrum, st')
  /\ mean_probes probes (mean_square n2) = 1
  /\ rsum nomega spectrum * domega_of period_save n2 = 5.
Proof.
  destruct (temporal_compute_spectra 1 None 15 [constant]) as [[[r1 w1] s1] st] eqn:E1.
  destruct (temporal_compute_spectra 1 st 3 [constant]) as [[[nomega omegas] spectrum] st'] eqn:E2.
  exists 1, 15%nat, 3%nat, [constant], r1, w1, s1, st, nomega, omegas, spectrum, st'.
  assert (Hm : mean_probes [constant] (mean_square 3) = 1).
  { unfold mean_probes. cbn [rsum_list fold_right length]. rewrite constant_square by lia. cbn. field. }
  split; [lra|]. split; [reflexivity|]. split; [reflexivity|]. split; [easy|]. split; [exact E1|].
  split; [exact E2|]. split; [exact Hm|].
  rewrite (c134_second_call 1 15 [constant] r1 w1 s1 st 3 [constant] nomega omegas spectrum st')
    by (assumption || lra || lia || reflexivity || easy).
  rewrite Hm. cbn. field.
Qed.

(** ** C135: the weights of the modes in the temporal spectra of the spatiotemporal output *)

(** weight of the index ix of kx in a sum over the whole Fourier space of a real field *)
Definition weight_ix (nx ix : nat) : R := if ((ix =? 0) || (ix =? nx / 2))%nat then 1 else 2.

(** modes given by the index of kx *)
Definition mode_ix (Lx : R) (d : nat * R * R * (nat -> R)) : kmode :=
  let '(ix, kz, kh, v) := d in mkMode (2 * PI / Lx * INR ix) kz kh v.

(** A mode is counted twice unless kx is 0 or the largest one. *)
Theorem c135_saved : forall nx Lx n data m, 0 < Lx ->
  tspectrum_saved nx Lx n (map (mode_ix Lx) data) m
  = onesided n (fun i => rsum_list data (fun d => weight_ix nx (fst (fst (fst d))) * snd d i)) m.
Proof.
  intros nx Lx n data m HL. unfold tspectrum_saved.
  assert (E : forall i, sum_wavenumber kx (INR (nx / 2) * (2 * PI / Lx)) (map (mode_ix Lx) data) i
    = rsum_list data (fun d => weight_ix nx (fst (fst (fst d))) * snd d i)).
  { intros i. unfold sum_wavenumber, rsum_list. induction data as [|d data IH]; cbn [map fold_right]; [easy|].
    rewrite IH. f_equal. destruct d as [[[ix z] h] v]. cbn [mode_ix fst snd kx values]. unfold weight_ix.
    assert (HD : 2 * PI / Lx <> 0).
    { pose proof PI_RGT_0. apply Rmult_integral_contrapositive. split; [lra|apply Rinv_neq_0_compat; lra]. }
    destruct (Nat.eqb_spec ix 0) as [->|H0].
    - cbn [orb INR]. destruct (Req_EM_T (2 * PI / Lx * 0) 0) as [_|H]; [ring|]. destruct H. ring.
    - cbn [orb]. destruct (Req_EM_T (2 * PI / Lx * INR ix) 0) as [H|_].
      + apply Rmult_integral in H as [H|H]; [easy|]. now apply (INR_eq ix 0) in H.
      + destruct (Nat.eqb_spec ix (nx / 2)) as [->|H1].
        * destruct (Req_EM_T _ _) as [_|H]; [ring|]. destruct H. ring.
        * destruct (Req_EM_T _ _) as [H|_]; [|ring].
          rewrite (Rmult_comm (INR (nx / 2))) in H. apply Rmult_eq_reg_l in H; [|exact HD]. now apply INR_eq in H. }
  destruct m as [|m]; cbn [onesided]; now rewrite !E.
Qed.

(** Lx = 2 pi: the same result with the nondimensional wavenumbers *)
Theorem c135_computed_partial : forall nx n data m,
  tspectrum_computed nx (2 * PI) n (map (mode_ix (2 * PI)) data) m
  = onesided n (fun i => rsum_list data (fun d => weight_ix nx (fst (fst (fst d))) * snd d i)) m.
Proof.
  intros nx n data m. pose proof PI_RGT_0.
  rewrite <- (c135_saved nx (2 * PI)) by lra. unfold tspectrum_computed, tspectrum_saved.
  assert (E : 2 * PI / (2 * PI) = 1) by (field; lra). rewrite E.
  assert (E2 : forall i, sum_wavenumber (fun q => kx q / 1) (INR (nx / 2) * 1) (map (mode_ix (2 * PI)) data) i
    = sum_wavenumber kx (INR (nx / 2) * 1) (map (mode_ix (2 * PI)) data) i).
  { intros i. unfold sum_wavenumber. apply rsum_list_ext. intros q _. replace (kx q / 1) with (kx q) by field. reflexivity. }
  destruct m as [|m]; cbn [onesided]; now rewrite !E2.
Qed.

(** Lx = 4 pi, 8 points: the mode of index 2 is counted once by compute_temporal_spectra, and the
    largest mode (index 4) twice. *)
Theorem c135_computed_refuted : exists nx Lx n data m,
  0 < Lx /\ tspectrum_computed nx Lx n (map (mode_ix Lx) data) m = 1
  /\ tspectrum_saved nx Lx n (map (mode_ix Lx) data) m = 2
  /\ onesided n (fun i => rsum_list data (fun d => weight_ix nx (fst (fst (fst d))) * snd d i)) m = 2.
Proof.
  pose proof PI_RGT_0.
  exists 8%nat, (4 * PI), 1%nat, [((2%nat, 0, 0), fun _ => 1)], O.
  split; [lra|]. rewrite c135_saved by lra. split; [|split].
  - cbn. unfold rsum_list. cbn [fold_right map mode_ix kx values].
    assert (E : 2 * PI / (4 * PI) = / 2) by (field; lra). rewrite E.
    replace (/ 2 * (1 + 1) / / 2) with 2 by field.
    replace ((1 + 1 + 1 + 1) * / 2) with 2 by field.
    destruct (Req_EM_T 2 0); [lra|]. destruct (Req_EM_T 2 2); [lra|easy].
  - cbn. unfold weight_ix. cbn. ring.
  - cbn. unfold weight_ix. cbn. ring.
Qed.

(** The (kz, kh, omega) spectrum and the temporal spectrum saved together have the same sum when
    the largest kx is not recorded... *)
Theorem c135_totals_partial : forall nx Lx n data nkz nkh deltakz deltakh m,
  0 < Lx -> 0 < deltakz -> 0 < deltakh -> (0 < nkz)%nat -> (1 < nkh)%nat ->
  (forall d, In d data -> fst (fst (fst d)) <> (nx / 2)%nat) ->
  rsum nkz (fun jz => rsum nkh (fun jh =>
    compute_spectrum_kzkhomega nkz nkh deltakz deltakh n (map (mode_ix Lx) data) jz jh m)) * (deltakz * deltakh)
  = tspectrum_saved nx Lx n (map (mode_ix Lx) data) m.
Proof.
  intros nx Lx n data nkz nkh deltakz deltakh m HL Hz Hh Hnz Hnh Hd.
  rewrite c133_kzkh, c135_saved by assumption.
  assert (E : forall i, rsum_list (map (mode_ix Lx) data) (fun q => both_signs q * values q i)
    = rsum_list data (fun d => weight_ix nx (fst (fst (fst d))) * snd d i)).
  { intros i. unfold rsum_list. induction data as [|d data IH]; cbn [map fold_right]; [easy|].
    rewrite IH by (intros; apply Hd; now right). f_equal.
    specialize (Hd d (or_introl eq_refl)). destruct d as [[[ix z] h] v]. cbn in Hd. cbn [mode_ix fst snd values].
    f_equal. unfold both_signs, weight_ix. cbn [kx].
    destruct (Nat.eqb_spec ix (nx / 2)); [easy|]. rewrite orb_false_r.
    destruct (Nat.eqb_spec ix 0) as [->|H0].
    - cbn [INR]. destruct (Req_EM_T _ _) as [_|H]; [ring|]. destruct H. ring.
    - destruct (Req_EM_T _ _) as [H|_]; [|ring]. exfalso. pose proof PI_RGT_0.
      apply Rmult_integral in H as [H|H]; [|now apply (INR_eq ix 0) in H].
      apply Rmult_integral in H as [H|H]; [lra|]. apply Rinv_neq_0_compat in H; [easy|lra]. }
  destruct m as [|m]; cbn [onesided]; now rewrite !E.
Qed.

(** ... but not when it is. *)
Theorem c135_totals_refuted : exists nx Lx n data nkz nkh deltakz deltakh m,
  0 < Lx /\ 0 < deltakz /\ 0 < deltakh /\ (0 < nkz)%nat /\ (1 < nkh)%nat
  /\ rsum nkz (fun jz => rsum nkh (fun jh =>
       compute_spectrum_kzkhomega nkz nkh deltakz deltakh n (map (mode_ix Lx) data) jz jh m)) * (deltakz * deltakh) = 2
  /\ tspectrum_saved nx Lx n (map (mode_ix Lx) data) m = 1.
Proof.
  pose proof PI_RGT_0.
  exists 8%nat, (2 * PI), 1%nat, [((4%nat, 0, 0), fun _ => 1)], 1%nat, 2%nat, 1, 1, O.
  split; [lra|]. split; [lra|]. split; [lra|]. split; [lia|]. split; [lia|].
  rewrite c133_kzkh, c135_saved by (lra || lia). split.
  - cbn. unfold rsum_list, both_signs. cbn [fold_right map mode_ix kx values].
    destruct (Req_EM_T _ _) as [H0|_]; [|ring]. exfalso. cbn in H0. apply Rmult_integral in H0 as [H0|H0]; [|lra].
    replace (2 * PI / (2 * PI)) with 1 in H0 by (field; lra). lra.
  - cbn. unfold weight_ix. cbn. ring.
Qed.

Example c135_example :
  tspectrum_saved 8 (4 * PI) 1 (map (mode_ix (4 * PI)) [((0%nat, 0, 0), fun _ => 1); ((2%nat, 0, 0), fun _ => 1)]) 0
  = 3.
Proof. pose proof PI_RGT_0. rewrite c135_saved by lra. cbn. unfold weight_ix. cbn. ring. Qed.

(** ** C136: the order of the dimensions *)

Definition is_order (order : list nat) : Prop :=
  length order = 3%nat /\ NoDup order /\ (forall d, In d order -> (d < 3)%nat).

(** The wavenumbers used as kx, ky and kz are those of x, y and z when the order of the
    dimensions is its own inverse. *)
Theorem c136_order_partial : forall order, is_order order ->
  (forall j, (j < 3)%nat -> nth (nth j order 3%nat) order 3%nat = j) ->
  dims_used order = (2, 1, 0)%nat.
Proof.
  intros order _ H. unfold dims_used, axis_dim. rewrite (H 2%nat), (H 1%nat), (H 0%nat) by lia. reflexivity.
Qed.

Example c136_example : dims_used [0; 1; 2]%nat = (2, 1, 0)%nat /\ dims_used [1; 0; 2]%nat = (2, 1, 0)%nat
  /\ dims_used [2; 1; 0]%nat = (2, 1, 0)%nat.
Proof.
  split; [|split]; apply c136_order_partial;
    try (intros [|[|[|j]]] Hj; [reflexivity|reflexivity|reflexivity|lia]);
    (split; [reflexivity|split; [repeat constructor; cbn; intuition discriminate|intros d Hd; cbn in Hd; lia]]).
Qed.

(** Only then. *)
Theorem c136_only : forall order, is_order order -> dims_used order = (2, 1, 0)%nat ->
  forall j, (j < 3)%nat -> nth (nth j order 3%nat) order 3%nat = j.
Proof.
  intros order _ H j Hj. unfold dims_used, axis_dim in H. injection H as H2 H1 H0.
  destruct j as [|[|[|j]]]; [assumption|assumption|assumption|lia].
Qed.

(** With the order (1, 2, 0), handled by the operators, ky is used as kx, kz as ky and kx as kz. *)
Theorem c136_order_refuted : exists order, is_order order /\ dims_used order = (1, 0, 2)%nat.
Proof.
  exists [1; 2; 0]%nat. split; [|reflexivity].
  split; [reflexivity|split; [repeat constructor; cbn; intuition discriminate|intros d Hd; cbn in Hd; lia]].
Qed.

(** ** C137: toroidal and poloidal spectra *)

Lemma fft_time_lin n (a b : C) (x y : nat -> C) k :
  fft_time n (fun j => (a * x j + b * y j)%C) k = (a * fft_time n x k + b * fft_time n y k)%C.
Proof.
  unfold fft_time. rewrite <- !nsum_scal, <- nsum_plus. apply nsum_ext. intros j _. ring.
Qed.

Lemma ud_lin KX KY n vx vy k :
  fft_time n (fun j => fst (ud_fft KX KY (vx j) (vy j))) k = fst (ud_fft KX KY (fft_time n vx k) (fft_time n vy k))
  /\ fft_time n (fun j => snd (ud_fft KX KY (vx j) (vy j))) k = snd (ud_fft KX KY (fft_time n vx k) (fft_time n vy k)).
Proof.
  set (i := inv_Kh_square_nozero KX KY). split.
  - rewrite <- (Cplus_0_r (fst _)) || idtac. unfold ud_fft. cbn [fst snd]. fold i.
    transitivity (fft_time n (fun j => (RtoC KX * RtoC KX * RtoC i * vx j + RtoC KY * RtoC KX * RtoC i * vy j)%C) k).
    + unfold fft_time. apply nsum_ext. intros j _. ring.
    + rewrite fft_time_lin. ring.
  - unfold ud_fft. cbn [fst snd]. fold i.
    transitivity (fft_time n (fun j => (RtoC KX * RtoC KY * RtoC i * vx j + RtoC KY * RtoC KY * RtoC i * vy j)%C) k).
    + unfold fft_time. apply nsum_ext. intros j _. ring.
    + rewrite fft_time_lin. ring.
Qed.

Lemma ur_lin KX KY n vx vy k :
  fft_time n (fun j => fst (ur_fft KX KY (vx j) (vy j))) k = fst (ur_fft KX KY (fft_time n vx k) (fft_time n vy k))
  /\ fft_time n (fun j => snd (ur_fft KX KY (vx j) (vy j))) k = snd (ur_fft KX KY (fft_time n vx k) (fft_time n vy k)).
Proof.
  destruct (ud_lin KX KY n vx vy k) as [H1 H2]. split.
  - change (fst (ur_fft KX KY (fft_time n vx k) (fft_time n vy k)))
      with (fft_time n vx k - fst (ud_fft KX KY (fft_time n vx k) (fft_time n vy k)))%C.
    rewrite <- H1.
    transitivity (fft_time n (fun j => (RtoC 1 * vx j + - RtoC 1 * fst (ud_fft KX KY (vx j) (vy j)))%C) k).
    + unfold fft_time. apply nsum_ext. intros j _. unfold ur_fft, ud_fft. cbn [fst snd]. 
      set (z := (_ * RtoC KX * RtoC _)%C). ring.
    + rewrite fft_time_lin. ring.
  - change (snd (ur_fft KX KY (fft_time n vx k) (fft_time n vy k)))
      with (fft_time n vy k - snd (ud_fft KX KY (fft_time n vx k) (fft_time n vy k)))%C.
    rewrite <- H2.
    transitivity (fft_time n (fun j => (RtoC 1 * vy j + - RtoC 1 * snd (ud_fft KX KY (vx j) (vy j)))%C) k).
    + unfold fft_time. apply nsum_ext. intros j _. unfold ur_fft, ud_fft. cbn [fst snd].
      set (z := (_ * RtoC KY * RtoC _)%C). ring.
    + rewrite fft_time_lin. ring.
Qed.

Lemma inv_Kh KX KY : (KX = 0 /\ KY = 0) \/ inv_Kh_square_nozero KX KY * (KX ^ 2 + KY ^ 2) = 1.
Proof.
  unfold inv_Kh_square_nozero. destruct (Req_EM_T (KX ^ 2 + KY ^ 2) 0) as [H|H].
  - left. pose proof (pow2_ge_0 KX). pose proof (pow2_ge_0 KY).
    assert (KX ^ 2 = 0) by lra. assert (KY ^ 2 = 0) by lra.
    split; [destruct (Req_dec KX 0) as [|Hn]; [easy|]|destruct (Req_dec KY 0) as [|Hn]; [easy|]];
      apply (pow_nonzero _ 2) in Hn; lra.
  - right. field. exact H.
Qed.

Lemma urud_norm KX KY vx vy :
  cnorm2 (fst (ud_fft KX KY vx vy)) + cnorm2 (snd (ud_fft KX KY vx vy))
  + (cnorm2 (fst (ur_fft KX KY vx vy)) + cnorm2 (snd (ur_fft KX KY vx vy)))
  = cnorm2 vx + cnorm2 vy.
Proof.
  unfold ur_fft, ud_fft. destruct (inv_Kh KX KY) as [[-> ->]|H].
  - cbn [fst snd]. set (i := inv_Kh_square_nozero 0 0). clearbody i. destruct vx, vy. unfold cnorm2. cbn. ring.
  - set (i := inv_Kh_square_nozero KX KY) in *. clearbody i.
    destruct vx as [a b], vy as [c d]. unfold cnorm2. cbn in *.
    set (p := KX * a + KY * c). set (q := KX * b + KY * d).
    assert (Hp : (KX * (p * KX * i - a) + KY * (p * KY * i - c)) * i = 0).
    { unfold p. transitivity (i * (KX * a + KY * c) * (i * (KX ^ 2 + KY ^ 2) - 1)); [cbn; ring|]. cbn. rewrite H. ring. }
    assert (Hq : (KX * (q * KX * i - b) + KY * (q * KY * i - d)) * i = 0).
    { unfold q. transitivity (i * (KX * b + KY * d) * (i * (KX ^ 2 + KY ^ 2) - 1)); [cbn; ring|]. cbn. rewrite H. ring. }
    transitivity (a * (a * 1) + b * (b * 1) + (c * (c * 1) + d * (d * 1))
      + 2 * p * ((KX * (p * KX * i - a) + KY * (p * KY * i - c)) * i)
      + 2 * q * ((KX * (q * KX * i - b) + KY * (q * KY * i - d)) * i)).
    + unfold p, q. ring.
    + rewrite Hp, Hq. ring.
Qed.

(** For each mode and each frequency the poloidal and toroidal spectra give the horizontal kinetic
    energy; the toroidal velocity is not divergent and the poloidal one not rotational. *)
Theorem c137_spectra : forall domega KX KY n vx vy k,
  spectrum_Khd domega KX KY n vx vy k + spectrum_Khr domega KX KY n vx vy k
  = / 2 * (periodogram n vx k / domega) + / 2 * (periodogram n vy k / domega).
Proof.
  intros domega KX KY n vx vy k. unfold spectrum_Khd, spectrum_Khr, spectrum_Kh, periodogram.
  destruct (ud_lin KX KY n vx vy k) as [-> ->]. destruct (ur_lin KX KY n vx vy k) as [-> ->].
  pose proof (urud_norm KX KY (fft_time n vx k) (fft_time n vy k)) as H. unfold Rdiv.
  set (c := / INR n ^ 2). set (d := / domega). clearbody c d.
  transitivity (/ 2 * c * d * (cnorm2 (fft_time n vx k) + cnorm2 (fft_time n vy k))); [rewrite <- H; ring|ring].
Qed.

Theorem c137_decomposition : forall KX KY vx vy,
  let '(udx, udy) := ud_fft KX KY vx vy in
  let '(urx, ury) := ur_fft KX KY vx vy in
  (udx + urx = vx /\ udy + ury = vy
   /\ RtoC KX * urx + RtoC KY * ury = RtoC 0 /\ RtoC KX * udy - RtoC KY * udx = RtoC 0)%C.
Proof.
  intros KX KY vx vy. unfold ur_fft, ud_fft. split; [ring|]. split; [ring|]. split; [|ring].
  destruct (inv_Kh KX KY) as [[-> ->]|H].
  - ring.
  - set (i := inv_Kh_square_nozero KX KY) in *. clearbody i.
    transitivity ((RtoC KX * vx + RtoC KY * vy) * (RtoC 1 - RtoC (i * (KX ^ 2 + KY ^ 2))))%C.
    + rewrite RtoC_mult, RtoC_plus. replace (KX ^ 2) with (KX * KX) by ring. replace (KY ^ 2) with (KY * KY) by ring.
      rewrite !RtoC_mult. ring.
    + rewrite H. ring.
Qed.

Example c137_example :
  spectrum_Khd 1 1 0 1 constant constant 0 + spectrum_Khr 1 1 0 1 constant constant 0
  = / 2 * (periodogram 1 constant 0 / 1) + / 2 * (periodogram 1 constant 0 / 1).
Proof. apply c137_spectra. Qed.

Print Assumptions c132_odd_partial.
Print Assumptions c132_even.
Print Assumptions c132_even_refuted.
Print Assumptions c133_kzkh.
Print Assumptions c133_cells.
Print Assumptions c133_first_moment.
Print Assumptions c133_energy_partial.
Print Assumptions c133_even.
Print Assumptions c133_energy_refuted.
Print Assumptions c134_second_call.
Print Assumptions c134_same_number_partial.
Print Assumptions c134_second_call_refuted.
Print Assumptions c135_saved.
Print Assumptions c135_computed_partial.
Print Assumptions c135_computed_refuted.
Print Assumptions c135_totals_partial.
Print Assumptions c135_totals_refuted.
Print Assumptions c136_order_partial.
Print Assumptions c136_only.
Print Assumptions c136_order_refuted.
Print Assumptions c137_spectra.
Print Assumptions c137_decomposition.
