(** * Budgets of the one dimensional solvers (C91, C92, C93) and linear solvers (C94, C95) *)

From Coq Require Import Reals Lra ZArith Lia List Bool Permutation.
From Coquelicot Require Import Coquelicot.
From Verif Require Import CExp DFT Alias_Model Alias_Proofs Alias_Props Oper_Model Budget_Model Budget_Spec Budget_Proofs Budget2D_Proofs Budget2D_Props.
Import ListNotations.
Local Open Scope R_scope.

(** the modes kept by the truncation of a one dimensional operator *)
Definition modes_1d (coef : R) (o : oper) : list mode :=
  filter (kept_1d coef o) (map (fun z => (z, 0, 0)%Z) (interval (nx o))).

Lemma interval_nodup n : NoDup (interval n).
Proof.
  unfold interval. apply FinFun.Injective_map_NoDup; [intros i j E; lia | apply seq_NoDup].
Qed.

Lemma modes_1d_in coef o m : oper_pos o -> coef <= 1 -> In m (modes_1d coef o) <-> kept_1d coef o m = true.
Proof.
  intros Ho Hc. unfold modes_1d. rewrite filter_In. split; [tauto|]. intros H. split; [|exact H].
  destruct (kept_1d_bound coef o m Ho H) as (E1 & E2 & B). destruct m as [[a b] c]. unfold mx, my, mz in *. cbn [fst snd] in *. subst b c.
  apply in_map_iff. exists a. split; [reflexivity|]. apply interval_in. rewrite Rabs_Zabs in B.
  pose proof (half_INR (nx o)) as P. pose proof (pos_INR (nx o / 2)) as Q.
  assert (IZR (Z.abs a) <= INR (nx o)).
  { eapply Rle_trans; [exact B|]. assert (coef * INR (nx o / 2) <= 1 * INR (nx o / 2)) by (apply Rmult_le_compat_r; lra). lra. }
  rewrite INR_IZR_INZ in H0. apply le_IZR in H0. exact H0.
Qed.

Lemma kept_1d_opp coef o m : kept_1d coef o (mopp m) = kept_1d coef o m.
Proof.
  unfold kept_1d, is_1d, where_dealiased_1d. rewrite Kx_opp, Rabs_Ropp. f_equal.
  unfold mopp, my, mz. cbn [fst snd]. apply eq_true_iff_eq. rewrite !andb_true_iff, !Z.eqb_eq. lia.
Qed.

Lemma modes_1d_sym coef o : oper_pos o -> coef <= 1 -> symmetric_modes (modes_1d coef o).
Proof.
  intros Ho Hc. split.
  - unfold modes_1d. apply NoDup_filter. apply FinFun.Injective_map_NoDup; [|apply interval_nodup]. intros a b E. injection E. auto.
  - intros m H. apply (modes_1d_in coef o m Ho Hc) in H. apply modes_1d_in; [exact Ho | exact Hc|]. rewrite kept_1d_opp. exact H.
Qed.

Lemma kept_1d_zero coef o : oper_pos o -> 0 < coef -> kept_1d coef o zero_mode = true.
Proof.
  intros Ho Hc. unfold kept_1d, is_1d, where_dealiased_1d, gtb, zero_mode, my, mz, Kx, mx. cbn [fst snd Z.eqb andb].
  rewrite Rmult_0_r, Rabs_R0. destruct (Rlt_dec _ _) as [L|]; [exfalso|reflexivity].
  assert (0 <= coef * (deltakx o * INR (S (nx o / 2) - 1))).
  { apply Rmult_le_pos; [lra|]. apply Rmult_le_pos; [|apply pos_INR]. destruct Ho as (_ & _ & _ & L0 & _). unfold deltakx. pose proof PI_RGT_0.
    apply Rlt_le, Rdiv_lt_0_compat; lra. }
  lra.
Qed.

(** coefficients for which the rule of the 2/3 is enough: all of them except 2/3 when nx is a multiple of 6 *)
Definition coef_enough (coef : R) (o : oper) : Prop := 0 < coef < 2 / 3 \/ (coef = 2 / 3 /\ (nx o mod 6 <> 0)%nat).

Theorem c91_modes coef o : oper_pos o -> coef_enough coef o ->
  (forall m, In m (modes_1d coef o) <-> kept_1d coef o m = true) /\ good_modes o (modes_1d coef o)
  /\ (forall m, In m (modes_1d coef o) -> (Z.abs (mx m) <> Z.of_nat (nx o / 2) \/ nx o = 1%nat)).
Proof.
  intros Ho Hc. assert (H1 : 0 < coef <= 2 / 3) by (destruct Hc as [Hc | [-> _]]; lra).
  split; [intros m; apply modes_1d_in; [exact Ho | lra]|]. split; [split; [exact Ho|]; split; [|split]|].
  - apply modes_1d_sym; [exact Ho | lra].
  - apply modes_1d_in; [exact Ho | lra|]. apply kept_1d_zero; [exact Ho | lra].
  - apply (alias_free_of (kept_1d coef o)); [intros m Hm; apply modes_1d_in in Hm; [exact Hm | exact Ho | lra]|].
    destruct Hc as [Hc | [-> H6]]; [apply c17_1d_partial; [exact Ho | lra] | apply c17_1d_two_thirds_partial; assumption].
  - intros m Hm. apply modes_1d_in in Hm; [|exact Ho | lra]. destruct (kept_1d_bound _ _ _ Ho Hm) as (_ & _ & B).
    destruct (Nat.eq_dec (nx o) 1) as [E|N]; [right; exact E | left]. intros E. rewrite Rabs_Zabs, E, <- INR_IZR_INZ in B.
    assert (1 <= nx o / 2)%nat by (apply Nat.div_le_lower_bound; destruct Ho as (N0 & _); lia). apply le_INR in H. change (INR 1) with 1 in H.
    assert (coef * INR (nx o / 2) <= 2 / 3 * INR (nx o / 2)) by (apply Rmult_le_compat_r; lra). lra.
Qed.

Section Burgers.
Variable o : oper.
Variable ms : list mode.
Variable dea : mode -> bool.
Hypothesis Ho : oper_pos o.
Hypothesis Hs : symmetric_modes ms.
Hypothesis Hd : forall m, In m ms -> dea m = false.
Hypothesis Hodd : forall m, In m ms -> Z.abs (mx m) <> Z.of_nat (nx o / 2).

Lemma oddball_in f m : In m ms -> oddball o f m = f m.
Proof. intros H. unfold oddball. destruct (Z.eqb_spec (Z.abs (mx m)) (Z.of_nat (nx o / 2))) as [E|]; [exfalso; exact (Hodd m H E) | reflexivity]. Qed.

Lemma burgers_eq u k : In k ms -> burgers o ms dea u k = (- fft o (gmul (ifft o ms u) (ifft o ms (px_fft o u))) k)%C.
Proof.
  intros Hk. unfold burgers. rewrite oddball_in by exact Hk. unfold dealiasing. rewrite (Hd k Hk).
  rewrite (fft_ext o _ (fun jx jy jz => (- RtoC 1) * gmul (ifft o ms u) (ifft o ms (px_fft o u)) jx jy jz + RtoC 0 * RtoC 0)%C).
  - rewrite (fft_lin o (- RtoC 1)%C (RtoC 0) (gmul (ifft o ms u) (ifft o ms (px_fft o u))) (fun _ _ _ => RtoC 0)). ring.
  - intros jx jy jz. unfold gmul, gopp, lift2. ring.
Qed.

Lemma skew_eq u k : In k ms -> burgers_skew o ms dea u k
  = (RtoC (- (1 / 2)) * fft o (gmul (ifft o ms u) (ifft o ms (px_fft o u))) k
     + RtoC (- (1 / 4)) * (Ci * RtoC (Kx o k) * fft o (gmul (ifft o ms u) (ifft o ms u)) k))%C.
Proof.
  intros Hk. unfold burgers_skew. rewrite oddball_in by exact Hk. unfold dealiasing. rewrite (Hd k Hk). unfold px_fft at 2. f_equal.
  rewrite (fft_ext o _ (fun jx jy jz => RtoC (- (1 / 2)) * gmul (ifft o ms u) (ifft o ms (px_fft o u)) jx jy jz + RtoC 0 * RtoC 0)%C).
  - rewrite (fft_lin o (RtoC (- (1 / 2))) (RtoC 0) (gmul (ifft o ms u) (ifft o ms (px_fft o u))) (fun _ _ _ => RtoC 0)). ring.
  - intros jx jy jz. unfold gmul, rsc, lift2. ring.
Qed.

(** mean over the grid of u^2 du/dx *)
Definition flux (u : field) : C := gmean o (fun jx jy jz => ifft o ms u jx jy jz * ifft o ms u jx jy jz * ifft o ms (px_fft o u) jx jy jz)%C.

Lemma sum_burgers u : lsum ms (fun k => u (mopp k) * burgers o ms dea u k)%C = (- flux u)%C.
Proof.
  rewrite (lsum_ext ms _ (fun k => - (u (mopp k) * fft o (gmul (ifft o ms u) (ifft o ms (px_fft o u))) k))%C).
  2:{ intros k Hk. rewrite burgers_eq by exact Hk. ring. }
  rewrite lsum_neg, parseval by exact Hs. f_equal. apply gmean_ext. intros. unfold gmul, lift2. ring.
Qed.

Lemma sum_skew u : lsum ms (fun k => u (mopp k) * burgers_skew o ms dea u k)%C = (RtoC (- (1 / 4)) * flux u)%C.
Proof.
  rewrite (lsum_ext ms _ (fun k => RtoC (- (1 / 2)) * (u (mopp k) * fft o (gmul (ifft o ms u) (ifft o ms (px_fft o u))) k)
     + RtoC (1 / 4) * (px_fft o u (mopp k) * fft o (gmul (ifft o ms u) (ifft o ms u)) k))%C).
  2:{ intros k Hk. rewrite skew_eq by exact Hk. unfold px_fft at 3. rewrite Kx_opp, !RtoC_opp. ring. }
  rewrite lsum_plus, !lsum_scal, !parseval by exact Hs.
  assert (G1 : gmean o (fun jx jy jz => gmul (ifft o ms u) (ifft o ms (px_fft o u)) jx jy jz * ifft o ms u jx jy jz)%C = flux u)
    by (apply gmean_ext; intros; unfold gmul, lift2; ring).
  assert (G2 : gmean o (fun jx jy jz => gmul (ifft o ms u) (ifft o ms u) jx jy jz * ifft o ms (px_fft o u) jx jy jz)%C = flux u)
    by (apply gmean_ext; intros; unfold gmul, lift2; ring).
  rewrite G1, G2. apply C_eq; cbn; lra.
Qed.

(** rate of change of the energy, with aliasing: - mean(u^2 du/dx), four times less with the solver skew_sym *)
Theorem c91_rate_partial u t : real_field ms (u t) -> moves ms u t (burgers o ms dea (u t)) ->
  is_derive (fun s => square ms (u s)) t (- fst (flux (u t))).
Proof. intros Hr Hm. eapply is_derive_eq; [exact (derive_square ms u t _ Hm Hr)|]. rewrite sum_burgers. reflexivity. Qed.

Theorem c92_rate_partial u t : real_field ms (u t) -> moves ms u t (burgers_skew o ms dea (u t)) ->
  is_derive (fun s => square ms (u s)) t (- fst (flux (u t)) / 4).
Proof. intros Hr Hm. eapply is_derive_eq; [exact (derive_square ms u t _ Hm Hr)|]. rewrite sum_skew. cbn. lra. Qed.

(** ** Without aliasing *)

Hypothesis Ha : alias_free o ms.

Lemma flux_0 u : flux u = RtoC 0.
Proof.
  assert (E : flux u = triads ms (fun p q s => Ci * RtoC (Kx o q) * (u p * u q * u s))%C).
  { unfold flux. rewrite (gmean_ext o _ (fun jx jy jz => gmul (ifft o ms u) (ifft o ms (px_fft o u)) jx jy jz * ifft o ms u jx jy jz)%C) by (intros; unfold gmul, lift2; ring).
    rewrite <- parseval by exact Hs. rewrite triple by assumption. apply triads_ext. intros p q s _ _ _ _. unfold px_fft. ring. }
  set (T1 := triads ms (fun p q s => Ci * RtoC (Kx o q) * (u p * u q * u s))%C) in *.
  assert (E2 : T1 = triads ms (fun p q s => Ci * RtoC (Kx o s) * (u p * u q * u s))%C).
  { unfold T1. rewrite triads_swap23. apply triads_ext. intros. ring. }
  assert (E3 : T1 = triads ms (fun p q s => Ci * RtoC (Kx o p) * (u p * u q * u s))%C).
  { rewrite E2, triads_swap13. apply triads_ext. intros. ring. }
  assert (S : (T1 + (T1 + T1))%C = RtoC 0).
  { rewrite E2 at 3. rewrite E3 at 2. unfold T1. rewrite <- !triads_plus. apply triads_zero. intros p q s _ _ _ H.
    rewrite (Kx_sum0 o p q s H), RtoC_minus, RtoC_opp. ring. }
  rewrite E. destruct T1 as [x y]. injection S as S1 S2. apply C_eq; cbn; lra.
Qed.

Theorem c91_energy_partial u t : real_field ms (u t) -> moves ms u t (burgers o ms dea (u t)) ->
  is_derive (fun s => square ms (u s)) t 0.
Proof. intros Hr Hm. eapply is_derive_eq; [exact (c91_rate_partial u t Hr Hm)|]. rewrite flux_0. cbn. ring. Qed.

Theorem c92_energy_partial u t : real_field ms (u t) -> moves ms u t (burgers_skew o ms dea (u t)) ->
  is_derive (fun s => square ms (u s)) t 0.
Proof. intros Hr Hm. eapply is_derive_eq; [exact (c92_rate_partial u t Hr Hm)|]. rewrite flux_0. cbn. lra. Qed.

(** the two forms are the same *)
Theorem c92_same_partial u k : In k ms -> burgers_skew o ms dea u k = burgers o ms dea u k.
Proof.
  intros Hk. rewrite burgers_eq, skew_eq by exact Hk.
  assert (E : (Ci * RtoC (Kx o k) * fft o (gmul (ifft o ms u) (ifft o ms u)) k)%C = (RtoC 2 * fft o (gmul (ifft o ms u) (ifft o ms (px_fft o u))) k)%C).
  { rewrite !product_exact by (exact Ho || (intros p q Hp Hq; apply Ha; assumption)).
    set (D := lsum ms (fun p => lsum ms (fun q => if sum0 p q (mopp k) then u p * px_fft o u q else RtoC 0))%C).
    assert (D' : D = lsum ms (fun p => lsum ms (fun q => if sum0 p q (mopp k) then px_fft o u p * u q else RtoC 0))%C).
    { unfold D. rewrite lsum_lsum. apply lsum_ext. intros p _. apply lsum_ext. intros q _.
      replace (sum0 q p (mopp k)) with (sum0 p q (mopp k)); [destruct (sum0 p q (mopp k)); ring|].
      apply eq_true_iff_eq. rewrite !sum0_spec. split; intros (A & B & X); lia. }
    transitivity (D + D)%C; [|apply C_eq; cbn; ring].
    rewrite D' at 2. unfold D. rewrite <- lsum_plus, <- lsum_scal. apply lsum_ext. intros p _. rewrite <- lsum_plus, <- lsum_scal. apply lsum_ext. intros q _.
    destruct (sum0 p q (mopp k)) eqn:S; [|ring]. pose proof (Kx_sum0 o p q _ S) as E. rewrite Kx_opp in E.
    replace (Kx o k) with (Kx o p + Kx o q) by lra. unfold px_fft. rewrite RtoC_plus. ring. }
  rewrite E. apply C_eq; cbn; lra.
Qed.

(** the mean is constant *)
Theorem c91_mean_partial u : In (0, 0, 0)%Z ms -> burgers o ms dea u (0, 0, 0)%Z = RtoC 0.
Proof.
  intros H0. rewrite <- (c92_same_partial u _ H0), skew_eq by exact H0.
  pose proof (c92_same_partial u _ H0) as E. rewrite skew_eq, burgers_eq in E by exact H0.
  replace (Kx o (0, 0, 0)%Z) with 0 in * by (unfold Kx, mx; cbn [fst]; ring).
  set (z := fft o _ _) in *. assert (Z : z = RtoC 0).
  { destruct z as [x y]. apply (f_equal fst) in E as E1. apply (f_equal snd) in E as E2. cbn in E1, E2. apply C_eq; cbn; lra. }
  rewrite Z. ring.
Qed.

End Burgers.

(** ** Default parameters: coef_dealiasing = 2/3 and nx multiple of 6 *)

Definition o6 : oper := mkOper 6 1 1 (2 * PI) 1 1.
Definition ms6 : list mode := [(0, 0, 0); (1, 0, 0); (-1, 0, 0); (2, 0, 0); (-2, 0, 0)]%Z.
Definition a6 (m : mode) : C := if (mx m =? 2)%Z then (1, 1) else if (mx m =? -2)%Z then (1, -1) else RtoC 0.

Lemma o6_pos : oper_pos o6.
Proof. pose proof PI_RGT_0. repeat split; cbn; lia || lra. Qed.

Lemma o6_K m : Kx o6 m = IZR (mx m).
Proof. unfold Kx, deltakx. cbn [Lx o6]. pose proof PI_RGT_0. field. lra. Qed.

Lemma ms6_kept m : In m ms6 <-> kept_1d (2 / 3) o6 m = true.
Proof.
  split.
  - intros H. unfold kept_1d, is_1d, where_dealiased_1d, gtb. rewrite o6_K.
    replace (2 / 3 * (deltakx o6 * INR (S (nx o6 / 2) - 1))) with 2.
    2:{ unfold deltakx. cbn [Lx nx o6]. replace (S (6 / 2) - 1)%nat with 3%nat by reflexivity. replace (INR 3) with 3 by (cbn; ring). pose proof PI_RGT_0. field. lra. }
    rewrite Rabs_Zabs. assert (B : (Z.abs (mx m) <= 2)%Z /\ my m = 0%Z /\ mz m = 0%Z) by (repeat destruct H as [<-|H]; try (cbn; lia); destruct H).
    destruct B as (B & -> & ->). cbn [Z.eqb andb]. destruct (Rlt_dec _ _) as [L|]; [exfalso | reflexivity]. apply lt_IZR in L. lia.
  - intros H. destruct (kept_1d_bound _ _ _ o6_pos H) as (E1 & E2 & B). cbn [nx o6] in B. replace (6 / 2)%nat with 3%nat in B by reflexivity.
    replace (2 / 3 * INR 3) with 2 in B by (cbn; field). rewrite Rabs_Zabs in B. apply le_IZR in B. destruct m as [[a b] c]. unfold mx, my, mz in *. cbn [fst snd] in *. subst b c.
    assert (a = 0 \/ a = 1 \/ a = -1 \/ a = 2 \/ a = -2)%Z as [-> | [-> | [-> | [-> | ->]]]] by lia; cbn; tauto.
Qed.

Lemma ms6_sym : symmetric_modes ms6.
Proof.
  split; [repeat constructor; cbn; intuition discriminate|]. intros m H. apply ms6_kept. rewrite kept_1d_opp. apply ms6_kept. exact H.
Qed.

Lemma a6_real : real_field ms6 a6.
Proof. intros m H. repeat destruct H as [<-|H]; try (apply C_eq; cbn; lra). destruct H. Qed.

Lemma ms6_dea m : In m ms6 -> where_dealiased_1d (2 / 3) o6 m = false.
Proof. intros H. apply ms6_kept in H. unfold kept_1d in H. apply andb_true_iff in H. destruct H as [_ H]. apply negb_true_iff in H. exact H. Qed.

Lemma ms6_odd m : In m ms6 -> Z.abs (mx m) <> Z.of_nat (nx o6 / 2).
Proof. intros H. cbn [nx o6]. replace (6 / 2)%nat with 3%nat by reflexivity. repeat destruct H as [<-|H]; try (cbn; lia). destruct H. Qed.

Lemma flux6 : flux o6 ms6 a6 = RtoC (- 8).
Proof.
  unfold flux. rewrite (gmean_ext o6 _ (fun jx jy jz => gmul (ifft o6 ms6 a6) (ifft o6 ms6 (px_fft o6 a6)) jx jy jz * ifft o6 ms6 a6 jx jy jz)%C) by (intros; unfold gmul, lift2; ring).
  rewrite <- parseval by exact ms6_sym.
  rewrite (lsum_ext ms6 _ (fun k => a6 (mopp k) * lsum ms6 (fun p => lsum ms6 (fun q => if congruent (grid_of o6) (msubt (madd p q) k) then a6 p * px_fft o6 a6 q else RtoC 0)))%C).
  2:{ intros k _. f_equal. unfold fft, gmul, lift2, ifft. apply dft_product. repeat split; cbn; lia. }
  unfold ms6. rewrite !lsum_cons. cbn [congruent]. 
  unfold congruent, grid_of, msubt, madd, mx, my, mz, a6, mopp, px_fft. rewrite !o6_K. unfold mx. cbn [fst snd gx gy gz o6 nx ny nz].
  cbn -[Cplus Cmult RtoC Ci lsum]. unfold lsum. cbn [fold_right].
  apply C_eq; cbn; ring.
Qed.

Lemma line_moves ms a b : moves ms (fun s m => a m + RtoC s * b m)%C 0 b.
Proof. intros m _. split; cbn; auto_derive; trivial; ring. Qed.

Lemma line_start a b : forall m : mode, (a m + RtoC 0 * b m)%C = a m.
Proof. intros m. ring. Qed.

(** the energy increases because of the aliasing: burgers1d and its form skew_sym *)
Theorem c91_default_refuted : exists o ms (u : R -> field), oper_pos o /\ (forall m, In m ms <-> kept_1d (2 / 3) o m = true)
  /\ real_field ms (u 0) /\ (exists F, (forall m, In m ms -> F m = burgers o ms (where_dealiased_1d (2 / 3) o) (u 0) m) /\ moves ms u 0 F)
  /\ is_derive (fun s => square ms (u s)) 0 8.
Proof.
  set (F := burgers o6 ms6 (where_dealiased_1d (2 / 3) o6) a6).
  exists o6, ms6, (fun s m => a6 m + RtoC s * F m)%C. split; [exact o6_pos|]. split; [exact ms6_kept|].
  assert (R0 : real_field ms6 (fun m => a6 m + RtoC 0 * F m)%C) by (intros m Hm; rewrite !line_start; apply a6_real; exact Hm).
  split; [exact R0|].
  assert (E : forall m, In m ms6 -> F m = burgers o6 ms6 (where_dealiased_1d (2 / 3) o6) (fun m => a6 m + RtoC 0 * F m)%C m).
  { intros m Hm. unfold F at 1. rewrite !burgers_eq by (exact ms6_dea || exact ms6_odd || exact Hm).
    f_equal. apply fft_ext. intros jx jy jz. unfold gmul, lift2. f_equal; apply ifft_ext; intros k _; unfold px_fft; rewrite !line_start; reflexivity. }
  split; [exists F; split; [exact E | apply line_moves]|].
  eapply is_derive_eq; [exact (derive_square ms6 _ 0 F (line_moves ms6 a6 F) R0)|].
  rewrite (lsum_ext ms6 _ (fun k => a6 (mopp k) * F k)%C) by (intros; rewrite line_start; reflexivity).
  unfold F. rewrite sum_burgers by (exact ms6_sym || exact ms6_dea || exact ms6_odd). rewrite flux6. cbn. ring.
Qed.

Theorem c92_default_refuted : exists o ms (u : R -> field), oper_pos o /\ (forall m, In m ms <-> kept_1d (2 / 3) o m = true)
  /\ real_field ms (u 0) /\ (exists F, (forall m, In m ms -> F m = burgers_skew o ms (where_dealiased_1d (2 / 3) o) (u 0) m) /\ moves ms u 0 F)
  /\ is_derive (fun s => square ms (u s)) 0 2.
Proof.
  set (F := burgers_skew o6 ms6 (where_dealiased_1d (2 / 3) o6) a6).
  exists o6, ms6, (fun s m => a6 m + RtoC s * F m)%C. split; [exact o6_pos|]. split; [exact ms6_kept|].
  assert (R0 : real_field ms6 (fun m => a6 m + RtoC 0 * F m)%C) by (intros m Hm; rewrite !line_start; apply a6_real; exact Hm).
  split; [exact R0|].
  assert (E : forall m, In m ms6 -> F m = burgers_skew o6 ms6 (where_dealiased_1d (2 / 3) o6) (fun m => a6 m + RtoC 0 * F m)%C m).
  { intros m Hm. unfold F at 1. rewrite !skew_eq by (exact ms6_dea || exact ms6_odd || exact Hm).
    f_equal; [f_equal | f_equal; f_equal]; apply fft_ext; intros jx jy jz; unfold gmul, lift2; f_equal; apply ifft_ext; intros k _; unfold px_fft; rewrite !line_start; reflexivity. }
  split; [exists F; split; [exact E | apply line_moves]|].
  eapply is_derive_eq; [exact (derive_square ms6 _ 0 F (line_moves ms6 a6 F) R0)|].
  rewrite (lsum_ext ms6 _ (fun k => a6 (mopp k) * F k)%C) by (intros; rewrite line_start; reflexivity).
  unfold F. rewrite sum_skew by (exact ms6_sym || exact ms6_dea || exact ms6_odd). rewrite flux6. cbn. lra.
Qed.

(** ** C93: nl1d *)

Lemma nsum_fold n f : fst (nsum n f) = fold_right (fun j s => fst (f j) + s) 0 (seq 0 n).
Proof.
  assert (G : forall l x, fold_right (fun j s => fst (f j) + s) x l = fold_right (fun j s => fst (f j) + s) 0 l + x).
  { induction l as [|j l IH]; intros x; cbn [fold_right]; [ring | rewrite IH; ring]. }
  induction n as [|n IH]; [reflexivity|]. rewrite seq_S, fold_right_app. rewrite G. cbn [fold_right nsum]. cbn [plus].
  change (fst (nsum n f + f n)%C) with (fst (nsum n f) + fst (f n)). rewrite IH. cbn [Nat.add]. ring.
Qed.

Lemma fold_right_ext (f g : nat -> R -> R) l : (forall j r, f j r = g j r) -> fold_right f 0 l = fold_right g 0 l.
Proof. intros H. induction l as [|j l IH]; cbn [fold_right]; [reflexivity | rewrite IH; apply H]. Qed.

Section NL1D.
Variable o : oper.
Variable ms : list mode.
Variable dea : mode -> bool.
Hypothesis Ho : oper_pos o.
Hypothesis H1 : ny o = 1%nat /\ nz o = 1%nat.
Hypothesis Hm : forall m, In m ms -> my m = 0%Z /\ mz m = 0%Z.
Hypothesis Hs : symmetric_modes ms.
Hypothesis Hd : forall m, In m ms -> dea m = false.

Lemma ifft_1d a j : fst (ifft o ms a j 0%nat 0%nat) = value_1d o ms a j.
Proof.
  unfold ifft, idft, value_1d. symmetry. apply total_lsum. intros m Hin. destruct (Hm m Hin) as [E1 E2].
  unfold chi3, chi. rewrite E1, E2. cbn [gx gy gz grid_of]. 
  replace (2 * PI * 0 * INR 0 / INR (ny o)) with 0 by (unfold Rdiv; ring). replace (2 * PI * 0 * INR 0 / INR (nz o)) with 0 by (unfold Rdiv; ring).
  rewrite !cis_0, !Cmult_1_r. unfold cis, cexp. cbn. rewrite exp_0. ring.
Qed.

Lemma ifft_real a jx jy jz : real_field ms a -> snd (ifft o ms a jx jy jz) = 0.
Proof.
  intros Hr. unfold ifft, idft.
  assert (E : lsum ms (fun p => a p * chi3 (grid_of o) p jx jy jz)%C = Cconj (lsum ms (fun p => a p * chi3 (grid_of o) p jx jy jz)%C)).
  { rewrite (lsum_opp ms _ Hs) at 1.
    assert (L : forall l g, Cconj (lsum l g) = lsum l (fun x : mode => Cconj (g x))).
    { induction l as [|x l IH]; intros g; [apply C_eq; cbn; lra|]. rewrite !lsum_cons, <- IH. apply C_eq; cbn; ring. }
    rewrite L. apply lsum_ext. intros m Hin. rewrite (Hr m Hin).
    assert (X : chi3 (grid_of o) (mopp m) jx jy jz = Cconj (chi3 (grid_of o) m jx jy jz)).
    { unfold chi3, mopp, mx, my, mz. cbn [fst snd].
      assert (E : forall n z j, chi n (- z) j = Cconj (chi n z j)).
      { intros n z j. unfold chi, cis, cexp. cbn [fst snd]. rewrite opp_IZR.
        replace (2 * PI * - IZR z * INR j / INR n) with (- (2 * PI * IZR z * INR j / INR n)) by (unfold Rdiv; ring).
        rewrite cos_neg, sin_neg. apply C_eq; cbn; ring. }
      rewrite !E. apply C_eq; cbn; ring. }
    rewrite X. apply C_eq; cbn; ring. }
  apply (f_equal snd) in E. change (snd (Cconj ?z)) with (- snd z) in E. 
  match type of E with ?x = _ => assert (E' : x = - x) by exact E end. lra.
Qed.

Lemma sign_cube sigma x : - sign x * sigma * x ^ 2 * x = - sigma * Rabs x ^ 3.
Proof.
  unfold sign. destruct (Rlt_dec 0 x) as [P|P]; [rewrite Rabs_pos_eq by lra; ring|].
  destruct (Rlt_dec x 0) as [Q|Q]; [rewrite Rabs_left by exact Q; ring|]. assert (x = 0) by lra. subst x. rewrite Rabs_R0. ring.
Qed.

(** the rate of change of the energy is - sigma mean(|s|^3) *)
Theorem c93_rate sigma s t : real_field ms (s t) -> moves ms s t (nl1d o ms dea sigma (s t)) ->
  is_derive (fun r => square ms (s r)) t (- sigma * mean_1d (nx o) (fun j => Rabs (value_1d o ms (s t) j) ^ 3)).
Proof.
  intros Hr Hmv. eapply is_derive_eq; [exact (derive_square ms s t _ Hmv Hr)|].
  set (g := fun jx jy jz => RtoC (- sign (fst (ifft o ms (s t) jx jy jz)) * sigma * fst (ifft o ms (s t) jx jy jz) ^ 2)).
  rewrite (lsum_ext ms _ (fun k => s t (mopp k) * fft o g k)%C).
  2:{ intros k Hk. unfold nl1d, dealiasing. rewrite (Hd k Hk). reflexivity. }
  rewrite parseval by exact Hs. unfold gmean. destruct H1 as [-> ->].
  set (S := nsum (nx o) _).
  transitivity (/ (INR (nx o) * INR 1 * INR 1) * fst S); [cbn; ring|]. unfold S. rewrite nsum_fold. unfold mean_1d.
  rewrite (fold_right_ext (fun j r => fst (nsum 1 (fun jy => nsum 1 (fun jz => g j jy jz * ifft o ms (s t) j jy jz))%C) + r) (fun j r => - sigma * Rabs (value_1d o ms (s t) j) ^ 3 + r)).
  - assert (G : forall l, fold_right (fun j r => - sigma * Rabs (value_1d o ms (s t) j) ^ 3 + r) 0 l = - sigma * fold_right (fun j r => Rabs (value_1d o ms (s t) j) ^ 3 + r) 0 l).
    { induction l as [|j l IH]; cbn [fold_right]; [ring | rewrite IH; ring]. }
    rewrite G. cbn [INR]. destruct Ho as (N0 & _). assert (0 < INR (nx o)) by (apply lt_0_INR; exact N0). field. lra.
  - intros j r. f_equal. cbn [nsum]. unfold g. rewrite <- ifft_1d, <- sign_cube. 
    pose proof (ifft_real (s t) j 0%nat 0%nat Hr) as E. cbn [fst snd Cplus Cmult RtoC]. rewrite E. ring.
Qed.

Theorem c93_decrease sigma s t : 0 <= sigma -> real_field ms (s t) -> moves ms s t (nl1d o ms dea sigma (s t)) ->
  exists d, is_derive (fun r => square ms (s r)) t d /\ d <= 0.
Proof.
  intros Hsig Hr Hmv. eexists. split; [exact (c93_rate sigma s t Hr Hmv)|].
  assert (P : 0 <= mean_1d (nx o) (fun j => Rabs (value_1d o ms (s t) j) ^ 3)).
  { unfold mean_1d. destruct Ho as (N0 & _). assert (0 < INR (nx o)) by (apply lt_0_INR; exact N0).
    apply Rmult_le_pos; [|apply Rlt_le, Rinv_0_lt_compat; assumption]. generalize (seq 0 (nx o)). intros l. induction l as [|j l IH]; cbn [fold_right]; [lra|].
    pose proof (pow_le (Rabs (value_1d o ms (s t) j)) 3 (Rabs_pos _)). lra. }
  pose proof (Rmult_le_pos _ _ Hsig P). lra.
Qed.
End NL1D.

(** ** C94: waves2d *)

Lemma cis_norm x : cos x * cos x + sin x * sin x = 1.
Proof. pose proof (sin2_cos2 x). unfold Rsqr in *. lra. Qed.

(** what is computed: f does not change and g is multiplied by exp(-i Omega t) *)
Theorem c94_solution_partial f c2 o dt s m : oper_pos o -> 
  fst (waves2d_step f c2 o dt s) m = fst s m
  /\ snd (waves2d_step f c2 o dt s) m = (cis (- (sqrt (f ^ 2 + c2 * (wx o m ^ 2 + wy o m ^ 2)) * dt)) * snd s m)%C
  /\ norm2 (snd (waves2d_step f c2 o dt s) m) = norm2 (snd s m).
Proof.
  intros Ho.
  assert (E : snd (waves2d_step f c2 o dt s) m = (cis (- (sqrt (f ^ 2 + c2 * (wx o m ^ 2 + wy o m ^ 2)) * dt)) * snd s m)%C).
  { unfold waves2d_step, linear_step, waves2d_freq, cis. cbn [fst snd]. f_equal. f_equal.
    replace (wx o m ^ 2 + wy o m ^ 2) with (K2_2d o m).
    2:{ destruct Ho as (_ & _ & _ & A & B & _). unfold K2_2d, wx, wy, Kx, Ky, deltakx, deltaky. field. lra. }
    apply C_eq; cbn; ring. }
  split; [|split; [exact E|]].
  - unfold waves2d_step, linear_step, waves2d_freq. cbn [fst snd]. rewrite Cmult_0_l, Copp_0, cexp_0. ring.
  - rewrite E. set (x := - (_ * dt)). unfold norm2, cis, cexp. cbn. rewrite exp_0. pose proof (cis_norm x). 
    destruct (snd s m) as [a b]. cbn. 
    transitivity ((cos x * cos x + sin x * sin x) * (a * (a * 1) + b * (b * 1))); [ring|]. rewrite H. ring.
Qed.

(** the documented equations are not solved, and real fields become complex *)
Theorem c94_equations_refuted : exists f c2 o ms s, oper_pos o /\ symmetric_modes ms /\ real_field ms (fst s) /\ real_field ms (snd s)
  /\ ~ wave_equations o ms f c2 (fun t => fst (waves2d_step f c2 o t s)) (fun t => snd (waves2d_step f c2 o t s)) 0
  /\ exists t, ~ real_field ms (snd (waves2d_step f c2 o t s)).
Proof.
  exists 0, 1, o8, [(1, 0, 0)%Z; (-1, 0, 0)%Z], (fun _ => RtoC 0, fun _ => RtoC 1). pose proof PI_RGT_0 as HP.
  split; [exact o8_pos|]. split; [split; [repeat constructor; cbn; intuition discriminate | intros m [<-|[<-|[]]]; cbn; tauto]|].
  split; [intros m _; apply C_eq; cbn; lra|]. split; [intros m _; apply C_eq; cbn; lra|]. split.
  - intros [M _]. destruct (M (1, 0, 0)%Z (or_introl eq_refl)) as [D _]. 
    assert (D0 : is_derive (fun s : R => fst (fst (waves2d_step 0 1 o8 s (fun _ => RtoC 0, fun _ => RtoC 1)) (1, 0, 0)%Z)) 0 0).
    { apply (is_derive_ext (fun _ => 0)); [|apply (is_derive_const 0)]. intros t. destruct (c94_solution_partial 0 1 o8 t (fun _ => RtoC 0, fun _ => RtoC 1) (1, 0, 0)%Z o8_pos) as (-> & _). reflexivity. }
    pose proof (is_derive_unique _ _ _ D) as U1. pose proof (is_derive_unique _ _ _ D0) as U2. pose proof (eq_trans (eq_sym U1) U2) as U3. clear U1 U2. rename U3 into U2.
    destruct (c94_solution_partial 0 1 o8 0 (fun _ => RtoC 0, fun _ => RtoC 1) (1, 0, 0)%Z o8_pos) as (_ & E & _). rewrite E in U2.
    rewrite Rmult_0_r, Ropp_0, cis_0 in U2. cbn in U2. lra.
  - exists (PI / 2). intros H. specialize (H (1, 0, 0)%Z (or_introl eq_refl)).
    destruct (c94_solution_partial 0 1 o8 (PI / 2) (fun _ => RtoC 0, fun _ => RtoC 1) (1, 0, 0)%Z o8_pos) as (_ & E1 & _).
    destruct (c94_solution_partial 0 1 o8 (PI / 2) (fun _ => RtoC 0, fun _ => RtoC 1) (mopp (1, 0, 0)%Z) o8_pos) as (_ & E2 & _).
    rewrite E1, E2 in H. clear E1 E2.
    assert (W : forall z, z = (1, 0, 0)%Z \/ z = mopp (1, 0, 0)%Z -> sqrt (0 ^ 2 + 1 * (wx o8 z ^ 2 + wy o8 z ^ 2)) = 1).
    { intros z Hz. replace (0 ^ 2 + 1 * (wx o8 z ^ 2 + wy o8 z ^ 2)) with 1; [apply sqrt_1|].
      unfold wx, wy. destruct Hz as [-> | ->]; unfold mopp, mx, my; cbn [fst snd Lx Ly o8]; cbn [Z.opp]; field; lra. }
    rewrite !W in H by auto. apply (f_equal snd) in H. cbn in H. rewrite exp_0 in H.
    replace (- (1 * (PI / 2))) with (- (PI / 2)) in H by ring. rewrite sin_neg, sin_PI2, cos_neg, cos_PI2 in H. lra.
Qed.

(** ** C95: ad1d.pseudo_spect: the field is translated *)
Theorem c95_translation U o ms dt s x : oper_pos o -> value_at o ms (ad1d_step U o dt s) x = value_at o ms s (x - U * dt).
Proof.
  intros Ho. unfold value_at. apply total_ext. intros m _. unfold ad1d_step, linear_step, ad1d_freq, cexp.
  replace (Kx o m) with (wx o m) by (destruct Ho as (_ & _ & _ & A & B & _); unfold Kx, wx, deltakx; field; lra).
  set (w := wx o m). destruct (s m) as [a b]. cbn.
  replace (w * (x - U * dt)) with (w * x - w * U * dt) by ring. rewrite cos_minus, sin_minus.
  replace (- ((((0 * U - 1 * 0) * w - (0 * 0 + 1 * U) * 0) * dt - ((0 * U - 1 * 0) * 0 + (0 * 0 + 1 * U) * w) * 0))) with 0 by ring.
  replace (- (((0 * U - 1 * 0) * w - (0 * 0 + 1 * U) * 0) * 0 + ((0 * U - 1 * 0) * 0 + (0 * 0 + 1 * U) * w) * dt)) with (- (w * U * dt)) by ring.
  rewrite exp_0, cos_neg, sin_neg. ring.
Qed.

Theorem c95_real U o ms dt s : real_field ms s -> real_field ms (ad1d_step U o dt s).
Proof.
  intros H m Hm. unfold ad1d_step, linear_step, ad1d_freq. rewrite (H m Hm), Kx_opp, RtoC_opp. unfold cexp. 
  set (w := Kx o m). destruct (s m) as [a b]. apply C_eq; cbn;
  replace (- (((0 * U - 1 * 0) * - w - (0 * 0 + 1 * U) * - 0) * 0 + ((0 * U - 1 * 0) * - 0 + (0 * 0 + 1 * U) * - w) * dt)) with (U * w * dt) by ring;
  replace (- (((0 * U - 1 * 0) * w - (0 * 0 + 1 * U) * 0) * 0 + ((0 * U - 1 * 0) * 0 + (0 * 0 + 1 * U) * w) * dt)) with (- (U * w * dt)) by ring;
  replace (- (((0 * U - 1 * 0) * - w - (0 * 0 + 1 * U) * - 0) * dt - ((0 * U - 1 * 0) * - 0 + (0 * 0 + 1 * U) * - w) * 0)) with 0 by ring;
  replace (- (((0 * U - 1 * 0) * w - (0 * 0 + 1 * U) * 0) * dt - ((0 * U - 1 * 0) * 0 + (0 * 0 + 1 * U) * w) * 0)) with 0 by ring;
  rewrite ?exp_0, cos_neg, sin_neg; ring.
Qed.

(** ** Examples: the hypotheses are met *)

Example c91_example : oper_pos (mkOper 8 1 1 1 1 1) /\ coef_enough (2 / 3) (mkOper 8 1 1 1 1 1).
Proof. split; [repeat split; cbn; lia || lra|]. right. split; [reflexivity | cbn; lia]. Qed.

Example c93_example : oper_pos o6 /\ symmetric_modes ms6 /\ real_field ms6 a6 /\ (forall m, In m ms6 -> my m = 0%Z /\ mz m = 0%Z)
  /\ moves ms6 (fun s m => a6 m + RtoC s * nl1d o6 ms6 (fun _ => false) 1 a6 m)%C 0 (nl1d o6 ms6 (fun _ => false) 1 a6).
Proof.
  split; [exact o6_pos|]. split; [exact ms6_sym|]. split; [exact a6_real|]. split; [|apply line_moves].
  intros m H. repeat destruct H as [<-|H]; try (split; reflexivity). destruct H.
Qed.

Print Assumptions c91_modes.
Print Assumptions c91_rate_partial.
Print Assumptions c91_energy_partial.
Print Assumptions c91_mean_partial.
Print Assumptions c91_default_refuted.
Print Assumptions c92_rate_partial.
Print Assumptions c92_energy_partial.
Print Assumptions c92_same_partial.
Print Assumptions c92_default_refuted.
Print Assumptions c93_rate.
Print Assumptions c93_decrease.
Print Assumptions c94_solution_partial.
Print Assumptions c94_equations_refuted.
Print Assumptions c95_translation.
Print Assumptions c95_real.
