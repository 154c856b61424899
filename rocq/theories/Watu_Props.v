(** C174: the frequency modulated signal; C175: its interpolation; C176: the wave makers. *)
From Coq Require Import Reals List ZArith Lra Lia Psatz Arith.
From Verif Require Import Watu_Model.
Local Open Scope R_scope.

Lemma rsum_ext n f g : (forall i, (i < n)%nat -> f i = g i) -> rsum n f = rsum n g.
Proof. induction n as [|n IH]; cbn; intros H; [easy|]. rewrite IH, H; auto. Qed.
Lemma rsum_scal n c f : rsum n (fun i => c * f i) = c * rsum n f.
Proof. induction n as [|n IH]; cbn; [ring|]. rewrite IH. ring. Qed.
Lemma rsum_zero n : rsum n (fun _ => 0) = 0.
Proof. induction n as [|n IH]; cbn; [easy|]. rewrite IH. ring. Qed.
Lemma rsum_nonneg n f : (forall i, (i < n)%nat -> 0 <= f i) -> 0 <= rsum n f.
Proof. induction n as [|n IH]; cbn; intros H; [lra|]. assert (0 <= rsum n f) by (apply IH; auto). assert (0 <= f n) by auto. lra. Qed.

(** derivatives of explicit functions *)
Lemma dscal (f : R -> R) a t l : derivable_pt_lim f t l -> derivable_pt_lim (fun t => a * f t) t (a * l).
Proof. intros H. exact (derivable_pt_lim_scal f a t l H). Qed.
Lemma dplus (f g : R -> R) t l k : derivable_pt_lim f t l -> derivable_pt_lim g t k -> derivable_pt_lim (fun t => f t + g t) t (l + k).
Proof. intros H K. exact (derivable_pt_lim_plus f g t l k H K). Qed.
Lemma dminus (f g : R -> R) t l k : derivable_pt_lim f t l -> derivable_pt_lim g t k -> derivable_pt_lim (fun t => f t - g t) t (l - k).
Proof. intros H K. exact (derivable_pt_lim_minus f g t l k H K). Qed.
Lemma dconst c t : derivable_pt_lim (fun _ => c) t 0.
Proof. exact (derivable_pt_lim_const c t). Qed.
Lemma did t : derivable_pt_lim (fun t => t) t 1.
Proof. exact (derivable_pt_lim_id t). Qed.
Lemma dcos (f : R -> R) t l : derivable_pt_lim f t l -> derivable_pt_lim (fun t => cos (f t)) t (- sin (f t) * l).
Proof. intros H. exact (derivable_pt_lim_comp f cos t l (- sin (f t)) H (derivable_pt_lim_cos (f t))). Qed.
Lemma dsin (f : R -> R) t l : derivable_pt_lim f t l -> derivable_pt_lim (fun t => sin (f t)) t (cos (f t) * l).
Proof. intros H. exact (derivable_pt_lim_comp f sin t l (cos (f t)) H (derivable_pt_lim_sin (f t))). Qed.
Lemma deq (f : R -> R) t l k : derivable_pt_lim f t l -> l = k -> derivable_pt_lim f t k.
Proof. now intros H <-. Qed.
Lemma dext (f g : R -> R) t l : derivable_pt_lim f t l -> (forall x, f x = g x) -> derivable_pt_lim g t l.
Proof. intros H E eps He. destruct (H eps He) as (d & Hd). exists d. intros h Hh Hl. rewrite <- !E. now apply Hd. Qed.

(** ** C174 *)
Section Signal.
Variables (m : nat) (T : R).
Hypothesis (Hm : (1 <= m)%nat) (HT : 0 < T).
Notation trig := (trig m T). Notation ifft := (ifft m T). Notation std := (std m).

Lemma std_scal s x : std (fun j => s * x j) = Rabs s * std x.
Proof using Hm HT.
  clear Hm. unfold Watu_Model.std, mean. rewrite rsum_scal.
  rewrite (rsum_ext _ _ (fun j => s ^ 2 * (x j - rsum (nb_points m) x / INR (nb_points m)) ^ 2)) by (intros; unfold Rdiv; ring).
  rewrite rsum_scal. set (r := rsum (nb_points m) (fun j => (x j - rsum (nb_points m) x / INR (nb_points m)) ^ 2)).
  replace (s ^ 2 * r / INR (nb_points m)) with (Rsqr s * (r / INR (nb_points m))) by (unfold Rsqr, Rdiv; ring).
  assert (P : 0 <= r / INR (nb_points m)).
  { unfold r. destruct m as [|k]; [cbn; unfold Rdiv; lra|]. apply Rmult_le_pos; [apply rsum_nonneg; intros; apply pow2_ge_0|]. apply Rlt_le, Rinv_0_lt_compat, lt_0_INR. unfold nb_points. lia. }
  rewrite sqrt_mult by (try apply Rle_0_sqr; exact P). now rewrite sqrt_Rsqr_abs.
Qed.

(** the derivative of an inverse transform *)
Definition dwave (c : cplx) (o : R) (x : R) : R := o * (- fst c * sin x - snd c * cos x).
Lemma wave_derive c o t : derivable_pt_lim (fun t => wave c (o * t)) t (dwave c o (o * t)).
Proof using Hm HT.
  assert (D : derivable_pt_lim (fun t => o * t) t (o * 1)) by exact (dscal (fun t => t) o t 1 (did t)).
  unfold wave, dwave. eapply deq; [exact (dminus _ _ t _ _ (dscal _ (fst c) t _ (dcos _ t _ D)) (dscal _ (snd c) t _ (dsin _ t _ D)))|]. cbn beta. ring.
Qed.
Lemma rsum_derive n (f f' : nat -> R -> R) t : (forall k, (k < n)%nat -> derivable_pt_lim (f k) t (f' k t)) -> derivable_pt_lim (fun t => rsum n (fun k => f k t)) t (rsum n (fun k => f' k t)).
Proof using Hm HT.
  clear Hm. induction n as [|n IH]; intros H; cbn [rsum]; [apply dconst|]. apply (dplus (fun t => rsum n (fun k => f k t)) (f n)); [apply IH; auto|apply H; lia].
Qed.

(** no mean and no last coefficient *)
Lemma trig_derive p c t : (forall k, (1 <= k < m)%nat -> snd (p k) * omegas T k = - fst (c k) /\ fst (p k) * omegas T k = snd (c k)) -> fst (p m) = 0 -> fst (c 0%nat) = 0 -> fst (c m) = 0 ->
  derivable_pt_lim (trig p) t (trig c t).
Proof using Hm HT.
  intros H Pm C0 Cm. unfold Watu_Model.trig. rewrite C0, Cm, Pm.
  replace (0 + rsum (m - 1) (fun k => 2 * wave (c (S k)) (omegas T (S k) * t)) + 0 * cos (omegas T m * t)) with (0 + rsum (m - 1) (fun k => 2 * dwave (p (S k)) (omegas T (S k)) (omegas T (S k) * t)) + 0).
  - apply (dplus (fun t => fst (p 0%nat) + rsum (m - 1) (fun k => 2 * wave (p (S k)) (omegas T (S k) * t))) (fun t => 0 * cos (omegas T m * t))).
    + apply (dplus (fun _ => fst (p 0%nat)) (fun t => rsum (m - 1) (fun k => 2 * wave (p (S k)) (omegas T (S k) * t)))); [apply dconst|].
      apply (rsum_derive (m - 1) (fun k t => 2 * wave (p (S k)) (omegas T (S k) * t)) (fun k t => 2 * dwave (p (S k)) (omegas T (S k)) (omegas T (S k) * t))).
      intros k _. apply (dscal (fun t => wave (p (S k)) (omegas T (S k) * t))). apply wave_derive.
    + apply (dext (fun _ => 0)); [apply dconst|]. intros x. ring.
  - rewrite Rmult_0_l. f_equal. f_equal. apply rsum_ext. intros k Hk. destruct (H (S k) ltac:(lia)) as [H1 H2]. unfold dwave, wave. f_equal. rewrite <- H2. replace (fst (c (S k))) with (- (snd (p (S k)) * omegas T (S k))) by (rewrite H1; ring). ring.
Qed.

Lemma omegas_pos k : (1 <= k)%nat -> 0 < omegas T k.
Proof using Hm HT. intros H. unfold omegas, domega. pose proof PI_RGT_0. apply Rmult_lt_0_compat; [apply Rdiv_lt_0_compat; lra|apply lt_0_INR; lia]. Qed.

Definition omin (omega_f : R) (o : option R) : R := match o with None => omega_f / 10 | Some x => x end.
Definition omax (omega_f : R) (o : option R) : R := match o with None => omega_f | Some x => x end.

(** the band of the noise without mean and below the largest frequency: the frequency is the derivative of the phase, at all the times of the signal;
    the forcing is the velocity of - amplitude cos(phase) *)
Theorem c174_frequency_partial : forall omega_f delta amplitude lo hi w sg, create_frequency_modulated_signal m T omega_f delta amplitude lo hi w = Some sg ->
  0 < omin omega_f lo -> omax omega_f hi < omegas T m ->
  exists Phase : R -> R, Phase 0 = 0 /\ (forall j, phase_vs_time sg j = Phase (times m T j))
  /\ (forall j, derivable_pt_lim Phase (times m T j) (omegaf_vs_time sg j + omega_f))
  /\ (forall j, derivable_pt_lim (fun t => - amplitude * cos (Phase t)) (times m T j) (forcing_vs_time sg j))
  /\ (forall t, Phase (t + T) = Phase t + omega_f * T)
  /\ std (omegaf_vs_time sg) = Rabs delta.
Proof using HT Hm.
  intros omega_f delta amplitude lo hi w sg H Lo Hi. unfold create_frequency_modulated_signal in H. fold (omin omega_f lo) (omax omega_f hi) in H. cbn zeta in H.
  set (c := rectangular T (omin omega_f lo) (omax omega_f hi) w) in *. destruct (Req_EM_T (std (ifft c)) 0) as [|S0]; [discriminate|].
  set (s := delta / std (ifft c)) in *. set (p := integrate T (fft_ifft m (scale s c))) in *.
  assert (Esg : sg = mkSignal (fun j => s * ifft c j) p (fun j => ifft p j + (omega_f * times m T j - ifft p 0%nat)) (fun j => amplitude * (s * ifft c j + omega_f) * sin (ifft p j + (omega_f * times m T j - ifft p 0%nat)))) by congruence.
  clear H. rewrite Esg. cbn [phase_vs_time omegaf_vs_time forcing_vs_time]. clear Esg.
  assert (C0 : c 0%nat = (0, 0)).
  { unfold c, rectangular. destruct (Rle_dec (omin omega_f lo) (omegas T 0)) as [L|]; [|reflexivity]. exfalso. unfold omegas in L. cbn [INR] in L. lra. }
  assert (Cm : c m = (0, 0)).
  { unfold c, rectangular. destruct (Rle_dec (omin omega_f lo) (omegas T m)); [|reflexivity]. destruct (Rle_dec (omegas T m) (omax omega_f hi)); [lra|reflexivity]. }
  set (d := scale s c).
  assert (D0 : fst (d 0%nat) = 0) by (unfold d, scale; rewrite C0; cbn; ring).
  assert (Dm : fst (d m) = 0) by (unfold d, scale; rewrite Cm; cbn; ring).
  assert (Et : forall t, trig d t = s * trig c t).
  { intros t. unfold Watu_Model.trig, d, scale. cbn [fst snd]. rewrite (rsum_ext _ _ (fun k => s * (2 * wave (c (S k)) (omegas T (S k) * t)))) by (intros; unfold wave; cbn [fst snd]; ring). rewrite rsum_scal. ring. }
  assert (Dp : forall t, derivable_pt_lim (trig p) t (trig d t)).
  { intros t. apply trig_derive; [|unfold p, integrate, fft_ifft; rewrite Nat.eqb_refl, Bool.orb_true_r; cbn; unfold Rdiv; ring|exact D0|exact Dm].
    intros k Hk. pose proof (omegas_pos k ltac:(lia)) as OP. unfold p, integrate, fft_ifft. fold d. destruct (Nat.eqb_spec k 0); [lia|]. destruct (Nat.eqb_spec k m); [lia|]. cbn [orb fst snd].
    replace (omegas_nozero T k) with (omegas T k) by (destruct k; [lia|reflexivity]). split; field; lra. }
  assert (T0 : times m T 0 = 0) by (unfold times; cbn [INR]; ring).
  set (Phase := fun t => trig p t + (omega_f * t - trig p 0)). exists Phase.
  assert (DP : forall t, derivable_pt_lim Phase t (s * trig c t + omega_f)).
  { intros t. unfold Phase. eapply deq; [exact (dplus (trig p) (fun t => omega_f * t - trig p 0) t _ _ (Dp t) (dminus (fun t => omega_f * t) (fun _ => trig p 0) t _ _ (dscal (fun t => t) omega_f t 1 (did t)) (dconst _ t)))|]. rewrite Et. ring. }
  split; [unfold Phase; ring|]. split; [intros j; unfold Phase, Watu_Model.ifft; rewrite T0; reflexivity|]. split; [intros j; apply DP|]. split; [|split].
  - intros j. replace (amplitude * (s * ifft c j + omega_f) * sin (ifft p j + (omega_f * times m T j - ifft p 0%nat))) with (- amplitude * (- sin (Phase (times m T j)) * (s * trig c (times m T j) + omega_f))) by (unfold Phase, Watu_Model.ifft; rewrite T0; ring).
    apply (dscal (fun t => cos (Phase t))). apply (dcos Phase). apply DP.
  - intros t. unfold Phase. assert (P : trig p (t + T) = trig p t); [|rewrite P; ring]. unfold Watu_Model.trig.
    assert (A : forall k, omegas T k * (t + T) = omegas T k * t + 2 * INR k * PI) by (intros k; unfold omegas, domega; field; lra).
    rewrite A, cos_period. f_equal. f_equal. apply rsum_ext. intros k _. rewrite A. unfold wave. now rewrite cos_period, sin_period.
  - rewrite std_scal. unfold s, Rdiv. rewrite Rabs_mult, Rabs_inv. rewrite (Rabs_pos_eq (std (ifft c))) by apply sqrt_pos. field. exact S0.
Qed.

(** a period of the forcing which is a multiple of that of the waves: the signal is periodic *)
Theorem c174_periodic : forall omega_f delta amplitude lo hi w sg n, create_frequency_modulated_signal m T omega_f delta amplitude lo hi w = Some sg ->
  0 < omin omega_f lo -> omax omega_f hi < omegas T m -> omega_f * T = 2 * INR n * PI -> forall j, forcing_vs_time sg (j + nb_points m) = forcing_vs_time sg j.
Proof using HT Hm.
  intros omega_f delta amplitude lo hi w sg n H Lo Hi E j. destruct (c174_frequency_partial _ _ _ _ _ _ _ H Lo Hi) as (Ph & _ & P1 & _ & _ & P2 & _).
  assert (TT : times m T (j + nb_points m) = times m T j + T). { unfold times, dt. rewrite plus_INR. assert (INR (nb_points m) <> 0) by (apply not_0_INR; unfold nb_points; lia). field. assumption. }
  unfold create_frequency_modulated_signal in H. fold (omin omega_f lo) (omax omega_f hi) in H. cbn zeta in H. set (c := rectangular T (omin omega_f lo) (omax omega_f hi) w) in *. destruct (Req_EM_T (std (ifft c)) 0); [discriminate|].
  set (s := delta / std (ifft c)) in *.
  assert (F : forall j, forcing_vs_time sg j = amplitude * (s * ifft c j + omega_f) * sin (phase_vs_time sg j)) by (injection H as <-; reflexivity).
  rewrite !F, !P1, TT, P2, E, sin_period. f_equal. f_equal. f_equal. f_equal. unfold Watu_Model.ifft. rewrite TT. unfold Watu_Model.trig.
  assert (A : forall k t, omegas T k * (t + T) = omegas T k * t + 2 * INR k * PI) by (intros k t; unfold omegas, domega; field; lra).
  rewrite A, cos_period. f_equal. f_equal. apply rsum_ext. intros k _. rewrite A. unfold wave. now rewrite cos_period, sin_period.
Qed.

(** no frequency in the band: no signal *)
Theorem c174_empty : forall omega_f delta amplitude lo hi w, (forall k, (k <= m)%nat -> ~ (omin omega_f lo <= omegas T k <= omax omega_f hi)) ->
  create_frequency_modulated_signal m T omega_f delta amplitude lo hi w = None.
Proof using Hm HT.
  intros omega_f delta amplitude lo hi w H. unfold create_frequency_modulated_signal. fold (omin omega_f lo) (omax omega_f hi). cbn zeta. set (c := rectangular T (omin omega_f lo) (omax omega_f hi) w).
  assert (C : forall k, (k <= m)%nat -> c k = (0, 0)).
  { intros k Hk. unfold c, rectangular. destruct (Rle_dec (omin omega_f lo) (omegas T k)); [|reflexivity]. destruct (Rle_dec (omegas T k) (omax omega_f hi)); [|reflexivity]. exfalso. apply (H k Hk). split; assumption. }
  assert (Z : forall j, ifft c j = 0).
  { intros j. unfold Watu_Model.ifft, Watu_Model.trig. rewrite (C 0%nat), (C m) by lia. rewrite (rsum_ext _ _ (fun _ => 0)), rsum_zero; [cbn; ring|]. intros k Hk. rewrite C by lia. unfold wave. cbn. ring. }
  assert (S : std (ifft c) = 0).
  { unfold Watu_Model.std, mean. assert (M : rsum (nb_points m) (ifft c) = 0) by (rewrite (rsum_ext _ _ (fun _ => 0)), rsum_zero; [reflexivity|intros; apply Z]).
    rewrite (rsum_ext _ _ (fun _ => 0)), rsum_zero; [unfold Rdiv; rewrite Rmult_0_l; apply sqrt_0|]. intros j _. rewrite Z, M. unfold Rdiv. ring. }
  rewrite S. destruct (Req_EM_T 0 0); [reflexivity|contradiction].
Qed.
End Signal.

(** a forcing period shorter than one period of the waves: not a number *)
Theorem c174_short_refuted : exists m T omega_f delta, (1 <= m)%nat /\ 0 < T /\ 0 < omega_f /\ 0 < delta /\ forall amplitude w, create_frequency_modulated_signal m T omega_f delta amplitude None None w = None.
Proof.
  exists 8%nat, (2 * PI), (1 / 2), (1 / 20). pose proof PI_RGT_0 as P. split; [lia|]. split; [lra|]. split; [lra|]. split; [lra|]. intros amplitude w. apply c174_empty; [lia|lra|].
  intros k Hk [A B]. unfold omin, omax, omegas, domega in *. replace (2 * PI / (2 * PI)) with 1 in * by (field; lra). destruct k as [|k]; [cbn in A; lra|]. rewrite S_INR in B. pose proof (pos_INR k). lra.
Qed.

(** a band which contains the mean, omega_min = 0: the phase does not follow the frequency *)
Theorem c174_mean_refuted : exists m T omega_f delta amplitude omega_max w sg, (1 <= m)%nat /\ 0 < T /\ 0 < omega_f /\ 0 < delta /\ omega_max < omegas T m
  /\ create_frequency_modulated_signal m T omega_f delta amplitude (Some 0) (Some omega_max) w = Some sg
  /\ forall Phase, (forall t, Phase t = trig m T (phase_vs_omega sg) t + (omega_f * t - trig m T (phase_vs_omega sg) 0)) -> (forall j, phase_vs_time sg j = Phase (times m T j)) /\ ~ derivable_pt_lim Phase (times m T 0) (omegaf_vs_time sg 0 + omega_f).
Proof.
  exists 2%nat, (2 * PI), 1, 1, 1, 1, (fun k => if Nat.leb k 1 then (1, 0) else (0, 0)). pose proof PI_RGT_0 as P.
  assert (O : forall k, omegas (2 * PI) k = INR k) by (intros k; unfold omegas, domega; field; lra).
  assert (TT : forall j, times 2 (2 * PI) j = PI / 2 * INR j) by (intros j; unfold times, dt, nb_points; cbn [INR Nat.mul Nat.add]; field).
  set (c := rectangular (2 * PI) 0 1 (fun k => if Nat.leb k 1 then (1, 0) else (0, 0))).
  assert (C0 : c 0%nat = (1, 0)) by (unfold c, rectangular; rewrite O; cbn; destruct (Rle_dec 0 0); [|lra]; destruct (Rle_dec 0 1); [reflexivity|lra]).
  assert (C1 : c 1%nat = (1, 0)) by (unfold c, rectangular; rewrite O; cbn; destruct (Rle_dec 0 1); [|lra]; destruct (Rle_dec 1 1); [reflexivity|lra]).
  assert (C2 : c 2%nat = (0, 0)) by (unfold c, rectangular; rewrite O; cbn; destruct (Rle_dec 0 (1 + 1)); [|lra]; destruct (Rle_dec (1 + 1) 1); [lra|reflexivity]).
  assert (X : forall t, trig 2 (2 * PI) c t = 1 + 2 * cos t).
  { intros t. unfold trig. cbn [Nat.sub rsum]. rewrite C0, C1, C2. unfold wave. cbn [fst snd]. rewrite !O. cbn [INR]. rewrite ?Rmult_1_l. ring. }
  assert (ST : std 2 (ifft 2 (2 * PI) c) = sqrt 2).
  { unfold std. f_equal. unfold mean, nb_points. cbn [Nat.mul Nat.add rsum]. unfold ifft. rewrite !X, !TT. cbn [INR].
    replace (PI / 2 * 0) with 0 by ring. replace (PI / 2 * 1) with (PI / 2) by ring. replace (PI / 2 * (1 + 1)) with PI by field. replace (PI / 2 * (1 + 1 + 1)) with (3 * (PI / 2)) by field. rewrite cos_0, cos_PI2, cos_PI, cos_3PI2. field. }
  assert (S2 : 0 < sqrt 2) by (apply sqrt_lt_R0; lra).
  eexists. split; [lia|]. split; [lra|]. split; [lra|]. split; [lra|]. split; [rewrite O; cbn; lra|]. split.
  - unfold create_frequency_modulated_signal. cbv beta iota zeta. match goal with |- context [rectangular (2 * PI) 0 1 ?w] => change (rectangular (2 * PI) 0 1 w) with c end. rewrite ST. destruct (Req_EM_T (sqrt 2) 0) as [e|_]; [exfalso; rewrite e in S2; exact (Rlt_irrefl 0 S2)|]. reflexivity.
  - cbn [phase_vs_omega phase_vs_time omegaf_vs_time]. intros Phase HP. set (p := integrate (2 * PI) (fft_ifft 2 (scale (1 / sqrt 2) c))) in *.
    assert (T0 : times 2 (2 * PI) 0 = 0) by (rewrite TT; cbn; ring). split; [intros j; rewrite HP; unfold ifft; rewrite T0; reflexivity|].
    intros D. rewrite T0 in D. unfold ifft in D. rewrite T0, X, cos_0 in D.
    assert (XP : forall t, trig 2 (2 * PI) p t = 2 * (1 / sqrt 2) * sin t).
    { intros t. unfold trig. cbn [Nat.sub rsum]. unfold wave, p, integrate, fft_ifft, scale. cbn [Nat.eqb orb fst snd omegas_nozero]. rewrite ?C0, ?C1, ?C2. cbn [fst snd]. rewrite !O. cbn [INR]. rewrite ?Rmult_1_l. unfold Rdiv. rewrite ?Rmult_0_l, ?Rmult_0_r, ?Ropp_0. field. lra. }
    assert (D' : derivable_pt_lim Phase 0 (2 * (1 / sqrt 2) * cos 0 + 1)).
    { assert (E : forall t, Phase t = 2 * (1 / sqrt 2) * sin t + t) by (intros t; rewrite HP, !XP, sin_0; ring).
      apply (dext (fun t => 2 * (1 / sqrt 2) * sin t + t)); [|intros x; now rewrite E]. apply (dplus (fun t => 2 * (1 / sqrt 2) * sin t) (fun t => t)); [|apply did]. apply (dscal sin), derivable_pt_lim_sin. }
    rewrite cos_0 in D'. pose proof (uniqueness_limite Phase 0 _ _ D D') as U. assert (0 < 1 / sqrt 2) by (apply Rdiv_lt_0_compat; lra). lra.
Qed.

(** the default value None of approximate_dt *)
Theorem c174_default_refuted : exists e, forall total_time, nb_points_asked total_time default_approximate_dt = inr e.
Proof. exists TypeError. reflexivity. Qed.

Example c174_example : exists m T omega_f w sg, create_frequency_modulated_signal m T omega_f 1 1 None None w = Some sg /\ 0 < omin omega_f None /\ omax omega_f None < omegas T m.
Proof.
  pose proof PI_RGT_0 as P. exists 2%nat, (2 * PI), 1, (fun k => (1, 0)).
  assert (O : forall k, omegas (2 * PI) k = INR k) by (intros k; unfold omegas, domega; field; lra).
  unfold create_frequency_modulated_signal. cbv beta iota zeta. set (c := rectangular (2 * PI) (1 / 10) 1 (fun _ => (1, 0))).
  assert (C0 : c 0%nat = (0, 0)) by (unfold c, rectangular; rewrite O; cbn; destruct (Rle_dec (1 / 10) 0); [lra|reflexivity]).
  assert (C1 : c 1%nat = (1, 0)) by (unfold c, rectangular; rewrite O; cbn; destruct (Rle_dec (1 / 10) 1); [|lra]; destruct (Rle_dec 1 1); [reflexivity|lra]).
  assert (C2 : c 2%nat = (0, 0)) by (unfold c, rectangular; rewrite O; cbn; destruct (Rle_dec (1 / 10) (1 + 1)); [|lra]; destruct (Rle_dec (1 + 1) 1); [lra|reflexivity]).
  assert (X : forall j, ifft 2 (2 * PI) c j = 2 * cos (PI / 2 * INR j)).
  { intros j. unfold ifft, trig. cbn [Nat.sub rsum]. rewrite C0, C1, C2. unfold wave. cbn [fst snd]. rewrite !O. cbn [INR]. rewrite ?Rmult_1_l. replace (times 2 (2 * PI) j) with (PI / 2 * INR j) by (unfold times, dt, nb_points; cbn [INR Nat.mul Nat.add]; field). ring. }
  assert (ST : std 2 (ifft 2 (2 * PI) c) = sqrt 2).
  { unfold std. f_equal. unfold mean, nb_points. cbn [Nat.mul Nat.add rsum]. rewrite !X. cbn [INR].
    replace (PI / 2 * 0) with 0 by ring. replace (PI / 2 * 1) with (PI / 2) by ring. replace (PI / 2 * (1 + 1)) with PI by field. replace (PI / 2 * (1 + 1 + 1)) with (3 * (PI / 2)) by field. rewrite cos_0, cos_PI2, cos_PI, cos_3PI2. field. }
  assert (S2 : 0 < sqrt 2) by (apply sqrt_lt_R0; lra). rewrite ST. destruct (Req_EM_T (sqrt 2) 0) as [e|_]; [exfalso; rewrite e in S2; exact (Rlt_irrefl 0 S2)|]. eexists. split; [reflexivity|]. unfold omin, omax. rewrite O. cbn. lra.
Qed.

(** ** C175 *)
Lemma int_part_bounds x : IZR (Int_part x) <= x < IZR (Int_part x) + 1.
Proof. pose proof (base_Int_part x). lra. Qed.

Lemma modulo_range period t : 0 < period -> 0 <= modulo period t < period.
Proof.
  intros H. unfold modulo. pose proof (int_part_bounds (t / period)) as B. assert (E : t / period * period = t) by (field; lra). nra.
Qed.
Lemma int_part_unique x (z : Z) : IZR z <= x < IZR z + 1 -> Int_part x = z.
Proof.
  intros H. pose proof (int_part_bounds x) as B. assert (B1 : IZR (Int_part x) < IZR (z + 1)) by (rewrite plus_IZR; lra). assert (B2 : IZR z < IZR (Int_part x + 1)) by (rewrite plus_IZR; lra). apply lt_IZR in B1, B2. lia.
Qed.

Section Interp.
Variables (n : nat) (period : R) (v : nat -> R).
Hypothesis (Hn : (1 <= n)%nat) (HP : 0 < period).
Lemma step_pos : 0 < step n period. Proof using Hn HP. unfold step. apply Rdiv_lt_0_compat; [exact HP|apply lt_0_INR; lia]. Qed.

(** the interval of a time *)
Lemma interval t : 0 <= t <= period -> exists j, (j < n)%nat /\ step n period * INR j <= t <= step n period * (INR j + 1)
  /\ interpolate n period v t = sample n v j + (t - step n period * INR j) / step n period * (sample n v (S j) - sample n v j).
Proof using Hn HP.
  intros Ht. pose proof step_pos as S. unfold interpolate. set (i := Z.to_nat (Int_part (t / step n period))).
  pose proof (int_part_bounds (t / step n period)) as B. assert (E : t / step n period * step n period = t) by (field; lra).
  assert (Q : 0 <= t / step n period) by (apply Rmult_le_pos; [lra|apply Rlt_le, Rinv_0_lt_compat, S]).
  assert (I0 : (0 <= Int_part (t / step n period))%Z).
  { assert (IZR (-1) < IZR (Int_part (t / step n period))) as K by (change (IZR (-1)) with (-1); lra). apply lt_IZR in K. lia. }
  assert (Ii : INR i = IZR (Int_part (t / step n period))) by (unfold i; rewrite INR_IZR_INZ, Z2Nat.id by exact I0; reflexivity).
  assert (SP : step n period * INR n = period) by (unfold step; field; apply not_0_INR; lia).
  exists (Nat.min i (n - 1)). split; [lia|]. split; [|reflexivity]. destruct (Nat.le_ge_cases i (n - 1)) as [L|L].
  - rewrite Nat.min_l by exact L. rewrite Ii. nra.
  - rewrite Nat.min_r by exact L. apply le_INR in L. rewrite minus_INR in * by lia. cbn [INR] in *. rewrite Ii in L. split; nra.
Qed.

(** the values of the signal at its times, then linear; between the values *)
Theorem c175_interpolation : (forall j, (j < n)%nat -> interpolate n period v (step n period * INR j) = v j) /\ interpolate n period v period = v 0%nat
  /\ (forall a b t, (forall j, (j < n)%nat -> a <= v j <= b) -> a <= coef_forcing_time n period v t <= b)
  /\ (forall j x, (j < n)%nat -> 0 <= x <= 1 -> interpolate n period v (step n period * (INR j + x)) = (1 - x) * v j + x * (if Nat.eqb (S j) n then v 0%nat else v (S j))).
Proof using Hn HP.
  pose proof step_pos as SS. assert (SP : step n period * INR n = period) by (unfold step; field; apply not_0_INR; lia).
  assert (L : forall j x, (j < n)%nat -> 0 <= x <= 1 -> interpolate n period v (step n period * (INR j + x)) = (1 - x) * v j + x * (if Nat.eqb (S j) n then v 0%nat else v (S j))).
  { intros j x Hj Hx. unfold interpolate.
    replace (step n period * (INR j + x) / step n period) with (INR j + x) by (field; lra).
    assert (C : (x < 1) \/ x = 1) by lra. destruct C as [C|C].
    - rewrite (int_part_unique _ (Z.of_nat j)) by (rewrite <- INR_IZR_INZ; lra). rewrite Nat2Z.id. replace (Nat.min j (n - 1)) with j by lia.
      replace ((step n period * (INR j + x) - step n period * INR j) / step n period) with x by (field; lra). unfold sample. destruct (Nat.eqb_spec j n); [lia|]. ring.
    - subst x. rewrite (int_part_unique _ (Z.of_nat (j + 1))) by (rewrite <- INR_IZR_INZ, plus_INR; cbn [INR]; lra). rewrite Nat2Z.id. destruct (Nat.eq_dec (j + 1) n) as [e|e].
      + replace (Nat.min (j + 1) (n - 1)) with j by lia. replace ((step n period * (INR j + 1) - step n period * INR j) / step n period) with 1 by (field; lra). unfold sample. replace (S j) with n by lia. rewrite Nat.eqb_refl. ring.
      + replace (Nat.min (j + 1) (n - 1)) with (S j) by lia. replace (INR (S j)) with (INR j + 1) by (now rewrite S_INR). replace ((step n period * (INR j + 1) - step n period * (INR j + 1)) / step n period) with 0 by (field; lra).
        unfold sample at 1 3. destruct (Nat.eqb_spec (S j) n); [lia|]. ring. }
  split; [|split; [|split; [|exact L]]].
  - intros j Hj. replace (step n period * INR j) with (step n period * (INR j + 0)) by ring. rewrite L by (try exact Hj; lra). ring.
  - replace (interpolate n period v period) with (interpolate n period v (step n period * (INR (n - 1) + 1))) by (f_equal; rewrite minus_INR by lia; cbn [INR]; transitivity (step n period * INR n); [ring|exact SP]).
    rewrite L by (try lia; lra). replace (Datatypes.S (n - 1)) with n by lia. rewrite Nat.eqb_refl. ring.
  - intros a b t B. unfold coef_forcing_time. pose proof (modulo_range period t HP) as M. destruct (interval (modulo period t) ltac:(lra)) as (j & Hj & J & ->).
    assert (S1 : a <= sample n v j <= b) by (unfold sample; destruct (Nat.eqb_spec j n); apply B; lia). assert (S2 : a <= sample n v (Datatypes.S j) <= b) by (unfold sample; destruct (Nat.eqb_spec (Datatypes.S j) n); apply B; lia).
    set (x := (modulo period t - step n period * INR j) / step n period). assert (X : 0 <= x <= 1).
    { unfold x. split; [apply Rmult_le_pos; [lra|apply Rlt_le, Rinv_0_lt_compat, SS]|]. apply Rmult_le_reg_r with (step n period); [exact SS|]. replace ((modulo period t - step n period * INR j) / step n period * step n period) with (modulo period t - step n period * INR j) by (field; lra). lra. }
    nra.
Qed.

(** the forcing is periodic in time *)
Theorem c175_periodic : forall t (k : Z), coef_forcing_time n period v (t + IZR k * period) = coef_forcing_time n period v t /\ 0 <= modulo period t < period.
Proof using HP.
  intros t k. split; [|now apply modulo_range]. unfold coef_forcing_time. f_equal. unfold modulo.
  replace ((t + IZR k * period) / period) with (t / period + IZR k) by (field; lra).
  rewrite (int_part_unique (t / period + IZR k) (Int_part (t / period) + k)) by (rewrite plus_IZR; pose proof (int_part_bounds (t / period)); lra). rewrite plus_IZR. ring.
Qed.
End Interp.
Example c175_example : interpolate 4 2 (fun j => INR j) (step 4 2 * INR 1) = 1. Proof. destruct (c175_interpolation 4 2 (fun j => INR j)) as (H & _); [lia|lra|]. rewrite H by lia. reflexivity. Qed.

(** ** C176 *)
Lemma tanh_exp x : 1 / 2 * (tanh x + 1) = / (1 + exp (- (2 * x))).
Proof.
  unfold tanh, sinh, cosh. pose proof (exp_pos x) as P. pose proof (exp_pos (- x)) as Q.
  assert (E : exp (- (2 * x)) = exp (- x) * exp (- x)) by (rewrite <- exp_plus; f_equal; ring). assert (I : exp x * exp (- x) = 1) by (rewrite <- exp_plus, Rplus_opp_r; apply exp_0). rewrite E. set (a := exp x) in *. set (b := exp (- x)) in *.
  assert (Ea : a = / b) by (apply Rmult_eq_reg_r with b; [rewrite Rinv_l; lra|lra]). clearbody a b. subst a. clear I E. assert (0 < 1 + b * b) by nra. field. lra || (split; [nra|split; nra]) || (split; nra) || nra.
Qed.
Lemma step_func_eq amplitude dx x : step_func amplitude dx x = / (1 + exp (- (2 * (x / width amplitude dx)))).
Proof. unfold step_func. apply tanh_exp. Qed.
Lemma inv_lt_1 a : 0 < a -> 0 < / (1 + a) < 1.
Proof. intros H. split; [apply Rinv_0_lt_compat; lra|]. rewrite <- Rinv_1 at 2. apply Rinv_lt_contravar; lra. Qed.

(** the masks are between 0 and 1 *)
Theorem c176_masks : forall amplitude lx ly dx X Y, 0 < dx -> 2 * amplitude < lx -> 2 * amplitude < ly ->
  0 < maskx amplitude lx ly dx X Y < 1 /\ 0 < masky amplitude lx ly dx X Y < 1.
Proof.
  intros amplitude lx ly dx X Y Hd Hx Hy. assert (W : 0 < width amplitude dx) by (unfold width; apply Rlt_le_trans with (4 * dx); [lra|apply Rmax_l]).
  assert (S : forall x, 0 < step_func amplitude dx x < 1) by (intros x; rewrite step_func_eq; apply inv_lt_1, exp_pos).
  assert (D : forall l x, 2 * amplitude < l -> step_func amplitude dx (- (x - amplitude)) + step_func amplitude dx (x - (l - amplitude)) < 1).
  { intros l x Hl. rewrite !step_func_eq. set (w := width amplitude dx) in *.
    set (a := exp (- (2 * (- (x - amplitude) / w)))). set (b := exp (- (2 * ((x - (l - amplitude)) / w)))).
    assert (PA : 0 < a) by apply exp_pos. assert (PB : 0 < b) by apply exp_pos.
    assert (AB : 1 < a * b). { unfold a, b. rewrite <- exp_plus, <- exp_0. apply exp_increasing. replace (- (2 * (- (x - amplitude) / w)) + - (2 * ((x - (l - amplitude)) / w))) with (2 * (l - 2 * amplitude) / w) by (field; lra). apply Rdiv_lt_0_compat; lra. }
    apply Rmult_lt_reg_r with ((1 + a) * (1 + b)); [nra|]. replace ((/ (1 + a) + / (1 + b)) * ((1 + a) * (1 + b))) with ((1 + b) + (1 + a)) by (field; lra). nra. }
  assert (G : forall u v p q, 0 < u < 1 -> 0 < v < 1 -> u + v < 1 -> 0 < p < 1 -> 0 < q < 1 -> 0 < (u + v) * p * q < 1).
  { intros u v p q U V UV P Q. assert (0 < (u + v) * p) by (apply Rmult_lt_0_compat; lra). assert ((u + v) * p < 1) by nra. split; [apply Rmult_lt_0_compat; lra|]. nra. }
  unfold maskx, masky. split; apply G; try apply S; now apply D.
Qed.

Lemma step_func_half amplitude dx x : 0 < dx -> 0 <= x -> 1 / 2 <= step_func amplitude dx x.
Proof.
  intros Hd Hx. assert (W : 0 < width amplitude dx) by (unfold width; apply Rlt_le_trans with (4 * dx); [lra|apply Rmax_l]).
  rewrite step_func_eq. replace (1 / 2) with (/ 2) by field. apply Rinv_le_contravar; [pose proof (exp_pos (- (2 * (x / width amplitude dx)))); lra|].
  assert (Q : 0 <= x / width amplitude dx) by (apply Rmult_le_pos; [lra|apply Rlt_le, Rinv_0_lt_compat, W]). assert (exp (- (2 * (x / width amplitude dx))) <= 1); [|lra]. rewrite <- exp_0. destruct (Rle_lt_or_eq_dec _ _ Q) as [K|K]; [left; apply exp_increasing; lra|right; f_equal; lra].
Qed.
Lemma step_func_range amplitude dx x : 0 < step_func amplitude dx x < 1.
Proof. rewrite step_func_eq. apply inv_lt_1, exp_pos. Qed.
Lemma step_func_small amplitude dx x d : 0 < dx -> x <= - d -> step_func amplitude dx x <= exp (- (2 * d / width amplitude dx)).
Proof.
  intros Hd Hx. assert (W : 0 < width amplitude dx) by (unfold width; apply Rlt_le_trans with (4 * dx); [lra|apply Rmax_l]).
  rewrite step_func_eq. set (w := width amplitude dx) in *. apply Rle_trans with (/ exp (- (2 * (x / w)))).
  - pose proof (exp_pos (- (2 * (x / w)))). apply Rinv_le_contravar; lra.
  - rewrite <- exp_Ropp. destruct (Req_dec x (- d)) as [->|N]; [right; f_equal; field; lra|]. left. apply exp_increasing. apply Rmult_lt_reg_r with w; [exact W|]. replace (- - (2 * (x / w)) * w) with (2 * x) by (field; lra). replace (- (2 * d / w) * w) with (- (2 * d)) by (field; lra). lra.
Qed.

(** in front of the two boards of each wave maker the masks are not small *)
Theorem c176_boards : forall amplitude lx ly dx, 0 < dx ->
  (forall X Y, X <= amplitude \/ lx - amplitude <= X -> amplitude_side amplitude <= Y <= ly - amplitude_side amplitude -> 1 / 8 <= maskx amplitude lx ly dx X Y)
  /\ (forall X Y, Y <= amplitude \/ ly - amplitude <= Y -> amplitude_side amplitude <= X <= lx - amplitude_side amplitude -> 1 / 8 <= masky amplitude lx ly dx X Y).
Proof.
  intros amplitude lx ly dx Hd. pose proof (step_func_range amplitude dx) as S.
  assert (G : forall u v p q, 0 < u -> 0 < v -> (1 / 2 <= u \/ 1 / 2 <= v) -> 1 / 2 <= p -> 1 / 2 <= q -> 1 / 8 <= (u + v) * p * q).
  { intros u v p q U V UV P Q. assert (1 / 2 <= u + v) by lra. assert (1 / 4 <= (u + v) * p) by nra. nra. }
  split; intros X Y HX HY; apply G; try apply S; try (apply step_func_half; [exact Hd|lra]); (destruct HX; [left|right]; apply step_func_half; [exact Hd|lra|exact Hd|lra]) || (destruct HX; [left; apply step_func_half; [exact Hd|lra]|right; apply step_func_half; [exact Hd|lra]]).
Qed.
(** at the distance d of the boards they are small *)
Theorem c176_elsewhere : forall amplitude lx ly dx d, 0 < dx ->
  (forall X Y, amplitude + d <= X <= lx - amplitude - d \/ (Y <= amplitude_side amplitude - d \/ ly - amplitude_side amplitude + d <= Y) -> maskx amplitude lx ly dx X Y <= 2 * exp (- (2 * d / width amplitude dx)))
  /\ (forall X Y, amplitude + d <= Y <= ly - amplitude - d \/ (X <= amplitude_side amplitude - d \/ lx - amplitude_side amplitude + d <= X) -> masky amplitude lx ly dx X Y <= 2 * exp (- (2 * d / width amplitude dx))).
Proof.
  intros amplitude lx ly dx d Hd. pose proof (step_func_range amplitude dx) as S. set (e := exp (- (2 * d / width amplitude dx))). assert (Pe : 0 < e) by apply exp_pos.
  assert (G : forall u v p q, 0 < u < 1 -> 0 < v < 1 -> 0 < p < 1 -> 0 < q < 1 -> ((u <= e /\ v <= e) \/ (p <= e \/ q <= e)) -> (u + v) * p * q <= 2 * e).
  { intros u v p q U V P Q C. assert (H1 : (u + v) * p <= u + v) by nra. assert (H2 : (u + v) * p <= 2 * p) by nra. assert (H3 : 0 < (u + v) * p) by nra. destruct C as [[C1 C2]|[C|C]]; nra. }
  split; intros X Y C; apply G; try apply S; (destruct C as [C|[C|C]]; [left; split|right; left|right; right]); apply step_func_small; try exact Hd; lra.
Qed.

(** the forcing brings the velocity near the one of the board, without oscillation, for all the time steps *)
Theorem c176_relaxation : forall deltat deltat_max mask coef tg v, 0 < deltat <= deltat_max -> 0 <= mask <= 1 ->
  let v' := v + deltat * forcing_component (sigma deltat_max) mask coef tg v in
  Rabs (coef * tg - v') <= Rabs (coef * tg - v) /\ 0 <= (coef * tg - v') * (coef * tg - v) /\ (v = coef * tg -> forcing_component (sigma deltat_max) mask coef tg v = 0) /\ (mask = 0 -> v' = v).
Proof.
  intros deltat deltat_max mask coef tg v Hd Hm. cbn zeta. unfold forcing_component, sigma, coef_sigma, gamma, n_dt. set (e := coef * tg - v).
  set (q := deltat / deltat_max). assert (Q : 0 < q <= 1). { unfold q. split; [apply Rdiv_lt_0_compat; lra|]. apply Rmult_le_reg_r with deltat_max; [lra|]. replace (deltat / deltat_max * deltat_max) with deltat by (field; lra). lra. }
  replace (coef * tg - (v + deltat * (2 / 4 / deltat_max * mask * e))) with ((1 - q / 2 * mask) * e) by (unfold e, q; field; lra).
  assert (C : 0 <= 1 - q / 2 * mask <= 1) by nra. split; [rewrite Rabs_mult, (Rabs_pos_eq (1 - q / 2 * mask)) by lra; pose proof (Rabs_pos e); nra|]. split; [pose proof (Rle_0_sqr e) as K; unfold Rsqr in K; nra|]. split; [intros E; unfold e; rewrite E; ring|]. intros ->. ring.
Qed.

(** the announced rate, 10^(-gamma) after n_dt time steps, is exp(-gamma) *)
Theorem c176_rate_refuted : exists deltat_max, 0 < deltat_max /\ exp (- (sigma deltat_max * (n_dt * deltat_max))) = exp (- gamma) /\ 10 * / 10 ^ 2 < exp (- (sigma deltat_max * (n_dt * deltat_max))).
Proof.
  exists 1. split; [lra|]. assert (E : - (sigma 1 * (n_dt * 1)) = - gamma) by (unfold sigma, coef_sigma, gamma, n_dt; field). split; [now rewrite E|]. rewrite E. unfold gamma.
  pose proof exp_le_3 as K. pose proof (exp_pos 1) as P. rewrite exp_Ropp. replace (exp 2) with (exp 1 * exp 1) by (rewrite <- exp_plus; f_equal; ring).
  replace (10 * / 10 ^ 2) with (/ 10) by field. apply Rinv_lt_contravar; nra.
Qed.
Example c176_example : 0 < 1 <= 2 /\ 0 <= 1 / 2 <= 1. Proof. lra. Qed.

Print Assumptions c174_frequency_partial.
Print Assumptions c174_periodic.
Print Assumptions c174_empty.
Print Assumptions c174_short_refuted.
Print Assumptions c174_mean_refuted.
Print Assumptions c174_default_refuted.
Print Assumptions c175_interpolation.
Print Assumptions c175_periodic.
Print Assumptions c176_masks.
Print Assumptions c176_boards.
Print Assumptions c176_elsewhere.
Print Assumptions c176_relaxation.
Print Assumptions c176_rate_refuted.
