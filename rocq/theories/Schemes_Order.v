(** * Time schemes: accuracy on linear problems, lemmas *)

From Coq Require Import Reals List Lra Lia FunctionalExtensionality.
From Coquelicot Require Import Complex.
From Verif Require Import CExp Schemes_Spec Schemes_Proofs.
Import ListNotations.
Open Scope C_scope.

(** Multiplier of one step for N(S) = lam S. *)
Definition mlt (sch : doc_scheme) (lam sig : C) (dt : R) : C :=
  let e := cexp (sig * RtoC dt) in
  let e2 := cexp (sig * RtoC (dt / 2)) in
  let x := lam * RtoC dt in
  match sch with
  | D_Euler | D_Euler_phaseshift | D_Euler_phaseshift_random => e * texp 1 x
  | D_RK2 | D_RK2_trapezoid => e * texp 2 x
  | D_RK4 => e * texp 4 x
  | _ => e + x * e2 * ((RtoC 1 + (RtoC 1 + x) * e) / RtoC 2)
  end.

Lemma shift_diag I (lam : I -> C) phi S i :
  N_shift I (fun S i => lam i * S i) phi S i = lam i * S i.
Proof.
  unfold N_shift. replace (cexp (0, - phi i)%R) with (cexp (- (0, phi i)%R))
    by (f_equal; apply C_eq; simpl; ring).
  transitivity (cexp (0, phi i)%R * cexp (- (0, phi i)%R) * (lam i * S i)); [ring|].
  rewrite cexp_opp. ring.
Qed.

Lemma texp_1 x : texp 1 x = RtoC 1 + x.
Proof. unfold texp; simpl. rewrite Rinv_1. ring. Qed.

Lemma texp_2 x : texp 2 x = RtoC 1 + x + x * x / RtoC 2.
Proof.
  unfold texp; simpl. rewrite Rinv_1. unfold Cdiv.
  replace (RtoC (/ (1 + 1))) with (/ RtoC 2).
  - ring.
  - rewrite RtoC_inv by lra. reflexivity.
Qed.

Lemma texp_4 x : texp 4 x = RtoC 1 + x + x * x / RtoC 2 + x * x * x / RtoC 6
                            + x * x * x * x / RtoC 24.
Proof.
  unfold texp, csum, cpow, Cdiv. rewrite <- !RtoC_inv by lra.
  replace (INR (fact 0)) with 1%R by reflexivity.
  replace (INR (fact 1)) with 1%R by reflexivity.
  replace (INR (fact 2)) with 2%R by (simpl; ring).
  replace (INR (fact 3)) with 6%R by (simpl; ring).
  replace (INR (fact 4)) with 24%R by (simpl; ring).
  rewrite Rinv_1. ring.
Qed.

Lemma doc_step_diag I (lam sigma : I -> C) sch dt phi pa pb S i :
  doc_step I (fun S i => lam i * S i) sigma sch dt phi pa pb S i =
  mlt sch (lam i) (sigma i) dt * S i.
Proof.
  pose proof C2_neq as H2. pose proof C3_neq as H3.
  assert (H6 : RtoC 6 = RtoC 3 * RtoC 2) by (rewrite <- RtoC_mult; f_equal; ring).
  assert (H24 : RtoC 24 = RtoC 3 * RtoC 2 * RtoC 2 * RtoC 2) by (rewrite <- !RtoC_mult; f_equal; ring).
  assert (Hd2 : RtoC (dt / 2) = RtoC dt / RtoC 2) by (apply RtoC_div; lra).
  assert (Hd3 : RtoC (dt / 3) = RtoC dt / RtoC 3) by (apply RtoC_div; lra).
  assert (E2' : RtoC 2 = RtoC 1 + RtoC 1) by (rewrite <- RtoC_plus; f_equal; ring).
  assert (E3' : RtoC 3 = RtoC 1 + RtoC 1 + RtoC 1) by (rewrite <- !RtoC_plus; f_equal; ring).
  rewrite E2' in *. rewrite E3' in *.
  assert (HE := E_E2 I sigma dt i). assert (Hn := E2_neq I sigma dt i).
  destruct sch; unfold doc_step, mlt;
  cbv [doc_Euler doc_Euler_phaseshift doc_Euler_phaseshift_random doc_RK2
       doc_RK2_trapezoid doc_RK2_phaseshift doc_RK2_phaseshift_random
       doc_RK2_phaseshift_exact doc_RK4 rk2_final mean euler_to];
  rewrite ?shift_diag;
  change (cexp (sigma i * RtoC dt)) with (E I sigma dt i);
  change (cexp (sigma i * RtoC (dt / 2))) with (E2 I sigma dt i);
  rewrite ?HE, ?texp_1, ?texp_2, ?texp_4, ?H6, ?H24, ?Hd2, ?Hd3, ?E2', ?E3';
  set (s := E2 I sigma dt i) in *; clearbody s.
  - field.
  - field. exact H2.
  - field. exact H2.
  - field. exact H2.
  - field. exact H2.
  - field. exact H2.
  - field. exact H2.
  - field. exact H2.
  - field. repeat match goal with |- _ /\ _ => split end;
      intros H; apply (f_equal fst) in H; simpl in H; lra.
Qed.

Lemma doc_run_diag I (lam sigma : I -> C) sch mask phi steps dt S i :
  mask i = false -> (forall st, In st steps -> fst st = dt) ->
  doc_run I (fun S i => lam i * S i) sigma sch mask phi steps S i =
  cpow (mlt sch (lam i) (sigma i) dt) (length steps) * S i.
Proof.
  intros Hm. revert S. induction steps as [|[d [pa pb]] steps IH]; intros S Hd; simpl.
  - ring.
  - rewrite IH by (intros st Hst; apply Hd; right; exact Hst).
    rewrite Hm, doc_step_diag. pose proof (Hd _ (or_introl eq_refl)) as E1. simpl in E1.
    rewrite E1. ring.
Qed.

(** ** Bounds *)

Lemma Cmod_cexp_decay sig dt : (fst sig <= 0)%R -> (0 <= dt)%R ->
  (Cmod (cexp (sig * RtoC dt))%C <= 1)%R.
Proof.
  intros H Hd. rewrite Cmod_cexp. simpl. rewrite <- exp_0. apply exp_le. nra.
Qed.

Lemma Cmod_scal lam dt : (0 <= dt)%R -> Cmod (lam * RtoC dt)%C = (Cmod lam * dt)%R.
Proof. intros H. rewrite Cmod_mult, Cmod_R, Rabs_pos_eq; auto. Qed.

Lemma exp_quad r : (0 <= r)%R -> (1 + r + r * r / 2 <= exp r)%R.
Proof.
  intros H. pose proof (texp_bound 2 (RtoC r)) as B. rewrite texp_2 in B.
  rewrite Cmod_R, Rabs_pos_eq in B by exact H.
  replace (RtoC 1 + RtoC r + RtoC r * RtoC r / RtoC 2) with (RtoC (1 + r + r * r / 2)) in B
    by (rewrite !RtoC_plus, RtoC_div, RtoC_mult by lra; reflexivity).
  rewrite Cmod_R, Rabs_pos_eq in B by nra. exact B.
Qed.

Lemma mlt_bound sch lam sig dt : (fst sig <= 0)%R -> (0 <= dt)%R ->
  (Cmod (mlt sch lam sig dt)%C <= exp (Cmod lam * dt))%R.
Proof.
  intros Hs Hd. rewrite <- (Cmod_scal lam dt Hd).
  assert (D1 := Cmod_cexp_decay sig dt Hs Hd).
  assert (D2 : (Cmod (cexp (sig * RtoC (dt / 2)))%C <= 1)%R) by (apply Cmod_cexp_decay; lra).
  assert (G : forall p, (Cmod (cexp (sig * RtoC dt) * texp p (lam * RtoC dt))%C <=
                         exp (Cmod (lam * RtoC dt)%C))%R).
  { intros p. rewrite Cmod_mult. rewrite <- (Rmult_1_l (exp _)).
    apply Rmult_le_compat; try apply Cmod_ge_0; [exact D1|apply texp_bound]. }
  set (q := cexp (sig * RtoC dt) + lam * RtoC dt * cexp (sig * RtoC (dt / 2)) *
      ((RtoC 1 + (RtoC 1 + lam * RtoC dt) * cexp (sig * RtoC dt)) / RtoC 2)).
  assert (HG : (Cmod q <= exp (Cmod (lam * RtoC dt)%C))%R).
  { unfold q. set (x := lam * RtoC dt) in *. set (e := cexp (sig * RtoC dt)) in *.
    set (e2 := cexp (sig * RtoC (dt / 2))) in *.
    pose proof (Cmod_ge_0 x) as Hx. pose proof (Cmod_ge_0 e) as He. pose proof (Cmod_ge_0 e2) as He2.
    eapply Rle_trans; [|apply exp_quad; exact Hx].
    eapply Rle_trans; [apply Cmod_triangle|].
    rewrite !Cmod_mult. rewrite Cmod_div by apply C2_neq.
    rewrite (Cmod_R 2), (Rabs_pos_eq 2) by lra.
    assert (B : (Cmod (RtoC 1 + (RtoC 1 + x) * e)%C <= 1 + (1 + Cmod x))%R).
    { eapply Rle_trans; [apply Cmod_triangle|]. rewrite Cmod_1. apply Rplus_le_compat_l.
      rewrite Cmod_mult. rewrite <- (Rmult_1_r (1 + Cmod x)).
      apply Rmult_le_compat; try apply Cmod_ge_0; [|exact D1].
      eapply Rle_trans; [apply Cmod_triangle|]. rewrite Cmod_1. lra. }
    set (b := Cmod (RtoC 1 + (RtoC 1 + x) * e)%C) in *.
    assert (0 <= b)%R by apply Cmod_ge_0.
    assert (Cmod x * Cmod e2 <= Cmod x * 1)%R by (apply Rmult_le_compat_l; lra).
    assert (0 <= Cmod x * Cmod e2)%R by (apply Rmult_le_pos; lra).
    assert (Cmod x * Cmod e2 * (b / 2) <= Cmod x * 1 * ((2 + Cmod x) / 2))%R.
    { apply Rmult_le_compat; lra. }
    lra. }
  destruct sch; unfold mlt; solve [apply G|exact HG].
Qed.

(** One step error: at most K dt^{p+1} for dt in [0, T]. *)
Lemma mlt_error_taylor p lam sig dt T : (fst sig <= 0)%R -> (0 <= dt <= T)%R ->
  (Cmod (cexp (sig * RtoC dt) * texp p (lam * RtoC dt) - cexp ((lam + sig) * RtoC dt))%C <=
   2 * Cmod lam ^ S p * exp (Cmod lam * T) * dt ^ S p)%R.
Proof.
  intros Hs Hd.
  replace ((lam + sig) * RtoC dt) with (sig * RtoC dt + lam * RtoC dt) by ring.
  rewrite cexp_plus.
  replace (cexp (sig * RtoC dt) * texp p (lam * RtoC dt) -
           cexp (sig * RtoC dt) * cexp (lam * RtoC dt)) with
    (- (cexp (sig * RtoC dt) * (cexp (lam * RtoC dt) - texp p (lam * RtoC dt)))) by ring.
  rewrite Cmod_opp, Cmod_mult.
  pose proof (Cmod_cexp_decay sig dt Hs (proj1 Hd)) as D.
  pose proof (texp_remainder p (lam * RtoC dt)) as B.
  rewrite (Cmod_scal lam dt (proj1 Hd)) in B.
  set (r := Cmod (cexp (lam * RtoC dt) - texp p (lam * RtoC dt))%C) in *.
  assert (0 <= r)%R by apply Cmod_ge_0.
  assert (Hl := Cmod_ge_0 lam).
  apply Rle_trans with r.
  - rewrite <- (Rmult_1_l r) at 2. apply Rmult_le_compat_r; assumption.
  - eapply Rle_trans; [exact B|]. rewrite Rpow_mult_distr.
    assert (F : (1 <= INR (fact (S p)))%R).
    { apply (le_INR 1). pose proof (lt_O_fact (S p)). lia. }
    assert (X : (exp (Cmod lam * dt) <= exp (Cmod lam * T))%R).
    { apply exp_le. apply Rmult_le_compat_l; lra. }
    pose proof (exp_pos (Cmod lam * dt)).
    assert (P : (0 <= Cmod lam ^ S p * dt ^ S p)%R).
    { apply Rmult_le_pos; apply pow_le; lra. }
    apply Rle_trans with (2 * (Cmod lam ^ S p * dt ^ S p * exp (Cmod lam * T)))%R; [|right; ring].
    unfold Rdiv.
    rewrite <- (Rmult_1_r (2 * (Cmod lam ^ S p * dt ^ S p * exp (Cmod lam * T)))).
    apply Rmult_le_compat.
    + repeat apply Rmult_le_pos; try lra; try (apply pow_le; lra).
    + left; apply Rinv_0_lt_compat; lra.
    + apply Rmult_le_compat_l; [lra|]. apply Rmult_le_compat_l; assumption.
    + rewrite <- Rinv_1. apply Rinv_le_contravar; lra.
Qed.

Lemma Cmod_cexp_m1 a M : (Cmod a <= M)%R ->
  (Cmod (cexp a - RtoC 1)%C <= 2 * exp M * Cmod a)%R.
Proof.
  intros H. pose proof (texp_remainder 0 a) as B.
  unfold texp in B; simpl in B. rewrite Rinv_1 in B.
  replace (cexp a - RtoC 1 * RtoC 1) with (cexp a - RtoC 1) in B by ring.
  eapply Rle_trans; [exact B|].
  assert (exp (Cmod a) <= exp M)%R by (apply exp_le; exact H).
  pose proof (Cmod_ge_0 a). unfold Rdiv. rewrite Rinv_1. nra.
Qed.

(** cosh a - 1 *)
Lemma Cmod_cosh_m1 a M : (Cmod a <= M)%R ->
  (Cmod ((cexp a + cexp (- a)) / RtoC 2 - RtoC 1)%C <= exp M * (Cmod a * Cmod a))%R.
Proof.
  intros H. pose proof (texp_remainder 1 a) as B. pose proof (texp_remainder 1 (- a)) as B'.
  rewrite texp_1 in B, B'. rewrite Cmod_opp in B'.
  replace ((cexp a + cexp (- a)) / RtoC 2 - RtoC 1) with
    (((cexp a - (RtoC 1 + a)) + (cexp (- a) - (RtoC 1 + - a))) / RtoC 2).
  2:{ assert (E2' : RtoC 2 = RtoC 1 + RtoC 1) by (rewrite <- RtoC_plus; f_equal; ring).
      pose proof C2_neq as H2. rewrite E2' in H2 |- *. field. exact H2. }
  rewrite Cmod_div by apply C2_neq. rewrite (Cmod_R 2), (Rabs_pos_eq 2) by lra.
  pose proof (Cmod_triangle (cexp a - (RtoC 1 + a)) (cexp (- a) - (RtoC 1 + - a))) as T.
  assert (exp (Cmod a) <= exp M)%R by (apply exp_le; exact H).
  pose proof (Cmod_ge_0 a). pose proof (exp_pos (Cmod a)). 
  assert (E1 : (2 * (Cmod a ^ 2 * exp (Cmod a)) / INR (fact 2) = Cmod a * Cmod a * exp (Cmod a))%R)
    by (simpl; field).
  rewrite E1 in B, B'. nra.
Qed.

Lemma ps_decomp (x e2 : C) : e2 <> RtoC 0 ->
  e2 * e2 + x * e2 * ((RtoC 1 + (RtoC 1 + x) * (e2 * e2)) / RtoC 2) =
  e2 * e2 * (texp 2 x + x * ((e2 + / e2) / RtoC 2 - RtoC 1) + x * x / RtoC 2 * (e2 - RtoC 1)).
Proof.
  intros H. rewrite texp_2. pose proof C2_neq as H2. field. split; assumption.
Qed.

Definition K_ps (lam sig : C) (T : R) : R :=
  (2 * Cmod lam ^ 3 * exp (Cmod lam * T) +
   Cmod lam * exp (Cmod sig * T) * Cmod sig ^ 2 +
   Cmod lam ^ 2 * exp (Cmod sig * T) * Cmod sig)%R.

Lemma mlt_error_ps lam sig dt T : (fst sig <= 0)%R -> (0 <= dt <= T)%R ->
  (Cmod (cexp (sig * RtoC dt) + lam * RtoC dt * cexp (sig * RtoC (dt / 2)) *
      ((RtoC 1 + (RtoC 1 + lam * RtoC dt) * cexp (sig * RtoC dt)) / RtoC 2)
      - cexp ((lam + sig) * RtoC dt))%C <= K_ps lam sig T * dt ^ 3)%R.
Proof.
  intros Hs Hd.
  set (a := sig * RtoC (dt / 2)).
  assert (Ea : sig * RtoC dt = a + a).
  { unfold a. replace (RtoC dt) with (RtoC (dt / 2) + RtoC (dt / 2)); [ring|].
    rewrite <- RtoC_plus. f_equal. field. }
  pose proof (mlt_error_taylor 2 lam sig dt T Hs Hd) as B0.
  pose proof (Cmod_cexp_decay sig dt Hs (proj1 Hd)) as D.
  rewrite Ea, cexp_plus in *.
  set (x := lam * RtoC dt) in *.
  rewrite ps_decomp by apply cexp_neq_0. rewrite cexp_inv.
  set (ee := cexp a * cexp a) in *.
  set (u := (cexp a + cexp (- a)) / RtoC 2 - RtoC 1).
  set (w := cexp a - RtoC 1).
  replace (ee * (texp 2 x + x * u + x * x / RtoC 2 * w) - cexp ((lam + sig) * RtoC dt)) with
    ((ee * texp 2 x - cexp ((lam + sig) * RtoC dt)) + ee * (x * u + x * x / RtoC 2 * w))
    by ring.
  eapply Rle_trans; [apply Cmod_triangle|].
  assert (Hx : Cmod x = (Cmod lam * dt)%R) by (apply Cmod_scal; lra).
  assert (Ha : Cmod a = (Cmod sig * dt / 2)%R).
  { unfold a. rewrite Cmod_scal by lra. field. }
  pose proof (Cmod_ge_0 sig) as Gs. pose proof (Cmod_ge_0 lam) as Gl.
  assert (HaT : (Cmod a <= Cmod sig * T)%R).
  { rewrite Ha. assert (Cmod sig * dt <= Cmod sig * T)%R by (apply Rmult_le_compat_l; lra).
    assert (0 <= Cmod sig * dt)%R by (apply Rmult_le_pos; lra). lra. }
  pose proof (Cmod_cosh_m1 a _ HaT) as Bu. fold u in Bu.
  pose proof (Cmod_cexp_m1 a _ HaT) as Bw. fold w in Bw.
  set (X := exp (Cmod sig * T)) in *. assert (HX : (0 < X)%R) by apply exp_pos.
  assert (B1 : (Cmod (x * u + x * x / RtoC 2 * w)%C <=
      Cmod lam * dt * (X * (Cmod sig * dt * (Cmod sig * dt))) +
      Cmod lam * dt * (Cmod lam * dt) * (X * (Cmod sig * dt)))%R).
  { eapply Rle_trans; [apply Cmod_triangle|].
    rewrite !Cmod_mult, Cmod_div, Cmod_mult by apply C2_neq.
    rewrite (Cmod_R 2), (Rabs_pos_eq 2), Hx by lra. rewrite Ha in Bu, Bw.
    set (l := (Cmod lam * dt)%R). set (s := (Cmod sig * dt)%R) in *.
    assert (0 <= l)%R by (apply Rmult_le_pos; lra).
    assert (0 <= s)%R by (apply Rmult_le_pos; lra).
    apply Rplus_le_compat.
    - apply Rmult_le_compat_l; [assumption|]. eapply Rle_trans; [exact Bu|].
      apply Rmult_le_compat_l; nra.
    - assert (Hll : (0 <= l * l)%R) by nra.
      apply Rle_trans with (l * l / 2 * (2 * X * (s / 2)))%R.
      + apply Rmult_le_compat_l; [lra|exact Bw].
      + assert (0 <= l * l * (X * s))%R by (apply Rmult_le_pos; nra). lra. }
  assert (B2 : (Cmod (ee * (x * u + x * x / RtoC 2 * w))%C <= Cmod (x * u + x * x / RtoC 2 * w)%C)%R).
  { rewrite Cmod_mult. set (q := Cmod (x * u + x * x / RtoC 2 * w)%C).
    assert (0 <= q)%R by apply Cmod_ge_0. rewrite <- (Rmult_1_l q) at 2.
    apply Rmult_le_compat_r; assumption. }
  unfold K_ps. fold X.
  assert (E3 : (Cmod lam * dt * (X * (Cmod sig * dt * (Cmod sig * dt))) +
      Cmod lam * dt * (Cmod lam * dt) * (X * (Cmod sig * dt)) =
      (Cmod lam * X * Cmod sig ^ 2 + Cmod lam ^ 2 * X * Cmod sig) * dt ^ 3)%R) by ring.
  rewrite E3 in B1. lra.
Qed.

Definition K_step (sch : doc_scheme) (lam sig : C) (T : R) : R :=
  match sch with
  | D_RK2_phaseshift | D_RK2_phaseshift_random | D_RK2_phaseshift_exact => K_ps lam sig T
  | _ => 2 * Cmod lam ^ S (doc_order sch) * exp (Cmod lam * T)
  end.

Lemma mlt_error sch lam sig dt T : (fst sig <= 0)%R -> (0 <= dt <= T)%R ->
  (Cmod (mlt sch lam sig dt - cexp ((lam + sig) * RtoC dt))%C <=
   K_step sch lam sig T * dt ^ S (doc_order sch))%R.
Proof.
  intros Hs Hd.
  destruct sch; unfold mlt, K_step;
    solve [apply (mlt_error_taylor _ lam sig dt T Hs Hd)|apply (mlt_error_ps lam sig dt T Hs Hd)].
Qed.

Lemma exp_pow x n : (exp x ^ n = exp (INR n * x))%R.
Proof.
  induction n as [|n IH]; [simpl; rewrite Rmult_0_l, exp_0; reflexivity|].
  rewrite S_INR. simpl pow. rewrite IH, <- exp_plus. f_equal. ring.
Qed.

Lemma K_step_pos sch lam sig T : (0 <= K_step sch lam sig T)%R.
Proof.
  pose proof (Cmod_ge_0 lam). pose proof (Cmod_ge_0 sig).
  pose proof (exp_pos (Cmod lam * T)). pose proof (exp_pos (Cmod sig * T)).
  destruct sch; unfold K_step, K_ps;
    repeat first [apply Rplus_le_le_0_compat|apply Rmult_le_pos|apply pow_le]; lra.
Qed.

(** Error after n steps of size T/n. *)
Lemma global_error sch lam sig T n : (fst sig <= 0)%R -> (0 <= T)%R -> (0 < n)%nat ->
  (Cmod (cpow (mlt sch lam sig (T / INR n)) n - cexp ((lam + sig) * RtoC T))%C <=
   K_step sch lam sig T * exp (Cmod lam * T) * T ^ S (doc_order sch) / INR n ^ doc_order sch)%R.
Proof.
  intros Hs HT Hn. assert (Hn' : (0 < INR n)%R) by (apply lt_0_INR; exact Hn).
  set (dt := (T / INR n)%R).
  assert (Hdt : (0 <= dt <= T)%R).
  { split.
    - apply Rmult_le_pos; [exact HT|left; apply Rinv_0_lt_compat; exact Hn'].
    - unfold dt, Rdiv. rewrite <- (Rmult_1_r T) at 2. apply Rmult_le_compat_l; [exact HT|].
      rewrite <- Rinv_1. apply Rinv_le_contravar; [lra|]. apply (le_INR 1). lia. }
  assert (Ex : cexp ((lam + sig) * RtoC T) = cpow (cexp ((lam + sig) * RtoC dt)) n).
  { rewrite cpow_cexp. f_equal. unfold dt. rewrite RtoC_div by lra.
    field. intros H. apply RtoC_inj in H. lra. }
  rewrite Ex.
  set (M := exp (Cmod lam * dt)).
  assert (HM : (0 < M)%R) by apply exp_pos.
  assert (Ha : (Cmod (mlt sch lam sig dt)%C <= M)%R) by (apply mlt_bound; lra).
  assert (Hb : (Cmod (cexp ((lam + sig) * RtoC dt))%C <= M)%R).
  { replace ((lam + sig) * RtoC dt) with (sig * RtoC dt + lam * RtoC dt) by ring.
    rewrite cexp_plus, Cmod_mult.
    pose proof (Cmod_cexp_decay sig dt Hs (proj1 Hdt)).
    pose proof (Cmod_cexp_le (lam * RtoC dt)) as H1. rewrite (Cmod_scal lam dt) in H1 by lra.
    fold M in H1. rewrite <- (Rmult_1_l M).
    apply Rmult_le_compat; try apply Cmod_ge_0; assumption. }
  eapply Rle_trans; [apply (cpow_diff _ _ M n); [lra|exact Ha|exact Hb]|].
  pose proof (mlt_error sch lam sig dt T Hs Hdt) as Be.
  assert (HMn : (M ^ (n - 1) <= exp (Cmod lam * T))%R).
  { unfold M. rewrite exp_pow. apply exp_le.
    assert (Hi : (INR (n - 1) * dt <= T)%R).
    { apply Rle_trans with (INR n * dt)%R.
      - apply Rmult_le_compat_r; [lra|]. apply le_INR. lia.
      - unfold dt. right. field. lra. }
    pose proof (Cmod_ge_0 lam).
    replace (INR (n - 1) * (Cmod lam * dt))%R with (Cmod lam * (INR (n - 1) * dt))%R by ring.
    apply Rmult_le_compat_l; assumption. }
  set (P := doc_order sch) in *. set (K := K_step sch lam sig T) in *.
  set (d := Cmod (mlt sch lam sig dt - cexp ((lam + sig) * RtoC dt))%C) in *.
  assert (0 <= d)%R by apply Cmod_ge_0.
  assert (0 <= K)%R by apply K_step_pos.
  apply Rle_trans with (INR n * exp (Cmod lam * T) * (K * dt ^ S P))%R.
  - assert (0 <= M ^ (n - 1))%R by (apply pow_le; lra).
    apply Rmult_le_compat.
    + apply Rmult_le_pos; lra.
    + exact H.
    + apply Rmult_le_compat_l; lra.
    + exact Be.
  - right. unfold dt. unfold Rdiv. rewrite Rpow_mult_distr.
    assert (Hp : ((/ INR n) ^ S P = / INR n * / INR n ^ P)%R).
    { simpl. rewrite pow_inv. reflexivity. }
    rewrite Hp. field. split; [apply pow_nonzero; lra|lra].
Qed.
