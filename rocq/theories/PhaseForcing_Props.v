(** * C60: the forcing and the phase-shifted schemes

    The solvers add the forcing to the result of tendencies_nonlin (see area InPlace), and the
    phase-shifted schemes multiply by e^{-i phi} the tendencies computed from the
    shifted state (pseudo_spect.py, [_time_step_Euler_phaseshift] and following), forcing
    included.  The forcing is not computed from the shifted state, so that it is itself
    shifted by a fraction of grid cell and averaged with the unshifted one. *)

From Coq Require Import Reals List Lra FunctionalExtensionality.
From Coquelicot Require Import Complex.
From Verif Require Import CExp Schemes_Model Schemes_Spec Schemes_Proofs Schemes_Props.
Import ListNotations.
Open Scope C_scope.

(** tendencies with a constant forcing [F] and nothing else *)
Definition only_forcing {I} (F : I -> C) : (I -> C) -> (I -> C) := fun _ => F.

(** One step of size dt of the model, without dissipation and truncation. *)
Definition one_step {I} (sch : scheme) (F : I -> C) (dt : R) (phi pa pb : I -> R)
  (s : store I) : I -> C :=
  snd (run_steps I (only_forcing F) sch (fun _ => RtoC 0) (fun _ => false) (shift I phi)
         (shift_steps I [(dt, (pa, pb))])
         (coefs_init I (fun _ => RtoC 0) true 0%R (fun _ => RtoC 0) (fun _ => RtoC 0), s)) STATE.

(** The factor applied to the forcing *)
Definition forcing_factor {I} (sch : scheme) (phi pa pb : I -> R) (i : I) : C :=
  match doc_of sch with
  | D_Euler | D_RK2 | D_RK2_trapezoid | D_RK4 => RtoC 1
  | D_Euler_phaseshift | D_RK2_phaseshift | D_RK2_phaseshift_exact =>
      (RtoC 1 + cexp (0, - phi i)%R) / RtoC 2
  | D_Euler_phaseshift_random | D_RK2_phaseshift_random =>
      (cexp (0, - pa i)%R + cexp (0, - pb i)%R) / RtoC 2
  end.

Lemma E0 : forall dt, cexp (- RtoC 0 * RtoC dt) = RtoC 1.
Proof. intros. replace (- RtoC 0 * RtoC dt) with (RtoC 0) by ring. apply cexp_0. Qed.

Lemma RtoC_2 : RtoC 2 = RtoC 1 + RtoC 1.
Proof. apply C_eq; simpl; ring. Qed.

Lemma two_neq_0 : RtoC 1 + RtoC 1 <> RtoC 0.
Proof. intros H. apply (f_equal fst) in H. simpl in H. lra. Qed.

Lemma RtoC_half dt : RtoC (dt / 2) = RtoC dt / (RtoC 1 + RtoC 1).
Proof. rewrite <- RtoC_2, <- RtoC_div by lra. reflexivity. Qed.

Lemma RtoC_third dt : RtoC (dt / 3) = RtoC dt / (RtoC 1 + RtoC 1 + RtoC 1).
Proof.
  replace (RtoC 1 + RtoC 1 + RtoC 1) with (RtoC 3)
    by (rewrite <- !RtoC_plus; f_equal; ring).
  rewrite <- RtoC_div by lra. reflexivity.
Qed.

Lemma three_neq_0 : RtoC 1 + RtoC 1 + RtoC 1 <> RtoC 0.
Proof. intros H. apply (f_equal fst) in H. simpl in H. lra. Qed.

Theorem c60_forcing_factor_partial :
  forall I sch (F : I -> C) dt phi pa pb (s : store I) i,
  dt <> 0%R ->
  one_step sch F dt phi pa pb s i
  = s STATE i + RtoC dt * (forcing_factor sch phi pa pb i * F i).
Proof.
  intros I sch F dt phi pa pb s i Hdt. unfold one_step.
  rewrite (c11_schemes_follow_formulas I (only_forcing F)).
  2:{ intros st [<-|[]]; exact Hdt. }
  cbn [doc_run]. unfold forcing_factor, doc_step.
  destruct (doc_of sch);
    cbv beta delta [doc_Euler doc_Euler_phaseshift doc_Euler_phaseshift_random doc_RK2
        doc_RK2_trapezoid doc_RK2_phaseshift doc_RK2_phaseshift_random
        doc_RK2_phaseshift_exact doc_RK4 euler_to rk2_final mean N_shift E E2
        only_forcing]; cbv zeta beta; rewrite ?E0, ?RtoC_third, ?RtoC_half, ?RtoC_2;
    field; auto using two_neq_0, three_neq_0.
  split; intros H; apply (f_equal fst) in H; simpl in H; lra.
Qed.

Example c60_forcing_factor_example :
  one_step RK4 (fun _ : unit => RtoC 1) 1 (fun _ => 0%R) (fun _ => 0%R) (fun _ => 0%R)
    (fun _ _ => RtoC 0) tt = RtoC 1.
Proof.
  rewrite c60_forcing_factor_partial by lra.
  change (forcing_factor RK4 _ _ _ tt) with (RtoC 1). ring.
Qed.

(** |e^{ia} - 1| <= |a| *)
Lemma Cmod_phase_minus_1 a : (Cmod (cexp (0, a)%R - RtoC 1)%C <= Rabs a)%R.
Proof.
  rewrite <- (sqrt_Rsqr_abs a). unfold Cmod. apply sqrt_le_1_alt.
  unfold cexp; simpl. rewrite exp_0.
  pose proof (sin2_cos2 a) as H1. pose proof (cos_2a_sin (a / 2)) as H2.
  replace (2 * (a / 2))%R with a in H2 by field. unfold Rsqr in *.
  assert (Hs : (sin (a/2) * sin (a/2) <= (a/2) * (a/2))%R).
  { assert (Hp : forall x, (0 <= x -> sin x * sin x <= x * x)%R).
    { intros x Hx. destruct (Rle_lt_dec 1 x) as [Hx1|Hx1].
      - pose proof (SIN_bound x). nra.
      - destruct Hx as [Hx|<-]; [|rewrite sin_0; lra].
        pose proof (sin_lt_x x Hx). pose proof PI2_1.
        assert (0 < sin x)%R by (apply sin_gt_0; lra). nra. }
    destruct (Rle_lt_dec 0 (a/2)) as [Ha|Ha]; [apply Hp; exact Ha|].
    pose proof (Hp (- (a/2))%R ltac:(lra)) as H. rewrite sin_neg in H. nra. }
  nra.
Qed.

(** The factor never amplifies the forcing and is close to 1 for small phases (low
    wavenumbers: the phases are at most |k| dx / 2 per direction). *)
Theorem c60_factor_bounds_partial :
  forall I sch (phi pa pb : I -> R) i,
  (Cmod (forcing_factor sch phi pa pb i) <= 1)%R
  /\ (Cmod (forcing_factor sch phi pa pb i - RtoC 1)%C
      <= Rmax (Rabs (phi i)) (Rmax (Rabs (pa i)) (Rabs (pb i))))%R.
Proof.
  intros I sch phi pa pb i.
  set (m := Rmax (Rabs (phi i)) (Rmax (Rabs (pa i)) (Rabs (pb i)))).
  assert (Hphi : (Rabs (phi i) <= m)%R) by apply Rmax_l.
  assert (Hpa : (Rabs (pa i) <= m)%R)
    by (eapply Rle_trans; [apply Rmax_l|apply Rmax_r]).
  assert (Hpb : (Rabs (pb i) <= m)%R)
    by (eapply Rle_trans; [apply Rmax_r|apply Rmax_r]).
  assert (Hm : (0 <= m)%R) by (pose proof (Rabs_pos (phi i)); lra).
  assert (H2 : Cmod (/ RtoC 2)%C = (/ 2)%R).
  { rewrite Cmod_inv by (rewrite RtoC_2; apply two_neq_0).
    rewrite Cmod_R, Rabs_pos_eq by lra. reflexivity. }
  assert (G : forall a b : R, (Rabs a <= m)%R -> (Rabs b <= m)%R ->
    (Cmod ((cexp (0, a)%R + cexp (0, b)%R) / RtoC 2)%C <= 1)%R /\
    (Cmod ((cexp (0, a)%R + cexp (0, b)%R) / RtoC 2 - RtoC 1)%C <= m)%R).
  { intros a b Ha Hb. split.
    - unfold Cdiv. rewrite Cmod_mult, H2.
      pose proof (Cmod_triangle (cexp (0, a)%R) (cexp (0, b)%R)) as T.
      rewrite !Cmod_cexp_phase in T. lra.
    - replace ((cexp (0, a)%R + cexp (0, b)%R) / RtoC 2 - RtoC 1)
        with (((cexp (0, a)%R - RtoC 1) + (cexp (0, b)%R - RtoC 1)) * / RtoC 2)
        by (rewrite RtoC_2; field; apply two_neq_0).
      rewrite Cmod_mult, H2.
      pose proof (Cmod_triangle (cexp (0, a)%R - RtoC 1) (cexp (0, b)%R - RtoC 1)) as T.
      pose proof (Cmod_phase_minus_1 a). pose proof (Cmod_phase_minus_1 b). lra. }
  assert (G1 : (Cmod (RtoC 1) <= 1)%R /\ (Cmod (RtoC 1 - RtoC 1)%C <= m)%R).
  { split; [rewrite Cmod_1; lra|].
    replace (RtoC 1 - RtoC 1) with (RtoC 0) by ring. rewrite Cmod_0. exact Hm. }
  assert (G2 : (Cmod ((RtoC 1 + cexp (0, - phi i)%R) / RtoC 2)%C <= 1)%R /\
    (Cmod ((RtoC 1 + cexp (0, - phi i)%R) / RtoC 2 - RtoC 1)%C <= m)%R).
  { replace (RtoC 1) with (cexp (0, 0)%R)
      by (transitivity (cexp (RtoC 0)); [reflexivity|apply cexp_0]).
    replace (cexp (0, 0)%R) with (RtoC 1) at 3
      by (symmetry; transitivity (cexp (RtoC 0)); [reflexivity|apply cexp_0]).
    apply G; [rewrite Rabs_R0; exact Hm|rewrite Rabs_Ropp; exact Hphi]. }
  unfold forcing_factor. destruct (doc_of sch); try exact G1; try exact G2;
    apply G; rewrite Rabs_Ropp; assumption.
Qed.

Example c60_factor_bounds_example :
  (Cmod (forcing_factor RK2_phaseshift_random (fun _ : unit => 0%R) (fun _ => 1%R)
     (fun _ => 2%R) tt) <= 1)%R.
Proof. apply c60_factor_bounds_partial. Qed.

(** "The forcing enters each step as dt*F" is false of the phase-shifted schemes: for the
    phase pi (half a grid cell at the largest wavenumber of each of two directions) the
    forcing is cancelled. *)
Theorem c60_forcing_unchanged_refuted :
  exists (F : unit -> C) phi (s : store unit),
    one_step Euler_phaseshift F 1 phi phi phi s tt = s STATE tt
    /\ F tt = RtoC 1.
Proof.
  exists (fun _ => RtoC 1), (fun _ => PI), (fun _ _ => RtoC 0). split; [|reflexivity].
  rewrite c60_forcing_factor_partial by lra.
  replace (forcing_factor Euler_phaseshift _ _ _ tt) with (RtoC 0); [ring|].
  symmetry. unfold forcing_factor; simpl doc_of; cbv iota beta.
  replace (cexp (0, - PI)%R) with (- RtoC 1).
  - unfold Cdiv. ring.
  - apply C_eq; simpl; rewrite exp_0, ?cos_neg, ?sin_neg, ?cos_PI, ?sin_PI; ring.
Qed.

Print Assumptions c60_forcing_factor_partial.
Print Assumptions c60_factor_bounds_partial.
Print Assumptions c60_forcing_unchanged_refuted.
