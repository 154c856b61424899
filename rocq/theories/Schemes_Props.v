(** * Time schemes: the theorems (C10-C13) *)

From Coq Require Import Reals List Lra Lia FunctionalExtensionality.
From Coquelicot Require Import Complex.
From Verif Require Import CExp Schemes_Model Schemes_Spec Schemes_Proofs Schemes_Order.
Import ListNotations.
Open Scope C_scope.

(** ** C10: the coefficients of the exact linear part belong to the current dt *)

(** With the adaptive time step, for every sequence of non-zero time steps and
    whatever the arrays contain at the allocation, the two arrays returned for each
    step are e^{-f dt} and e^{-f dt/2} for the dt of this step. *)
Theorem c10_coefs_follow_dt : forall (I : Type) (f : I -> C) deltat g g2 dts,
  (forall dt, In dt dts -> dt <> 0%R) ->
  Forall2 (fun dt r =>
      (forall i, fst r i = cexp (- f i * RtoC dt)) /\
      (forall i, snd r i = cexp (- f i * RtoC (dt / 2))))
    dts (get_coefs_history I f dts (coefs_init I f true deltat g g2)).
Proof.
  intros I f deltat g g2 dts Hn.
  pose proof (history_good I f dts _ Hn (init_ok I f deltat g g2)) as H.
  induction H as [|dt r dts' rs [H1 H2] _ IH]; constructor; [|apply IH].
  - split; intros i; [exact (f_equal (fun h => h i) H1)|exact (f_equal (fun h => h i) H2)].
  - intros dt' Hin. apply Hn. right; exact Hin.
Qed.

Example c10_example : forall dt, In dt [1; 1; 2; 1]%R -> dt <> 0%R.
Proof. intros dt H. simpl in H. lra. Qed.

(** With a constant time step the coefficients are those of the initial deltat. *)
Theorem c10_constant_dt : forall (I : Type) (f : I -> C) deltat g g2 dts r,
  In r (get_coefs_history I f dts (coefs_init I f false deltat g g2)) ->
  (forall i, fst r i = cexp (- f i * RtoC deltat)) /\
  (forall i, snd r i = cexp (- f i * RtoC (deltat / 2))).
Proof.
  intros I f deltat g g2 dts r H. rewrite history_const in H.
  apply in_map_iff in H. destruct H as (d & <- & _).
  split; intros i; simpl; f_equal; ring.
Qed.

(** If time_stepping.deltat is assigned after the creation of a simulation with
    USE_CFL = False, the coefficients are not updated (they keep the old dt whereas
    the explicit terms and the time use the new one). *)
Theorem c10_assigned_deltat_is_ignored :
  exists (f : unit -> C) (deltat newdt : R) (g g2 : unit -> C),
    exists r, get_coefs_history unit f [newdt] (coefs_init unit f false deltat g g2) = [r] /\
      newdt <> 0%R /\ fst r tt <> cexp (- f tt * RtoC newdt).
Proof.
  exists (fun _ => RtoC 1), 1%R, 2%R, (fun _ => RtoC 0), (fun _ => RtoC 0).
  eexists. split; [reflexivity|]. split; [lra|].
  simpl. intros H. apply (f_equal Cmod) in H. rewrite !Cmod_cexp in H.
  apply exp_inv in H. simpl in H. lra.
Qed.

(** ** C11: the schemes compute the documented formulas *)

(** For every nonlinear term, linear frequency [f], truncation mask, scheme, phase
    shifts, initial content of all the buffers and sequence of non-zero time steps,
    the state after these steps (as computed by the code with its permanent and
    temporary buffers and its cache of coefficients) is the result of the
    documented formula. *)
Theorem c11_schemes_follow_formulas :
  forall (I : Type) (N : (I -> C) -> (I -> C)) (f : I -> C) sch mask phi steps
         deltat g g2 (s : store I),
  (forall st, In st steps -> fst st <> 0%R) ->
  forall i,
  snd (run_steps I N sch f mask (shift I phi) (shift_steps I steps)
         (coefs_init I f true deltat g g2, s)) STATE i =
  doc_run I N (fun j => - f j) (doc_of sch) mask phi steps (s STATE) i.
Proof.
  intros. rewrite (run_ok I N f sch mask phi steps _ s H (init_ok I f deltat g g2)).
  reflexivity.
Qed.

(** The same with a constant time step (USE_CFL = False). *)
Theorem c11_schemes_follow_formulas_constant_dt :
  forall (I : Type) (N : (I -> C) -> (I -> C)) (f : I -> C) sch mask phi steps
         deltat g g2 (s : store I),
  (forall st, In st steps -> fst st = deltat) ->
  forall i,
  snd (run_steps I N sch f mask (shift I phi) (shift_steps I steps)
         (coefs_init I f false deltat g g2, s)) STATE i =
  doc_run I N (fun j => - f j) (doc_of sch) mask phi steps (s STATE) i.
Proof. intros. rewrite run_ok_nocfl by exact H. reflexivity. Qed.

Example c11_example : exists steps : list (R * ((unit -> R) * (unit -> R))),
  (forall st, In st steps -> fst st <> 0%R) /\ (forall st, In st steps -> fst st = 1%R)
  /\ length steps = 2.
Proof.
  exists [(1%R, (fun _ => 0%R, fun _ => 1%R)); (1%R, (fun _ => 0%R, fun _ => 1%R))].
  split; [|split; [|reflexivity]]; intros st H; simpl in H;
    destruct H as [<-|[<-|[]]]; simpl; lra.
Qed.

(** The schemes of simple.py (0D models), and the average of the four
    approximations given in the docstring of RK4. *)
Theorem c11_simple_schemes :
  forall (I : Type) (N : (I -> C) -> (I -> C)) (f : I -> C) dt (S0 : I -> C) c i,
  let c' := coefs_compute I f dt c in
  simple_RK2 I N dt (exact I c') (exact2 I c') S0 i =
    doc_RK2 I N (fun j => - f j) dt S0 i /\
  simple_RK4 I N dt (exact I c') (exact2 I c') S0 i =
    doc_RK4 I N (fun j => - f j) dt S0 i /\
  doc_RK4 I N (fun j => - f j) dt S0 i = doc_RK4_average I N (fun j => - f j) dt S0 i.
Proof.
  intros I N f dt S0 c i c'.
  destruct (compute_good I f dt c) as [H1 H2]. cbn [fst snd] in H1, H2.
  unfold c'. rewrite H1, H2. split; [|split].
  - exact (f_equal (fun h => h i) (simple_RK2_ok I N f dt S0)).
  - exact (f_equal (fun h => h i) (simple_RK4_ok I N f dt S0)).
  - exact (f_equal (fun h => h i) (eq_sym (RK4_average_ok I N f dt S0))).
Qed.

(** When the nonlinear term commutes with the translations of the grid (no
    aliasing error), the phase shifts change nothing. *)
Theorem c11_phase_shift_neutral :
  forall (I : Type) (N : (I -> C) -> (I -> C)) sigma dt (S0 : I -> C) phi pa pb,
  (forall (p : I -> R) S, In p [phi; pa; pb] ->
     forall i, N (fun j => cexp (0, p j)%R * S j) i = cexp (0, p i)%R * N S i) ->
  forall i,
  doc_Euler_phaseshift I N sigma dt phi S0 i = doc_Euler I N sigma dt S0 i /\
  doc_Euler_phaseshift_random I N sigma dt pa pb S0 i = doc_Euler I N sigma dt S0 i /\
  doc_RK2_phaseshift_random I N sigma dt pa pb S0 i =
    doc_RK2_phaseshift I N sigma dt phi S0 i /\
  doc_RK2_phaseshift_exact I N sigma dt phi S0 i =
    doc_RK2_phaseshift I N sigma dt phi S0 i.
Proof.
  intros I N sigma dt S0 phi pa pb H i.
  assert (HS : forall p S, In p [phi; pa; pb] -> N_shift I N p S = N S).
  { intros p S Hp. apply functional_extensionality; intros j. unfold N_shift.
    rewrite H by exact Hp. rewrite phase_inv. field. apply cexp_neq_0. }
  assert (Hphi : In phi [phi; pa; pb]) by (left; reflexivity).
  assert (Hpa : In pa [phi; pa; pb]) by (right; left; reflexivity).
  assert (Hpb : In pb [phi; pa; pb]) by (right; right; left; reflexivity).
  assert (HM : forall a : I -> C, mean I a a = a).
  { intros a. apply functional_extensionality; intros j. unfold mean.
    pose proof C2_neq as H2.
    assert (E2' : RtoC 2 = RtoC 1 + RtoC 1) by (rewrite <- RtoC_plus; f_equal; ring).
    rewrite E2' in *. field. exact H2. }
  unfold doc_Euler_phaseshift, doc_Euler_phaseshift_random, doc_RK2_phaseshift_random,
    doc_RK2_phaseshift, doc_RK2_phaseshift_exact, doc_Euler.
  rewrite ?(HS _ _ Hphi), ?(HS _ _ Hpa), ?(HS _ _ Hpb), ?HM.
  repeat split.
Qed.

Example c11_neutral_example : forall (p : unit -> R) (S : unit -> C) i,
  (fun S i => RtoC 3 * S i) (fun j => cexp (0, p j)%R * S j) i =
  cexp (0, p i)%R * (fun S i => RtoC 3 * S i) S i.
Proof. intros; simpl. ring. Qed.

(** ** C12: the linear part is exact *)

(** Without nonlinear term, for every scheme and every sequence of (non-zero) time
    steps, each kept mode is multiplied by e^{-f t} with t the elapsed time; the
    truncated modes are 0 after the first step. *)
Theorem c12_linear_part_exact :
  forall (I : Type) (f : I -> C) sch mask phi steps deltat g g2 (s : store I) i,
  (forall st, In st steps -> fst st <> 0%R) ->
  let S := snd (run_steps I (fun _ _ => RtoC 0) sch f mask (shift I phi)
                 (shift_steps I steps) (coefs_init I f true deltat g g2, s)) STATE in
  let t := fold_right Rplus 0%R (map fst steps) in
  (mask i = false -> S i = cexp (- f i * RtoC t) * s STATE i) /\
  (mask i = true -> steps <> [] -> S i = RtoC 0).
Proof.
  intros I f sch mask phi steps deltat g g2 s i Hn S t. unfold S.
  rewrite (c11_schemes_follow_formulas I _ f sch mask phi steps deltat g g2 s Hn i).
  split; intros Hm.
  - rewrite doc_run_zero by exact Hm. f_equal. f_equal. f_equal. f_equal. unfold t.
    clear. induction steps as [|st steps IH]; simpl; [reflexivity|now rewrite IH].
  - intros Hne. destruct steps as [|st steps]; [contradiction|].
    apply doc_run_masked. exact Hm.
Qed.

(** Hence the linear part never amplifies a mode if its damping is not negative. *)
Theorem c12_never_amplifies :
  forall (I : Type) (f : I -> C) sch mask phi steps deltat g g2 (s : store I) i,
  (forall st, In st steps -> 0 < fst st)%R -> (0 <= fst (f i))%R ->
  let S := snd (run_steps I (fun _ _ => RtoC 0) sch f mask (shift I phi)
                 (shift_steps I steps) (coefs_init I f true deltat g g2, s)) STATE in
  (Cmod (S i)%C <= Cmod (s STATE i)%C)%R.
Proof.
  intros I f sch mask phi steps deltat g g2 s i Hp Hf S.
  assert (Hn : forall st, In st steps -> fst st <> 0%R)
    by (intros st Hst; specialize (Hp st Hst); lra).
  destruct (c12_linear_part_exact I f sch mask phi steps deltat g g2 s i Hn) as [H1 H2].
  fold S in H1, H2. destruct (mask i) eqn:Em.
  - destruct steps as [|st steps'] eqn:Es.
    + unfold S. simpl. right; reflexivity.
    + rewrite H2 by (try reflexivity; discriminate). rewrite Cmod_0. apply Cmod_ge_0.
  - rewrite H1 by reflexivity. rewrite Cmod_mult, Cmod_cexp.
    set (t := fold_right Rplus 0%R (map fst steps)) in *.
    assert (Ht : (0 <= t)%R).
    { unfold t. clear - Hp. induction steps as [|st steps IH]; simpl; [lra|].
      pose proof (Hp st (or_introl eq_refl)).
      specialize (IH (fun st' H' => Hp st' (or_intror H'))). lra. }
    rewrite <- (Rmult_1_l (Cmod (s STATE i)%C)) at 2.
    apply Rmult_le_compat_r; [apply Cmod_ge_0|].
    rewrite <- exp_0. apply exp_le. simpl. nra.
Qed.

Example c12_example :
  (forall st, In st [(1%R, (fun _ : unit => 0%R, fun _ : unit => 0%R))] -> (0 < fst st)%R) /\
  (0 <= fst (RtoC 1))%R.
Proof. split; [intros st [<-|[]]|]; simpl; lra. Qed.

(** ** C13: order of accuracy *)

(** For every nonlinear term and linear frequency, the Euler, RK2, RK2_trapezoid and
    RK4 formulas are the classical explicit Runge-Kutta methods (forward Euler,
    midpoint, Heun, classical RK4) applied to the equation
    dv/dt = e^{-sigma t} N(e^{sigma t} v), with S = e^{sigma t} v... *)
Theorem c13_classical_methods :
  forall (I : Type) (N : (I -> C) -> (I -> C)) (sigma : I -> C) dt (S0 : I -> C) i,
  let F := fun (t : R) (v : I -> C) (i : I) =>
    cexp (- (sigma i * RtoC t)) * N (fun j => cexp (sigma j * RtoC t) * v j) i in
  let e := cexp (sigma i * RtoC dt) in
  doc_Euler I N sigma dt S0 i = e * rk_step I F A_euler b_euler dt S0 i /\
  doc_RK2 I N sigma dt S0 i = e * rk_step I F A_midpoint b_midpoint dt S0 i /\
  doc_RK2_trapezoid I N sigma dt S0 i = e * rk_step I F A_heun b_heun dt S0 i /\
  doc_RK4 I N sigma dt S0 i = e * rk_step I F A_rk4 b_rk4 dt S0 i.
Proof.
  intros. split; [|split; [|split]].
  - apply Euler_classical.
  - apply RK2_classical.
  - apply trapezoid_classical.
  - apply RK4_classical.
Qed.

(** ... which satisfy Butcher's conditions of order 1, 2, 2 and 4 (and not more). *)
Theorem c13_order_conditions :
  (order1 A_euler b_euler /\ ~ order2 A_euler b_euler) /\
  (order2 A_midpoint b_midpoint /\ ~ order3 A_midpoint b_midpoint) /\
  (order2 A_heun b_heun /\ ~ order3 A_heun b_heun) /\
  order4 A_rk4 b_rk4.
Proof.
  unfold order4, order3, order2, order1, Sum, aij, bi, ci, rsum,
    A_euler, b_euler, A_midpoint, b_midpoint, A_heun, b_heun, A_rk4, b_rk4.
  cbn [map seq length fold_right nth].
  repeat match goal with |- _ /\ _ => split | |- ~ _ => intros H end; lra.
Qed.

(** One step on the linear problem dS_i/dt = (lam_i + sigma_i) S_i: the multiplier is
    e^{sigma dt} times the Taylor polynomial of e^{lam dt}, and for every scheme the
    local error is at most K dt^{p+1}. *)
Theorem c13_taylor_polynomial :
  forall (I : Type) (lam sigma : I -> C) dt phi pa pb (S0 : I -> C) i,
  let x := lam i * RtoC dt in
  let e := cexp (sigma i * RtoC dt) in
  let step sch := doc_step I (fun S j => lam j * S j) sigma sch dt phi pa pb S0 i in
  step D_Euler = e * (RtoC 1 + x) * S0 i /\
  step D_RK2 = e * (RtoC 1 + x + x * x / RtoC 2) * S0 i /\
  step D_RK2_trapezoid = e * (RtoC 1 + x + x * x / RtoC 2) * S0 i /\
  step D_RK4 = e * (RtoC 1 + x + x * x / RtoC 2 + x * x * x / RtoC 6
                    + x * x * x * x / RtoC 24) * S0 i.
Proof.
  intros. unfold step. rewrite !doc_step_diag. unfold mlt.
  rewrite texp_1, texp_2, texp_4. repeat split.
Qed.

Theorem c13_local_error :
  forall (I : Type) (lam sigma : I -> C) sch T i, (fst (sigma i) <= 0)%R ->
  exists K : R, forall dt phi pa pb (S0 : I -> C), (0 <= dt <= T)%R ->
  (Cmod (doc_step I (fun S j => lam j * S j)%C sigma sch dt phi pa pb S0 i
        - cexp ((lam i + sigma i) * RtoC dt) * S0 i)%C <=
   K * dt ^ (doc_order sch + 1) * Cmod (S0 i)%C)%R.
Proof.
  intros I lam sigma sch T i Hs. exists (K_step sch (lam i) (sigma i) T).
  intros dt phi pa pb S0 Hd. rewrite doc_step_diag.
  replace (mlt sch (lam i) (sigma i) dt * S0 i - cexp ((lam i + sigma i) * RtoC dt) * S0 i)
    with ((mlt sch (lam i) (sigma i) dt - cexp ((lam i + sigma i) * RtoC dt)) * S0 i) by ring.
  rewrite Cmod_mult. apply Rmult_le_compat_r; [apply Cmod_ge_0|].
  rewrite Nat.add_1_r. apply mlt_error; assumption.
Qed.

(** For every scheme (with or without phase shift), on the linear problem
    dS_i/dt = (lam_i - f_i) S_i with any complex lam_i treated explicitly and any
    complex f_i of non-negative real part treated exactly, n steps of size T/n give
    the exact solution with an error of order (1/n)^p, p being the order of the scheme. *)
Theorem c13_convergence_order :
  forall (I : Type) (lam f : I -> C) sch phi (T : R) i,
  (0 < T)%R -> (0 <= fst (f i))%R ->
  exists K : R, forall n steps mask deltat g g2 (s : store I),
    (0 < n)%nat -> length steps = n -> mask i = false ->
    (forall st, In st steps -> fst st = T / INR n)%R ->
    let S := snd (run_steps I (fun (S : I -> C) j => lam j * S j) sch f mask (shift I phi)
                   (shift_steps I steps) (coefs_init I f true deltat g g2, s)) STATE in
    (Cmod (S i - cexp ((lam i - f i) * RtoC T) * s STATE i)%C <=
     K / INR n ^ doc_order (doc_of sch) * Cmod (s STATE i)%C)%R.
Proof.
  intros I lam f sch phi T i HT Hf.
  set (sg := - f i).
  exists (K_step (doc_of sch) (lam i) sg T * exp (Cmod (lam i)%C * T)
          * T ^ (doc_order (doc_of sch) + 1))%R.
  intros n steps mask deltat g g2 s Hn Hl Hm Hd S. unfold S.
  assert (HnR : (0 < INR n)%R) by (apply lt_0_INR; exact Hn).
  assert (Hne : forall st, In st steps -> fst st <> 0%R).
  { intros st Hst. rewrite (Hd st Hst). apply Rgt_not_eq. apply Rdiv_lt_0_compat; lra. }
  rewrite (c11_schemes_follow_formulas I _ f sch mask phi steps deltat g g2 s Hne i).
  rewrite (doc_run_diag I lam (fun j => - f j) (doc_of sch) mask phi steps _ (s STATE) i Hm Hd).
  rewrite Hl. fold sg.
  replace (lam i - f i) with (lam i + sg) by (unfold sg; ring).
  replace (cpow (mlt (doc_of sch) (lam i) sg (T / INR n)) n * s STATE i -
           cexp ((lam i + sg) * RtoC T) * s STATE i) with
    ((cpow (mlt (doc_of sch) (lam i) sg (T / INR n)) n -
           cexp ((lam i + sg) * RtoC T)) * s STATE i) by ring.
  rewrite Cmod_mult. apply Rmult_le_compat_r; [apply Cmod_ge_0|].
  rewrite Nat.add_1_r. apply global_error; [|lra|exact Hn].
  unfold sg. simpl. lra.
Qed.

Example c13_example : (0 < 1)%R /\ (0 <= fst (RtoC 2))%R.
Proof. simpl; lra. Qed.

Print Assumptions c10_coefs_follow_dt.
Print Assumptions c10_constant_dt.
Print Assumptions c10_assigned_deltat_is_ignored.
Print Assumptions c11_schemes_follow_formulas.
Print Assumptions c11_schemes_follow_formulas_constant_dt.
Print Assumptions c11_simple_schemes.
Print Assumptions c11_phase_shift_neutral.
Print Assumptions c12_linear_part_exact.
Print Assumptions c12_never_amplifies.
Print Assumptions c13_classical_methods.
Print Assumptions c13_order_conditions.
Print Assumptions c13_taylor_polynomial.
Print Assumptions c13_local_error.
Print Assumptions c13_convergence_order.
