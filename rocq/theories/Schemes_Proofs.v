(** * Time schemes: lemmas *)

From Coq Require Import Reals List Lra Lia FunctionalExtensionality.
From Coquelicot Require Import Complex.
From Verif Require Import CExp Schemes_Model Schemes_Spec.
Import ListNotations.
Open Scope C_scope.

(** ** Cache *)

Section Cache.
Variable I : Type.
Variable f : arr I.

Definition good (dt : R) (r : arr I * arr I) : Prop :=
  fst r = (fun i => cexp (- f i * RtoC dt)) /\
  snd r = (fun i => cexp (- f i * RtoC (dt / 2))).

Lemma compute_good dt c :
  good dt (exact I (coefs_compute I f dt c), exact2 I (coefs_compute I f dt c)).
Proof.
  split; simpl; apply functional_extensionality; intros i; f_equal; ring.
Qed.

(** The invariant of the cache. *)
Definition cache_ok (c : coefs I) : Prop :=
  use_cfl I c = true /\
  (dt_old I c <> 0%R -> good (dt_old I c) (exact I c, exact2 I c)).

Lemma init_ok deltat g g2 : cache_ok (coefs_init I f true deltat g g2).
Proof. split; [reflexivity|]. simpl. intros H. exfalso; apply H; reflexivity. Qed.

Lemma update_ok dt c : dt <> 0%R -> cache_ok c ->
  let (c', r) := get_updated_coefs I f dt c in cache_ok c' /\ good dt r.
Proof.
  intros Hdt [Hu Hg]. unfold get_updated_coefs. rewrite Hu.
  destruct (Req_EM_T (dt_old I c) dt) as [E|E].
  - subst dt. split; [split; assumption|]. apply Hg, Hdt.
  - split; [split|].
    + exact Hu.
    + intros _. apply compute_good.
    + apply compute_good.
Qed.

Lemma history_good dts c : (forall dt, In dt dts -> dt <> 0%R) -> cache_ok c ->
  Forall2 good dts (get_coefs_history I f dts c).
Proof.
  revert c. induction dts as [|dt dts IH]; intros c Hn Hc; simpl; [constructor|].
  pose proof (update_ok dt c (Hn dt (or_introl eq_refl)) Hc) as Hu.
  destruct (get_updated_coefs I f dt c) as [c' r]. destruct Hu as [Hc' Hr].
  constructor; [exact Hr|]. apply IH; [|exact Hc'].
  intros d Hd. apply Hn. right; exact Hd.
Qed.

Lemma history_const deltat g g2 dts :
  get_coefs_history I f dts (coefs_init I f false deltat g g2) =
  map (fun _ => (exact I (coefs_init I f false deltat g g2),
                 exact2 I (coefs_init I f false deltat g g2))) dts.
Proof. induction dts as [|dt dts IH]; simpl; [reflexivity|]. f_equal. exact IH. Qed.

End Cache.

(** ** The schemes compute the documented formulas *)

Lemma Chalf : RtoC (1/2) = / RtoC 2.
Proof. rewrite RtoC_div; [|lra]. rewrite <- (Cmult_1_l (/ RtoC 2)). reflexivity. Qed.

Lemma C2_neq : RtoC 2 <> RtoC 0.
Proof. intros H. apply RtoC_inj in H. lra. Qed.
Lemma C3_neq : RtoC 3 <> RtoC 0.
Proof. intros H. apply RtoC_inj in H. lra. Qed.
Lemma C6_neq : RtoC 6 <> RtoC 0.
Proof. intros H. apply RtoC_inj in H. lra. Qed.

Ltac expose :=
  cbv [time_step_Euler time_step_Euler_phaseshift time_step_Euler_phaseshift_random
       time_step_RK2 time_step_RK2_trapezoid time_step_RK2_phaseshift
       time_step_RK2_phaseshift_random time_step_RK2_phaseshift_exact time_step_RK4
       step_Euler_inplace step_Euler step_like_RK2 mean_with_phaseshift mul div_inplace
       compute_tendencies upd addr_eqb addr_num Nat.eqb].

Ltac docunfold :=
  cbv [doc_Euler doc_Euler_phaseshift doc_Euler_phaseshift_random doc_RK2
       doc_RK2_trapezoid doc_RK2_phaseshift doc_RK2_phaseshift_random
       doc_RK2_phaseshift_exact doc_RK4 rk2_final mean N_shift euler_to].

Lemma phase_inv p : cexp (0, - p)%R = / cexp (0, p)%R.
Proof. rewrite cexp_inv. f_equal. apply C_eq; simpl; ring. Qed.

Lemma Cdiv2 a : a / RtoC 2 = RtoC (1/2) * a.
Proof. rewrite Chalf. unfold Cdiv. ring. Qed.

Section Refine.
Variable I : Type.
Variable N : arr I -> arr I.
Variables (f : arr I) (dt : R).
Let sigma : I -> C := fun i => - f i.
Let e : arr I := E I sigma dt.
Let e2 : arr I := E2 I sigma dt.

Ltac norm := unfold Cdiv; rewrite ?phase_inv, ?Chalf.

Ltac go := intros; expose; docunfold; fold e e2; apply functional_extensionality; intros i;
  rewrite ?phase_inv, ?Chalf; unfold Cdiv.

Lemma Euler_ok s :
  time_step_Euler I N dt e s STATE = doc_Euler I N sigma dt (s STATE).
Proof. go; reflexivity. Qed.

Lemma Euler_ps_ok phi s :
  time_step_Euler_phaseshift I N dt e (fun i => cexp (0, phi i)%R) s STATE =
  doc_Euler_phaseshift I N sigma dt phi (s STATE).
Proof. go. ring. Qed.

Lemma Euler_psr_ok pa pb s :
  time_step_Euler_phaseshift_random I N dt e (fun i => cexp (0, pa i)%R)
    (fun i => cexp (0, pb i)%R) s STATE =
  doc_Euler_phaseshift_random I N sigma dt pa pb (s STATE).
Proof. go. ring. Qed.

Lemma RK2_ok s :
  time_step_RK2 I N dt e e2 s STATE = doc_RK2 I N sigma dt (s STATE).
Proof. go. ring. Qed.

Lemma RK2_trap_ok s :
  time_step_RK2_trapezoid I N dt e s STATE = doc_RK2_trapezoid I N sigma dt (s STATE).
Proof. go. ring. Qed.

Lemma RK2_ps_ok phi s :
  time_step_RK2_phaseshift I N dt e e2 (fun i => cexp (0, phi i)%R) s STATE =
  doc_RK2_phaseshift I N sigma dt phi (s STATE).
Proof. go. ring. Qed.

Lemma N_app (u v : arr I) i : (forall j, u j = v j) -> N u i = N v i.
Proof. intros H. f_equal. now apply functional_extensionality. Qed.

Ltac solveN :=
  rewrite ?phase_inv, ?Chalf; unfold Cdiv;
  first
    [ ring
    | match goal with |- ?L = ?R =>
        match L with context [N ?u ?i] =>
          match R with context [N ?v i] =>
            lazymatch u with v => fail | _ =>
              replace (N u i) with (N v i) by (apply N_app; intros ?; cbv beta; solveN);
              solveN
            end
          end
        end
      end ].

Lemma RK2_psr_ok pa pb s :
  time_step_RK2_phaseshift_random I N dt e e2 (fun i => cexp (0, pa i)%R)
    (fun i => cexp (0, pb i)%R) s STATE =
  doc_RK2_phaseshift_random I N sigma dt pa pb (s STATE).
Proof. go. solveN. Qed.

Lemma RK2_pse_ok phi s :
  time_step_RK2_phaseshift_exact I N dt e e2 (fun i => cexp (0, phi i)%R) s STATE =
  doc_RK2_phaseshift_exact I N sigma dt phi (s STATE).
Proof. go. solveN. Qed.

Lemma RtoC_div2 (x y : R) : y <> 0%R -> RtoC (x / y) = RtoC x * / RtoC y.
Proof. intros H. rewrite RtoC_div by exact H. reflexivity. Qed.

Lemma dt6 : RtoC (dt / 6) = RtoC (dt / 3) * / RtoC 2.
Proof.
  rewrite !RtoC_div2 by lra. replace (RtoC 6) with (RtoC 3 * RtoC 2)
    by (rewrite <- RtoC_mult; f_equal; ring).
  field. split; [apply C2_neq|apply C3_neq].
Qed.

Lemma RK4_ok s :
  time_step_RK4 I N dt e e2 s STATE = doc_RK4 I N sigma dt (s STATE).
Proof. go. rewrite dt6. solveN. Qed.

Lemma simple_RK2_ok S : simple_RK2 I N dt e e2 S = doc_RK2 I N sigma dt S.
Proof. go. cbv [simple_RK2]. solveN. Qed.

Lemma simple_RK4_ok S : simple_RK4 I N dt e e2 S = doc_RK4 I N sigma dt S.
Proof. go. cbv [simple_RK4]. rewrite dt6. solveN. Qed.

Lemma RK4_average_ok S : doc_RK4_average I N sigma dt S = doc_RK4 I N sigma dt S.
Proof.
  go. cbv [doc_RK4_average euler_to]. fold e e2.
  replace (RtoC (dt / 3)) with (RtoC (1/3) * RtoC dt)
    by (rewrite <- RtoC_mult; f_equal; field).
  replace (RtoC (1/3) * (RtoC (1/2) * ((S i + RtoC dt * N S i) * e i)
     + (S i * e i + N (fun j => (S j + RtoC (dt / 2) * N S j) * e2 j) i * e2 i * RtoC dt) +
     (S i * e i + N (fun j => S j * e2 j + N (fun j => (S j + RtoC (dt / 2) * N S j) * e2 j) j * RtoC (dt/2)) i * e2 i * RtoC dt) +
     RtoC (1/2) * (S i * e i + N (fun j => S j * e j + N (fun j => S j * e2 j + N (fun j => (S j + RtoC (dt / 2) * N S j) * e2 j) j * RtoC (dt/2)) j * e2 j * RtoC dt) i * RtoC dt)))
    with (RtoC (1/3) * RtoC 3 * (S i * e i) + RtoC (1/3) * RtoC dt *
     (N S i * e i * / RtoC 2 + N (fun j => (S j + RtoC (dt / 2) * N S j) * e2 j) i * e2 i +
      N (fun j => S j * e2 j + N (fun j => (S j + RtoC (dt / 2) * N S j) * e2 j) j * RtoC (dt/2)) i * e2 i
     + N (fun j => S j * e j + N (fun j => S j * e2 j + N (fun j => (S j + RtoC (dt / 2) * N S j) * e2 j) j * RtoC (dt/2)) j * e2 j * RtoC dt) i * / RtoC 2)).
  - replace (RtoC (1/3) * RtoC 3) with (RtoC 1) by (rewrite <- RtoC_mult; f_equal; field).
    ring.
  - rewrite Chalf. replace (RtoC 3) with (RtoC 1 + RtoC 1 + RtoC 1)
      by (rewrite <- !RtoC_plus; f_equal; ring).
    replace (/ RtoC 2) with (RtoC (1/2)) by apply Chalf.
    assert (H : RtoC 1 = RtoC (1/2) + RtoC (1/2)) by (rewrite <- RtoC_plus; f_equal; field).
    transitivity (RtoC (1/3) * ((RtoC (1/2) + RtoC (1/2)) + RtoC 1 + RtoC 1) * (S i * e i) + RtoC (1/3) * RtoC dt *
     (N S i * e i * RtoC (1/2) + N (fun j => (S j + RtoC (dt / 2) * N S j) * e2 j) i * e2 i +
      N (fun j => S j * e2 j + N (fun j => (S j + RtoC (dt / 2) * N S j) * e2 j) j * RtoC (dt/2)) i * e2 i
     + N (fun j => S j * e j + N (fun j => S j * e2 j + N (fun j => (S j + RtoC (dt / 2) * N S j) * e2 j) j * RtoC (dt/2)) j * e2 j * RtoC dt) i * RtoC (1/2))).
    + rewrite <- H. reflexivity.
    + ring.
Qed.

End Refine.

(** ** The whole step *)

Definition doc_of (sch : scheme) : doc_scheme :=
  match sch with
  | Euler => D_Euler
  | Euler_phaseshift => D_Euler_phaseshift
  | Euler_phaseshift_random => D_Euler_phaseshift_random
  | RK2 => D_RK2
  | RK2_trapezoid => D_RK2_trapezoid
  | RK2_phaseshift => D_RK2_phaseshift
  | RK2_phaseshift_random => D_RK2_phaseshift_random
  | RK2_phaseshift_exact => D_RK2_phaseshift_exact
  | RK4 => D_RK4
  end.

Definition shift (I : Type) (phi : I -> R) : arr I := fun i => cexp (0, phi i)%R.

Lemma time_step_RK_ok I N f sch dt diss diss2 phi pa pb s :
  good I f dt (diss, diss2) ->
  time_step_RK I N sch dt diss diss2 (shift I phi) (shift I pa) (shift I pb) s STATE =
  doc_step I N (fun i => - f i) (doc_of sch) dt phi pa pb (s STATE).
Proof.
  intros [H1 H2]. simpl in H1, H2.
  assert (D1 : diss = E I (fun i => - f i) dt) by (rewrite H1; reflexivity).
  assert (D2 : diss2 = E2 I (fun i => - f i) dt) by (rewrite H2; reflexivity).
  rewrite D1, D2. destruct sch; simpl.
  - apply Euler_ok.
  - apply Euler_ps_ok.
  - apply Euler_psr_ok.
  - apply RK2_ok.
  - apply RK2_trap_ok.
  - apply RK2_ps_ok.
  - apply RK2_psr_ok.
  - apply RK2_pse_ok.
  - apply RK4_ok.
Qed.

Definition shift_steps (I : Type) (steps : list (R * ((I -> R) * (I -> R)))) :
  list (R * (arr I * arr I)) :=
  map (fun st => (fst st, (shift I (fst (snd st)), shift I (snd (snd st))))) steps.

Lemma run_ok I N f sch mask phi steps c s :
  (forall st, In st steps -> fst st <> 0%R) -> cache_ok I f c ->
  snd (run_steps I N sch f mask (shift I phi) (shift_steps I steps) (c, s)) STATE =
  doc_run I N (fun i => - f i) (doc_of sch) mask phi steps (s STATE).
Proof.
  revert c s. induction steps as [|[dt [pa pb]] steps IH]; intros c s Hn Hc; [reflexivity|].
  cbn [shift_steps map run_steps doc_run fst snd]. unfold one_time_step_computation.
  pose proof (update_ok I f dt c (Hn _ (or_introl eq_refl)) Hc) as Hu.
  destruct (get_updated_coefs I f dt c) as [c' [d1 d2]]. destruct Hu as [Hc' Hr].
  fold (shift_steps I steps). rewrite IH; [|intros st Hst; apply Hn; right; exact Hst|exact Hc'].
  f_equal. unfold upd. cbn [addr_eqb addr_num Nat.eqb].
  apply functional_extensionality; intros i. destruct (mask i); [reflexivity|].
  now rewrite (time_step_RK_ok I N f sch dt d1 d2 phi pa pb s Hr).
Qed.

Lemma run_ok_nocfl I N f sch mask phi steps deltat g g2 s :
  (forall st, In st steps -> fst st = deltat) ->
  snd (run_steps I N sch f mask (shift I phi) (shift_steps I steps)
         (coefs_init I f false deltat g g2, s)) STATE =
  doc_run I N (fun i => - f i) (doc_of sch) mask phi steps (s STATE).
Proof.
  revert s. induction steps as [|[dt [pa pb]] steps IH]; intros s Hn; [reflexivity|].
  cbn [shift_steps map run_steps doc_run fst snd]. unfold one_time_step_computation.
  cbn [get_updated_coefs coefs_init coefs_compute use_cfl].
  fold (shift_steps I steps).
  match goal with |- context [upd I (time_step_RK I N sch dt ?a ?b _ _ _ s)] =>
    assert (Hr : good I f dt (a, b)) end.
  { rewrite (Hn _ (or_introl eq_refl)) at 1.
    exact (compute_good I f deltat (mkCoefs I false 0%R g g2)). }
  match goal with |- context [run_steps I N sch f mask _ _ (_, ?s')] =>
    pose proof (IH s' (fun st Hst => Hn st (or_intror Hst))) as IH' end.
  cbn [coefs_init coefs_compute use_cfl exact exact2] in IH' |- *.
  rewrite IH'. clear IH IH'.
  f_equal. unfold upd. cbn [addr_eqb addr_num Nat.eqb].
  apply functional_extensionality; intros i. destruct (mask i); [reflexivity|].
  exact (f_equal (fun h => h i) (time_step_RK_ok I N f sch dt _ _ phi pa pb s Hr)).
Qed.

(** ** Without nonlinear term *)

Section Linear.
Variable I : Type.
Variable sigma : I -> C.

Lemma doc_step_zero sch dt phi pa pb S0 i :
  doc_step I (fun _ _ => RtoC 0) sigma sch dt phi pa pb S0 i = S0 i * E I sigma dt i.
Proof.
  destruct sch; unfold doc_step; docunfold; unfold Cdiv; ring.
Qed.

Definition total (steps : list (R * ((I -> R) * (I -> R)))) : R :=
  fold_right (fun st acc => fst st + acc)%R 0%R steps.

Lemma doc_run_zero sch mask phi steps S0 i : mask i = false ->
  doc_run I (fun _ _ => RtoC 0) sigma sch mask phi steps S0 i =
  cexp (sigma i * RtoC (total steps)) * S0 i.
Proof.
  intros Hm. revert S0. induction steps as [|[dt [pa pb]] steps IH]; intros S0; simpl.
  - replace (sigma i * RtoC 0) with (RtoC 0) by ring. rewrite cexp_0. ring.
  - rewrite IH, Hm, doc_step_zero. unfold E.
    replace (sigma i * RtoC (dt + total steps)) with
      (sigma i * RtoC (total steps) + sigma i * RtoC dt)
      by (rewrite RtoC_plus; ring).
    rewrite cexp_plus. ring.
Qed.

End Linear.

Lemma doc_run_masked I N sigma sch mask phi st steps S0 i : mask i = true ->
  doc_run I N sigma sch mask phi (st :: steps) S0 i = RtoC 0.
Proof.
  intros Hm. revert st S0. induction steps as [|st' steps IH]; intros [dt [pa pb]] S0.
  - simpl. now rewrite Hm.
  - change (doc_run I N sigma sch mask phi ((dt, (pa, pb)) :: st' :: steps) S0) with
      (doc_run I N sigma sch mask phi (st' :: steps)
        (fun i => if mask i then RtoC 0 else doc_step I N sigma sch dt phi pa pb S0 i)).
    apply IH.
Qed.

(** ** Reduction to the classical Runge-Kutta methods *)

Section Classic.
Variable I : Type.
Variable N : (I -> C) -> (I -> C).
Variable sigma : I -> C.
Variable dt : R.

(** Right hand side of the equation for v = e^{-sigma t} S. *)
Definition F_if (t : R) (v : I -> C) (i : I) : C :=
  cexp (- (sigma i * RtoC t)) * N (fun j => cexp (sigma j * RtoC t) * v j) i.

Lemma E_E2 i : E I sigma dt i = E2 I sigma dt i * E2 I sigma dt i.
Proof.
  unfold E, E2. rewrite <- cexp_plus. f_equal.
  replace dt with (dt / 2 + dt / 2)%R at 1 by field. rewrite RtoC_plus. ring.
Qed.

Lemma E2_neq i : E2 I sigma dt i <> RtoC 0.
Proof. apply cexp_neq_0. Qed.
Lemma E_neq i : E I sigma dt i <> RtoC 0.
Proof. apply cexp_neq_0. Qed.

Lemma F_if_0 v : F_if 0 v = N v.
Proof.
  apply functional_extensionality; intros i. unfold F_if.
  replace (- (sigma i * RtoC 0)) with (RtoC 0) by ring. rewrite cexp_0, Cmult_1_l.
  f_equal. apply functional_extensionality; intros j.
  replace (sigma j * RtoC 0) with (RtoC 0) by ring. rewrite cexp_0. ring.
Qed.

Lemma F_if_half v : F_if (dt / 2) v =
  fun i => N (fun j => E2 I sigma dt j * v j) i / E2 I sigma dt i.
Proof.
  apply functional_extensionality; intros i. unfold F_if, E2.
  rewrite cexp_div. reflexivity.
Qed.

Lemma F_if_one v : F_if dt v =
  fun i => N (fun j => E I sigma dt j * v j) i / E I sigma dt i.
Proof.
  apply functional_extensionality; intros i. unfold F_if, E.
  rewrite cexp_div. reflexivity.
Qed.

Lemma Napp (u v : I -> C) i : (forall j, u j = v j) -> N u i = N v i.
Proof. intros H. f_equal. now apply functional_extensionality. Qed.

Lemma Euler_classical S0 i :
  doc_Euler I N sigma dt S0 i =
  E I sigma dt i * rk_step I F_if A_euler b_euler dt S0 i.
Proof.
  unfold doc_Euler, euler_to, rk_step, A_euler, b_euler. cbn [slopes comb rsum fold_right app].
  rewrite Rmult_0_l, F_if_0.
  rewrite (Napp (fun i0 => S0 i0 + RtoC dt * RtoC 0) S0 i) by (intros j; ring). ring.
Qed.

Lemma RK2_classical S0 i :
  doc_RK2 I N sigma dt S0 i =
  E I sigma dt i * rk_step I F_if A_midpoint b_midpoint dt S0 i.
Proof.
  unfold doc_RK2, rk2_final, euler_to, rk_step, A_midpoint, b_midpoint.
  cbn [slopes comb rsum fold_right app].
  rewrite Rmult_0_l, F_if_0.
  replace ((1 / 2 + 0) * dt)%R with (dt / 2)%R by field. rewrite F_if_half.
  rewrite E_E2.
  match goal with |- _ = _ * (_ + _ * (_ + (_ * (N ?u i / _) + _))) =>
    rewrite (Napp u (fun i0 => (S0 i0 + RtoC (dt / 2) * N S0 i0) * E2 I sigma dt i0) i) end.
  - field. apply E2_neq.
  - intros j. rewrite (Napp (fun i0 => S0 i0 + RtoC dt * RtoC 0) S0 j) by (intros k; ring).
    replace (RtoC (dt / 2)) with (RtoC dt * RtoC (1/2)) by (rewrite <- RtoC_mult; f_equal; field).
    ring.
Qed.

Lemma trapezoid_classical S0 i :
  doc_RK2_trapezoid I N sigma dt S0 i =
  E I sigma dt i * rk_step I F_if A_heun b_heun dt S0 i.
Proof.
  unfold doc_RK2_trapezoid, euler_to, rk_step, A_heun, b_heun.
  cbn [slopes comb rsum fold_right app].
  rewrite Rmult_0_l, F_if_0.
  replace ((1 + 0) * dt)%R with dt by ring. rewrite F_if_one.
  rewrite (Napp (fun i0 => S0 i0 + RtoC dt * RtoC 0) S0 i) by (intros k; ring).
  match goal with |- _ = _ * (_ + _ * (_ + (_ * (N ?u i / _) + _))) =>
    rewrite (Napp u (fun i0 => (S0 i0 + RtoC dt * N S0 i0) * E I sigma dt i0) i) end.
  - replace (RtoC (dt / 2)) with (RtoC dt * RtoC (1/2)) by (rewrite <- RtoC_mult; f_equal; field).
    field. apply E_neq.
  - intros j. rewrite (Napp (fun i0 => S0 i0 + RtoC dt * RtoC 0) S0 j) by (intros k; ring).
    ring.
Qed.

Lemma RK4_classical S0 i :
  doc_RK4 I N sigma dt S0 i =
  E I sigma dt i * rk_step I F_if A_rk4 b_rk4 dt S0 i.
Proof.
  unfold doc_RK4, rk_step, A_rk4, b_rk4.
  cbn [slopes comb rsum fold_right app].
  replace ((1 / 2 + 0) * dt)%R with (dt / 2)%R by field.
  replace ((0 + (1 / 2 + 0)) * dt)%R with (dt / 2)%R by field.
  replace ((0 + (0 + (1 + 0))) * dt)%R with dt by ring.
  rewrite Rmult_0_l, !F_if_0, !F_if_half, !F_if_one.
  set (e := E I sigma dt). set (e2 := E2 I sigma dt).
  assert (He : forall j, e j = e2 j * e2 j) by (intros j; apply E_E2).
  assert (Hn : forall j, e2 j <> RtoC 0) by (intros j; apply E2_neq).
  clearbody e e2.
  set (SA1 := euler_to I (dt / 2) S0 (N S0) e2).
  set (SA2 := fun i0 => S0 i0 * e2 i0 + N SA1 i0 * RtoC (dt / 2)).
  set (SA3 := fun i0 => S0 i0 * e i0 + N SA2 i0 * e2 i0 * RtoC dt).
  assert (H0 : N (fun i0 => S0 i0 + RtoC dt * RtoC 0) = N S0).
  { f_equal. apply functional_extensionality; intros j. ring. }
  rewrite !H0.
  assert (Hh : RtoC (dt / 2) = RtoC dt * RtoC (1 / 2)) by (rewrite <- RtoC_mult; f_equal; field).
  assert (H1 : (fun j => e2 j * (S0 j + RtoC dt * (RtoC (1 / 2) * N S0 j + RtoC 0))) = SA1).
  { apply functional_extensionality; intros j. unfold SA1, euler_to. rewrite Hh. ring. }
  rewrite !H1.
  assert (H2 : (fun j => e2 j * (S0 j + RtoC dt * (RtoC 0 * N S0 j +
                 (RtoC (1 / 2) * (N SA1 j / e2 j) + RtoC 0)))) = SA2).
  { apply functional_extensionality; intros j. unfold SA2. rewrite Hh. field. apply Hn. }
  rewrite !H2.
  assert (H3 : (fun j => e j * (S0 j + RtoC dt * (RtoC 0 * N S0 j +
                 (RtoC 0 * (N SA1 j / e2 j) + (RtoC 1 * (N SA2 j / e2 j) + RtoC 0))))) = SA3).
  { apply functional_extensionality; intros j. unfold SA3. rewrite He. field. apply Hn. }
  rewrite !H3. rewrite He.
  replace (RtoC (dt / 3)) with (RtoC dt * RtoC (1 / 3)) by (rewrite <- RtoC_mult; f_equal; field).
  replace (RtoC (1 / 6)) with (RtoC (1 / 3) * / RtoC 2).
  - field. split; [apply Hn|apply C2_neq].
  - rewrite <- Chalf, <- RtoC_mult. f_equal. field.
Qed.

End Classic.
