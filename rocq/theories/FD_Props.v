(** * C14, C49, C62: finite differences *)

From Coq Require Import Reals List Arith Lia Lra String.
From Verif Require Import FD_Model FD_Proofs.
Import ListNotations.
Open Scope R_scope.

(** ** C49: the 1D operators are the periodic centred differences *)

Theorem c49_px_1d nx dx a i : (3 <= nx)%nat -> (i < nx)%nat ->
  dot (sparse_px_1d nx dx) a i = (a (next nx i) - a (prev nx i)) / (2 * dx).
Proof. apply px_1d_ok. Qed.

Theorem c49_pxx_1d nx dx a i : (3 <= nx)%nat -> (i < nx)%nat ->
  dot (sparse_pxx_1d nx dx) a i = (a (next nx i) - 2 * a i + a (prev nx i)) / dx ^ 2.
Proof. apply pxx_1d_ok. Qed.

(** the coordinates agree with the spacing, and the period is Lx *)
Theorem c49_xs_1d Lx nx i : (0 < nx)%nat ->
  xs1 Lx nx (S i) - xs1 Lx nx i = deltax1 Lx nx /\ xs1 Lx nx nx = xs1 Lx nx 0 + Lx.
Proof.
  intros H. unfold xs1, deltax1. apply lt_INR in H. simpl in H. split.
  - rewrite S_INR. ring.
  - simpl. field. lra.
Qed.

(** derivatives of any field have a zero mean *)
Theorem c49_zero_mean_1d nx dx a : (3 <= nx)%nat ->
  rsum nx (dot (sparse_px_1d nx dx) a) = 0 /\ rsum nx (dot (sparse_pxx_1d nx dx) a) = 0.
Proof.
  intros H. split.
  - rewrite (rsum_ext nx _ (fun i => / (2 * dx) * (a (next nx i) - a (prev nx i)))) by
      (intros i Hi; rewrite px_1d_ok by assumption; unfold Rdiv; ring).
    rewrite rsum_scal, rsum_minus, (rsum_next nx a), (rsum_prev nx a). ring.
  - rewrite (rsum_ext nx _ (fun i => / dx ^ 2 * ((a (next nx i) - 2 * a i) + a (prev nx i)))) by
      (intros i Hi; rewrite pxx_1d_ok by assumption; unfold Rdiv; ring).
    rewrite rsum_scal, rsum_plus, rsum_minus, (rsum_next nx a), (rsum_prev nx a), rsum_scal. ring.
Qed.

(** summation by parts on a periodic line *)
Lemma by_parts n (a b : nat -> R) :
  inner n (fun i => a (next n i) - a (prev n i)) b
  = - inner n a (fun i => b (next n i) - b (prev n i)).
Proof.
  unfold inner.
  rewrite (rsum_ext n (fun i => (a (next n i) - a (prev n i)) * b i)
    (fun i => a (next n i) * b i - a (prev n i) * b i)) by (intros; ring).
  rewrite (rsum_ext n (fun i => a i * (b (next n i) - b (prev n i)))
    (fun i => a i * b (next n i) - a i * b (prev n i))) by (intros; ring).
  rewrite !rsum_minus.
  rewrite <- (rsum_next n (fun i => a i * b (prev n i))).
  rewrite <- (rsum_prev n (fun i => a i * b (next n i))).
  rewrite (rsum_ext n (fun i => a (next n i) * b (prev n (next n i))) (fun i => a (next n i) * b i))
    by (intros; rewrite prev_next; auto).
  rewrite (rsum_ext n (fun i => a (prev n i) * b (next n (prev n i))) (fun i => a (prev n i) * b i))
    by (intros; rewrite next_prev; auto).
  ring.
Qed.

Lemma second_diff n (a : nat -> R) :
  inner n (fun i => a (next n i) - 2 * a i + a (prev n i)) a
  = - rsum n (fun i => (a (next n i) - a i) ^ 2).
Proof.
  unfold inner.
  assert (E : rsum n (fun i => a (prev n i) * a i) = rsum n (fun i => a (next n i) * a i)).
  { rewrite <- (rsum_next n (fun i => a (prev n i) * a i)). apply rsum_ext.
    intros i Hi. rewrite prev_next by exact Hi. ring. }
  pose proof (rsum_next n (fun i => a i * a i)) as E2. cbv beta in E2.
  rewrite (rsum_ext n (fun i => (a (next n i) - 2 * a i + a (prev n i)) * a i)
     (fun i => (a (next n i) * a i - 2 * (a i * a i)) + a (prev n i) * a i)) by (intros; ring).
  rewrite (rsum_ext n (fun i => (a (next n i) - a i) ^ 2)
     (fun i => (a (next n i) * a (next n i) - 2 * (a (next n i) * a i)) + a i * a i))
    by (intros; ring).
  rewrite !rsum_plus, !rsum_minus, !rsum_scal, E, E2. ring.
Qed.

Theorem c49_px_1d_antisymmetric nx dx a b : (3 <= nx)%nat ->
  inner nx (dot (sparse_px_1d nx dx) a) b = - inner nx a (dot (sparse_px_1d nx dx) b).
Proof.
  intros H. unfold inner.
  rewrite (rsum_ext nx (fun i => dot (sparse_px_1d nx dx) a i * b i)
    (fun i => / (2 * dx) * ((a (next nx i) - a (prev nx i)) * b i))) by
    (intros i Hi; rewrite px_1d_ok by assumption; unfold Rdiv; ring).
  rewrite (rsum_ext nx (fun i => a i * dot (sparse_px_1d nx dx) b i)
    (fun i => / (2 * dx) * (a i * (b (next nx i) - b (prev nx i))))) by
    (intros i Hi; rewrite px_1d_ok by assumption; unfold Rdiv; ring).
  rewrite !rsum_scal. pose proof (by_parts nx a b) as E. unfold inner in E. rewrite E. ring.
Qed.

Theorem c49_pxx_1d_dissipates nx dx a : (3 <= nx)%nat ->
  inner nx (dot (sparse_pxx_1d nx dx) a) a
  = - (rsum nx (fun i => (a (next nx i) - a i) ^ 2) / dx ^ 2).
Proof.
  intros H. unfold inner.
  rewrite (rsum_ext nx (fun i => dot (sparse_pxx_1d nx dx) a i * a i)
    (fun i => / dx ^ 2 * ((a (next nx i) - 2 * a i + a (prev nx i)) * a i))) by
    (intros i Hi; rewrite pxx_1d_ok by assumption; unfold Rdiv; ring).
  rewrite rsum_scal. pose proof (second_diff nx a) as E. unfold inner in E. rewrite E.
  unfold Rdiv. ring.
Qed.

(** ** C49: the 2D operators *)

(** With a module where the name [sparse] is bound, the operators of the 2D class are the
    periodic centred differences, except pyy: its values are divided by dx^2. *)
Theorem c49_2d_operators_partial names nx ny Lx Ly o :
  lookup names "sparse" = true -> (0 < nx)%nat -> (0 < ny)%nat ->
  init_2d names nx ny Lx Ly = Ok o ->
  let dx := Lx / INR nx in let dy := Ly / INR ny in
  forall a i0 i1, (i0 < ny)%nat -> (i1 < nx)%nat ->
  let at_ j i := a (j * nx + i)%nat in
  dot (px2 o) a (i0 * nx + i1) = (at_ i0 (next nx i1) - at_ i0 (prev nx i1)) / (2 * dx)
  /\ dot (py2 o) a (i0 * nx + i1) = (at_ (next ny i0) i1 - at_ (prev ny i0) i1) / (2 * dy)
  /\ dot (pxx2 o) a (i0 * nx + i1)
     = (at_ i0 (next nx i1) - 2 * at_ i0 i1 + at_ i0 (prev nx i1)) / dx ^ 2
  /\ dot (pyy2 o) a (i0 * nx + i1)
     = (at_ (next ny i0) i1 - 2 * at_ i0 i1 + at_ (prev ny i0) i1) / dx ^ 2.
Proof.
  intros Hs Hx Hy E dx dy a i0 i1 H0 H1 at_.
  unfold init_2d, create_sparse in E. rewrite Hs in E. injection E as <-. cbn [px2 py2 pxx2 pyy2].
  assert (Hi : (i0 * nx + i1 < nx * ny)%nat) by nia.
  rewrite !dot_entries by exact Hi. cbn [List.length map rsum nth].
  unfold func_px, func_pxx, func_py, func_pyy. cbv beta iota zeta.
  rewrite !pos_div, !pos_mod, !next_mod, !pred_mod_ok, !row_next, !row_prev by assumption.
  subst at_. cbv beta. fold dx dy. unfold Rdiv.
  replace (dx ^ 2) with (dx * (dx * 1)) by ring. repeat split; ring.
Qed.

Example c49_2d_operators_example :
  exists o, init_2d ["sparse"%string] 4 3 2 5 = Ok o.
Proof. eexists. reflexivity. Qed.

Lemma rsum_swap nx ny (f : nat -> nat -> R) :
  rsum ny (fun j => rsum nx (fun i => f j i)) = rsum nx (fun i => rsum ny (fun j => f j i)).
Proof.
  induction ny as [|n IH]; simpl.
  - symmetry. apply rsum_zero. reflexivity.
  - rewrite IH, rsum_plus. reflexivity.
Qed.

(** The first derivatives are antisymmetric. *)
Theorem c49_2d_antisymmetric names nx ny Lx Ly o :
  lookup names "sparse" = true -> (0 < nx)%nat -> (0 < ny)%nat ->
  init_2d names nx ny Lx Ly = Ok o ->
  forall a b, inner (nx * ny) (dot (px2 o) a) b = - inner (nx * ny) a (dot (px2 o) b)
  /\ inner (nx * ny) (dot (py2 o) a) b = - inner (nx * ny) a (dot (py2 o) b).
Proof.
  intros Hs Hx Hy E a b.
  pose proof (c49_2d_operators_partial names nx ny Lx Ly o Hs Hx Hy E) as P. cbv zeta in P.
  unfold inner. rewrite !rsum_grid.
  assert (opp : forall n f, - rsum n f = rsum n (fun i => - f i)).
  { clear. intros n f. induction n; simpl; [ring|]. rewrite <- IHn. ring. }
  split.
  - rewrite opp. apply rsum_ext. intros j Hj.
    pose proof (by_parts nx (fun i => a (j * nx + i)%nat) (fun i => b (j * nx + i)%nat)) as B.
    unfold inner in B.
    rewrite (rsum_ext nx _ (fun i => / (2 * (Lx / INR nx)) *
       ((a (j * nx + next nx i)%nat - a (j * nx + prev nx i)%nat) * b (j * nx + i)%nat))) by
      (intros i Hi; destruct (P a j i Hj Hi) as [-> _]; unfold Rdiv; ring).
    rewrite rsum_scal, B.
    rewrite (rsum_ext nx (fun i => a (j * nx + i)%nat * dot (px2 o) b (j * nx + i))
       (fun i => / (2 * (Lx / INR nx)) *
       (a (j * nx + i)%nat * (b (j * nx + next nx i)%nat - b (j * nx + prev nx i)%nat)))) by
      (intros i Hi; destruct (P b j i Hj Hi) as [-> _]; unfold Rdiv; ring).
    rewrite rsum_scal. ring.
  - rewrite (rsum_swap nx ny (fun j i => dot (py2 o) a (j * nx + i) * b (j * nx + i)%nat)),
      (rsum_swap nx ny (fun j i => a (j * nx + i)%nat * dot (py2 o) b (j * nx + i))).
    rewrite opp. apply rsum_ext. intros i Hi.
    pose proof (by_parts ny (fun j => a (j * nx + i)%nat) (fun j => b (j * nx + i)%nat)) as B.
    unfold inner in B.
    rewrite (rsum_ext ny _ (fun j => / (2 * (Ly / INR ny)) *
       ((a (next ny j * nx + i)%nat - a (prev ny j * nx + i)%nat) * b (j * nx + i)%nat))) by
      (intros j Hj; destruct (P a j i Hj Hi) as [_ [-> _]]; unfold Rdiv; ring).
    rewrite rsum_scal, B.
    rewrite (rsum_ext ny (fun j => a (j * nx + i)%nat * dot (py2 o) b (j * nx + i))
       (fun j => / (2 * (Ly / INR ny)) *
       (a (j * nx + i)%nat * (b (next ny j * nx + i)%nat - b (prev ny j * nx + i)%nat)))) by
      (intros j Hj; destruct (P b j i Hj Hi) as [_ [-> _]]; unfold Rdiv; ring).
    rewrite rsum_scal. ring.
Qed.

(** The means of the derivatives are zero. *)
Theorem c49_2d_zero_mean names nx ny Lx Ly o :
  lookup names "sparse" = true -> (0 < nx)%nat -> (0 < ny)%nat ->
  init_2d names nx ny Lx Ly = Ok o ->
  forall a, rsum (nx * ny) (dot (px2 o) a) = 0 /\ rsum (nx * ny) (dot (py2 o) a) = 0
  /\ rsum (nx * ny) (dot (pxx2 o) a) = 0 /\ rsum (nx * ny) (dot (pyy2 o) a) = 0.
Proof.
  intros Hs Hx Hy E a.
  pose proof (c49_2d_operators_partial names nx ny Lx Ly o Hs Hx Hy E) as P. cbv zeta in P.
  rewrite !rsum_grid. repeat split.
  - apply rsum_zero. intros j Hj.
    rewrite (rsum_ext nx _ (fun i => / (2 * (Lx / INR nx)) *
      ((fun i => a (j * nx + i)%nat) (next nx i) - (fun i => a (j * nx + i)%nat) (prev nx i)))) by
      (intros i Hi; destruct (P a j i Hj Hi) as [-> _]; unfold Rdiv; ring).
    rewrite rsum_scal, rsum_minus, (rsum_next nx (fun i => a (j * nx + i)%nat)), (rsum_prev nx (fun i => a (j * nx + i)%nat)). ring.
  - rewrite (rsum_swap nx ny (fun j i => dot (py2 o) a (j * nx + i))). apply rsum_zero. intros i Hi.
    rewrite (rsum_ext ny _ (fun j => / (2 * (Ly / INR ny)) *
      ((fun j => a (j * nx + i)%nat) (next ny j) - (fun j => a (j * nx + i)%nat) (prev ny j)))) by
      (intros j Hj; destruct (P a j i Hj Hi) as [_ [-> _]]; unfold Rdiv; ring).
    rewrite rsum_scal, rsum_minus, (rsum_next ny (fun j => a (j * nx + i)%nat)), (rsum_prev ny (fun j => a (j * nx + i)%nat)). ring.
  - apply rsum_zero. intros j Hj.
    rewrite (rsum_ext nx _ (fun i => / (Lx / INR nx) ^ 2 *
      ((fun i => a (j * nx + i)%nat) (next nx i) - 2 * a (j * nx + i)%nat
       + (fun i => a (j * nx + i)%nat) (prev nx i)))) by
      (intros i Hi; destruct (P a j i Hj Hi) as [_ [_ [-> _]]]; unfold Rdiv; ring).
    rewrite rsum_scal, rsum_plus, rsum_minus, (rsum_next nx (fun i => a (j * nx + i)%nat)), (rsum_prev nx (fun i => a (j * nx + i)%nat)), rsum_scal. ring.
  - rewrite (rsum_swap nx ny (fun j i => dot (pyy2 o) a (j * nx + i))). apply rsum_zero. intros i Hi.
    rewrite (rsum_ext ny _ (fun j => / (Lx / INR nx) ^ 2 *
      ((fun j => a (j * nx + i)%nat) (next ny j) - 2 * a (j * nx + i)%nat
       + (fun j => a (j * nx + i)%nat) (prev ny j)))) by
      (intros j Hj; destruct (P a j i Hj Hi) as [_ [_ [_ ->]]]; unfold Rdiv; ring).
    rewrite rsum_scal, rsum_plus, rsum_minus, (rsum_next ny (fun j => a (j * nx + i)%nat)), (rsum_prev ny (fun j => a (j * nx + i)%nat)), rsum_scal. ring.
Qed.

(** FINDING: as the module is written, no object of the 2D class can be created. *)
Theorem c49_2d_construction_always_fails nx ny Lx Ly :
  init_2d module_names_2d nx ny Lx Ly = NameError "sparse".
Proof. reflexivity. Qed.

Theorem c49_2d_construction_refuted :
  exists nx ny Lx Ly, (0 < nx)%nat /\ (0 < ny)%nat /\ 0 < Lx /\ 0 < Ly
    /\ init_2d module_names_2d nx ny Lx Ly = NameError "sparse".
Proof. exists 4%nat, 4%nat, 1, 1. repeat split; lia || lra. Qed.

(** the 1D module does bind the name *)
Example c49_1d_module_binds : lookup module_names_1d "sparse" = true.
Proof. reflexivity. Qed.

(** FINDING: and once this is repaired pyy is wrong on a grid with dx <> dy. *)
Theorem c49_2d_pyy_refuted :
  exists nx ny Lx Ly o a i0 i1,
    init_2d ["sparse"%string] nx ny Lx Ly = Ok o /\ (i0 < ny)%nat /\ (i1 < nx)%nat
    /\ dot (pyy2 o) a (i0 * nx + i1)
       <> (a (next ny i0 * nx + i1)%nat - 2 * a (i0 * nx + i1)%nat + a (prev ny i0 * nx + i1)%nat)
          / (Ly / INR ny) ^ 2.
Proof.
  exists 3%nat, 3%nat, 3, 6. eexists. exists (fun i => match i with O => 1 | _ => 0 end), O, O.
  split; [reflexivity|]. split; [lia|]. split; [lia|].
  destruct (c49_2d_operators_partial ["sparse"%string] 3 3 3 6 _ eq_refl
              ltac:(lia) ltac:(lia) eq_refl (fun i => match i with O => 1 | _ => 0 end)
              0%nat 0%nat ltac:(lia) ltac:(lia)) as (_ & _ & _ & H).
  rewrite H. unfold next, prev. simpl. intros E. field_simplify in E. lra.
Qed.

(** FINDING: the coordinates of the 2D class are not those of its grid spacing. *)
Theorem c49_2d_xs_refuted :
  exists Lx nx i, (i < nx - 1)%nat /\ xs2 Lx nx (S i) - xs2 Lx nx i <> Lx / INR nx.
Proof.
  exists 1, 3%nat, 0%nat. split; [lia|]. unfold xs2. simpl. lra.
Qed.

(** the spacing of these coordinates is Lx/(nx - 1) *)
Theorem c49_2d_xs_partial Lx nx i :
  xs2 Lx nx (S i) - xs2 Lx nx i = Lx / INR (nx - 1).
Proof. unfold xs2. rewrite S_INR. ring. Qed.

(** ** C14: the implicit step *)

Definition injective (n : nat) (A : matrix) : Prop :=
  forall x, (forall i, (i < n)%nat -> dot A x i = 0) -> forall i, (i < n)%nat -> x i = 0.

(** what is assumed of spsolve, for the system it is given: a solution is returned when the
    matrix is not singular *)
Definition solves (spsolve : matrix -> (nat -> R) -> (nat -> R)) (n : nat) A b : Prop :=
  injective n A -> forall i, (i < n)%nat -> dot A (spsolve A b) i = b i.

(** <L a, a> <= 0, for all a *)
Definition dissipative (n : nat) (L : matrix) : Prop := forall a, inner n (dot L a) a <= 0.
(** <L a, a> = 0, for all a *)
Definition conservative (n : nat) (L : matrix) : Prop := forall a, inner n (dot L a) a = 0.

(** the system of the time step is not singular *)
Theorem c14_nonsingular n L dt : dissipative n L -> 0 <= dt ->
  injective n (msub (identity n) (scale (dt / 2) L)).
Proof.
  intros HL Hdt x Hx.
  assert (E : inner n x x = dt / 2 * inner n (dot L x) x).
  { unfold inner. rewrite <- rsum_scal. apply rsum_ext. intros i Hi. specialize (Hx i Hi).
    rewrite dot_msub, dot_scale, dot_identity in Hx by exact Hi.
    replace (x i) with (dt / 2 * dot L x i) at 1 by lra. ring. }
  specialize (HL x).
  assert (P : 0 <= inner n x x) by (apply rsum_nonneg; intros; nra).
  assert (Z : inner n x x = 0) by nra.
  intros i Hi. pose proof (rsum_0_inv n (fun i => x i * x i) ltac:(intros; nra) Z i Hi) as Q.
  simpl in Q. nra.
Qed.

Section Step.
Variable spsolve : matrix -> (nat -> R) -> (nat -> R).
Variable n : nat.
Variable L : matrix.
Variable N : (nat -> R) -> (nat -> R).
Variable dt : R.
Variable S0 : nat -> R.
Hypothesis Hdt : 0 <= dt.
Hypothesis HL : dissipative n L.
Hypothesis Hsolve : solves spsolve n (msub (identity n) (scale (dt / 2) L))
                      (right_hand_side L S0 (N S0) dt).

Let S1 := time_step_RK2 spsolve n L N dt S0.

(** the new state satisfies the Crank-Nicolson relation with the tendency at the old state,
    and it is the only array which does *)
Theorem c14_crank_nicolson i : (i < n)%nat ->
  S1 i - S0 i = dt / 2 * (dot L S0 i + dot L S1 i) + dt * N S0 i.
Proof.
  intros Hi. pose proof (Hsolve (c14_nonsingular n L dt HL Hdt) i Hi) as E.
  rewrite dot_msub, dot_scale, dot_identity in E by exact Hi. unfold right_hand_side in E at 3.
  unfold S1, time_step_RK2. cbv zeta. lra.
Qed.

Theorem c14_unique x :
  (forall i, (i < n)%nat -> x i - S0 i = dt / 2 * (dot L S0 i + dot L x i) + dt * N S0 i) ->
  forall i, (i < n)%nat -> x i = S1 i.
Proof.
  intros Hx i Hi.
  assert (Z : forall j, (j < n)%nat ->
     dot (msub (identity n) (scale (dt / 2) L)) (fun j => x j - S1 j) j = 0).
  { intros j Hj. rewrite dot_msub, dot_scale, dot_identity, dot_minus by exact Hj.
    pose proof (Hx j Hj). pose proof (c14_crank_nicolson j Hj). lra. }
  pose proof (c14_nonsingular n L dt HL Hdt _ Z i Hi) as E. simpl in E. lra.
Qed.

(** without the explicit tendency, the sum of the squares does not increase, for any dt *)
Theorem c14_not_increasing : (forall i, (i < n)%nat -> N S0 i = 0) -> inner n S1 S1 <= inner n S0 S0.
Proof.
  intros HN.
  pose proof (energy_balance n L dt S0 (N S0) S1
                (Hsolve (c14_nonsingular n L dt HL Hdt))) as E.
  replace (inner n (N S0) (fun j => S1 j + S0 j)) with 0 in E
    by (symmetry; apply rsum_zero; intros i Hi; rewrite HN by exact Hi; ring).
  pose proof (HL (fun j => S1 j + S0 j)). nra.
Qed.

(** and it is conserved when the linear operator is antisymmetric *)
Theorem c14_conserved : conservative n L -> (forall i, (i < n)%nat -> N S0 i = 0) ->
  inner n S1 S1 = inner n S0 S0.
Proof.
  intros HC HN.
  pose proof (energy_balance n L dt S0 (N S0) S1
                (Hsolve (c14_nonsingular n L dt HL Hdt))) as E.
  replace (inner n (N S0) (fun j => S1 j + S0 j)) with 0 in E
    by (symmetry; apply rsum_zero; intros i Hi; rewrite HN by exact Hi; ring).
  rewrite HC in E. lra.
Qed.

(** the sum of the state changes by dt times the sum of the tendency when the columns of L
    sum to zero *)
Theorem c14_mean : (forall a, rsum n (dot L a) = 0) ->
  rsum n S1 = rsum n S0 + dt * rsum n (N S0).
Proof.
  intros H0.
  pose proof (mean_balance n L dt S0 (N S0) S1
                (Hsolve (c14_nonsingular n L dt HL Hdt))) as E.
  rewrite H0 in E. lra.
Qed.
End Step.

(** *** The solver ad1d *)

(** the linear operator of d_t s + U d_x s = nu_2 d_xx s *)
Theorem c14_ad1d_operator nu U nx dx a i : (3 <= nx)%nat -> (i < nx)%nat ->
  dot (linear_operator_ad1d nu U nx dx) a i
  = nu * ((a (next nx i) - 2 * a i + a (prev nx i)) / dx ^ 2)
    - U * ((a (next nx i) - a (prev nx i)) / (2 * dx)).
Proof.
  intros H Hi. unfold linear_operator_ad1d.
  now rewrite dot_msub, !dot_scale, px_1d_ok, pxx_1d_ok.
Qed.

Lemma ad1d_energy nu U nx dx a : (3 <= nx)%nat ->
  inner nx (dot (linear_operator_ad1d nu U nx dx) a) a
  = - (nu * (rsum nx (fun i => (a (next nx i) - a i) ^ 2) / dx ^ 2)).
Proof.
  intros H. unfold linear_operator_ad1d. unfold inner at 1.
  rewrite (rsum_ext nx _ (fun i => nu * (dot (sparse_pxx_1d nx dx) a i * a i)
     - U * (dot (sparse_px_1d nx dx) a i * a i))) by
    (intros; rewrite dot_msub, !dot_scale; ring).
  rewrite rsum_minus, !rsum_scal.
  pose proof (c49_pxx_1d_dissipates nx dx a H) as E1.
  pose proof (c49_px_1d_antisymmetric nx dx a a H) as E2.
  rewrite (inner_comm nx a) in E2. unfold inner in E1, E2.
  rewrite E1.
  replace (rsum nx (fun i => dot (sparse_px_1d nx dx) a i * a i)) with 0 by lra. ring.
Qed.

Theorem c14_ad1d_dissipative nu U nx dx : (3 <= nx)%nat -> 0 <= nu -> dx <> 0 ->
  dissipative nx (linear_operator_ad1d nu U nx dx).
Proof.
  intros H Hnu Hdx a. rewrite ad1d_energy by exact H.
  assert (0 <= rsum nx (fun i => (a (next nx i) - a i) ^ 2))
    by (apply rsum_nonneg; intros; apply pow2_ge_0).
  assert (0 < / dx ^ 2) by (apply Rinv_0_lt_compat; nra).
  unfold Rdiv. assert (0 <= rsum nx (fun i => (a (next nx i) - a i) ^ 2) * / dx ^ 2) by nra. nra.
Qed.

(** Whatever the time step, advection conserves the sum of the squares (nu_2 = 0) and with
    diffusion it does not increase; the sum of the field is conserved in all cases. *)
Theorem c14_ad1d spsolve nu U nx dx dt S0 :
  (3 <= nx)%nat -> 0 <= nu -> dx <> 0 -> 0 <= dt ->
  let L := linear_operator_ad1d nu U nx dx in
  let N := fun (_ : nat -> R) (_ : nat) => 0 in
  solves spsolve nx (msub (identity nx) (scale (dt / 2) L)) (right_hand_side L S0 (N S0) dt) ->
  let S1 := time_step_RK2 spsolve nx L N dt S0 in
  (nu = 0 -> inner nx S1 S1 = inner nx S0 S0)
  /\ inner nx S1 S1 <= inner nx S0 S0
  /\ rsum nx S1 = rsum nx S0.
Proof.
  intros H Hnu Hdx Hdt L N Hs S1.
  pose proof (c14_ad1d_dissipative nu U nx dx H Hnu Hdx) as HL.
  repeat split.
  - intros ->. apply (c14_conserved spsolve nx L N dt S0 Hdt HL Hs).
    + intros a. unfold L. rewrite ad1d_energy by exact H. ring.
    + reflexivity.
  - apply (c14_not_increasing spsolve nx L N dt S0 Hdt HL Hs). reflexivity.
  - unfold S1. rewrite (c14_mean spsolve nx L N dt S0 Hdt HL Hs).
    + rewrite (rsum_zero nx (N S0)) by reflexivity. ring.
    + intros a. unfold L, linear_operator_ad1d.
      rewrite (rsum_ext nx _ (fun i => nu * dot (sparse_pxx_1d nx dx) a i
         - U * dot (sparse_px_1d nx dx) a i)) by (intros; rewrite dot_msub, !dot_scale; ring).
      rewrite rsum_minus, !rsum_scal.
      destruct (c49_zero_mean_1d nx dx a H) as [-> ->]. ring.
Qed.

(** the strict decrease: what is lost in one step *)
Theorem c14_ad1d_decay spsolve nu U nx dx dt S0 :
  (3 <= nx)%nat -> 0 <= nu -> dx <> 0 -> 0 <= dt ->
  let L := linear_operator_ad1d nu U nx dx in
  let N := fun (_ : nat -> R) (_ : nat) => 0 in
  solves spsolve nx (msub (identity nx) (scale (dt / 2) L)) (right_hand_side L S0 (N S0) dt) ->
  let S1 := time_step_RK2 spsolve nx L N dt S0 in
  let m := fun j => S1 j + S0 j in
  inner nx S1 S1 = inner nx S0 S0
    - dt / 2 * (nu * (rsum nx (fun i => (m (next nx i) - m i) ^ 2) / dx ^ 2)).
Proof.
  intros H Hnu Hdx Hdt L N Hs S1 m.
  pose proof (energy_balance nx L dt S0 (N S0) S1
     (Hs (c14_nonsingular nx L dt (c14_ad1d_dissipative nu U nx dx H Hnu Hdx) Hdt))) as E.
  fold m in E. clearbody m. clearbody S1. unfold L in E at 1. rewrite ad1d_energy in E by exact H.
  replace (inner nx (N S0) m) with 0 in E
    by (symmetry; apply rsum_zero; intros; unfold N; ring).
  lra.
Qed.

(** hypotheses met: three points, U = 1, dx = 1/2, dt = 2 *)
Example c14_ad1d_example :
  let S0 := fun i => match i with O => 1 | 1%nat => -1 | _ => 1 end in
  let x := fun i => match i with O => 1 | 1%nat => 1 | _ => -1 end in
  let L := linear_operator_ad1d 0 1 3 (1 / 2) in
  solves (fun _ _ => x) 3 (msub (identity 3) (scale (2 / 2) L))
    (right_hand_side L S0 (fun _ => 0) 2).
Proof.
  intros S0 x L _ i Hi.
  rewrite dot_msub, dot_scale, dot_identity by exact Hi. unfold right_hand_side, L, linear_operator_ad1d.
  rewrite !dot_msub, !dot_scale, !px_1d_ok, !pxx_1d_ok by lia.
  unfold next, prev, x, S0.
  destruct i as [|[|[|i]]]; simpl; try lia; field.
Qed.

(** ** C62: the scheme named RK2 of the finite-difference solvers *)

(** documented scheme: an intermediate state at dt/2, then the full step with the tendency at
    this intermediate state *)
Definition documented_RK2 (n : nat) (L : matrix) (N : (nat -> R) -> (nat -> R)) (dt : R)
  (S0 x : nat -> R) : Prop :=
  exists s : nat -> R,
    (forall i, (i < n)%nat ->
       s i - dt / 4 * dot L s i = S0 i + dt / 4 * dot L S0 i + dt / 2 * N S0 i)
    /\ (forall i, (i < n)%nat ->
       x i - dt / 2 * dot L x i = S0 i + dt / 2 * dot L S0 i + dt * N s i).

(** FINDING: the step is not the documented one.  With L = 0 and N(S) = S the documented step
    multiplies the state by 1 + dt + dt^2/2, the step of the code by 1 + dt. *)
Theorem c62_documented_scheme_refuted :
  exists n L N dt S0, dissipative n L /\ 0 < dt
    /\ forall spsolve,
       solves spsolve n (msub (identity n) (scale (dt / 2) L)) (right_hand_side L S0 (N S0) dt) ->
       ~ documented_RK2 n L N dt S0 (time_step_RK2 spsolve n L N dt S0).
Proof.
  exists 1%nat, [], (fun S => S), 1, (fun _ => 1).
  assert (HL : dissipative 1 []) by (intros a; unfold inner; simpl; lra).
  split; [exact HL|]. split; [lra|].
  intros sp Hs [s [H1 H2]].
  pose proof (c14_crank_nicolson sp 1 [] (fun S => S) 1 (fun _ => 1) ltac:(lra) HL Hs 0 ltac:(lia)) as E.
  specialize (H1 0%nat ltac:(lia)). specialize (H2 0%nat ltac:(lia)).
  set (x := time_step_RK2 _ _ _ _ _ _) in *. cbv beta in *.
  repeat match goal with H : context[dot [] ?f 0] |- _ => change (dot [] f 0) with 0 in H end.
  lra.
Qed.

(** hypothesis met: for this system a solver exists *)
Example c62_example :
  solves (fun _ b => b) 1 (msub (identity 1) (scale (1 / 2) []))
    (right_hand_side [] (fun _ => 1) (fun _ => 1) 1).
Proof. intros _ i Hi. rewrite dot_msub, dot_scale, dot_identity by exact Hi. simpl. ring. Qed.

(** on N(S) = lam S (L = 0): one step multiplies the state by 1 + lam dt, so the scheme is of
    first order in the explicit terms, where the documented one gives
    1 + lam dt + (lam dt)^2 / 2 *)
Theorem c62_first_order spsolve n lam dt S0 i :
  0 <= dt -> (i < n)%nat ->
  let N := fun (S : nat -> R) j => lam * S j in
  solves spsolve n (msub (identity n) (scale (dt / 2) [])) (right_hand_side [] S0 (N S0) dt) ->
  time_step_RK2 spsolve n [] N dt S0 i = (1 + lam * dt) * S0 i
  /\ (forall x, documented_RK2 n [] N dt S0 x -> x i = (1 + lam * dt + (lam * dt) ^ 2 / 2) * S0 i).
Proof.
  intros Hdt Hi N Hs. split.
  - assert (HL : dissipative n []).
    { intros a. unfold inner. rewrite rsum_zero; [lra|]. intros j _. simpl. ring. }
    pose proof (c14_crank_nicolson spsolve n [] N dt S0 Hdt HL Hs i Hi) as E.
    set (x := time_step_RK2 _ _ _ _ _ _) in *. unfold N in E.
    repeat match goal with H : context[dot [] ?f i] |- _ => change (dot [] f i) with 0 in H end.
    lra.
  - intros x [s [H1 H2]]. specialize (H1 i Hi). specialize (H2 i Hi). unfold N in H1, H2.
    repeat match goal with H : context[dot [] ?f i] |- _ => change (dot [] f i) with 0 in H end.
    replace (s i) with (S0 i + dt / 2 * (lam * S0 i)) in H2 by lra.
    replace (x i) with (S0 i + dt / 2 * 0 + dt * (lam * (S0 i + dt / 2 * (lam * S0 i)))) by lra.
    field.
Qed.

(** what holds: when the tendency does not depend on the state (ad1d: zero or the forcing),
    the step is the documented one *)
Theorem c62_state_independent_partial spsolve n L N dt S0 :
  0 <= dt -> dissipative n L -> (forall a b i, N a i = N b i) ->
  solves spsolve n (msub (identity n) (scale (dt / 2) L)) (right_hand_side L S0 (N S0) dt) ->
  forall x, documented_RK2 n L N dt S0 x ->
  forall i, (i < n)%nat -> x i = time_step_RK2 spsolve n L N dt S0 i.
Proof.
  intros Hdt HL HN Hs x [s [_ H2]].
  apply (c14_unique spsolve n L N dt S0 Hdt HL Hs).
  intros i Hi. specialize (H2 i Hi). rewrite (HN s S0) in H2. lra.
Qed.

Print Assumptions c49_px_1d.
Print Assumptions c49_pxx_1d.
Print Assumptions c49_xs_1d.
Print Assumptions c49_zero_mean_1d.
Print Assumptions c49_px_1d_antisymmetric.
Print Assumptions c49_pxx_1d_dissipates.
Print Assumptions c49_2d_operators_partial.
Print Assumptions c49_2d_antisymmetric.
Print Assumptions c49_2d_zero_mean.
Print Assumptions c49_2d_construction_always_fails.
Print Assumptions c49_2d_construction_refuted.
Print Assumptions c49_2d_pyy_refuted.
Print Assumptions c49_2d_xs_refuted.
Print Assumptions c49_2d_xs_partial.
Print Assumptions c14_nonsingular.
Print Assumptions c14_crank_nicolson.
Print Assumptions c14_unique.
Print Assumptions c14_not_increasing.
Print Assumptions c14_conserved.
Print Assumptions c14_mean.
Print Assumptions c14_ad1d_operator.
Print Assumptions c14_ad1d_dissipative.
Print Assumptions c14_ad1d.
Print Assumptions c14_ad1d_decay.
Print Assumptions c62_documented_scheme_refuted.
Print Assumptions c62_first_order.
Print Assumptions c62_state_independent_partial.
