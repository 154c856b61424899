(** * The models without space: C50 *)

From Coq Require Import Reals Lra.
From Coquelicot Require Import Coquelicot.
From Verif Require Import Models0D_Model.
Local Open Scope R_scope.

(** ** Specification *)

(** a trajectory: the derivative of the state is the tendency at any time of the interval *)
Definition pp_trajectory (p : pp_params) (X Y : R -> R) (t0 t1 : R) : Prop :=
  forall t, t0 <= t <= t1 ->
    is_derive X t (fst (pp_tend p (X t, Y t))) /\ is_derive Y t (snd (pp_tend p (X t, Y t))).

(** divergence of a vector field of three variables *)
Definition divergence_is (F : R * R * R -> R * R * R) (d : R) : Prop :=
  forall X Y Z, exists a b c,
    is_derive (fun x => fst (fst (F (x, Y, Z)))) X a /\ is_derive (fun y => snd (fst (F (X, y, Z)))) Y b
    /\ is_derive (fun z => snd (F (X, Y, z))) Z c /\ a + b + c = d.

(** ** Predator-prey *)

Theorem c50_pp_potential p X Y t0 t1 :
  t0 <= t1 -> pp_trajectory p X Y t0 t1 -> (forall t, t0 <= t <= t1 -> 0 < X t /\ 0 < Y t) ->
  pp_potential p (X t1, Y t1) = pp_potential p (X t0, Y t0).
Proof.
  intros Ht H Hpos.
  destruct (Req_dec t0 t1) as [-> | Hne]; [reflexivity|].
  assert (D : forall t, t0 <= t <= t1 -> is_derive (fun t => pp_potential p (X t, Y t)) t 0).
  { intros t Hb. destruct (H t Hb) as [HX HY]. destruct (Hpos t Hb) as [PX PY].
    unfold pp_potential. cbn [fst snd pp_tend] in *.
    evar_last.
    - apply (is_derive_minus (V := R_NormedModule)).
      + apply (is_derive_plus (V := R_NormedModule)).
        * apply (is_derive_minus (V := R_NormedModule)).
          -- apply (is_derive_scal (fun t => ln (X t))). apply (is_derive_comp ln X); [apply is_derive_Reals, derivable_pt_lim_ln; exact PX | exact HX].
          -- apply (is_derive_scal X). exact HX.
        * apply (is_derive_scal (fun t => ln (Y t))). apply (is_derive_comp ln Y); [apply is_derive_Reals, derivable_pt_lim_ln; exact PY | exact HY].
      + apply (is_derive_scal Y). exact HY.
    - cbn -[Rmult Rplus Rminus Ropp]. unfold minus, plus, opp, scal, mult. cbn -[Rmult Rplus Rminus Ropp]. unfold mult. cbn -[Rmult Rplus Rminus Ropp]. field. lra. }
  destruct (MVT_gen (fun t => pp_potential p (X t, Y t)) t0 t1 (fun _ => 0)) as (c & _ & Hc).
  - intros t Hb. apply D. rewrite Rmin_left, Rmax_right in Hb by lra. lra.
  - intros t Hb. rewrite Rmin_left, Rmax_right in Hb by lra.
    apply continuity_pt_filterlim. apply (ex_derive_continuous (fun t => pp_potential p (X t, Y t))). exists 0. apply D. lra.
  - cbv beta in Hc. lra.
Qed.

(** the announced equilibrium, and there is no other one apart from the extinction of both *)
Theorem c50_pp_equilibrium p :
  pA p <> 0 -> pB p <> 0 -> pC p <> 0 -> pD p <> 0 ->
  forall X Y, pp_tend p (X, Y) = (0, 0) <-> ((X = 0 /\ Y = 0) \/ (X = pp_Xs p /\ Y = pp_Ys p)).
Proof.
  intros HA HB HC HD X Y. unfold pp_tend, pp_Xs, pp_Ys. cbn [fst snd]. split.
  - intros E. injection E as E1 E2.
    assert (F1 : X * (pA p - pB p * Y) = 0) by lra.
    assert (F2 : Y * (pD p * X - pC p) = 0) by lra.
    apply Rmult_integral in F1, F2. destruct F1 as [-> | F1], F2 as [-> | F2].
    + left. split; reflexivity.
    + exfalso. apply HC. lra.
    + exfalso. apply HA. lra.
    + right. split; [apply (Rmult_eq_reg_l (pD p)) | apply (Rmult_eq_reg_l (pB p))]; try assumption; field_simplify; try assumption; lra.
  - intros [[-> ->] | [-> ->]]; apply f_equal2; field; auto.
Qed.

Theorem c50_pp_announced p : pB p <> 0 -> pD p <> 0 -> pp_tend p (pp_Xs p, pp_Ys p) = (0, 0).
Proof. intros HB HD. unfold pp_tend, pp_Xs, pp_Ys. cbn [fst snd]. apply f_equal2; field; auto. Qed.

(** ** Lorenz *)

(** what is announced are equilibria, and together with the origin these are all the equilibria *)
Theorem c50_lz_steady_partial p s0 s1 :
  lz_steady p = Some (s0, s1) ->
  lz_tend p s0 = (0, 0, 0) /\ lz_tend p s1 = (0, 0, 0)
  /\ (sigma p <> 0 -> beta p <> 0 -> forall s, lz_tend p s = (0, 0, 0) -> s = (0, 0, 0) \/ s = s0 \/ s = s1).
Proof.
  unfold lz_steady, math_sqrt. destruct (Rlt_dec (beta p * (rho p - 1)) 0) as [|Hp]; [discriminate|].
  intros E. injection E as <- <-.
  assert (Hs : sqrt (beta p * (rho p - 1)) * sqrt (beta p * (rho p - 1)) = beta p * (rho p - 1)) by (apply sqrt_sqrt; lra).
  set (r := sqrt (beta p * (rho p - 1))) in *. clearbody r. unfold lz_tend. cbn [fst snd].
  split; [|split].
  - apply f_equal2; [apply f_equal2|]; try ring. rewrite Hs. ring.
  - apply f_equal2; [apply f_equal2|]; try ring. replace (- r * - r) with (r * r) by ring. rewrite Hs. ring.
  - intros Hsig Hb [[X Y] Z] F. cbn [fst snd] in F. injection F as F1 F2 F3.
    apply Rmult_integral in F1. destruct F1 as [F1 | F1]; [contradiction|].
    assert (Y = X) by lra. subst Y.
    assert (G : X * (rho p - 1 - Z) = 0) by lra.
    apply Rmult_integral in G. destruct G as [-> | G].
    + left. assert (beta p * Z = 0) by lra. apply Rmult_integral in H. destruct H as [|H]; [contradiction|]. rewrite H. reflexivity.
    + right. assert (Z = rho p - 1) by lra. subst Z.
      assert (K : (X - r) * (X + r) = 0) by (replace ((X - r) * (X + r)) with (X * X - r * r) by ring; lra).
      apply Rmult_integral in K. destruct K as [K | K]; [left | right].
      * assert (X = r) by lra. subst X. reflexivity.
      * assert (X = - r) by lra. subst X. reflexivity.
Qed.

(** they are announced when rho is at least 1 ... *)
Theorem c50_lz_announced p : 0 <= beta p -> 1 <= rho p -> lz_steady p <> None.
Proof.
  intros H1 H2. unfold lz_steady, math_sqrt. destruct (Rlt_dec (beta p * (rho p - 1)) 0) as [L|]; [|discriminate].
  assert (0 <= beta p * (rho p - 1)) by (apply Rmult_le_pos; lra). lra.
Qed.

(** ... but no simulation can be created below the onset of the convection, where the origin is the only steady state *)
Theorem c50_lz_subcritical_refuted : exists p, 0 < sigma p /\ 0 < beta p /\ 0 < rho p /\ lz_steady p = None.
Proof.
  exists {| sigma := 10; beta := 8 / 3; rho := 1 / 2 |}. cbn [sigma beta rho].
  split; [lra|]. split; [lra|]. split; [lra|].
  unfold lz_steady, math_sqrt. cbn [sigma beta rho]. destruct (Rlt_dec _ 0) as [|N]; [reflexivity|]. lra.
Qed.

Theorem c50_lz_divergence p : divergence_is (lz_tend p) (- (sigma p + 1 + beta p)).
Proof.
  intros X Y Z. exists (- sigma p), (- 1), (- beta p). unfold lz_tend. cbn [fst snd].
  split; [|split; [|split]]; [auto_derive; [exact I | ring].. | ring].
Qed.

(** the tendencies are those of the Lorenz equations: the part which is not linear does no work *)
Theorem c50_lz_work p X Y Z :
  let F := lz_tend p (X, Y, Z) in
  X * fst (fst F) + Y * snd (fst F) + Z * snd F = - sigma p * (X * X) - Y * Y - beta p * (Z * Z) + (sigma p + rho p) * (X * Y).
Proof. cbn. ring. Qed.

(** ** Instances of the hypotheses *)
Example c50_example_pp : pp_trajectory pp_default (fun _ => 2) (fun _ => 1) 0 1 /\ pp_tend pp_default (3, 1) = (0, 1 / 2).
Proof.
  split.
  - intros t _. unfold pp_tend, pp_default. cbn [fst snd pA pB pC pD]. split; auto_derive; try exact I; lra.
  - unfold pp_tend, pp_default. cbn [fst snd pA pB pC pD]. apply f_equal2; lra.
Qed.

Example c50_example_lz : lz_steady lz_default = Some ((sqrt (8 / 3 * 27), sqrt (8 / 3 * 27), 27), (- sqrt (8 / 3 * 27), - sqrt (8 / 3 * 27), 27)).
Proof.
  unfold lz_steady, math_sqrt, lz_default. cbn [sigma beta rho]. replace (28 - 1) with 27 by lra.
  destruct (Rlt_dec (8 / 3 * 27) 0) as [L|]; [lra | reflexivity].
Qed.

Example c50_example_tend : lz_tend lz_default (1, 2, 3) = (10, 23, -6).
Proof. unfold lz_tend, lz_default. cbn [fst snd sigma beta rho]. apply f_equal2; [apply f_equal2|]; lra. Qed.

Print Assumptions c50_pp_potential.
Print Assumptions c50_pp_equilibrium.
Print Assumptions c50_pp_announced.
Print Assumptions c50_lz_steady_partial.
Print Assumptions c50_lz_announced.
Print Assumptions c50_lz_subcritical_refuted.
Print Assumptions c50_lz_divergence.
Print Assumptions c50_lz_work.
