(** C230, C231: the injection of energy by the normalized forcing of ns3d and ns3d.strat. *)
From Coq Require Import String List Reals Lra.
From Coquelicot Require Import Complex.
From Verif Require Import Oper_Model Oper_Spec Oper_Proofs OperVec_Proofs Oper_Props NS3DForce_Model.
Import ListNotations.
Local Open Scope R_scope.

(** ** Specification *)

Definition norm2 (v : C * C * C) : R := abs2 (fst (fst v)) + abs2 (snd (fst v)) + abs2 (snd v).
(** kinetic energy, and the quadratic quantities of buoyancy, vertical vorticity and vx *)
Definition energyK (l : list mode) (s : mode -> spect) : R := sum_k l (fun m => norm2 (fst (s m)) / 2).
Definition energyB (l : list mode) (s : mode -> spect) : R := sum_k l (fun m => abs2 (snd (s m)) / 2).
Definition enstrophyz (l : list mode) (s : mode -> spect) : R :=
  sum_k l (fun m => abs2 (vertical_rot (mkx m) (mky m) (fst (fst (fst (s m)))) (snd (fst (fst (s m))))) / 2).
Definition energy_vx (l : list mode) (s : mode -> spect) : R := sum_k l (fun m => abs2 (fst (fst (fst (s m)))) / 2).

Definition divergence_free (l : list mode) (s : mode -> spect) : Prop :=
  forall m, In m l -> divergence (mkx m) (mky m) (mkz m) (fst (s m)) = RtoC 0.
(** not on the vertical axis *)
Definition oblique (m : mode) : Prop := mkx m <> 0 \/ mky m <> 0.
Definition ksq (m : mode) : R := mkx m ^ 2 + mky m ^ 2 + mkz m ^ 2.

(** the state after one step, for a forcing without exception *)
Definition after (deltat : R) (keys : list string) (raw : string -> mode -> C) (coef : string -> R) (s : mode -> spect) (m : mode) : spect :=
  match forcing keys raw coef m with Some F => step deltat m (s m) F | None => s m end.
(** the coefficient is a root of the equation of the normalisation *)
Definition normalized (l : list mode) (deltat : R) (raw : string -> mode -> C) (coef : string -> R) (P : R) (s : mode -> spect) (key : string) : Prop :=
  let (a, b) := coef_ab l key (raw key) s deltat in a * coef key ^ 2 + b * coef key + - P = 0.

(** ** Sums *)

Lemma sum_ext l f g : (forall m, In m l -> f m = g m) -> sum_k l f = sum_k l g.
Proof.
  intros H. unfold sum_k. f_equal. apply map_ext_in. intros m Hm. now rewrite (H m Hm).
Qed.
Lemma sum_plus l f g : sum_k l (fun m => f m + g m) = sum_k l f + sum_k l g.
Proof. unfold sum_k. induction l as [|m l IH]; cbn; [ring|]. rewrite IH. ring. Qed.
Lemma sum_scal l c f : sum_k l (fun m => c * f m) = c * sum_k l f.
Proof. unfold sum_k. induction l as [|m l IH]; cbn; [ring|]. rewrite IH. ring. Qed.

(** ** One mode *)

Definition dot3 (v w : C * C * C) : R := dotc (fst (fst v)) (fst (fst w)) + dotc (snd (fst v)) (snd (fst w)) + dotc (snd v) (snd w).

Ltac comp := unfold dot3, norm2, dotc, abs2, vadd3, vsub3, vmul3, rmul, Cminus, Cmult, Cplus, Cconj, Copp, RtoC, Ci; cbn [fst snd].

Lemma norm2_step dt v g : norm2 (vadd3 v (vmul3 dt g)) / 2 = norm2 v / 2 + dt * (dot3 v g + dt / 2 * norm2 g).
Proof. comp. field. Qed.
Lemma abs2_step dt x g : abs2 (Cplus x (rmul dt g)) / 2 = abs2 x / 2 + dt * (dotc x g + dt / 2 * abs2 g).
Proof. comp. field. Qed.

Lemma div_zero kx ky kz v : divergence kx ky kz v = RtoC 0 ->
  kx * fst (fst (fst v)) + ky * fst (snd (fst v)) + kz * fst (snd v) = 0
  /\ kx * snd (fst (fst v)) + ky * snd (snd (fst v)) + kz * snd (snd v) = 0.
Proof.
  unfold divergence. intros H. split.
  - apply (f_equal snd) in H. revert H. comp. lra.
  - apply (f_equal fst) in H. revert H. comp. lra.
Qed.

Lemma perp_id m v : divergence (mkx m) (mky m) (mkz m) v = RtoC 0 -> perp m v = v.
Proof.
  intros H. apply div_zero in H as [H1 H2]. unfold perp, project_kradial3d. destruct v as [[x y] z]. cbn [fst snd] in *.
  assert (E : Cplus (Cplus (rmul (mkx m) x) (rmul (mky m) y)) (rmul (mkz m) z) = RtoC 0).
  { comp. apply cpair_eq; [transitivity (mkx m * fst x + mky m * fst y + mkz m * fst z); [ring|exact H1]|
                           transitivity (mkx m * snd x + mky m * snd y + mkz m * snd z); [ring|exact H2]]. }
  rewrite E. destruct x, y, z. comp. apply triple_eq; apply cpair_eq; ring.
Qed.

Lemma dot_perp m v w : divergence (mkx m) (mky m) (mkz m) v = RtoC 0 -> dot3 v (perp m w) = dot3 v w.
Proof.
  intros H. apply div_zero in H as [H1 H2]. unfold perp, project_kradial3d. destruct v as [[x y] z], w as [[a b] c].
  cbn [fst snd] in *. set (i := inv_K _ _ _).
  assert (E : forall t : C, dotc x (rmul (mkx m) t) + dotc y (rmul (mky m) t) + dotc z (rmul (mkz m) t) = 0).
  { intros t. comp. transitivity ((mkx m * fst x + mky m * fst y + mkz m * fst z) * fst t + (mkx m * snd x + mky m * snd y + mkz m * snd z) * snd t); [ring|].
    rewrite H1, H2. ring. }
  set (t := rmul i _). specialize (E t). clearbody t. revert E. comp. intros E. lra.
Qed.

Lemma norm_perp m w : ksq m <> 0 ->
  norm2 (perp m w) = norm2 w - abs2 (Cplus (Cplus (rmul (mkx m) (fst (fst w))) (rmul (mky m) (snd (fst w)))) (rmul (mkz m) (snd w))) / ksq m.
Proof.
  intros H. unfold perp, project_kradial3d, inv_K. rewrite nozero_id by (unfold K2, Kh2; fold (ksq m); exact H).
  unfold K2, Kh2. fold (ksq m). destruct w as [[x y] z]. comp. set (q := ksq m) in *.
  assert (E : mkx m ^ 2 + mky m ^ 2 + mkz m ^ 2 = q) by reflexivity. clearbody q.
  assert (E2 : mkz m ^ 2 = q - mkx m ^ 2 - mky m ^ 2) by lra.
  apply (Rmult_eq_reg_r (q ^ 2)); [|apply pow_nonzero; exact H]. field_simplify; [|exact H|exact H].
  replace (mkz m ^ 4) with ((mkz m ^ 2) ^ 2) by ring. replace (mkz m ^ 3) with (mkz m ^ 2 * mkz m) by ring. rewrite E2. ring.
Qed.

Lemma dot_vp kx ky kz v p : dot3 v (vec_from_vp kx ky kz p) = dotc (vp_from_vec kx ky kz v) p.
Proof. unfold vec_from_vp, vp_from_vec. comp. ring. Qed.
Lemma dot_vt kx ky v p : dot3 v (vec_from_vt kx ky p) = dotc (vt_from_vec kx ky v) p.
Proof. unfold vec_from_vt, vt_from_vec. comp. ring. Qed.
Lemma dot_vp_vt kx ky kz p q : dot3 (vec_from_vp kx ky kz p) (vec_from_vt kx ky q) = 0.
Proof. unfold vec_from_vp, vec_from_vt. comp. ring. Qed.

Lemma norm_vp m p : oblique m \/ p = RtoC 0 -> norm2 (vec_from_vp (mkx m) (mky m) (mkz m) p) = abs2 p.
Proof.
  intros [H| ->].
  - destruct (angles (mkx m) (mky m) (mkz m) H) as (kk & st & ct & sp & cp & _ & E1 & E2 & _ & _ & _ & Ec & Es & Ep & Eq & _).
    unfold vec_from_vp. rewrite Ec, Es, Ep, Eq. comp.
    transitivity ((ct * ct * (cp * cp + sp * sp) + st * st) * (fst p ^ 2 + snd p ^ 2)); [ring|]. rewrite E1, E2. ring.
  - unfold vec_from_vp. comp. ring.
Qed.
Lemma norm_vt m p : oblique m \/ p = RtoC 0 -> norm2 (vec_from_vt (mkx m) (mky m) p) = abs2 p.
Proof.
  intros [H| ->].
  - destruct (angles (mkx m) (mky m) (mkz m) H) as (kk & st & ct & sp & cp & _ & E1 & _ & _ & _ & _ & _ & _ & Ep & Eq & _).
    unfold vec_from_vt. rewrite Ep, Eq. comp.
    transitivity ((cp * cp + sp * sp) * (fst p ^ 2 + snd p ^ 2)); [ring|]. rewrite E1. ring.
  - unfold vec_from_vt. comp. ring.
Qed.
Lemma div_vp m p : divergence (mkx m) (mky m) (mkz m) (vec_from_vp (mkx m) (mky m) (mkz m) p) = RtoC 0.
Proof.
  destruct (Req_EM_T (mkx m) 0) as [Hx|Hx]; [destruct (Req_EM_T (mky m) 0) as [Hy|Hy]|].
  - unfold divergence, vec_from_vp. assert (E : sin_theta (mkx m) (mky m) (mkz m) = 0).
    { unfold sin_theta, Kh2. rewrite Hx, Hy. replace ((0 ^ 2 + 0 ^ 2) * _) with 0 by ring. apply sqrt_0. }
    rewrite E, Hx, Hy. comp. apply cpair_eq; ring.
  - rewrite <- (proj1 (proj2 (c42_components_partial (mkx m) (mky m) (mkz m) (or_intror Hy) vzero p))) at 1.
    rewrite (proj1 (c42_components_partial _ _ _ (or_intror Hy) _ p)).
    apply (pol_div (mkx m) (mky m) (mkz m)). right. exact Hy.
  - rewrite <- (proj1 (proj2 (c42_components_partial (mkx m) (mky m) (mkz m) (or_introl Hx) vzero p))) at 1.
    rewrite (proj1 (c42_components_partial _ _ _ (or_introl Hx) _ p)).
    apply (pol_div (mkx m) (mky m) (mkz m)). left. exact Hx.
Qed.
Lemma div_vt m p : divergence (mkx m) (mky m) (mkz m) (vec_from_vt (mkx m) (mky m) p) = RtoC 0.
Proof. unfold divergence, vec_from_vt, cos_phi, sin_phi. comp. apply cpair_eq; ring. Qed.

Lemma vadd_zero v : vadd3 vzero v = v.
Proof. destruct v as [[[? ?] [? ?]] [? ?]]. unfold vzero. comp. apply triple_eq; apply cpair_eq; ring. Qed.
Lemma cadd_zero z : Cplus (RtoC 0) z = z.
Proof. destruct z. comp. apply cpair_eq; ring. Qed.

(** the energy after a step *)
Lemma energyK_step dt l s F : divergence_free l s ->
  energyK l (fun m => step dt m (s m) (F m))
  = energyK l s + dt * (sum_k l (fun m => dot3 (fst (s m)) (fst (F m))) + dt / 2 * sum_k l (fun m => norm2 (perp m (fst (F m))))).
Proof.
  intros D. unfold energyK. rewrite <- (sum_scal l (dt / 2)), <- sum_plus, <- (sum_scal l dt), <- sum_plus. apply sum_ext. intros m Hm.
  unfold step. cbn [fst]. rewrite norm2_step, (dot_perp m _ _ (D m Hm)). reflexivity.
Qed.
Lemma energyB_step dt l s F :
  energyB l (fun m => step dt m (s m) (F m))
  = energyB l s + dt * (sum_k l (fun m => dotc (snd (s m)) (snd (F m))) + dt / 2 * sum_k l (fun m => abs2 (snd (F m)))).
Proof.
  unfold energyB. rewrite <- (sum_scal l (dt / 2)), <- sum_plus, <- (sum_scal l dt), <- sum_plus. apply sum_ext. intros m Hm.
  unfold step. cbn [snd]. apply abs2_step.
Qed.

Lemma dotc_rmul c x y : dotc x (rmul c y) = c * dotc x y.
Proof. comp. ring. Qed.
Lemma abs2_rmul c y : abs2 (rmul c y) = c ^ 2 * abs2 y.
Proof. comp. ring. Qed.

Lemma sum_dot l c (x y : mode -> C) : sum_k l (fun m => dotc (x m) (rmul c (y m))) = c * sum_k l (fun m => dotc (x m) (y m)).
Proof. rewrite <- sum_scal. apply sum_ext. intros m _. apply dotc_rmul. Qed.
Lemma sum_abs l c (y : mode -> C) : sum_k l (fun m => abs2 (rmul c (y m))) = c ^ 2 * sum_k l (fun m => abs2 (y m)).
Proof. rewrite <- sum_scal. apply sum_ext. intros m _. apply abs2_rmul. Qed.

Lemma rmul_zero c m (f : mode -> C) : oblique m \/ f m = RtoC 0 -> oblique m \/ rmul c (f m) = RtoC 0.
Proof. intros [H|H]; [left; exact H|right]. rewrite H. comp. apply cpair_eq; ring. Qed.

(** ** C230: poloidal and toroidal velocities, buoyancy, vertical vorticity *)

(** key_forced = vp_fft or vt_fft: the kinetic energy increases by deltat * forcing_rate, if the raw forcing is zero for the
    vertical wavevectors *)
Theorem c230_energy_partial : forall l key deltat raw coef P s, (key = "vp_fft" \/ key = "vt_fft")%string ->
  divergence_free l s -> (forall m, In m l -> oblique m \/ raw key m = RtoC 0) -> normalized l deltat raw coef P s key ->
  energyK l (after deltat [key] raw coef s) = energyK l s + deltat * P
  /\ energyB l (after deltat [key] raw coef s) = energyB l s.
Proof.
  intros l key dt raw coef P s K D O N. unfold normalized, coef_ab in N.
  assert (E : exists F, (forall m, forcing [key] raw coef m = Some (F m, RtoC 0))
    /\ (forall m, dot3 (fst (s m)) (F m) = dotc (get (forced_var key m (s m))) (rmul (coef key) (raw key m)))
    /\ (forall m, In m l -> norm2 (perp m (F m)) = abs2 (rmul (coef key) (raw key m)))).
  { destruct K as [-> | ->].
    - exists (fun m => vec_from_vp (mkx m) (mky m) (mkz m) (rmul (coef "vp_fft"%string) (raw "vp_fft"%string m))). split; [|split].
      + intros m. unfold forcing. cbn. rewrite vadd_zero. f_equal. f_equal. comp. apply cpair_eq; ring.
      + intros m. apply dot_vp.
      + intros m Hm. rewrite perp_id by apply div_vp. apply norm_vp. apply rmul_zero. apply O. exact Hm.
    - exists (fun m => vec_from_vt (mkx m) (mky m) (rmul (coef "vt_fft"%string) (raw "vt_fft"%string m))). split; [|split].
      + intros m. unfold forcing. cbn. rewrite vadd_zero. f_equal. f_equal. comp. apply cpair_eq; ring.
      + intros m. apply dot_vt.
      + intros m Hm. rewrite perp_id by apply div_vt. apply norm_vt. apply rmul_zero. apply O. exact Hm. }
  destruct E as (F & E1 & E2 & E3).
  assert (A : forall m, after dt [key] raw coef s m = step dt m (s m) (F m, RtoC 0)) by (intros m; unfold after; rewrite E1; reflexivity).
  split.
  - transitivity (energyK l (fun m => step dt m (s m) (F m, RtoC 0))); [apply sum_ext; intros m _; now rewrite A|].
    rewrite (energyK_step dt l s (fun m => (F m, RtoC 0)) D). cbn [fst].
    rewrite (sum_ext l _ _ (fun m _ => E2 m)), (sum_ext l _ _ E3), sum_dot, sum_abs. f_equal. f_equal.
    set (x := sum_k l _) in *. set (y := sum_k l _) in *. lra.
  - transitivity (energyB l (fun m => step dt m (s m) (F m, RtoC 0))); [apply sum_ext; intros m _; now rewrite A|].
    apply sum_ext. intros m _. unfold step. cbn [snd]. f_equal. unfold abs2. comp. ring.
Qed.

(** the two keys together: each one gives forcing_rate *)
Theorem c230_two_keys_partial : forall l deltat raw coef P s,
  divergence_free l s -> (forall m key, In m l -> oblique m \/ raw key m = RtoC 0) ->
  normalized l deltat raw coef P s "vp_fft" -> normalized l deltat raw coef P s "vt_fft" ->
  energyK l (after deltat ["vp_fft"; "vt_fft"]%string raw coef s) = energyK l s + deltat * (2 * P).
Proof.
  intros l dt raw coef P s D O N1 N2. unfold normalized, coef_ab in N1, N2.
  set (p := fun m => rmul (coef "vp_fft"%string) (raw "vp_fft"%string m)). set (t := fun m => rmul (coef "vt_fft"%string) (raw "vt_fft"%string m)).
  set (Fp := fun m => vec_from_vp (mkx m) (mky m) (mkz m) (p m)). set (Ft := fun m => vec_from_vt (mkx m) (mky m) (t m)).
  assert (A : forall m, after dt ["vp_fft"; "vt_fft"]%string raw coef s m = step dt m (s m) (vadd3 (Fp m) (Ft m), RtoC 0)).
  { intros m. unfold after, forcing. cbn [compute init_statespect String.eqb Ascii.eqb Bool.eqb fst snd]. rewrite vadd_zero. fold (p m) (t m). fold (Fp m) (Ft m).
    f_equal. f_equal. comp. apply cpair_eq; ring. }
  transitivity (energyK l (fun m => step dt m (s m) (vadd3 (Fp m) (Ft m), RtoC 0))); [apply sum_ext; intros m _; now rewrite A|].
  rewrite (energyK_step dt l s (fun m => (vadd3 (Fp m) (Ft m), RtoC 0)) D). cbn [fst].
  assert (E1 : sum_k l (fun m => dot3 (fst (s m)) (vadd3 (Fp m) (Ft m)))
    = sum_k l (fun m => dotc (vp_from_vec (mkx m) (mky m) (mkz m) (fst (s m))) (p m)) + sum_k l (fun m => dotc (vt_from_vec (mkx m) (mky m) (fst (s m))) (t m))).
  { rewrite <- sum_plus. apply sum_ext. intros m _. rewrite <- dot_vp, <- dot_vt. fold (Fp m) (Ft m). comp. ring. }
  assert (E2 : sum_k l (fun m => norm2 (perp m (vadd3 (Fp m) (Ft m)))) = sum_k l (fun m => abs2 (p m)) + sum_k l (fun m => abs2 (t m))).
  { rewrite <- sum_plus. apply sum_ext. intros m Hm. rewrite perp_id.
    2: { assert (H1 := div_zero _ _ _ _ (div_vp m (p m))). assert (H2 := div_zero _ _ _ _ (div_vt m (t m))). fold (Fp m) in H1. fold (Ft m) in H2.
         unfold divergence. clear - H1 H2. destruct H1 as [H1 H1'], H2 as [H2 H2']. revert H1 H1' H2 H2'. comp. intros. apply cpair_eq; lra. }
    rewrite <- (norm_vp m (p m)), <- (norm_vt m (t m)) by (apply rmul_zero; apply O; exact Hm). fold (Fp m) (Ft m).
    assert (X := dot_vp_vt (mkx m) (mky m) (mkz m) (p m) (t m)). fold (Fp m) (Ft m) in X. revert X. comp. intros X. lra. }
  rewrite E1, E2. unfold p, t. rewrite !sum_dot, !sum_abs. f_equal. f_equal. cbn [forced_var String.eqb Ascii.eqb Bool.eqb get] in N1, N2.
  set (x1 := sum_k l _) in *. set (x2 := sum_k l _) in *. set (x3 := sum_k l _) in *. set (x4 := sum_k l _) in *. lra.
Qed.

(** key_forced = b_fft (ns3d.strat): the mean square of the buoyancy *)
Theorem c230_buoyancy : forall l deltat raw coef P s, divergence_free l s -> normalized l deltat raw coef P s "b_fft" ->
  energyB l (after deltat ["b_fft"]%string raw coef s) = energyB l s + deltat * P
  /\ energyK l (after deltat ["b_fft"]%string raw coef s) = energyK l s.
Proof.
  intros l dt raw coef P s D N. unfold normalized, coef_ab in N. cbn [forced_var String.eqb Ascii.eqb Bool.eqb get] in N.
  set (F := fun m => (vzero, rmul (coef "b_fft"%string) (raw "b_fft"%string m))).
  assert (A : forall m, after dt ["b_fft"]%string raw coef s m = step dt m (s m) (F m)).
  { intros m. unfold after, forcing. cbn [compute init_statespect String.eqb Ascii.eqb Bool.eqb fst snd].
    rewrite cadd_zero. unfold F, vzero. f_equal. apply f_equal2; [|reflexivity]. comp. apply triple_eq; apply cpair_eq; ring. }
  split.
  - transitivity (energyB l (fun m => step dt m (s m) (F m))); [apply sum_ext; intros m _; now rewrite A|].
    rewrite energyB_step. unfold F. cbn [snd]. rewrite sum_dot, sum_abs. f_equal. f_equal.
    set (x := sum_k l _) in *. set (y := sum_k l _) in *. lra.
  - transitivity (energyK l (fun m => step dt m (s m) (F m))); [apply sum_ext; intros m _; now rewrite A|].
    rewrite (energyK_step dt l s F D).
    assert (Z1 : sum_k l (fun m => dot3 (fst (s m)) (fst (F m))) = 0 * sum_k l (fun _ => 0)).
    { rewrite <- sum_scal. apply sum_ext. intros m _. unfold F, vzero. comp. ring. }
    assert (Z2 : sum_k l (fun m => norm2 (perp m (fst (F m)))) = 0 * sum_k l (fun _ => 0)).
    { rewrite <- sum_scal. apply sum_ext. intros m _. unfold F. cbn [fst]. rewrite perp_id; [unfold vzero; comp; ring|].
      unfold divergence, vzero. comp. apply cpair_eq; ring. }
    rewrite Z1, Z2. ring.
Qed.

(** key_forced = rotz_fft: the vertical vorticity *)
Theorem c230_vorticity_partial : forall l deltat raw coef P s,
  (forall m, In m l -> oblique m \/ raw "rotz_fft"%string m = RtoC 0) -> normalized l deltat raw coef P s "rotz_fft" ->
  enstrophyz l (after deltat ["rotz_fft"]%string raw coef s) = enstrophyz l s + deltat * P.
Proof.
  intros l dt raw coef P s O N. unfold normalized, coef_ab in N. cbn [forced_var String.eqb Ascii.eqb Bool.eqb get] in N.
  set (f := fun m => rmul (coef "rotz_fft"%string) (raw "rotz_fft"%string m)).
  set (F := fun m => (fst (v_from_rotz (mkx m) (mky m) (f m)), snd (v_from_rotz (mkx m) (mky m) (f m)), RtoC 0)).
  assert (A : forall m, after dt ["rotz_fft"]%string raw coef s m = step dt m (s m) (F m, RtoC 0)).
  { intros m. unfold after, forcing. cbn [compute init_statespect String.eqb Ascii.eqb Bool.eqb fst snd]. fold (f m).
    unfold F. destruct (v_from_rotz _ _ _) as [x y]. cbn [fst snd]. rewrite vadd_zero, cadd_zero. reflexivity. }
  transitivity (sum_k l (fun m => abs2 (rotz (mkx m) (mky m) (fst (fst (fst (s m)))) (snd (fst (fst (s m))))) / 2
     + dt * (dotc (rotz (mkx m) (mky m) (fst (fst (fst (s m)))) (snd (fst (fst (s m))))) (f m) + dt / 2 * abs2 (f m)))).
  - apply sum_ext. intros m Hm. rewrite A.
    assert (Dv : divergence (mkx m) (mky m) (mkz m) (F m) = RtoC 0).
    { unfold divergence, F, v_from_rotz. comp. apply cpair_eq; ring. }
    unfold step. cbn [fst]. rewrite (perp_id m (F m) Dv).
    assert (V : vertical_rot (mkx m) (mky m) (fst (fst (F m))) (snd (fst (F m))) = f m).
    { unfold F. cbn [fst snd]. destruct (O m Hm) as [H|H].
      - apply (c42_horizontal_partial (mkx m) (mky m) H (RtoC 0) (RtoC 0) (f m)).
      - unfold f. rewrite H. unfold vertical_rot, v_from_rotz. comp. apply cpair_eq; ring. }
    rewrite <- abs2_step. rewrite <- V at 1. f_equal. unfold vertical_rot, rotz. comp. ring.
  - rewrite sum_plus, sum_scal, sum_plus, sum_scal. unfold f. rewrite sum_dot, sum_abs. unfold enstrophyz.
    assert (E : sum_k l (fun m => abs2 (rotz (mkx m) (mky m) (fst (fst (fst (s m)))) (snd (fst (fst (s m))))) / 2)
      = sum_k l (fun m => abs2 (vertical_rot (mkx m) (mky m) (fst (fst (fst (s m)))) (snd (fst (fst (s m))))) / 2)).
    { apply sum_ext. intros m _. reflexivity. }
    rewrite E. f_equal. f_equal. set (x := sum_k l _) in *. set (y := sum_k l _) in *. lra.
Qed.

(** the vertical wavevectors: the forcing of vp is lost, the wanted rate is not injected *)
Theorem c230_axis_refuted : exists l deltat raw coef P s, divergence_free l s /\ (forall m, In m l -> ksq m <> 0)
  /\ normalized l deltat raw coef P s "vp_fft"
  /\ energyK l (after deltat ["vp_fft"]%string raw coef s) <> energyK l s + deltat * P.
Proof.
  set (m := {| mkx := 0; mky := 0; mkz := 1; weight := 1 |}).
  exists [m], 2, (fun _ _ => RtoC 1), (fun _ => 1), 1, (fun _ => (vzero, RtoC 0)).
  assert (Es : sin_theta 0 0 1 = 0). { unfold sin_theta, Kh2. replace ((0 ^ 2 + 0 ^ 2) * _) with 0 by ring. apply sqrt_0. }
  split; [|split; [|split]].
  - intros m' _. unfold divergence, vzero. comp. apply cpair_eq; ring.
  - intros m' [<-|[]]. unfold ksq, m. cbn [mkx mky mkz]. lra.
  - unfold normalized, coef_ab, sum_k. cbn [map fold_right weight m forced_var String.eqb Ascii.eqb Bool.eqb get].
    unfold vp_from_vec, vzero. comp. lra.
  - unfold energyK, sum_k. cbn [map fold_right]. unfold after, forcing. cbn [compute init_statespect String.eqb Ascii.eqb Bool.eqb fst snd].
    rewrite vadd_zero. unfold step. cbn [fst].
    rewrite (perp_id m) by apply div_vp. unfold m at 2 3 4 5. cbn [mkx mky mkz weight].
    unfold vec_from_vp, cos_phi, sin_phi, vzero. rewrite Es. comp. unfold m. cbn [weight]. lra.
Qed.

(** ** C231: vx, vy, vz *)

(** what is injected: less than forcing_rate because of the projection, except if the forced wavevectors are perpendicular
    to the component *)
Definition component (key : string) (m : mode) : R :=
  if String.eqb key "vx_fft" then mkx m else if String.eqb key "vy_fft" then mky m else mkz m.

Theorem c231_injection : forall l key deltat raw coef P s, (key = "vx_fft" \/ key = "vy_fft" \/ key = "vz_fft")%string ->
  divergence_free l s -> (forall m, In m l -> ksq m <> 0) -> normalized l deltat raw coef P s key ->
  energyK l (after deltat [key] raw coef s)
  = energyK l s + deltat * (P - deltat / 2 * coef key ^ 2 * sum_k l (fun m => component key m ^ 2 / ksq m * abs2 (raw key m))).
Proof.
  intros l key dt raw coef P s K D Z N. unfold normalized, coef_ab in N.
  assert (E : exists F, (forall m, forcing [key] raw coef m = Some (F m, RtoC 0))
    /\ (forall m, dot3 (fst (s m)) (F m) = dotc (get (forced_var key m (s m))) (rmul (coef key) (raw key m)))
    /\ (forall m, In m l -> norm2 (perp m (F m)) = abs2 (rmul (coef key) (raw key m)) + (- (coef key ^ 2)) * (component key m ^ 2 / ksq m * abs2 (raw key m)))).
  { destruct K as [-> |[-> | ->]].
    - exists (fun m => (rmul (coef "vx_fft"%string) (raw "vx_fft"%string m), RtoC 0, RtoC 0)). split; [|split].
      + intros m. unfold forcing. cbn. rewrite vadd_zero. f_equal. f_equal. comp. apply cpair_eq; ring.
      + intros m. cbn [forced_var String.eqb Ascii.eqb Bool.eqb get]. comp. ring.
      + intros m Hm. rewrite norm_perp by (apply Z; exact Hm). unfold component. cbn [String.eqb Ascii.eqb Bool.eqb]. assert (H := Z m Hm). set (q := ksq m) in *. clearbody q. comp. field. exact H.
    - exists (fun m => (RtoC 0, rmul (coef "vy_fft"%string) (raw "vy_fft"%string m), RtoC 0)). split; [|split].
      + intros m. unfold forcing. cbn. rewrite vadd_zero. f_equal. f_equal. comp. apply cpair_eq; ring.
      + intros m. cbn [forced_var String.eqb Ascii.eqb Bool.eqb get]. comp. ring.
      + intros m Hm. rewrite norm_perp by (apply Z; exact Hm). unfold component. cbn [String.eqb Ascii.eqb Bool.eqb]. assert (H := Z m Hm). set (q := ksq m) in *. clearbody q. comp. field. exact H.
    - exists (fun m => (RtoC 0, RtoC 0, rmul (coef "vz_fft"%string) (raw "vz_fft"%string m))). split; [|split].
      + intros m. unfold forcing. cbn. rewrite vadd_zero. f_equal. f_equal. comp. apply cpair_eq; ring.
      + intros m. cbn [forced_var String.eqb Ascii.eqb Bool.eqb get]. comp. ring.
      + intros m Hm. rewrite norm_perp by (apply Z; exact Hm). unfold component. cbn [String.eqb Ascii.eqb Bool.eqb]. assert (H := Z m Hm). set (q := ksq m) in *. clearbody q. comp. field. exact H. }
  destruct E as (F & E1 & E2 & E3).
  assert (A : forall m, after dt [key] raw coef s m = step dt m (s m) (F m, RtoC 0)) by (intros m; unfold after; rewrite E1; reflexivity).
  transitivity (energyK l (fun m => step dt m (s m) (F m, RtoC 0))); [apply sum_ext; intros m _; now rewrite A|].
  rewrite (energyK_step dt l s (fun m => (F m, RtoC 0)) D). cbn [fst].
  rewrite (sum_ext l _ _ (fun m _ => E2 m)), (sum_ext l _ _ E3), sum_plus, sum_scal, sum_dot, sum_abs. f_equal. f_equal.
  set (x := sum_k l (fun m => dotc _ _)) in *. set (y := sum_k l (fun m => abs2 _)) in *. set (z := sum_k l _). lra.
Qed.

Lemma sum_nonneg l f : (forall m, In m l -> 0 <= weight m) -> (forall m, In m l -> 0 <= f m) -> 0 <= sum_k l f.
Proof.
  intros W H. unfold sum_k. induction l as [|m l IH]; cbn; [lra|].
  assert (0 <= weight m * f m) by (apply Rmult_le_pos; [apply W|apply H]; left; reflexivity).
  assert (0 <= fold_right Rplus 0 (map (fun m => weight m * f m) l)) by (apply IH; intros m' Hm'; [apply W|apply H]; right; exact Hm'). lra.
Qed.
Lemma abs2_nonneg z : 0 <= abs2 z.
Proof. unfold abs2. pose proof (pow2_ge_0 (fst z)). pose proof (pow2_ge_0 (snd z)). lra. Qed.

Theorem c231_bound_partial : forall l key deltat raw coef P s, (key = "vx_fft" \/ key = "vy_fft" \/ key = "vz_fft")%string ->
  0 <= deltat -> (forall m, In m l -> 0 <= weight m) ->
  divergence_free l s -> (forall m, In m l -> ksq m <> 0) -> normalized l deltat raw coef P s key ->
  energyK l (after deltat [key] raw coef s) <= energyK l s + deltat * P
  /\ ((forall m, In m l -> component key m = 0 \/ raw key m = RtoC 0) -> energyK l (after deltat [key] raw coef s) = energyK l s + deltat * P).
Proof.
  intros l key dt raw coef P s K Hdt W D Z N. rewrite (c231_injection l key dt raw coef P s K D Z N).
  assert (S : 0 <= sum_k l (fun m => component key m ^ 2 / ksq m * abs2 (raw key m))).
  { apply sum_nonneg; [exact W|]. intros m Hm. apply Rmult_le_pos; [|apply abs2_nonneg].
    assert (0 < ksq m). { specialize (Z m Hm). unfold ksq in *. pose proof (pow2_ge_0 (mkx m)). pose proof (pow2_ge_0 (mky m)). pose proof (pow2_ge_0 (mkz m)). lra. }
    apply Rmult_le_pos; [apply pow2_ge_0|]. left. apply Rinv_0_lt_compat. assumption. }
  split.
  - assert (0 <= dt / 2 * coef key ^ 2 * sum_k l (fun m => component key m ^ 2 / ksq m * abs2 (raw key m))).
    { apply Rmult_le_pos; [|exact S]. apply Rmult_le_pos; [lra|apply pow2_ge_0]. }
    apply Rplus_le_compat_l. apply Rmult_le_compat_l; [exact Hdt|]. lra.
  - intros H. assert (E : sum_k l (fun m => component key m ^ 2 / ksq m * abs2 (raw key m)) = 0 * sum_k l (fun _ => 0)).
    { rewrite <- sum_scal. apply sum_ext. intros m Hm. specialize (Z m Hm). destruct (H m Hm) as [-> | ->]; [field; exact Z|]. comp. field. exact Z. }
    rewrite E. ring.
Qed.

(** vx forced with a wavevector along the diagonal: neither the energy nor the mean square of vx increases by
    deltat * forcing_rate *)
Theorem c231_cartesian_refuted : exists l deltat raw coef P s, divergence_free l s /\ (forall m, In m l -> oblique m)
  /\ normalized l deltat raw coef P s "vx_fft"
  /\ energyK l (after deltat ["vx_fft"]%string raw coef s) <> energyK l s + deltat * P
  /\ energy_vx l (after deltat ["vx_fft"]%string raw coef s) <> energy_vx l s + deltat * P.
Proof.
  set (m := {| mkx := 1; mky := 1; mkz := 0; weight := 1 |}).
  exists [m], 2, (fun _ _ => RtoC 1), (fun _ => 1), 1, (fun _ => (vzero, RtoC 0)).
  assert (N : normalized [m] 2 (fun _ _ => RtoC 1) (fun _ => 1) 1 (fun _ => (vzero, RtoC 0)) "vx_fft").
  { unfold normalized, coef_ab, sum_k. cbn [map fold_right weight m forced_var String.eqb Ascii.eqb Bool.eqb get]. unfold vzero. comp. lra. }
  assert (D : divergence_free [m] (fun _ => (vzero, RtoC 0))) by (intros m' _; unfold divergence, vzero; comp; apply cpair_eq; ring).
  split; [exact D|]. split; [intros m' [<-|[]]; left; cbn; lra|]. split; [exact N|]. split.
  - rewrite (c231_injection [m] "vx_fft" 2 _ _ 1 _ (or_introl eq_refl) D); [|intros m' [<-|[]]; unfold ksq; cbn; lra|exact N].
    unfold sum_k, component, ksq. cbn [map fold_right String.eqb Ascii.eqb Bool.eqb m mkx mky mkz weight]. comp. lra.
  - unfold energy_vx, sum_k. cbn [map fold_right]. unfold after, forcing. cbn [compute init_statespect String.eqb Ascii.eqb Bool.eqb fst snd].
    rewrite vadd_zero. unfold step. cbn [fst snd].
    assert (E1 : rmul 1 (RtoC 1) = RtoC 1) by (comp; apply cpair_eq; ring). rewrite E1.
    assert (E2 : fst (fst (perp m (RtoC 1, RtoC 0, RtoC 0))) = RtoC (1 / 2)).
    { unfold perp, project_kradial3d, inv_K. cbn [m mkx mky mkz weight fst snd]. rewrite nozero_id by (unfold K2, Kh2; lra). unfold K2, Kh2.
      assert (E3 : Cplus (Cplus (rmul 1 (RtoC 1)) (rmul 1 (RtoC 0))) (rmul 0 (RtoC 0)) = RtoC 1) by (comp; apply cpair_eq; ring).
      rewrite E3. comp. apply cpair_eq; field. }
    destruct (perp m (RtoC 1, RtoC 0, RtoC 0)) as [[x y] z]. cbn [fst] in E2. rewrite E2. unfold vzero, m. cbn [weight]. comp. lra.
Qed.

(** divh_fft: the forcing is a gradient, it can be completely removed by the projection *)
Theorem c231_divergence_refuted : exists l deltat raw coef P s, divergence_free l s /\ (forall m, In m l -> oblique m)
  /\ normalized l deltat raw coef P s "divh_fft" /\ 0 < P
  /\ energyK l (after deltat ["divh_fft"]%string raw coef s) = energyK l s.
Proof.
  set (m := {| mkx := 1; mky := 0; mkz := 0; weight := 1 |}).
  exists [m], 2, (fun _ _ => RtoC 1), (fun _ => 1), 1, (fun _ => (vzero, RtoC 0)).
  split; [intros m' _; unfold divergence, vzero; comp; apply cpair_eq; ring|].
  split; [intros m' [<-|[]]; left; cbn; lra|]. split.
  { unfold normalized, coef_ab, sum_k. cbn [map fold_right weight m forced_var String.eqb Ascii.eqb Bool.eqb get]. unfold divh, vzero. comp. lra. }
  split; [lra|].
  assert (D : divergence_free [m] (fun _ => (vzero, RtoC 0))) by (intros m' _; unfold divergence, vzero; comp; apply cpair_eq; ring).
  set (F := fun _ : mode => ((Cmult (Copp Ci) (RtoC 1), RtoC 0, RtoC 0), RtoC 0)).
  transitivity (energyK [m] (fun m' => step 2 m' (vzero, RtoC 0) (F m'))).
  { apply sum_ext. intros m' [<-|[]]. unfold after, forcing. cbn [compute init_statespect String.eqb Ascii.eqb Bool.eqb fst snd].
    unfold v_from_divh. cbn [fst snd m mkx mky mkz weight]. rewrite vadd_zero. unfold F.
    assert (E1 : Cmult (Copp Ci) (rmul (1 * inv_Kh 1 0) (rmul 1 (RtoC 1))) = Cmult (Copp Ci) (RtoC 1)).
    { unfold inv_Kh. rewrite nozero_id by (unfold Kh2; lra). unfold Kh2. comp. apply cpair_eq; field. }
    assert (E2 : Cmult (Copp Ci) (rmul (0 * inv_Kh 1 0) (rmul 1 (RtoC 1))) = RtoC 0) by (comp; apply cpair_eq; ring).
    rewrite E1, E2, cadd_zero. reflexivity. }
  rewrite (energyK_step 2 [m] (fun _ => (vzero, RtoC 0)) F D). unfold sum_k. cbn [map fold_right F fst].
  rewrite norm_perp by (unfold ksq; cbn; lra). unfold ksq. cbn [m mkx mky mkz weight]. unfold vzero. comp. field.
Qed.

Example c230_example : oblique {| mkx := 1; mky := 0; mkz := 2; weight := 2 |}
  /\ divergence_free [ {| mkx := 1; mky := 0; mkz := 2; weight := 2 |} ] (fun _ => ((RtoC 2, RtoC 5, RtoC (-1)), RtoC 3))
  /\ normalized [ {| mkx := 1; mky := 0; mkz := 2; weight := 2 |} ] 1 (fun _ _ => RtoC 1) (fun _ => 0) 0 (fun _ => ((RtoC 2, RtoC 5, RtoC (-1)), RtoC 3)) "vx_fft".
Proof.
  split; [left; cbn; lra|]. split.
  - intros m [<-|[]]. unfold divergence. cbn [mkx mky mkz]. comp. apply cpair_eq; ring.
  - unfold normalized, coef_ab. ring.
Qed.

Print Assumptions c230_energy_partial.
Print Assumptions c230_two_keys_partial.
Print Assumptions c230_buoyancy.
Print Assumptions c230_vorticity_partial.
Print Assumptions c230_axis_refuted.
Print Assumptions c231_injection.
Print Assumptions c231_bound_partial.
Print Assumptions c231_cartesian_refuted.
Print Assumptions c231_divergence_refuted.
