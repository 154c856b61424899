(** The solvers on the sphere (C214, C215). *)
From Coq Require Import String Reals List Bool Lra FunctionalExtensionality.
From Coquelicot Require Import Complex.
From Verif Require Import Sphere_Model.
Import ListNotations.
Local Open Scope R_scope.

(** ** The operators of a closed surface *)
Record surface := {
  pt : Type; ix : Type;
  o_sht : (pt -> R) -> ix -> C; o_isht : (ix -> C) -> pt -> R;
  o_div : (pt -> R) -> (pt -> R) -> ix -> C; o_rot : (pt -> R) -> (pt -> R) -> ix -> C;
  o_K2 : ix -> R;
  (** the gradient, the divergence in physical space and the integral *)
  o_grad : (pt -> R) -> (pt -> R) * (pt -> R);
  o_pdiv : (pt -> R) -> (pt -> R) -> pt -> R;
  o_int : (pt -> R) -> R;
  o_mean : ix
}.
Definition vadd {A} (a b : A -> R) : A -> R := fun x => a x + b x.
Definition vscal {A} (c : R) (a : A -> R) : A -> R := fun x => c * a x.
(** linearity and the identities of the vector calculus *)
Record good_surface (S : surface) : Prop := {
  g_div_add : forall a b c d i, o_div S (vadd a c) (vadd b d) i = (o_div S a b i + o_div S c d i)%C;
  g_rot_add : forall a b c d i, o_rot S (vadd a c) (vadd b d) i = (o_rot S a b i + o_rot S c d i)%C;
  g_div_scal : forall e a b i, o_div S (vscal e a) (vscal e b) i = (RtoC e * o_div S a b i)%C;
  g_rot_scal : forall e a b i, o_rot S (vscal e a) (vscal e b) i = (RtoC e * o_rot S a b i)%C;
  g_div_grad : forall a i, o_div S (fst (o_grad S a)) (snd (o_grad S a)) i = (- (RtoC (o_K2 S i) * o_sht S a i))%C;
  g_rot_grad : forall a i, o_rot S (fst (o_grad S a)) (snd (o_grad S a)) i = RtoC 0;
  g_turn : forall a b i, o_rot S b (fun x => - a x) i = (- o_div S a b i)%C;
  g_div_mean : forall a b, o_div S a b (o_mean S) = RtoC 0;
  g_rot_mean : forall a b, o_rot S a b (o_mean S) = RtoC 0;
  g_K2_mean : o_K2 S (o_mean S) = 0;
  g_int_add : forall a b, o_int S (vadd a b) = o_int S a + o_int S b;
  g_parts : forall a b c, o_int S (fun x => a x * fst (o_grad S c) x + b x * snd (o_grad S c) x) = - o_int S (fun x => o_pdiv S a b x * c x);
  g_pdiv : forall a b x, o_isht S (o_div S a b) x = o_pdiv S a b x
}.

Section C214.
Variable S : surface.
Hypothesis G : good_surface S.
Notation tend := (sw1l_tendencies (pt S) (ix S) (o_sht S) (o_div S) (o_rot S) (o_K2 S)).
Notation state := (statephys (pt S)).
(** the equation of the momentum: the head B and the acceleration *)
Definition head (c2 : R) (s : state) : pt S -> R := fun x => (s_ux _ s x ^ 2 + s_uy _ s x ^ 2) / 2 + c2 * s_eta _ s x.
Definition acc_x (f : pt S -> R) (c2 : R) (s : state) : pt S -> R := fun x => (s_rot _ s x + f x) * s_uy _ s x - fst (o_grad S (head c2 s)) x.
Definition acc_y (f : pt S -> R) (c2 : R) (s : state) : pt S -> R := fun x => - (s_rot _ s x + f x) * s_ux _ s x - snd (o_grad S (head c2 s)) x.
(** the tendencies are the rotational and the divergence of the acceleration, and the flux of (1 + eta) u *)
Theorem c214_momentum : forall f c2 s i,
  t_rot _ (tend f c2 s) i = o_rot S (acc_x f c2 s) (acc_y f c2 s) i
  /\ t_div _ (tend f c2 s) i = o_div S (acc_x f c2 s) (acc_y f c2 s) i
  /\ t_eta _ (tend f c2 s) i = (- o_div S (fun x => (1 + s_eta _ s x) * s_ux _ s x)%R (fun x => (1 + s_eta _ s x) * s_uy _ s x)%R i)%C.
Proof.
  intros f c2 s i.
  set (a := fun x => (s_rot _ s x + f x) * s_uy _ s x). set (b := fun x => - (s_rot _ s x + f x) * s_ux _ s x).
  assert (Ax : acc_x f c2 s = vadd a (vscal (-1) (fst (o_grad S (head c2 s))))) by (apply functional_extensionality; intros x; unfold acc_x, vadd, vscal, a; ring).
  assert (Ay : acc_y f c2 s = vadd b (vscal (-1) (snd (o_grad S (head c2 s))))) by (apply functional_extensionality; intros x; unfold acc_y, vadd, vscal, b; ring).
  assert (M1 : RtoC (-1) = (- RtoC 1)%C) by (rewrite <- RtoC_opp; reflexivity).
  split; [|split].
  - rewrite Ax, Ay, (g_rot_add S G), (g_rot_scal S G), (g_rot_grad S G). cbn. change (fun x => _) with a at 1. fold b. ring.
  - rewrite Ax, Ay, (g_div_add S G), (g_div_scal S G), (g_div_grad S G), M1. cbn [sw1l_tendencies compute_Frot t_div]. change (fun x => (s_rot _ s x + f x) * s_uy _ s x) with a. fold b.
    unfold laplacian_sh. replace (fun x => / 2 * (s_ux _ s x ^ 2 + s_uy _ s x ^ 2) + c2 * s_eta _ s x) with (head c2 s) by (apply functional_extensionality; intros x; unfold head; field). ring.
  - cbn [sw1l_tendencies compute_Frot t_eta].
    replace (fun x => - (s_eta _ s x + 1) * s_ux _ s x) with (vscal (-1) (fun x => (1 + s_eta _ s x) * s_ux _ s x)) by (apply functional_extensionality; intros x; unfold vscal; ring).
    replace (fun x => - (s_eta _ s x + 1) * s_uy _ s x) with (vscal (-1) (fun x => (1 + s_eta _ s x) * s_uy _ s x)) by (apply functional_extensionality; intros x; unfold vscal; ring).
    rewrite (g_div_scal S G), M1. ring.
Qed.
(** the means of the vorticity, of the divergence and of the displacement are constant *)
Theorem c214_means : forall f c2 s, t_rot _ (tend f c2 s) (o_mean S) = RtoC 0 /\ t_div _ (tend f c2 s) (o_mean S) = RtoC 0 /\ t_eta _ (tend f c2 s) (o_mean S) = RtoC 0.
Proof.
  intros f c2 s. cbn [sw1l_tendencies compute_Frot t_rot t_div t_eta]. split; [apply (g_rot_mean S G)|]. split; [|apply (g_div_mean S G)].
  rewrite (g_div_mean S G). unfold laplacian_sh. rewrite (g_K2_mean S G). ring.
Qed.
(** the energy (1 + eta) u^2/2 + c2 eta^2/2 is constant: its time derivative with the acceleration and the tendency of eta *)
Theorem c214_energy : forall f c2 s,
  let eta_t := o_isht S (t_eta _ (tend f c2 s)) in
  o_int S (fun x => eta_t x * (s_ux _ s x ^ 2 + s_uy _ s x ^ 2) / 2
                    + (1 + s_eta _ s x) * (s_ux _ s x * acc_x f c2 s x + s_uy _ s x * acc_y f c2 s x)
                    + c2 * s_eta _ s x * eta_t x) = 0.
Proof.
  intros f c2 s eta_t.
  set (u1 := fun x => - (s_eta _ s x + 1) * s_ux _ s x). set (v1 := fun x => - (s_eta _ s x + 1) * s_uy _ s x).
  assert (E : forall x, eta_t x = o_pdiv S u1 v1 x) by (intros x; apply (g_pdiv S G)).
  replace (fun x => _) with (vadd (fun x => o_pdiv S u1 v1 x * head c2 s x) (fun x => u1 x * fst (o_grad S (head c2 s)) x + v1 x * snd (o_grad S (head c2 s)) x)).
  - rewrite (g_int_add S G), (g_parts S G). ring.
  - apply functional_extensionality. intros x. rewrite E. unfold vadd, head at 1, u1 at 2, v1 at 2, acc_x, acc_y. field.
Qed.
(** constant f: the linear potential vorticity rot - f eta has no linear tendency (it is quadratic in the amplitude) *)
Definition scaled (e : R) (s : state) : state := {| s_ux := vscal e (s_ux _ s); s_uy := vscal e (s_uy _ s); s_eta := vscal e (s_eta _ s); s_rot := vscal e (s_rot _ s) |}.
Theorem c214_linear_pv : forall f c2 s i, exists Q : C, forall e,
  (t_rot _ (tend (fun _ => f) c2 (scaled e s)) i - RtoC f * t_eta _ (tend (fun _ => f) c2 (scaled e s)) i)%C = (RtoC (e ^ 2) * Q)%C.
Proof.
  intros f c2 s i.
  set (a2 := fun x => s_rot _ s x * s_uy _ s x). set (b2 := fun x => - s_rot _ s x * s_ux _ s x).
  set (m2 := fun x => s_eta _ s x * s_ux _ s x). set (n2 := fun x => s_eta _ s x * s_uy _ s x).
  exists (o_rot S a2 b2 i + RtoC f * o_div S m2 n2 i)%C. intros e.
  cbn [sw1l_tendencies compute_Frot t_rot t_eta scaled s_ux s_uy s_eta s_rot].
  replace (fun x => (vscal e (s_rot _ s) x + f) * vscal e (s_uy _ s) x) with (vadd (vscal (e ^ 2) a2) (vscal (f * e) (s_uy _ s))) by (apply functional_extensionality; intros x; unfold vadd, vscal, a2; ring).
  replace (fun x => - (vscal e (s_rot _ s) x + f) * vscal e (s_ux _ s) x) with (vadd (vscal (e ^ 2) b2) (vscal (f * e) (fun x => - s_ux _ s x))) by (apply functional_extensionality; intros x; unfold vadd, vscal, b2; ring).
  replace (fun x => - (vscal e (s_eta _ s) x + 1) * vscal e (s_ux _ s) x) with (vadd (vscal (- e ^ 2) m2) (vscal (- e) (s_ux _ s))) by (apply functional_extensionality; intros x; unfold vadd, vscal, m2; ring).
  replace (fun x => - (vscal e (s_eta _ s) x + 1) * vscal e (s_uy _ s) x) with (vadd (vscal (- e ^ 2) n2) (vscal (- e) (s_uy _ s))) by (apply functional_extensionality; intros x; unfold vadd, vscal, n2; ring).
  rewrite (g_rot_add S G), (g_div_add S G), !(g_rot_scal S G), !(g_div_scal S G), (g_turn S G).
  rewrite !RtoC_opp, !RtoC_mult. ring.
Qed.
(** a fluid at rest stays at rest *)
Theorem c214_rest : forall f c2 s i, (forall x, s_ux _ s x = 0 /\ s_uy _ s x = 0) -> (forall j, o_K2 S j <> 0 -> o_sht S (fun x => / 2 * (0 ^ 2 + 0 ^ 2) + c2 * s_eta _ s x) j = RtoC 0) ->
  t_rot _ (tend f c2 s) i = RtoC 0 /\ t_div _ (tend f c2 s) i = RtoC 0 /\ t_eta _ (tend f c2 s) i = RtoC 0.
Proof.
  intros f c2 s i Hu Hs.
  assert (Ux : s_ux _ s = fun _ => 0) by (apply functional_extensionality; intros x; apply Hu).
  assert (Uy : s_uy _ s = fun _ => 0) by (apply functional_extensionality; intros x; apply Hu).
  assert (Z0 : (fun _ : pt S => 0) = vscal 0 (fun _ => 0)) by (apply functional_extensionality; intros x; unfold vscal; ring).
  assert (R0 : forall j, o_rot S (fun _ => 0) (fun _ => 0) j = RtoC 0) by (intros j; rewrite Z0, (g_rot_scal S G); ring).
  assert (D0 : forall j, o_div S (fun _ => 0) (fun _ => 0) j = RtoC 0) by (intros j; rewrite Z0, (g_div_scal S G); ring).
  cbn [sw1l_tendencies compute_Frot t_rot t_div t_eta]. rewrite Ux, Uy.
  replace (fun x => (s_rot _ s x + f x) * 0) with (fun _ : pt S => 0) by (apply functional_extensionality; intros x; ring).
  replace (fun x => - (s_rot _ s x + f x) * 0) with (fun _ : pt S => 0) by (apply functional_extensionality; intros x; ring).
  replace (fun x => - (s_eta _ s x + 1) * 0) with (fun _ : pt S => 0) by (apply functional_extensionality; intros x; ring).
  rewrite R0, !D0. split; [reflexivity|]. split; [|reflexivity]. unfold laplacian_sh.
  destruct (Req_EM_T (o_K2 S i) 0) as [e|ne]; [rewrite e; ring|rewrite (Hs i ne); ring].
Qed.
End C214.

(** ** The hypotheses are met: a ring of four points with centred differences *)
Inductive four := P0 | P1 | P2 | P3.
Definition next (p : four) := match p with P0 => P1 | P1 => P2 | P2 => P3 | P3 => P0 end.
Definition prev (p : four) := match p with P0 => P3 | P1 => P0 | P2 => P1 | P3 => P2 end.
Definition d4 (a : four -> R) : four -> R := fun x => (a (next x) - a (prev x)) / 2.
Definition sht4 (a : four -> R) (i : four) : C := RtoC
  match i with P0 => (a P0 + a P1 + a P2 + a P3) / 4 | P1 => (a P0 - a P2) / 2 | P2 => (a P1 - a P3) / 2 | P3 => (a P0 - a P1 + a P2 - a P3) / 4 end.
Definition isht4 (c : four -> C) (x : four) : R :=
  fst (c P0) + match x with P0 => fst (c P1) + fst (c P3) | P1 => fst (c P2) - fst (c P3) | P2 => - fst (c P1) + fst (c P3) | P3 => - fst (c P2) - fst (c P3) end.
Definition ring4 : surface := {|
  pt := four; ix := four; o_sht := sht4; o_isht := isht4;
  o_div := fun a _ => sht4 (d4 a); o_rot := fun _ b => sht4 (d4 b);
  o_K2 := fun i => match i with P1 | P2 => 1 | _ => 0 end;
  o_grad := fun a => (d4 a, fun _ => 0);
  o_pdiv := fun a _ => d4 a;
  o_int := fun a => a P0 + a P1 + a P2 + a P3;
  o_mean := P0 |}.
Example c214_ring : good_surface ring4.
Proof.
  constructor; cbn [pt ix ring4 o_sht o_isht o_div o_rot o_K2 o_grad o_pdiv o_int o_mean fst snd]; intros; unfold sht4, isht4, d4, vadd, vscal;
  try (destruct i; apply injective_projections; cbn; field);
  try (apply injective_projections; cbn; field); try (destruct x; cbn; field); try reflexivity; try field.
  cbn. field.
Qed.

(** * C215: the state *)
Section C215.
Variables point lm : Type.
Variable sht : (point -> R) -> lm -> C.
Variable isht : (lm -> C) -> point -> R.
Variables div_sh rot_sh : (point -> R) -> (point -> R) -> lm -> C.
Variable vec : (lm -> C) -> (lm -> C) -> (point -> R) * (point -> R).
Notation init := (init_from_uxuyeta point lm sht isht div_sh rot_sh).
Notation to_phys := (sw1l_statephys point lm isht vec).
(** the fields on which the transforms are exact *)
Definition resolved (ux uy eta : point -> R) : Prop := vec (div_sh ux uy) (rot_sh ux uy) = (ux, uy) /\ isht (sht eta) = eta.
(** init_from_uxuyeta: the two states are consistent *)
Theorem c215_uxuyeta : forall ux uy eta old, resolved ux uy eta ->
  let (s, t) := init ux uy eta old in
  to_phys t = s /\ s_ux _ s = ux /\ s_uy _ s = uy /\ s_eta _ s = eta /\ sw1l_statespect point lm sht div_sh rot_sh s = t.
Proof.
  intros ux uy eta old [H1 H2]. cbn. split; [|repeat split]. unfold sw1l_statephys. cbn. now rewrite H1, H2.
Qed.
(** the vorticity given alone: the divergence and the displacement are kept *)
Theorem c215_rot : forall rot old, exists s t, sw1l_init_statespect_from point lm isht vec [("rot_sh"%string, rot)] old = Some (s, t)
  /\ t_rot _ t = rot /\ t_div _ t = t_div _ (snd old) /\ t_eta _ t = t_eta _ (snd old) /\ s = to_phys t.
Proof. intros rot old. eexists. eexists. split; [reflexivity|]. repeat split. Qed.
(** the tendencies of the state in spectral space and of the state in physical space are the same *)
Theorem c215_tendencies : forall K2 f c2 ux uy eta old, resolved ux uy eta ->
  let (s, t) := init ux uy eta old in
  sw1l_tendencies_spect point lm sht isht div_sh rot_sh vec K2 f c2 t = sw1l_tendencies point lm sht div_sh rot_sh K2 f c2 s.
Proof. intros K2 f c2 ux uy eta old H. pose proof (c215_uxuyeta ux uy eta old H) as E. destruct (init ux uy eta old) as [s t]. unfold sw1l_tendencies_spect. now rewrite (proj1 E). Qed.
End C215.
(** any other single key: nothing is done, without error *)
Theorem c215_refuted : exists key, key = "eta_sh"%string /\ forall point lm isht vec a old,
  sw1l_init_statespect_from point lm isht vec [(key, a)] old = Some old.
Proof. exists "eta_sh"%string. split; [reflexivity|]. intros. reflexivity. Qed.
(** ns2d: a field whose velocity does not cross the lines of equal vorticity is steady *)
Theorem c215_steady : forall point lm (sht : (point -> R) -> lm -> C) vec grad rot,
  (forall x, fst (vec (fun _ => RtoC 0) rot) x * fst (grad rot) x + snd (vec (fun _ => RtoC 0) rot) x * snd (grad rot) x = 0) ->
  ns2d_tendencies point lm sht vec grad rot = sht (fun _ => 0).
Proof.
  intros point lm sht vec grad rot H. unfold ns2d_tendencies. destruct (vec (fun _ => RtoC 0) rot) as [ux uy], (grad rot) as [px py]. cbn [fst snd] in H. f_equal.
  apply functional_extensionality. intros x. unfold ns2d_Frot. specialize (H x). lra.
Qed.
Example c215_ex : resolved four four sht4 isht4 (fun a _ => sht4 (d4 a)) (fun _ b => sht4 (d4 b)) (fun _ _ => (fun _ => 0, fun _ => 0)) (fun _ => 0) (fun _ => 0) (fun x => match x with P0 => 1 | P1 => 2 | P2 => 5 | P3 => 0 end).
Proof. split; [reflexivity|]. apply functional_extensionality. intros []; unfold isht4, sht4; cbn; field. Qed.
Print Assumptions c214_momentum.
Print Assumptions c214_means.
Print Assumptions c214_energy.
Print Assumptions c214_linear_pv.
Print Assumptions c214_rest.
Print Assumptions c214_ring.
Print Assumptions c215_uxuyeta.
Print Assumptions c215_rot.
Print Assumptions c215_tendencies.
Print Assumptions c215_refuted.
Print Assumptions c215_steady.
