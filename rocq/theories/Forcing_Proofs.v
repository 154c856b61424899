(** Lemmas on the forcing *)

From Coq Require Import Reals List Bool Lra Lia.
From Coquelicot Require Import Complex.
From Verif Require Import Forcing_Model Forcing_Spec.
Import ListNotations.
Local Open Scope R_scope.

Lemma ltb_spec a b : reflect (a < b) (ltb a b).
Proof. unfold ltb. destruct (Rlt_dec a b); constructor; assumption. Qed.
Lemma leb_spec a b : reflect (a <= b) (leb a b).
Proof. unfold leb. destruct (Rle_dec a b); constructor; assumption. Qed.
Lemma eqb_spec a b : reflect (a = b) (eqb a b).
Proof. unfold eqb. destruct (Req_EM_T a b); constructor; assumption. Qed.

Lemma cmod2 (z : C) : Cmod z * Cmod z = abs2 z.
Proof.
  unfold Cmod, abs2. rewrite sqrt_sqrt; [destruct z; simpl; ring|].
  destruct z; simpl. nra.
Qed.

(** energy after a forward step with a multiple of the forcing *)
Lemma energy_step dt r l :
  energy (after dt (map (fun m => mkMode (w m) (u m) (Cmult (RtoC r) (f m))) l)) - energy (before l)
  = dt * (coef_a dt l * (r * r) + coef_b l * r).
Proof.
  unfold coef_a, coef_b, before, after. induction l as [|m l IH].
  - cbn. ring.
  - cbn [map energy sum_wavenumbers fold_right w u f] in *. rewrite !cmod2.
    fold (sum_wavenumbers l (fun m => abs2 (f m))) in *.
    fold (sum_wavenumbers l (fun m => dotc (u m) (f m))) in *.
    set (e1 := energy (map _ (map _ l))) in *. set (e2 := energy (map _ l)) in *.
    set (A := sum_wavenumbers l (fun m => abs2 (f m))) in *.
    set (B := sum_wavenumbers l (fun m => dotc (u m) (f m))) in *.
    assert (E : e1 = e2 + dt * (dt / 2 * A * (r * r) + B * r)) by lra.
    rewrite E. unfold abs2, dotc. destruct (u m) as [u1 u2], (f m) as [f1 f2]. simpl. field.
Qed.

Lemma sum_nonneg l g : weights_nonneg l -> (forall m, 0 <= g m) -> 0 <= sum_wavenumbers l g.
Proof.
  intros W G. induction l as [|m l IH]; cbn [sum_wavenumbers fold_right]; [lra|].
  inversion W; subst. fold (sum_wavenumbers l g). specialize (IH H2).
  pose proof (Rmult_le_pos _ _ H1 (G m)). lra.
Qed.

Lemma abs2_nonneg z : 0 <= abs2 z.
Proof. unfold abs2. nra. Qed.

Lemma abs2_pos z : z <> RtoC 0 -> 0 < abs2 z.
Proof.
  intro H. unfold abs2. destruct z as [x y]. simpl.
  destruct (Req_dec x 0) as [->|X]; [|nra].
  destruct (Req_dec y 0) as [->|Y]; [|nra]. exfalso. apply H. reflexivity.
Qed.

Lemma coef_a_pos dt l : 0 < dt -> weights_nonneg l -> forcing_not_zero l -> 0 < coef_a dt l.
Proof.
  intros D W (m & I & Wm & F). unfold coef_a. apply Rmult_lt_0_compat; [lra|].
  induction l as [|n l IH]; [contradiction|]. inversion W; subst.
  cbn [sum_wavenumbers fold_right]. fold (sum_wavenumbers l (fun m => abs2 (f m))).
  destruct I as [->|I].
  - pose proof (sum_nonneg l (fun m => abs2 (f m)) H2 (fun m => abs2_nonneg _)).
    pose proof (Rmult_lt_0_compat _ _ Wm (abs2_pos _ F)). lra.
  - specialize (IH H2 I). pose proof (Rmult_le_pos _ _ H1 (abs2_nonneg (f n))). lra.
Qed.

Lemma np_roots_spec order a b c r1 r2 :
  a <> 0 -> np_roots order a b c = Some (r1, r2) ->
  is_root a b c r1 /\ is_root a b c r2 /\ r1 * r2 = c / a /\ r1 + r2 = - b / a
  /\ forall x, is_root a b c x -> x = r1 \/ x = r2.
Proof.
  intros A H. unfold np_roots in H.
  destruct (ltb_spec (b * b - 4 * a * c) 0) as [L|L]; [discriminate|].
  assert (D : 0 <= b * b - 4 * a * c) by lra.
  pose proof (sqrt_sqrt _ D) as S. set (s := sqrt (b * b - 4 * a * c)) in *.
  assert (P : (- b + s) / (2 * a) * ((- b - s) / (2 * a)) = c / a).
  { replace ((- b + s) / (2 * a) * ((- b - s) / (2 * a))) with ((b * b - s * s) / (4 * a * a)) by (field; lra).
    rewrite S. field. lra. }
  assert (T : (- b + s) / (2 * a) + (- b - s) / (2 * a) = - b / a) by (field; lra).
  assert (F : forall x, a * (x * x) + b * x + c = a * (x - (- b + s) / (2 * a)) * (x - (- b - s) / (2 * a))).
  { intro x. replace (a * (x - (- b + s) / (2 * a)) * (x - (- b - s) / (2 * a)))
      with (a * (x * x - ((- b + s) / (2 * a) + (- b - s) / (2 * a)) * x
                 + (- b + s) / (2 * a) * ((- b - s) / (2 * a)))) by ring.
    rewrite P, T. field. lra. }
  set (p := (- b + s) / (2 * a)) in *. set (m := (- b - s) / (2 * a)) in *.
  assert (U : forall x, is_root a b c x -> x = p \/ x = m).
  { intros x R. unfold is_root in R. rewrite F in R.
    apply Rmult_integral in R. destruct R as [R|R]; [|right; lra].
    apply Rmult_integral in R. destruct R as [R|R]; [lra|left; lra]. }
  assert (Rp : is_root a b c p) by (unfold is_root; rewrite F; ring).
  assert (Rm : is_root a b c m) by (unfold is_root; rewrite F; ring).
  destruct (order a b c); injection H as <- <-.
  - repeat split; auto.
  - repeat split; auto; [rewrite Rmult_comm; exact P|rewrite Rplus_comm; exact T|].
    intros x R. destruct (U x R); auto.
Qed.

Lemma disc_nonneg a b p : 0 < a -> 0 <= p -> 0 <= b * b - 4 * a * (- p).
Proof. intros. pose proof (Rmult_le_pos a p ltac:(lra) ltac:(lra)). nra. Qed.

(** ** blending *)

Lemma sin_le_x x : 0 <= x -> sin x <= x.
Proof.
  intro H. destruct (Req_dec x 0) as [->|N]; [rewrite sin_0; lra|].
  destruct (MVT_cor2 sin cos 0 x) as (c & E & _); [lra|intros; apply derivable_pt_lim_sin|].
  rewrite sin_0 in E. pose proof (COS_bound c) as [_ B]. nra.
Qed.

Lemma one_minus_cos x : 1 - cos x = 2 * (sin (x / 2) * sin (x / 2)).
Proof.
  replace x with (2 * (x / 2)) at 1 by field. rewrite cos_2a.
  pose proof (sin2_cos2 (x / 2)) as H. unfold Rsqr in H. nra.
Qed.
