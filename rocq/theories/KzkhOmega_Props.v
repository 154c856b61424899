(** Theorems on plot_kzkhomega (C296) *)

From Coq Require Import Reals Bool Arith List Lra Lia.
From Verif Require Import KzkhOmega_Model.
Import ListNotations.
Local Open Scope R_scope.

(** ** Specification *)

(** the index of the first nearest value *)
Definition is_nearest (l : list R) (v : R) (i : nat) : Prop :=
  (i < length l)%nat
  /\ (forall j, (j < length l)%nat -> Rabs (nth i l 0 - v) <= Rabs (nth j l 0 - v))
  /\ (forall j, (j < i)%nat -> Rabs (nth i l 0 - v) < Rabs (nth j l 0 - v)).

(** a regular axis of wave numbers from 0 *)
Definition regular (l : list R) (dk : R) : Prop := 0 < dk /\ forall i, (i < length l)%nat -> nth i l 0 = INR i * dk.

(** the frequency of the internal waves *)
Definition wave_frequency (n kh kz : R) : R := n * kh / sqrt (kh ^ 2 + kz ^ 2).

(** ** Lemmas *)

Lemma argmin_spec r : forall best ibest i (f : nat -> R), (ibest < i)%nat -> f ibest = best ->
  (forall j, (j < length r)%nat -> nth j r 0 = f (i + j)%nat) ->
  (forall j, (j < i)%nat -> best <= f j) -> (forall j, (j < ibest)%nat -> best < f j) ->
  let m := argmin_from best ibest i r in
  (m < i + length r)%nat /\ (forall j, (j < i + length r)%nat -> f m <= f j) /\ (forall j, (j < m)%nat -> f m < f j).
Proof.
  induction r as [|x r IH]; intros best ibest i f L E R B C; cbn [argmin_from length].
  - cbn. split; [lia|]. split; intros j Hj; rewrite E; [apply B|apply C]; lia.
  - assert (Ex : x = f i) by (rewrite <- (Nat.add_0_r i); apply (R 0%nat); cbn; lia).
    assert (Rr : forall j, (j < length r)%nat -> nth j r 0 = f (S i + j)%nat).
    { intros j Hj. replace (S i + j)%nat with (i + S j)%nat by lia. apply (R (S j)). cbn. lia. }
    replace (i + S (length r))%nat with (S i + length r)%nat by lia.
    destruct (Rlt_dec x best) as [Hlt|Hge].
    + apply IH; [lia|auto|exact Rr| |].
      * intros j Hj. destruct (Nat.eq_dec j i) as [->|]; [lra|]. assert (best <= f j) by (apply B; lia). lra.
      * intros j Hj. assert (best <= f j) by (apply B; lia). lra.
    + apply IH; [lia|auto|exact Rr| |exact C].
      intros j Hj. destruct (Nat.eq_dec j i) as [->|]; [lra|]. apply B. lia.
Qed.

Lemma nearest_spec l v i : nearest l v = Some i -> is_nearest l v i.
Proof.
  unfold nearest. destruct l as [|x r]; cbn [map]; [discriminate|]. intros H. inversion H as [E]. clear H.
  destruct (argmin_spec (map (fun x => Rabs (x - v)) r) (Rabs (x - v)) 0 1
    (fun j => Rabs (nth j (x :: r) 0 - v))) as (A & B & C).
  - lia.
  - reflexivity.
  - intros j Hj. rewrite map_length in Hj. rewrite (nth_indep _ 0 (Rabs (0 - v))) by (rewrite map_length; exact Hj).
    rewrite (map_nth (fun x => Rabs (x - v))). reflexivity.
  - intros j Hj. assert (j = 0)%nat by lia. subst j. cbn. lra.
  - intros j Hj. lia.
  - rewrite map_length in A, B. rewrite E in *. split; [cbn [length]; lia|]. split; [exact B|exact C].
Qed.

Lemma nearest_exists l v : l <> [] -> exists i, nearest l v = Some i.
Proof. destruct l; [congruence|]. intros _. unfold nearest. cbn. eauto. Qed.

Lemma maximum_spec l : forall m, m <= maximum m l /\ (forall x, In x l -> x <= maximum m l) /\ (maximum m l = m \/ In (maximum m l) l).
Proof.
  induction l as [|y r IH]; intros m; cbn; [split; [lra|]; split; [tauto|auto]|].
  destruct (IH (Rmax m y)) as (A & B & C). pose proof (Rmax_l m y). pose proof (Rmax_r m y).
  split; [lra|]. split; [intros x [->|I]; [lra|apply B; exact I]|].
  destruct C as [->|C]; [|auto]. unfold Rmax. destruct (Rle_dec m y); auto.
Qed.

Section Theorems.
Variables (khs kzs omegas : list R) (spectrum : nat -> nat -> nat -> R) (emp delta_emp : nat -> nat -> R).
Notation plot := (plot_kzkhomega khs kzs omegas spectrum emp delta_emp).

Ltac run H := unfold plot_kzkhomega in H; cbn [index_equation slice] in H.

(** ** C296 *)

(** kh= and kz=: the slice of the first nearest wave number *)
Theorem c296_nearest_kh : forall N v xm ym e l, khs <> [] ->
  exists i, is_nearest khs v i /\ plot N (EqKh v) xm ym e l = plot N (EqIkh i) xm ym e l.
Proof.
  intros N v xm ym e l H. destruct (nearest_exists khs v H) as [i Hi]. exists i. split; [apply nearest_spec; exact Hi|].
  unfold plot_kzkhomega. cbn [index_equation]. rewrite Hi. reflexivity.
Qed.

Theorem c296_nearest_kz : forall N v xm ym e l, kzs <> [] ->
  exists i, is_nearest kzs v i /\ plot N (EqKz v) xm ym e l = plot N (EqIkz i) xm ym e l.
Proof.
  intros N v xm ym e l H. destruct (nearest_exists kzs v H) as [i Hi]. exists i. split; [apply nearest_spec; exact Hi|].
  unfold plot_kzkhomega. cbn [index_equation]. rewrite Hi. reflexivity.
Qed.

(** the drawn values, with the axes in units of the steps and of N; the equation omega=0 is the default *)
Theorem c296_values_kh : forall N i xm ym e l fig, plot N (EqIkh i) xm ym e l = inl fig ->
  xs fig = map INR (seq 0 (length kzs))
  /\ ys fig = match N with Some n => map (fun o => o / n) omegas | None => omegas end
  /\ forall iz io, color fig io iz = drawn l (spectrum iz i io).
Proof.
  intros N i xm ym e l fig H. run H. destruct (i <? length khs)%nat; [|discriminate].
  destruct N as [n|]; [|inversion H; repeat split].
  destruct (nth_error kzs 1), (nth_error khs 1); try discriminate.
  destruct e; cbn [empirical] in H; inversion H; repeat split.
Qed.

Theorem c296_values_kz : forall N i xm ym e l fig, plot N (EqIkz i) xm ym e l = inl fig ->
  xs fig = map INR (seq 0 (length khs))
  /\ ys fig = match N with Some n => map (fun o => o / n) omegas | None => omegas end
  /\ forall ih io, color fig io ih = drawn l (spectrum i ih io).
Proof.
  intros N i xm ym e l fig H. run H. destruct (i <? length kzs)%nat; [|discriminate].
  destruct N as [n|]; [|inversion H; repeat split].
  destruct (nth_error kzs 1), (nth_error khs 1); try discriminate.
  destruct e; cbn [empirical] in H; inversion H; repeat split.
Qed.

Theorem c296_values_omega : forall N eq v xm ym e l fig, eq = EqOmega v \/ eq = EqNone /\ v = 0 -> plot N eq xm ym e l = inl fig ->
  xs fig = map INR (seq 0 (length khs)) /\ ys fig = map INR (seq 0 (length kzs))
  /\ exists io, is_nearest omegas v io /\ forall iz ih, color fig iz ih = drawn l (spectrum iz ih io).
Proof.
  intros N eq v xm ym e l fig Heq H.
  assert (H' : plot N (EqOmega v) xm ym e l = inl fig).
  { destruct Heq as [->|[-> ->]]; exact H. }
  clear H. run H'. destruct (nearest omegas v) as [io|] eqn:Hn; [|discriminate]. apply nearest_spec in Hn.
  destruct N as [n|]; [|inversion H'; split; [reflexivity|]; split; [reflexivity|]; exists io; split; [exact Hn|reflexivity]].
  destruct (nth_error kzs 1), (nth_error khs 1); try discriminate.
  destruct e; cbn [empirical] in H'; [destruct (_ =? _)%nat; discriminate|].
  inversion H'. split; [reflexivity|]. split; [reflexivity|]. exists io. split; [exact Hn|reflexivity].
Qed.

(** in linear scale the value itself, else its logarithm, up to 1e-15 *)
Theorem c296_drawn : forall v, 0 <= v -> v < drawn true v <= v + / 1000000000000000
  /\ drawn false v = ln (drawn true v) / ln 10.
Proof. intros v Hv. unfold drawn. split; [lra|reflexivity]. Qed.

Lemma second (l : list R) dk x : regular l dk -> nth_error l 1 = Some x -> x = dk.
Proof.
  intros [_ R] H. assert (L : (1 < length l)%nat) by (apply nth_error_Some; congruence).
  specialize (R 1%nat L). apply nth_error_nth with (d := 0) in H. rewrite <- H, R. cbn. lra.
Qed.

Lemma root_scale a b dh dz : 0 < dh -> sqrt ((a * dh) ^ 2 + (b * dz) ^ 2) = dh * sqrt (a ^ 2 + (dz / dh) ^ 2 * b ^ 2).
Proof.
  intros H. rewrite <- (sqrt_square dh) at 2 by lra. rewrite <- sqrt_mult_alt by nra. f_equal. field. lra.
Qed.

Lemma sum_sq_pos a b r : 0 < r -> 0 <= a -> 0 <= b -> 0 < a + b -> 0 < sqrt (a ^ 2 + r ^ 2 * b ^ 2).
Proof.
  intros Hr Ha Hb Hs. apply sqrt_lt_R0. destruct (Req_dec a 0) as [->|Na].
  - assert (0 < r * b) by (apply Rmult_lt_0_compat; lra). nra.
  - assert (0 < a * a) by nra. assert (0 <= (r * b) * (r * b)) by nra. nra.
Qed.

(** the black line is the dispersion relation of the internal waves, for regular axes *)
Theorem c296_dispersion_kh : forall n i xm ym e l fig dh dz, regular khs dh -> regular kzs dz ->
  plot (Some n) (EqIkh i) xm ym e l = inl fig ->
  exists f, line fig = Some f /\ forall iz, (iz < length kzs)%nat -> (0 < i + iz)%nat ->
  exists w, f iz = Some w /\ w * n = wave_frequency n (nth i khs 0) (nth iz kzs 0).
Proof.
  intros n i xm ym e l fig dh dz Rh Rz H. run H. destruct (Nat.ltb_spec i (length khs)) as [Li|]; [|discriminate].
  destruct (nth_error kzs 1) as [a|] eqn:Ea; [|discriminate]. destruct (nth_error khs 1) as [b|] eqn:Eb; [|discriminate].
  apply (second _ dz _ Rz) in Ea. apply (second _ dh _ Rh) in Eb. subst a b.
  assert (E : line fig = dispersion (KKh i) n (dz / dh)) by (destruct e; cbn [empirical] in H; inversion H; reflexivity).
  rewrite E. cbn [dispersion]. eexists. split; [reflexivity|]. intros iz Lz Hp. unfold quotient.
  destruct Rh as [Hh Rh], Rz as [Hz Rz]. unfold wave_frequency. rewrite (Rh _ Li), (Rz _ Lz), root_scale by lra.
  assert (P : 0 < sqrt (INR i ^ 2 + (dz / dh) ^ 2 * INR iz ^ 2)).
  { apply sum_sq_pos; [apply Rdiv_lt_0_compat; lra|apply pos_INR|apply pos_INR|]. rewrite <- plus_INR. apply lt_0_INR. lia. }
  destruct (Req_EM_T _ 0) as [Z|_]; [lra|]. eexists. split; [reflexivity|]. field. lra.
Qed.

Theorem c296_dispersion_kz : forall n i xm ym e l fig dh dz, regular khs dh -> regular kzs dz ->
  plot (Some n) (EqIkz i) xm ym e l = inl fig ->
  exists f, line fig = Some f /\ forall ih, (ih < length khs)%nat -> (0 < i + ih)%nat ->
  exists w, f ih = Some w /\ w * n = wave_frequency n (nth ih khs 0) (nth i kzs 0).
Proof.
  intros n i xm ym e l fig dh dz Rh Rz H. run H. destruct (Nat.ltb_spec i (length kzs)) as [Li|]; [|discriminate].
  destruct (nth_error kzs 1) as [a|] eqn:Ea; [|discriminate]. destruct (nth_error khs 1) as [b|] eqn:Eb; [|discriminate].
  apply (second _ dz _ Rz) in Ea. apply (second _ dh _ Rh) in Eb. subst a b.
  assert (E : line fig = dispersion (KKz i) n (dz / dh)) by (destruct e; cbn [empirical] in H; inversion H; reflexivity).
  rewrite E. cbn [dispersion]. eexists. split; [reflexivity|]. intros ih Lh Hp. unfold quotient.
  destruct Rh as [Hh Rh], Rz as [Hz Rz]. unfold wave_frequency. rewrite (Rh _ Lh), (Rz _ Li), root_scale by lra.
  assert (P : 0 < sqrt (INR ih ^ 2 + (dz / dh) ^ 2 * INR i ^ 2)).
  { apply sum_sq_pos; [apply Rdiv_lt_0_compat; lra|apply pos_INR|apply pos_INR|]. rewrite <- plus_INR. apply lt_0_INR. lia. }
  destruct (Req_EM_T _ 0) as [Z|_]; [lra|]. eexists. split; [reflexivity|]. field. lra.
Qed.

(** slice at the frequency omega of the grid with 0 < omega <= N: the points (ikh, ikz) of the line have this frequency *)
Theorem c296_dispersion_omega : forall n v xm ym l fig dh dz, regular khs dh -> regular kzs dz ->
  plot (Some n) (EqOmega v) xm ym false l = inl fig ->
  exists io, is_nearest omegas v io /\ let omega := nth io omegas 0 in
  (0 < omega <= n -> exists f, line fig = Some f /\ forall ih, (0 < ih)%nat -> exists z, f ih = Some z
     /\ wave_frequency n (INR ih * dh) (z * dz) = omega)
  /\ (~ 0 < omega <= n -> line fig = None).
Proof.
  intros n v xm ym l fig dh dz Rh Rz H. run H. destruct (nearest omegas v) as [io|] eqn:Hn; [|discriminate].
  apply nearest_spec in Hn. exists io. split; [exact Hn|]. cbv zeta.
  destruct (nth_error kzs 1) as [a|] eqn:Ea; [|discriminate]. destruct (nth_error khs 1) as [b|] eqn:Eb; [|discriminate].
  apply (second _ dz _ Rz) in Ea. apply (second _ dh _ Rh) in Eb. subst a b. inversion H as [E]. clear H. cbn [line dispersion].
  destruct Rh as [Hh _], Rz as [Hz _]. set (w := nth io omegas 0).
  destruct (Rlt_dec 0 w) as [P|P]; [destruct (Rle_dec w n) as [Q|Q]|]; (split; [intros K|intros K]); try lra; try reflexivity.
  eexists. split; [reflexivity|]. intros ih Hi. eexists. split; [reflexivity|].
  assert (Hx : 0 < INR ih) by (apply lt_0_INR; lia).
  assert (Hq : 0 <= n ^ 2 / w ^ 2 - 1).
  { replace (n ^ 2 / w ^ 2 - 1) with ((n - w) * (n + w) * (/ w * / w)) by (field; lra).
    apply Rmult_le_pos; [apply Rmult_le_pos; lra|]. pose proof (Rinv_0_lt_compat w P). nra. }
  change (n * (n * 1)) with (n ^ 2). change (w * (w * 1)) with (w ^ 2).
  unfold wave_frequency. set (s := sqrt (n ^ 2 / w ^ 2 - 1)).
  assert (Es : s * s = n ^ 2 / w ^ 2 - 1) by (apply sqrt_sqrt; exact Hq).
  assert (En : 0 < n) by lra.
  assert (Er : sqrt ((INR ih * dh) ^ 2 + (s / (dz / dh) * INR ih * dz) ^ 2) = INR ih * dh * (n / w)).
  { replace ((INR ih * dh) ^ 2 + (s / (dz / dh) * INR ih * dz) ^ 2) with ((INR ih * dh) * (INR ih * dh) * (1 + s * s)) by (field; lra).
    rewrite Es. replace (INR ih * dh * (INR ih * dh) * (1 + (n ^ 2 / w ^ 2 - 1))) with ((INR ih * dh * (n / w)) * (INR ih * dh * (n / w))) by (field; lra).
    apply sqrt_square. apply Rmult_le_pos; [nra|]. apply Rlt_le, Rdiv_lt_0_compat; lra. }
  rewrite Er. field. repeat split; lra.
Qed.

(** with N: the limits are those asked for, by default the largest values of the axes *)
Theorem c296_limits_partial : forall n eq xm ym e l fig, plot (Some n) eq xm ym e l = inl fig ->
  exists a b, limits fig = Some (a, b)
  /\ match xm with Some m => a = m | None => xs fig <> [] -> In a (xs fig) /\ forall x, In x (xs fig) -> x <= a end
  /\ match ym with Some m => b = m | None => ys fig <> [] -> In b (ys fig) /\ forall y, In y (ys fig) -> y <= b end.
Proof.
  intros n eq xm ym e l fig H. unfold plot_kzkhomega in H.
  destruct (index_equation khs kzs eq) as [eq'|]; [|discriminate].
  destruct (slice khs kzs omegas spectrum (Some n) eq') as [[[[k x] y] s]|]; [|discriminate].
  destruct (nth_error kzs 1), (nth_error khs 1); try discriminate.
  assert (M : forall l : list R, l <> [] -> In (max_list l) l /\ forall z, In z l -> z <= max_list l).
  { intros [|z q] Hq; [congruence|]. cbn [max_list]. destruct (maximum_spec q z) as (A & B & C). split.
    - destruct C as [->|C]; [left; reflexivity|right; exact C].
    - intros t [->|I]; [exact A|apply B; exact I]. }
  assert (E : limits fig = Some (match xm with Some m => m | None => max_list x end, match ym with Some m => m | None => max_list y end)
    /\ xs fig = x /\ ys fig = y).
  { destruct e; [destruct (empirical _ _ _ _ _ _); [|discriminate]|]; inversion H; auto. }
  destruct E as (E1 & -> & ->). eexists _, _. split; [exact E1|]. destruct xm, ym; auto.
Qed.

(** with N, for the slices at given kh or kz: the mean frequency and the half widths around it *)
Theorem c296_empirical_partial : forall n i xm ym l fig,
  (plot (Some n) (EqIkh i) xm ym true l = inl fig -> exists f, emp_lines fig = Some f
     /\ forall iz, f iz = (emp iz i / n, (emp iz i + delta_emp iz i / 2) / n, (emp iz i - delta_emp iz i / 2) / n))
  /\ (plot (Some n) (EqIkz i) xm ym true l = inl fig -> exists f, emp_lines fig = Some f
     /\ forall ih, f ih = (emp i ih / n, (emp i ih + delta_emp i ih / 2) / n, (emp i ih - delta_emp i ih / 2) / n)).
Proof.
  assert (T : forall n a d, three n a d = (a / n, (a + d / 2) / n, (a - d / 2) / n)).
  { intros. unfold three. replace (0.5 * d) with (d / 2) by lra. reflexivity. }
  intros n i xm ym l fig. split; intros H; run H.
  - destruct (i <? length khs)%nat; [|discriminate]. destruct (nth_error kzs 1), (nth_error khs 1); try discriminate.
    cbn [empirical] in H. inversion H. cbn [emp_lines]. eexists. split; [reflexivity|]. intros. apply T.
  - destruct (i <? length kzs)%nat; [|discriminate]. destruct (nth_error kzs 1), (nth_error khs 1); try discriminate.
    cbn [empirical] in H. inversion H. cbn [emp_lines]. eexists. split; [reflexivity|]. intros. apply T.
Qed.

(** with at least two wave numbers in both directions the slices are drawn *)
Theorem c296_works_partial : forall N i xm ym e l, (2 <= length khs)%nat -> (2 <= length kzs)%nat ->
  ((i < length khs)%nat -> exists fig, plot N (EqIkh i) xm ym e l = inl fig)
  /\ ((i < length kzs)%nat -> exists fig, plot N (EqIkz i) xm ym e l = inl fig)
  /\ (omegas <> [] -> forall v, exists fig, plot N (EqOmega v) xm ym false l = inl fig).
Proof.
  intros N i xm ym e l Hh Hz. unfold plot_kzkhomega. cbn [index_equation slice].
  destruct (nth_error kzs 1) as [a|] eqn:Ea; [|apply nth_error_None in Ea; lia].
  destruct (nth_error khs 1) as [b|] eqn:Eb; [|apply nth_error_None in Eb; lia].
  split; [|split].
  - intros L. apply Nat.ltb_lt in L. rewrite L. destruct N; [destruct e|]; cbn [empirical]; eauto.
  - intros L. apply Nat.ltb_lt in L. rewrite L. destruct N; [destruct e|]; cbn [empirical]; eauto.
  - intros O v. destruct (nearest_exists omegas v O) as [io ->]. destruct N; eauto.
Qed.

(** with N, plot_omega_emp and a slice at a given frequency (the default) it is always an error *)
Theorem c296_emp_omega : forall n eq xm ym l, eq = EqNone \/ (exists v, eq = EqOmega v) ->
  exists e, plot (Some n) eq xm ym true l = inr e.
Proof.
  intros n eq xm ym l H.
  assert (G : forall v, exists e, plot (Some n) (EqOmega v) xm ym true l = inr e).
  { intros v. unfold plot_kzkhomega. cbn [index_equation slice]. destruct (nearest omegas v); [|eauto].
    destruct (nth_error kzs 1); [|eauto]. destruct (nth_error khs 1); [|eauto].
    cbn [empirical]. destruct (_ =? _)%nat; eauto. }
  destruct H as [->|[v ->]]; [apply (G 0)|apply G].
Qed.

(** without N, the asked limits and the asked empirical frequencies are not drawn *)
Theorem c296_no_N : forall eq xm ym e l fig, plot None eq xm ym e l = inl fig ->
  limits fig = None /\ emp_lines fig = None /\ line fig = None.
Proof.
  intros eq xm ym e l fig H. unfold plot_kzkhomega in H. destruct (index_equation khs kzs eq) as [eq'|]; [|discriminate].
  destruct (slice khs kzs omegas spectrum None eq') as [[[[k x] y] s]|]; [|discriminate]. inversion H. auto.
Qed.
End Theorems.

Theorem c296_emp_refuted : exists khs kzs omegas spectrum emp delta_emp n,
  (exists fig, plot_kzkhomega khs kzs omegas spectrum emp delta_emp (Some n) EqNone None None false false = inl fig)
  /\ plot_kzkhomega khs kzs omegas spectrum emp delta_emp (Some n) EqNone None None true false = inr UnboundLocalErr.
Proof.
  exists [0; 1], [0; 1], [0], (fun _ _ _ => 1), (fun _ _ => 0), (fun _ _ => 0), 1. split; [eexists|]; reflexivity.
Qed.

Theorem c296_no_N_refuted : exists khs kzs omegas spectrum emp delta_emp fig,
  plot_kzkhomega khs kzs omegas spectrum emp delta_emp None (EqIkh 1) (Some 1) (Some 1) true false = inl fig
  /\ limits fig = None /\ emp_lines fig = None.
Proof.
  exists [0; 1], [0; 1], [0], (fun _ _ _ => 1), (fun _ _ => 0), (fun _ _ => 0). eexists. split; [reflexivity|split; reflexivity].
Qed.

Example c296_example : regular [0; 2] 2 /\ regular [0; 3] 3 /\ exists fig,
  plot_kzkhomega [0; 2] [0; 3] [0; 1] (fun _ _ _ => 1) (fun _ _ => 0) (fun _ _ => 0) (Some 2) (EqIkh 1) None None true true = inl fig.
Proof.
  split; [|split; [|eexists; reflexivity]]; (split; [lra|]); intros [|[|i]] H; cbn in *; try lra; lia.
Qed.

Print Assumptions c296_nearest_kh.
Print Assumptions c296_nearest_kz.
Print Assumptions c296_values_kh.
Print Assumptions c296_values_kz.
Print Assumptions c296_values_omega.
Print Assumptions c296_drawn.
Print Assumptions c296_dispersion_kh.
Print Assumptions c296_dispersion_kz.
Print Assumptions c296_dispersion_omega.
Print Assumptions c296_limits_partial.
Print Assumptions c296_empirical_partial.
Print Assumptions c296_works_partial.
Print Assumptions c296_emp_omega.
Print Assumptions c296_no_N.
Print Assumptions c296_emp_refuted.
Print Assumptions c296_no_N_refuted.
