(** * C15-C18: aliasing *)

From Coq Require Import Reals Lra Lia ZArith List Bool Psatz.
From Coquelicot Require Import Complex.
From Verif Require Import CExp DFT Alias_Model Alias_Proofs Schemes_Model.
Import ListNotations.
Open Scope R_scope.

(** ** C16: the random pairs *)

(** In each direction the two shifts are within half a grid step and differ by half a grid
    step; the phases are those of these shifts. *)
Definition good_shifts (a b : R) : Prop :=
  - (1/2) <= a <= 1/2 /\ - (1/2) <= b <= 1/2 /\ Rabs (a - b) = 1 / 2.

Lemma good_beta a : - (1/2) <= a <= 1/2 -> good_shifts a (beta_of a).
Proof. intros H. repeat split; try apply beta_range; try lra. apply beta_half. Qed.

Theorem c16_pairs_1d o ax : - (1/2) <= ax <= 1/2 -> exists bx, good_shifts ax bx /\
  forall m, fst (get_phases_random_1d o ax) m = ax * (deltax o * Kx o m)
         /\ snd (get_phases_random_1d o ax) m = bx * (deltax o * Kx o m).
Proof.
  intros H. exists (beta_of ax). split; [apply good_beta; exact H|].
  intros m. simpl. split; ring.
Qed.

Theorem c16_pairs_2d o ax ay : - (1/2) <= ax <= 1/2 -> - (1/2) <= ay <= 1/2 ->
  exists bx by_, good_shifts ax bx /\ good_shifts ay by_ /\
  forall m, fst (get_phases_random_2d o ax ay) m
            = ax * (deltax o * Kx o m) + ay * (deltay o * Ky o m)
         /\ snd (get_phases_random_2d o ax ay) m
            = bx * (deltax o * Kx o m) + by_ * (deltay o * Ky o m).
Proof.
  intros H H'. exists (beta_of ax), (beta_of ay). split; [apply good_beta; exact H|].
  split; [apply good_beta; exact H'|]. intros m. simpl. split; ring.
Qed.

Theorem c16_pairs_3d o ax ay az :
  - (1/2) <= ax <= 1/2 -> - (1/2) <= ay <= 1/2 -> - (1/2) <= az <= 1/2 ->
  exists bx by_ bz, good_shifts ax bx /\ good_shifts ay by_ /\ good_shifts az bz /\
  forall m, fst (get_phases_random_3d o ax ay az) m
            = ax * (deltax o * Kx o m) + ay * (deltay o * Ky o m) + az * (deltaz o * Kz o m)
         /\ snd (get_phases_random_3d o ax ay az) m
            = bx * (deltax o * Kx o m) + by_ * (deltay o * Ky o m) + bz * (deltaz o * Kz o m).
Proof.
  intros H H' H''. exists (beta_of ax), (beta_of ay), (beta_of az).
  split; [apply good_beta; exact H|]. split; [apply good_beta; exact H'|].
  split; [apply good_beta; exact H''|]. intros m. simpl. split; ring.
Qed.

Example c16_example : - (1/2) <= 1/4 <= 1/2 /\ beta_of (1/4) = - (1/4).
Proof. split; [lra|]. unfold beta_of. destruct (Rlt_dec (1/4) 0); lra. Qed.

(** ** C15: the mean over two shifted grids *)

(** What the weights of the pairs must satisfy: the products with p + q = k are kept, those
    folded an odd number of times disappear, other products do not appear. *)
Definition cancels_odd_folds (o : oper) (w : mode -> mode -> mode -> C) : Prop :=
  forall p q k,
    (forall l, folds o p q k l -> l = (0, 0, 0)%Z -> w p q k = RtoC 1)
    /\ (forall l, folds o p q k l -> Z.odd (mx l + my l + mz l) = true -> w p q k = RtoC 0)
    /\ ((forall l, ~ folds o p q k l) -> w p q k = RtoC 0)
    /\ Cmod (w p q k) <= 1.

Lemma mean_weight_cancels o ax ay az : oper_pos o -> cancels_odd_folds o (mean_weight o ax ay az).
Proof.
  intros Ho p q k. unfold mean_weight.
  destruct (congruent _ _) eqn:C.
  - apply congruent_folds in C; [|exact Ho]. destruct C as [l Hl].
    rewrite (folds_unique o p q k l Ho Hl). cbv zeta.
    assert (U : forall l', folds o p q k l' -> l' = l).
    { intros l' Hl'. rewrite <- (folds_unique o p q k l Ho Hl).
      symmetry. apply folds_unique; assumption. }
    repeat split.
    + intros l' Hl' E. rewrite <- (U l' Hl'), E. simpl Z.even. cbv iota.
      change (mx (0, 0, 0)%Z) with 0%Z. change (my (0, 0, 0)%Z) with 0%Z.
      change (mz (0, 0, 0)%Z) with 0%Z. rewrite <- cis_0. f_equal. ring.
    + intros l' Hl' O. rewrite (U l' Hl') in O. rewrite <- Z.negb_odd, O. reflexivity.
    + intros H. exfalso. exact (H l Hl).
    + destruct (Z.even _); [unfold cis; rewrite Cmod_cexp_phase; lra|rewrite Cmod_0; lra].
  - assert (Hn : forall l, ~ folds o p q k l).
    { intros l Hl. assert (congruent (grid_of o) (msubt (madd p q) k) = true); [|congruence].
      apply congruent_folds; eauto. }
    repeat split.
    + intros l Hl. exfalso. exact (Hn l Hl).
    + rewrite Cmod_0. lra.
Qed.

(** the mean of a tendency over the two grids of a pair of phase factors *)
Definition mean_over (N : (mode -> C) -> (mode -> C)) (Ea Eb : mode -> C) (S : mode -> C) (k : mode)
  : C := (RtoC (1/2) * (N (fun m => Ea m * S m) k / Ea k + N (fun m => Eb m * S m) k / Eb k))%C.

Lemma mean_over_ext o ms terms Ea Eb Ea' Eb' S k : oper_pos o ->
  (forall m, In m (k :: ms) -> Ea m = Ea' m /\ Eb m = Eb' m) ->
  mean_over (tendencies_quadratic (grid_of o) ms terms) Ea Eb S k
  = mean_over (tendencies_quadratic (grid_of o) ms terms) Ea' Eb' S k.
Proof.
  intros Ho H. unfold mean_over. destruct (H k (or_introl eq_refl)) as [-> ->].
  rewrite (tend_ext o ms terms (fun m => Ea m * S m)%C (fun m => Ea' m * S m)%C) by
    (try exact Ho; intros p Hp; destruct (H p (or_intror Hp)) as [-> _]; reflexivity).
  rewrite (tend_ext o ms terms (fun m => Eb m * S m)%C (fun m => Eb' m * S m)%C) by
    (try exact Ho; intros p Hp; destruct (H p (or_intror Hp)) as [_ ->]; reflexivity).
  reflexivity.
Qed.

(** the directions of the operator: nothing depends on y (or z) in fewer dimensions *)
Definition modes_2d (ms : list mode) : Prop := forall m, In m ms -> mz m = 0%Z.
Definition modes_1d (ms : list mode) : Prop := forall m, In m ms -> my m = 0%Z /\ mz m = 0%Z.

Theorem c15_random_3d o ms terms ax ay az : oper_pos o ->
  exists w, cancels_odd_folds o w /\ forall S k,
  mean_over (tendencies_quadratic (grid_of o) ms terms)
    (phaseshift_term (fst (get_phases_random_3d o ax ay az)))
    (phaseshift_term (snd (get_phases_random_3d o ax ay az))) S k
  = weighted w ms terms S k.
Proof.
  intros Ho. exists (mean_weight o ax ay az). split; [apply mean_weight_cancels; exact Ho|].
  intros S k.
  rewrite (mean_over_ext o ms terms _ _ (shift o ax ay az)
     (shift o (beta_of ax) (beta_of ay) (beta_of az))).
  - apply mean_shift; try apply beta_half; exact Ho.
  - exact Ho.
  - intros m _. rewrite !phaseshift_cis. simpl. split; apply phase3; exact Ho.
Qed.

Theorem c15_random_2d o ms terms ax ay : oper_pos o -> modes_2d ms ->
  exists w, cancels_odd_folds o w /\ forall S k, mz k = 0%Z ->
  mean_over (tendencies_quadratic (grid_of o) ms terms)
    (phaseshift_term (fst (get_phases_random_2d o ax ay)))
    (phaseshift_term (snd (get_phases_random_2d o ax ay))) S k
  = weighted w ms terms S k.
Proof.
  intros Ho H2. exists (mean_weight o ax ay 0). split; [apply mean_weight_cancels; exact Ho|].
  intros S k Hk.
  rewrite (mean_over_ext o ms terms _ _ (shift o ax ay 0)
     (shift o (beta_of ax) (beta_of ay) (beta_of 0))).
  - apply mean_shift; try apply beta_half; exact Ho.
  - exact Ho.
  - intros m Hm. assert (mz m = 0%Z) by (destruct Hm as [<-|Hm]; auto).
    rewrite !phaseshift_cis. simpl. split; apply phase2; assumption.
Qed.

Theorem c15_random_1d o ms terms ax : oper_pos o -> modes_1d ms ->
  exists w, cancels_odd_folds o w /\ forall S k, my k = 0%Z -> mz k = 0%Z ->
  mean_over (tendencies_quadratic (grid_of o) ms terms)
    (phaseshift_term (fst (get_phases_random_1d o ax)))
    (phaseshift_term (snd (get_phases_random_1d o ax))) S k
  = weighted w ms terms S k.
Proof.
  intros Ho H2. exists (mean_weight o ax 0 0). split; [apply mean_weight_cancels; exact Ho|].
  intros S k Hk Hk'.
  rewrite (mean_over_ext o ms terms _ _ (shift o ax 0 0)
     (shift o (beta_of ax) (beta_of 0) (beta_of 0))).
  - apply mean_shift; try apply beta_half; exact Ho.
  - exact Ho.
  - intros m Hm. assert (my m = 0%Z /\ mz m = 0%Z) as [E E'] by (destruct Hm as [<-|Hm]; auto).
    rewrite !phaseshift_cis. simpl. split; apply phase1; assumption.
Qed.

(** the schemes without random numbers: the grid itself and the grid shifted by one half *)
Lemma fixed_pair o ms terms phase : oper_pos o ->
  (forall m, In m ms -> cis (phase m) = shift o (1/2) (1/2) (1/2) m) ->
  exists w, cancels_odd_folds o w /\ forall S k, cis (phase k) = shift o (1/2) (1/2) (1/2) k ->
  let N := tendencies_quadratic (grid_of o) ms terms in
  let E := phaseshift_term phase in
  (RtoC (1/2) * (N S k + N (fun m => E m * S m) k / E k))%C = weighted w ms terms S k.
Proof.
  intros Ho H. exists (mean_weight o 0 0 0). split; [apply mean_weight_cancels; exact Ho|].
  intros S k Hk N E.
  rewrite <- (mean_shift o ms terms S k 0 0 0 (1/2) (1/2) (1/2)); try exact Ho;
    try (replace (0 - 1 / 2) with (- (1 / 2)) by ring; rewrite Rabs_Ropp, Rabs_pos_eq; lra).
  cbv zeta. fold N. f_equal. f_equal.
  - rewrite shift_0. unfold N.
    rewrite (tend_ext o ms terms (fun m => shift o 0 0 0 m * S m)%C S) by
      (try exact Ho; intros; rewrite shift_0; ring).
    apply C_eq; simpl; field.
  - unfold E at 2. rewrite phaseshift_cis, Hk. f_equal. unfold N. apply tend_ext; [exact Ho|].
    intros p Hp. unfold E. rewrite phaseshift_cis, H by exact Hp. reflexivity.
Qed.

Theorem c15_fixed_3d o ms terms : oper_pos o ->
  exists w, cancels_odd_folds o w /\ forall S k,
  let N := tendencies_quadratic (grid_of o) ms terms in
  let E := phaseshift_term (phase_3d o) in
  (RtoC (1/2) * (N S k + N (fun m => E m * S m) k / E k))%C = weighted w ms terms S k.
Proof.
  intros Ho.
  assert (P : forall m, cis (phase_3d o m) = shift o (1/2) (1/2) (1/2) m).
  { intros m. rewrite <- phase3 by exact Ho. f_equal. unfold phase_3d. ring. }
  destruct (fixed_pair o ms terms (phase_3d o) Ho (fun m _ => P m)) as (w & Hw & E).
  exists w. split; [exact Hw|]. intros S k. apply E, P.
Qed.

Theorem c15_fixed_2d o ms terms : oper_pos o -> modes_2d ms ->
  exists w, cancels_odd_folds o w /\ forall S k, mz k = 0%Z ->
  let N := tendencies_quadratic (grid_of o) ms terms in
  let E := phaseshift_term (phase_2d o) in
  (RtoC (1/2) * (N S k + N (fun m => E m * S m) k / E k))%C = weighted w ms terms S k.
Proof.
  intros Ho H2.
  assert (P : forall m, mz m = 0%Z -> cis (phase_2d o m) = shift o (1/2) (1/2) (1/2) m).
  { intros m Hm. rewrite <- phase2 by assumption. f_equal. unfold phase_2d. ring. }
  destruct (fixed_pair o ms terms (phase_2d o) Ho (fun m Hm => P m (H2 m Hm))) as (w & Hw & E).
  exists w. split; [exact Hw|]. intros S k Hk. apply E, P, Hk.
Qed.

Theorem c15_fixed_1d o ms terms : oper_pos o -> modes_1d ms ->
  exists w, cancels_odd_folds o w /\ forall S k, my k = 0%Z -> mz k = 0%Z ->
  let N := tendencies_quadratic (grid_of o) ms terms in
  let E := phaseshift_term (phase_1d o) in
  (RtoC (1/2) * (N S k + N (fun m => E m * S m) k / E k))%C = weighted w ms terms S k.
Proof.
  intros Ho H2.
  assert (P : forall m, my m = 0%Z -> mz m = 0%Z ->
     cis (phase_1d o m) = shift o (1/2) (1/2) (1/2) m).
  { intros m Hm Hm'. rewrite <- phase1 by assumption. reflexivity. }
  destruct (fixed_pair o ms terms (phase_1d o) Ho
    (fun m Hm => P m (proj1 (H2 m Hm)) (proj2 (H2 m Hm)))) as (w & Hw & E).
  exists w. split; [exact Hw|]. intros S k Hk Hk'. apply E, P; assumption.
Qed.

(** *** When all the aliases are folded once, in one direction, the result is exact *)

Definition singly (o : oper) (ms : list mode) (k : mode) : Prop :=
  forall p q l, In p ms -> In q ms -> folds o p q k l ->
    (Z.abs (mx l) + Z.abs (my l) + Z.abs (mz l) <= 1)%Z.

Lemma exact_from_weights o w ms terms S k : oper_pos o -> cancels_odd_folds o w ->
  singly o ms k -> weighted w ms terms S k = weighted exact_weight ms terms S k.
Proof.
  intros Ho Hw Hs. apply weighted_ext; [|reflexivity]. intros p q Hp Hq.
  destruct (Hw p q k) as (W1 & W2 & W3 & _). unfold exact_weight.
  destruct (congruent (grid_of o) (msubt (madd p q) k)) eqn:C.
  - apply congruent_folds in C; [|exact Ho]. destruct C as [l Hl].
    pose proof (Hs p q l Hp Hq Hl) as B.
    destruct (mode_eqb (madd p q) k) eqn:E.
    + apply exact_iff in E. apply (W1 l Hl). destruct Ho as (H1 & H2 & H3 & _).
      destruct Hl as (F1 & F2 & F3). destruct l as [[lx ly] lz].
      unfold mx, my, mz in *; simpl in *. repeat f_equal; nia.
    + apply (W2 l Hl).
      assert (Hn : ~ (mx l = 0 /\ my l = 0 /\ mz l = 0)%Z).
      { intros (E1 & E2 & E3). destruct Hl as (F1 & F2 & F3). rewrite E1, E2, E3 in *.
        assert (mode_eqb (madd p q) k = true) by (apply exact_iff; lia). congruence. }
      destruct (Z.odd _) eqn:O; [reflexivity|].
      rewrite <- Z.negb_even in O. apply negb_false_iff, Z.even_spec in O.
      destruct O as [c Hc]. lia.
  - destruct (mode_eqb (madd p q) k) eqn:E.
    + assert (congruent (grid_of o) (msubt (madd p q) k) = true); [|congruence].
      apply congruent_folds; [exact Ho|]. apply exact_iff in E. exists (0, 0, 0)%Z.
      unfold folds. change (mx (0, 0, 0)%Z) with 0%Z. change (my (0, 0, 0)%Z) with 0%Z.
      change (mz (0, 0, 0)%Z) with 0%Z. lia.
    + apply W3. intros l Hl.
      assert (congruent (grid_of o) (msubt (madd p q) k) = true); [|congruence].
      apply congruent_folds; eauto.
Qed.

(** In one dimension no truncation is needed: all the modes represented on the grid. *)
Theorem c15_exact_1d o ms terms ax S k : oper_pos o -> modes_1d ms ->
  (forall m, In m (k :: ms) -> my m = 0%Z /\ mz m = 0%Z /\ (2 * Z.abs (mx m) <= Z.of_nat (nx o))%Z) ->
  mean_over (tendencies_quadratic (grid_of o) ms terms)
    (phaseshift_term (fst (get_phases_random_1d o ax)))
    (phaseshift_term (snd (get_phases_random_1d o ax))) S k
  = weighted exact_weight ms terms S k.
Proof.
  intros Ho H1 Hr. destruct (c15_random_1d o ms terms ax Ho H1) as (w & Hw & E).
  destruct (Hr k (or_introl eq_refl)) as (Ky & Kz & Kx).
  rewrite E by assumption. apply (exact_from_weights o w); try assumption.
  intros p q l Hp Hq (F1 & F2 & F3).
  destruct (Hr p (or_intror Hp)) as (Py & Pz & Px), (Hr q (or_intror Hq)) as (Qy & Qz & Qx).
  destruct Ho as (N1 & N2 & N3 & _). rewrite Ky, Py, Qy in F2. rewrite Kz, Pz, Qz in F3.
  assert (my l = 0%Z) by nia. assert (mz l = 0%Z) by nia.
  assert (Z.abs (mx l) < 2)%Z by nia. lia.
Qed.

(** ** C17: no aliased contribution with the 2/3 rule *)

Definition kept_alias_free (kept : mode -> bool) (o : oper) : Prop :=
  forall p q k, kept p = true -> kept q = true -> kept k = true -> ~ aliased o p q k.

(** modes of a one dimensional operator *)
Definition is_1d (m : mode) : bool := ((my m =? 0) && (mz m =? 0))%Z.
Definition is_2d (m : mode) : bool := (mz m =? 0)%Z.
Definition kept_1d coef o m := is_1d m && negb (where_dealiased_1d coef o m).

Lemma kept_1d_bound coef o m : oper_pos o -> kept_1d coef o m = true ->
  my m = 0%Z /\ mz m = 0%Z /\ Rabs (IZR (mx m)) <= coef * INR (nx o / 2).
Proof.
  intros Ho H. unfold kept_1d, is_1d in H. apply andb_true_iff in H. destruct H as [H K].
  apply andb_true_iff in H. destruct H as [Hy Hz]. apply Z.eqb_eq in Hy, Hz.
  split; [exact Hy|]. split; [exact Hz|].
  apply negb_true_iff in K. unfold where_dealiased_1d, gtb in K.
  destruct (Rlt_dec _ _) as [|K']; [discriminate|]. apply Rnot_lt_le in K'.
  replace (S (nx o / 2) - 1)%nat with (nx o / 2)%nat in K' by lia.
  unfold Kx in K'. destruct Ho as (_ & _ & _ & L & _).
  assert (D : 0 < deltakx o).
  { unfold deltakx. pose proof PI_RGT_0. apply Rdiv_lt_0_compat; lra. }
  rewrite Rabs_mult, (Rabs_pos_eq (deltakx o)) in K' by lra.
  apply Rmult_le_reg_l with (deltakx o); [exact D|]. lra.
Qed.

Lemma half_INR n : 2 * INR (n / 2) <= INR n.
Proof.
  pose proof (Nat.mul_div_le n 2 ltac:(lia)) as H. apply le_INR in H. rewrite mult_INR in H.
  simpl (INR 2) in H. lra.
Qed.

Lemma three_bound a b c B n : Rabs a <= B -> Rabs b <= B -> Rabs c <= B ->
  a + b - c = n -> Rabs n <= 3 * B.
Proof.
  intros Ha Hb Hc <-. revert Ha Hb Hc. unfold Rabs.
  destruct (Rcase_abs a), (Rcase_abs b), (Rcase_abs c), (Rcase_abs _); lra.
Qed.

(** the rule holds for every coefficient smaller than 2/3 *)
Theorem c17_1d_partial coef o : oper_pos o -> coef < 2 / 3 -> kept_alias_free (kept_1d coef o) o.
Proof.
  intros Ho Hc p q k Hp Hq Hk [l [(F1 & F2 & F3) Hl]].
  apply kept_1d_bound in Hp, Hq, Hk; try exact Ho.
  destruct Hp as (Py & Pz & Px), Hq as (Qy & Qz & Qx), Hk as (Ky & Kz & Kx).
  pose proof Ho as (N1 & N2 & N3 & _). rewrite Ky, Py, Qy in F2. rewrite Kz, Pz, Qz in F3.
  assert (Ly : my l = 0%Z) by nia. assert (Lz : mz l = 0%Z) by nia.
  assert (Lx : (1 <= Z.abs (mx l))%Z).
  { destruct (Z.eq_dec (mx l) 0) as [E|E]; [|lia]. exfalso. apply Hl.
    destruct l as [[lx ly] lz]. unfold mx, my, mz in *; simpl in *. subst. reflexivity. }
  apply (f_equal IZR) in F1. rewrite !plus_IZR, mult_IZR, <- INR_IZR_INZ in F1.
  assert (B := three_bound _ _ _ _ (INR (nx o) * IZR (mx l)) Px Qx Kx ltac:(lra)).
  rewrite Rabs_mult, (Rabs_pos_eq (INR (nx o))), Rabs_Zabs in B by apply pos_INR.
  apply IZR_le in Lx. apply lt_INR in N1. simpl in N1.
  pose proof (half_INR (nx o)) as HH. pose proof (pos_INR (nx o / 2)).
  assert (INR (nx o) * 1 <= INR (nx o) * IZR (Z.abs (mx l))) by (apply Rmult_le_compat_l; lra).
  destruct (Rlt_dec 0 (INR (nx o / 2))); [|nra].
  assert (coef * INR (nx o / 2) < 2 / 3 * INR (nx o / 2)) by (apply Rmult_lt_compat_r; lra).
  lra.
Qed.

(** with coef = 2/3 it holds exactly when nx is not a multiple of 6 *)
Theorem c17_1d_two_thirds_partial o : oper_pos o -> (nx o mod 6 <> 0)%nat ->
  kept_alias_free (kept_1d (2/3) o) o.
Proof.
  intros Ho H6 p q k Hp Hq Hk [l [(F1 & F2 & F3) Hl]].
  apply kept_1d_bound in Hp, Hq, Hk; try exact Ho.
  destruct Hp as (Py & Pz & Px), Hq as (Qy & Qz & Qx), Hk as (Ky & Kz & Kx).
  pose proof Ho as (N1 & N2 & N3 & _). rewrite Ky, Py, Qy in F2. rewrite Kz, Pz, Qz in F3.
  assert (Ly : my l = 0%Z) by nia. assert (Lz : mz l = 0%Z) by nia.
  assert (Lx : (1 <= Z.abs (mx l))%Z).
  { destruct (Z.eq_dec (mx l) 0) as [E|E]; [|lia]. exfalso. apply Hl.
    destruct l as [[lx ly] lz]. unfold mx, my, mz in *; simpl in *. subst. reflexivity. }
  assert (I : forall m, Rabs (IZR m) <= 2 / 3 * INR (nx o / 2) ->
     (3 * Z.abs m <= 2 * Z.of_nat (nx o / 2))%Z).
  { intros m H. rewrite Rabs_Zabs, INR_IZR_INZ in H. apply le_IZR. rewrite !mult_IZR. lra. }
  apply I in Px, Qx, Kx.
  assert (D : (2 * Z.of_nat (nx o / 2) <= Z.of_nat (nx o))%Z)
    by (pose proof (Nat.mul_div_le (nx o) 2 ltac:(lia)); lia).
  (* equality everywhere *)
  assert (E : (Z.of_nat (nx o) = 2 * Z.of_nat (nx o / 2))%Z) by nia.
  assert (E3 : (Z.of_nat (nx o) = 3 * Z.abs (mx p))%Z) by nia.
  apply H6. apply Nat.mod_divide; [lia|].
  assert (Ev : exists c, (mx p = 2 * c)%Z \/ (mx p = 2 * c + 1)%Z)
    by (exists (mx p / 2)%Z; pose proof (Z.div_mod (mx p) 2 ltac:(lia));
        pose proof (Z.mod_pos_bound (mx p) 2 ltac:(lia)); lia).
  destruct Ev as [c [Ec|Ec]]; [|exfalso; lia].
  exists (Z.to_nat (Z.abs c)). apply Nat2Z.inj. rewrite Nat2Z.inj_mul, Z2Nat.id by lia. lia.
Qed.

(** FINDING: with the default coefficient 2/3 and a resolution divisible by 6 (the default is
    nx = 48) the modes +-nx/3 are kept and their products are aliased on kept modes, because the
    comparison is strict. *)
Theorem c17_1d_boundary o : oper_pos o -> (nx o mod 6 = 0)%nat ->
  exists p k, kept_1d (2/3) o p = true /\ kept_1d (2/3) o k = true /\ aliased o p p k.
Proof.
  intros Ho H6. pose proof Ho as (N1 & _ & _ & L & _).
  apply Nat.mod_divide in H6; [|lia]. destruct H6 as [c Hc].
  assert (K : forall s : Z, Z.abs s = 1%Z -> kept_1d (2/3) o ((s * (2 * Z.of_nat c))%Z, 0%Z, 0%Z) = true).
  { intros s Hs. unfold kept_1d, is_1d, where_dealiased_1d, gtb.
    destruct (Rlt_dec _ _) as [Hlt|]; [exfalso|reflexivity].
    replace (S (nx o / 2) - 1)%nat with (nx o / 2)%nat in Hlt by lia.
    assert (E : (nx o / 2 = 3 * c)%nat) by (rewrite Hc; replace (c * 6)%nat with (3 * c * 2)%nat by lia;
      apply Nat.div_mul; lia).
    rewrite E in Hlt. unfold Kx in Hlt. change (mx ((s * (2 * Z.of_nat c))%Z, 0%Z, 0%Z)) with (s * (2 * Z.of_nat c))%Z in Hlt.
    assert (D : 0 < deltakx o).
    { unfold deltakx. pose proof PI_RGT_0. apply Rdiv_lt_0_compat; lra. }
    rewrite Rabs_mult, (Rabs_pos_eq (deltakx o)), Rabs_Zabs, Z.abs_mul, Hs in Hlt by lra.
    rewrite Z.mul_1_l, Z.abs_eq, mult_IZR, <- INR_IZR_INZ, mult_INR in Hlt by lia. simpl in Hlt. lra. }
  exists ((1 * (2 * Z.of_nat c))%Z, 0%Z, 0%Z), ((-1 * (2 * Z.of_nat c))%Z, 0%Z, 0%Z).
  split; [apply K; reflexivity|]. split; [apply K; reflexivity|].
  exists (1, 0, 0)%Z. split; [|discriminate].
  unfold folds, mx, my, mz; cbn [fst snd]. rewrite Hc. lia.
Qed.

Theorem c17_1d_refuted : exists coef o, oper_pos o /\ coef <= 2 / 3 /\
  ~ kept_alias_free (kept_1d coef o) o.
Proof.
  exists (2/3), (mkOper 48 1 1 8 1 1).
  assert (Ho : oper_pos (mkOper 48 1 1 8 1 1)) by (repeat split; simpl; lia || lra).
  split; [exact Ho|]. split; [lra|]. intros H.
  destruct (c17_1d_boundary _ Ho eq_refl) as (p & k & Hp & Hk & Ha).
  exact (H p p k Hp Hp Hk Ha).
Qed.

(** *** Spherical truncation *)

(** same grid spacing in all directions (in wavenumbers: same deltak * n) *)
Definition same_spacing_2d o := deltaky o * INR (ny o) = deltakx o * INR (nx o).
Definition same_spacing_3d o :=
  same_spacing_2d o /\ deltakz o * INR (nz o) = deltakx o * INR (nx o).

Definition kept_spherical_3d coef o m := negb (where_dealiased_spherical K2_3d coef o m).
Definition kept_spherical_2d coef o m :=
  is_2d m && negb (where_dealiased_spherical K2_2d coef o m).

Lemma dk_pos o : oper_pos o -> 0 < deltakx o /\ 0 < deltaky o /\ 0 < deltakz o.
Proof.
  intros (_ & _ & _ & A & B & C). pose proof PI_RGT_0.
  repeat split; apply Rdiv_lt_0_compat; lra.
Qed.

(** the folding number of a triad inside a ball *)
Lemma ball_folds (W r2 px py pz qx qy qz kx ky kz lx ly lz : R) :
  0 < W ->
  px ^ 2 + py ^ 2 + pz ^ 2 < r2 -> qx ^ 2 + qy ^ 2 + qz ^ 2 < r2 -> kx ^ 2 + ky ^ 2 + kz ^ 2 < r2 ->
  px + qx - kx = W * lx -> py + qy - ky = W * ly -> pz + qz - kz = W * lz ->
  W ^ 2 * (lx ^ 2 + ly ^ 2 + lz ^ 2) < 9 * r2.
Proof.
  intros HW Hp Hq Hk Ex Ey Ez.
  replace (W ^ 2 * (lx ^ 2 + ly ^ 2 + lz ^ 2)) with
    ((W * lx) ^ 2 + (W * ly) ^ 2 + (W * lz) ^ 2) by ring.
  rewrite <- Ex, <- Ey, <- Ez.
  assert (C : forall a b c : R, (a + b - c) ^ 2 <= 3 * (a ^ 2 + b ^ 2 + c ^ 2)).
  { intros a b c. pose proof (pow2_ge_0 (a - b)). pose proof (pow2_ge_0 (a + c)).
    pose proof (pow2_ge_0 (b + c)). nra. }
  pose proof (C px qx kx). pose proof (C py qy ky). pose proof (C pz qz kz). lra.
Qed.

Lemma spherical_folds_3d coef o p q k l : oper_pos o -> same_spacing_3d o ->
  kept_spherical_3d coef o p = true -> kept_spherical_3d coef o q = true ->
  kept_spherical_3d coef o k = true -> folds o p q k l ->
  IZR (mx l ^ 2 + my l ^ 2 + mz l ^ 2) < 9 / 4 * coef ^ 2.
Proof.
  intros Ho [Sy Sz] Hp Hq Hk (F1 & F2 & F3).
  assert (G : forall m, kept_spherical_3d coef o m = true ->
     Kx o m ^ 2 + Ky o m ^ 2 + Kz o m ^ 2 < kmax_spherical coef o ^ 2).
  { intros m H. unfold kept_spherical_3d, where_dealiased_spherical, geb in H.
    destruct (Rle_dec _ _) as [|H']; [discriminate|]. apply Rnot_le_lt in H'. exact H'. }
  apply G in Hp, Hq, Hk.
  destruct (dk_pos o Ho) as (Dx & Dy & Dz). destruct Ho as (N1 & _ & _).
  apply lt_INR in N1. simpl in N1.
  set (W := deltakx o * INR (nx o)) in *.
  assert (HW : 0 < W) by (apply Rmult_lt_0_compat; assumption).
  apply (f_equal IZR) in F1, F2, F3. rewrite !plus_IZR, !mult_IZR, <- !INR_IZR_INZ in F1, F2, F3.
  assert (B := ball_folds W _ _ _ _ _ _ _ _ _ _ (IZR (mx l)) (IZR (my l)) (IZR (mz l)) HW Hp Hq Hk).
  unfold Kx, Ky, Kz in B.
  assert (B' : W ^ 2 * (IZR (mx l) ^ 2 + IZR (my l) ^ 2 + IZR (mz l) ^ 2)
     < 9 * kmax_spherical coef o ^ 2).
  { apply B.
    - unfold W. replace (deltakx o * IZR (mx p) + deltakx o * IZR (mx q) - deltakx o * IZR (mx k))
        with (deltakx o * (IZR (mx p) + IZR (mx q) - IZR (mx k))) by ring. rewrite F1. ring.
    - unfold same_spacing_2d in Sy. fold W in Sy. rewrite <- Sy.
      replace (deltaky o * IZR (my p) + deltaky o * IZR (my q) - deltaky o * IZR (my k))
        with (deltaky o * (IZR (my p) + IZR (my q) - IZR (my k))) by ring. rewrite F2. ring.
    - rewrite <- Sz.
      replace (deltakz o * IZR (mz p) + deltakz o * IZR (mz q) - deltakz o * IZR (mz k))
        with (deltakz o * (IZR (mz p) + IZR (mz q) - IZR (mz k))) by ring. rewrite F3. ring. }
  unfold kmax_spherical in B'.
  replace (coef * deltakx o * INR (nx o) / 2) with (coef / 2 * W) in B' by (unfold W; field).
  rewrite !plus_IZR. replace (mx l ^ 2)%Z with (mx l * mx l)%Z by ring.
  replace (my l ^ 2)%Z with (my l * my l)%Z by ring.
  replace (mz l ^ 2)%Z with (mz l * mz l)%Z by ring. rewrite !mult_IZR.
  apply Rmult_lt_reg_l with (W ^ 2); [nra|]. nra.
Qed.

Lemma spherical_folds_2d coef o p q k l : oper_pos o -> same_spacing_2d o ->
  kept_spherical_2d coef o p = true -> kept_spherical_2d coef o q = true ->
  kept_spherical_2d coef o k = true -> folds o p q k l ->
  mz l = 0%Z /\ IZR (mx l ^ 2 + my l ^ 2 + mz l ^ 2) < 9 / 4 * coef ^ 2.
Proof.
  intros Ho Sy Hp Hq Hk (F1 & F2 & F3).
  assert (G : forall m, kept_spherical_2d coef o m = true -> mz m = 0%Z /\
     Kx o m ^ 2 + Ky o m ^ 2 + 0 ^ 2 < kmax_spherical coef o ^ 2).
  { intros m H. unfold kept_spherical_2d, where_dealiased_spherical, geb in H.
    apply andb_true_iff in H. destruct H as [Z0 H]. apply Z.eqb_eq in Z0. split; [exact Z0|].
    destruct (Rle_dec _ _) as [|H']; [discriminate|]. apply Rnot_le_lt in H'.
    unfold K2_2d in H'. lra. }
  apply G in Hp, Hq, Hk. destruct Hp as [Pz Hp], Hq as [Qz Hq], Hk as [Kz' Hk].
  destruct (dk_pos o Ho) as (Dx & Dy & Dz). destruct Ho as (N1 & _ & N3 & _).
  rewrite Pz, Qz, Kz' in F3. assert (Lz : mz l = 0%Z) by nia. split; [exact Lz|].
  apply lt_INR in N1. simpl in N1.
  set (W := deltakx o * INR (nx o)) in *.
  assert (HW : 0 < W) by (apply Rmult_lt_0_compat; assumption).
  apply (f_equal IZR) in F1, F2. rewrite !plus_IZR, !mult_IZR, <- !INR_IZR_INZ in F1, F2.
  assert (B := ball_folds W _ _ _ _ _ _ _ _ _ _ (IZR (mx l)) (IZR (my l)) 0 HW Hp Hq Hk).
  unfold Kx, Ky in B.
  assert (B' : W ^ 2 * (IZR (mx l) ^ 2 + IZR (my l) ^ 2 + 0 ^ 2)
     < 9 * kmax_spherical coef o ^ 2).
  { apply B.
    - unfold W. replace (deltakx o * IZR (mx p) + deltakx o * IZR (mx q) - deltakx o * IZR (mx k))
        with (deltakx o * (IZR (mx p) + IZR (mx q) - IZR (mx k))) by ring. rewrite F1. ring.
    - unfold same_spacing_2d in Sy. fold W in Sy. rewrite <- Sy.
      replace (deltaky o * IZR (my p) + deltaky o * IZR (my q) - deltaky o * IZR (my k))
        with (deltaky o * (IZR (my p) + IZR (my q) - IZR (my k))) by ring. rewrite F2. ring.
    - ring. }
  unfold kmax_spherical in B'.
  replace (coef * deltakx o * INR (nx o) / 2) with (coef / 2 * W) in B' by (unfold W; field).
  rewrite Lz, !plus_IZR. replace (mx l ^ 2)%Z with (mx l * mx l)%Z by ring.
  replace (my l ^ 2)%Z with (my l * my l)%Z by ring. rewrite !mult_IZR. simpl (0 ^ 2)%Z.
  apply Rmult_lt_reg_l with (W ^ 2); [nra|]. nra.
Qed.

Lemma sq_sum_0 l : (mx l ^ 2 + my l ^ 2 + mz l ^ 2 < 1)%Z -> l = (0, 0, 0)%Z.
Proof.
  intros H. destruct l as [[a b] c]. unfold mx, my, mz in H; simpl fst in H; simpl snd in H.
  assert (a = 0 /\ b = 0 /\ c = 0)%Z as (-> & -> & ->) by nia. reflexivity.
Qed.

Lemma sq_sum_1 l : (mx l ^ 2 + my l ^ 2 + mz l ^ 2 < 2)%Z ->
  (Z.abs (mx l) + Z.abs (my l) + Z.abs (mz l) <= 1)%Z.
Proof. intros H. nia. Qed.

Theorem c17_spherical_3d_partial coef o : oper_pos o -> same_spacing_3d o ->
  0 <= coef <= 2 / 3 -> kept_alias_free (kept_spherical_3d coef o) o.
Proof.
  intros Ho Hs Hc p q k Hp Hq Hk [l [Hf Hl]]. apply Hl, sq_sum_0.
  pose proof (spherical_folds_3d coef o p q k l Ho Hs Hp Hq Hk Hf).
  apply lt_IZR. nra.
Qed.

Theorem c17_spherical_2d_partial coef o : oper_pos o -> same_spacing_2d o ->
  0 <= coef <= 2 / 3 -> kept_alias_free (kept_spherical_2d coef o) o.
Proof.
  intros Ho Hs Hc p q k Hp Hq Hk [l [Hf Hl]]. apply Hl, sq_sum_0.
  destruct (spherical_folds_2d coef o p q k l Ho Hs Hp Hq Hk Hf) as [_ H].
  apply lt_IZR. nra.
Qed.

Example c17_spherical_example : same_spacing_3d (mkOper 48 24 12 8 4 2).
Proof.
  unfold same_spacing_3d, same_spacing_2d, deltakx, deltaky, deltakz. simpl. split; field.
Qed.

(** FINDING: the radius of the spherical truncation only takes account of the x direction: with
    a coarser grid in y the rule does not hold. *)
Theorem c17_spherical_refuted : exists coef o, oper_pos o /\ 0 <= coef <= 2 / 3 /\
  ~ kept_alias_free (kept_spherical_2d coef o) o.
Proof.
  exists (2/3), (mkOper 12 4 1 (2 * PI) (2 * PI) 1). pose proof PI_RGT_0 as HP.
  split; [repeat split; simpl; lia || lra|]. split; [lra|]. intros H.
  assert (K : forall y, (Z.abs y <= 3)%Z ->
     kept_spherical_2d (2/3) (mkOper 12 4 1 (2 * PI) (2 * PI) 1) (0, y, 0)%Z = true).
  { intros y Hy. unfold kept_spherical_2d, is_2d, where_dealiased_spherical, geb.
    destruct (Rle_dec _ _) as [Hle|]; [exfalso|reflexivity].
    unfold K2_2d, kmax_spherical, Kx, Ky, deltakx, deltaky in Hle. simpl nx in Hle.
    simpl Lx in Hle. simpl Ly in Hle. unfold mx, my in Hle. simpl fst in Hle. simpl snd in Hle.
    replace (2 * PI / (2 * PI)) with 1 in Hle by (field; lra).
    assert (Hr : -3 <= IZR y <= 3) by (split; apply IZR_le; lia).
    replace (INR 12) with 12 in Hle by (simpl; lra). nra. }
  apply (H (0, 1, 0)%Z (0, 1, 0)%Z (0, -2, 0)%Z); try (apply K; simpl; lia).
  exists (0, 1, 0)%Z. split; [|discriminate]. unfold folds, mx, my, mz; simpl. lia.
Qed.

(** ** C18: multiple aliases *)

Definition kept_nma_2d coef o m :=
  is_2d m && negb (where_dealiased_nma get_region_multiple_aliases_2d K2_2d coef o m).
Definition kept_nma_3d coef o m :=
  negb (where_dealiased_nma get_region_multiple_aliases_3d K2_3d coef o m).

Definition free_of_multiple_aliases (kept : mode -> bool) (o : oper) : Prop :=
  forall p q k, kept p = true -> kept q = true -> kept k = true -> ~ multiply_aliased o p q k.

Lemma nma_spherical_3d coef o m : coef <> 0 ->
  kept_nma_3d coef o m = true -> kept_spherical_3d coef o m = true.
Proof.
  intros Hc H. unfold kept_nma_3d, where_dealiased_nma in H.
  destruct (Req_EM_T coef 0) as [E|_]; [contradiction|].
  unfold kept_spherical_3d, where_dealiased_spherical.
  destruct (geb _ _); [rewrite orb_true_r in H; discriminate|reflexivity].
Qed.

Lemma nma_spherical_2d coef o m : coef <> 0 ->
  kept_nma_2d coef o m = true -> kept_spherical_2d coef o m = true.
Proof.
  intros Hc H. unfold kept_nma_2d, where_dealiased_nma in H.
  destruct (Req_EM_T coef 0) as [E|_]; [contradiction|].
  unfold kept_spherical_2d, where_dealiased_spherical.
  destruct (is_2d m); [|discriminate]. simpl in *.
  destruct (geb _ _); [rewrite orb_true_r in H; discriminate|reflexivity].
Qed.

(** for a coefficient up to sqrt(8)/3 = 0.943 (and the same spacing in all directions) the
    spherical truncation alone removes them *)
Theorem c18_spherical_3d_partial coef o : oper_pos o -> same_spacing_3d o ->
  0 <= coef <= sqrt 8 / 3 -> free_of_multiple_aliases (kept_spherical_3d coef o) o.
Proof.
  intros Ho Hs Hc p q k Hp Hq Hk [l [Hf Hl]].
  pose proof (spherical_folds_3d coef o p q k l Ho Hs Hp Hq Hk Hf) as B.
  assert (C2 : coef ^ 2 <= 8 / 9).
  { pose proof (sqrt_sqrt 8 ltac:(lra)). pose proof (sqrt_pos 8).
    replace (8 / 9) with ((sqrt 8 / 3) ^ 2) by (simpl; lra). apply pow_incr. exact Hc. }
  assert (B2 : (mx l ^ 2 + my l ^ 2 + mz l ^ 2 < 2)%Z) by (apply lt_IZR; lra).
  apply sq_sum_1 in B2. lia.
Qed.

Theorem c18_nma_3d_partial coef o : oper_pos o -> same_spacing_3d o ->
  0 < coef <= sqrt 8 / 3 -> free_of_multiple_aliases (kept_nma_3d coef o) o.
Proof.
  intros Ho Hs Hc p q k Hp Hq Hk.
  apply (c18_spherical_3d_partial coef o Ho Hs ltac:(lra)); apply nma_spherical_3d; assumption || lra.
Qed.

Theorem c18_nma_2d_partial coef o : oper_pos o -> same_spacing_2d o ->
  0 < coef <= sqrt 8 / 3 -> free_of_multiple_aliases (kept_nma_2d coef o) o.
Proof.
  intros Ho Hs Hc p q k Hp Hq Hk [l [Hf Hl]].
  destruct (spherical_folds_2d coef o p q k l Ho Hs) as [Lz B]; try exact Hf;
    try (apply nma_spherical_2d; assumption || lra).
  assert (C2 : coef ^ 2 <= 8 / 9).
  { pose proof (sqrt_sqrt 8 ltac:(lra)). pose proof (sqrt_pos 8).
    replace (8 / 9) with ((sqrt 8 / 3) ^ 2) by (simpl; lra). apply pow_incr. lra. }
  assert (B2 : (mx l ^ 2 + my l ^ 2 + mz l ^ 2 < 2)%Z) by (apply lt_IZR; lra).
  apply sq_sum_1 in B2. lia.
Qed.

(** whatever the coefficient, a mode with two components above one third of the number of points
    is not kept *)
Lemma geb_third d n c : 0 < d -> (3 * Z.abs c >= Z.of_nat n)%Z ->
  geb (Rabs (d * IZR c)) (2 / 3 * d * INR n / 2) = true.
Proof.
  intros Hd Hc. unfold geb. destruct (Rle_dec _ _) as [|H]; [reflexivity|exfalso; apply H].
  rewrite Rabs_mult, (Rabs_pos_eq d) by lra. rewrite Rabs_Zabs, INR_IZR_INZ.
  assert (Hr : IZR (Z.of_nat n) <= IZR (3 * Z.abs c)) by (apply IZR_le; lia).
  rewrite mult_IZR in Hr.
  replace (2 / 3 * d * IZR (Z.of_nat n) / 2) with (d * (IZR (Z.of_nat n) / 3)) by field.
  apply Rmult_le_compat_l; lra.
Qed.

Theorem c18_region_removed_3d_partial coef o m : oper_pos o -> kept_nma_3d coef o m = true ->
  let large c n := (3 * Z.abs c >= Z.of_nat n)%Z in
  ~ (large (mx m) (nx o) /\ large (my m) (ny o)) /\
  ~ (large (my m) (ny o) /\ large (mz m) (nz o)) /\
  ~ (large (mx m) (nx o) /\ large (mz m) (nz o)).
Proof.
  intros Ho H large. destruct (dk_pos o Ho) as (Dx & Dy & Dz).
  assert (R : get_region_multiple_aliases_3d o m = false).
  { revert H. unfold kept_nma_3d, where_dealiased_nma. destruct (Req_EM_T coef 0).
    - now rewrite negb_true_iff.
    - rewrite negb_true_iff, orb_false_iff. tauto. }
  unfold get_region_multiple_aliases_3d in R. rewrite !orb_false_iff in R.
  destruct R as [[R1 R2] R3].
  assert (X : large (mx m) (nx o) -> aliases_x o m = true) by (apply geb_third; exact Dx).
  assert (Y : large (my m) (ny o) -> aliases_y o m = true) by (apply geb_third; exact Dy).
  assert (Z : large (mz m) (nz o) -> aliases_z o m = true) by (apply geb_third; exact Dz).
  repeat split; intros [A B].
  - rewrite (X A), (Y B) in R1. discriminate.
  - rewrite (Y A), (Z B) in R2. discriminate.
  - rewrite (X A), (Z B) in R3. discriminate.
Qed.

Theorem c18_region_removed_2d_partial coef o m : oper_pos o -> kept_nma_2d coef o m = true ->
  ~ ((3 * Z.abs (mx m) >= Z.of_nat (nx o))%Z /\ (3 * Z.abs (my m) >= Z.of_nat (ny o))%Z).
Proof.
  intros Ho H [A B]. destruct (dk_pos o Ho) as (Dx & Dy & Dz).
  assert (R : get_region_multiple_aliases_2d o m = false).
  { revert H. unfold kept_nma_2d, where_dealiased_nma. destruct (is_2d m); [|discriminate].
    destruct (Req_EM_T coef 0); simpl.
    - now rewrite negb_true_iff.
    - rewrite negb_true_iff, orb_false_iff. tauto. }
  unfold get_region_multiple_aliases_2d, aliases_x, aliases_y, Kx, Ky in R.
  rewrite (geb_third _ _ _ Dx A), (geb_third _ _ _ Dy B) in R. discriminate.
Qed.

(** FINDING: with a larger coefficient (here 1, on 48 x 48 points) two modes outside the region
    are aliased in both directions on a mode outside the region. *)
Definition o48 : oper := mkOper 48 48 48 (2 * PI) (2 * PI) (2 * PI).

Lemma o48_kept_2d x y : (Z.abs y < 16)%Z \/ (Z.abs x < 16)%Z -> (x * x + y * y < 576)%Z ->
  kept_nma_2d 1 o48 (x, y, 0)%Z = true /\ kept_nma_3d 1 o48 (x, y, 0)%Z = true.
Proof.
  intros Hr H2. pose proof PI_RGT_0 as HP.
  assert (E : 2 * PI / (2 * PI) = 1) by (field; lra).
  assert (I48 : INR 48 = 48) by (simpl; lra).
  assert (A : forall z, (Z.abs z < 16)%Z -> geb (Rabs (1 * IZR z)) (2 / 3 * 1 * 48 / 2) = false).
  { intros z Hz. unfold geb. destruct (Rle_dec _ _) as [Hle|]; [exfalso|reflexivity].
    rewrite Rmult_1_l, Rabs_Zabs in Hle. apply IZR_lt in Hz. lra. }
  assert (B : geb ((1 * IZR x) ^ 2 + (1 * IZR y) ^ 2) ((1 * 1 * 48 / 2) ^ 2) = false).
  { unfold geb. destruct (Rle_dec _ _) as [Hle|]; [exfalso|reflexivity].
    apply IZR_lt in H2. rewrite plus_IZR, !mult_IZR in H2. nra. }
  assert (B' : geb ((1 * IZR x) ^ 2 + (1 * IZR y) ^ 2 + (1 * IZR 0) ^ 2) ((1 * 1 * 48 / 2) ^ 2) = false).
  { replace ((1 * IZR x) ^ 2 + (1 * IZR y) ^ 2 + (1 * IZR 0) ^ 2) with
      ((1 * IZR x) ^ 2 + (1 * IZR y) ^ 2) by ring. exact B. }
  pose proof (A 0%Z ltac:(lia)) as A0.
  unfold kept_nma_2d, kept_nma_3d, where_dealiased_nma, get_region_multiple_aliases_2d,
    get_region_multiple_aliases_3d, aliases_x, aliases_y, aliases_z, kmax_spherical, K2_2d, K2_3d,
    Kx, Ky, Kz, deltakx, deltaky, deltakz, is_2d, o48, mx, my, mz; cbn [nx ny nz Lx Ly Lz fst snd].
  rewrite E, I48, B, B', A0.
  destruct (Req_EM_T 1 0) as [F|_]; [lra|].
  destruct Hr as [Hy|Hx]; [rewrite (A y Hy)|rewrite (A x Hx)]; simpl;
    rewrite ?andb_false_r, ?andb_false_l, ?orb_false_r; auto.
Qed.

Theorem c18_refuted : exists coef o, oper_pos o /\ same_spacing_3d o /\ 0 < coef <= 1 /\
  ~ free_of_multiple_aliases (kept_nma_2d coef o) (mkOper 48 48 1 (2 * PI) (2 * PI) (2 * PI)) /\
  ~ free_of_multiple_aliases (kept_nma_3d coef o) o.
Proof.
  exists 1, o48. pose proof PI_RGT_0 as HP.
  split; [repeat split; simpl; lia || lra|].
  split; [unfold same_spacing_3d, same_spacing_2d; split; reflexivity|].
  split; [lra|].
  assert (M : forall n, multiply_aliased (mkOper 48 48 n (2 * PI) (2 * PI) (2 * PI))
     (19, 14, 0)%Z (14, 19, 0)%Z (-15, -15, 0)%Z).
  { intros n. exists (1, 1, 0)%Z. unfold folds, mx, my, mz; simpl. split; [lia|left; lia]. }
  split; intros H.
  - apply (H (19, 14, 0)%Z (14, 19, 0)%Z (-15, -15, 0)%Z); try apply M; apply o48_kept_2d; lia.
  - apply (H (19, 14, 0)%Z (14, 19, 0)%Z (-15, -15, 0)%Z); try apply (M 48%nat); apply o48_kept_2d; lia.
Qed.

(** ** Phase shifting and spherical truncation together are free of any aliasing *)

Theorem c15_exact_truncated_3d coef o ms terms ax ay az S k : oper_pos o -> same_spacing_3d o ->
  0 <= coef <= sqrt 8 / 3 ->
  (forall m, In m (k :: ms) -> kept_spherical_3d coef o m = true) ->
  mean_over (tendencies_quadratic (grid_of o) ms terms)
    (phaseshift_term (fst (get_phases_random_3d o ax ay az)))
    (phaseshift_term (snd (get_phases_random_3d o ax ay az))) S k
  = weighted exact_weight ms terms S k.
Proof.
  intros Ho Hs Hc Hkept. destruct (c15_random_3d o ms terms ax ay az Ho) as (w & Hw & E).
  rewrite E. apply (exact_from_weights o w); try assumption.
  intros p q l Hp Hq Hf. apply sq_sum_1.
  pose proof (spherical_folds_3d coef o p q k l Ho Hs (Hkept p (or_intror Hp))
     (Hkept q (or_intror Hq)) (Hkept k (or_introl eq_refl)) Hf) as B.
  assert (C2 : coef ^ 2 <= 8 / 9).
  { pose proof (sqrt_sqrt 8 ltac:(lra)). pose proof (sqrt_pos 8).
    replace (8 / 9) with ((sqrt 8 / 3) ^ 2) by (simpl; lra). apply pow_incr. exact Hc. }
  apply lt_IZR. lra.
Qed.

Theorem c15_exact_truncated_2d coef o ms terms ax ay S k : oper_pos o -> same_spacing_2d o ->
  0 <= coef <= sqrt 8 / 3 ->
  (forall m, In m (k :: ms) -> kept_spherical_2d coef o m = true) ->
  mean_over (tendencies_quadratic (grid_of o) ms terms)
    (phaseshift_term (fst (get_phases_random_2d o ax ay)))
    (phaseshift_term (snd (get_phases_random_2d o ax ay))) S k
  = weighted exact_weight ms terms S k.
Proof.
  intros Ho Hs Hc Hkept.
  assert (K2 : forall m, In m (k :: ms) -> mz m = 0%Z).
  { intros m Hm. specialize (Hkept m Hm). unfold kept_spherical_2d, is_2d in Hkept.
    apply andb_true_iff in Hkept. apply Z.eqb_eq. tauto. }
  destruct (c15_random_2d o ms terms ax ay Ho (fun m Hm => K2 m (or_intror Hm))) as (w & Hw & E).
  rewrite E by (apply K2; left; reflexivity). apply (exact_from_weights o w); try assumption.
  intros p q l Hp Hq Hf. apply sq_sum_1.
  destruct (spherical_folds_2d coef o p q k l Ho Hs (Hkept p (or_intror Hp))
     (Hkept q (or_intror Hq)) (Hkept k (or_introl eq_refl)) Hf) as [_ B].
  assert (C2 : coef ^ 2 <= 8 / 9).
  { pose proof (sqrt_sqrt 8 ltac:(lra)). pose proof (sqrt_pos 8).
    replace (8 / 9) with ((sqrt 8 / 3) ^ 2) by (simpl; lra). apply pow_incr. exact Hc. }
  apply lt_IZR. lra.
Qed.

(** the fixed pair, kept modes *)
Lemma exact_fixed_3d coef o ms terms S k : oper_pos o -> same_spacing_3d o ->
  0 <= coef <= sqrt 8 / 3 ->
  (forall m, In m (k :: ms) -> kept_spherical_3d coef o m = true) ->
  let N := tendencies_quadratic (grid_of o) ms terms in
  let E := phaseshift_term (phase_3d o) in
  (RtoC (1/2) * (N S k + N (fun m => E m * S m) k / E k))%C = weighted exact_weight ms terms S k.
Proof.
  intros Ho Hs Hc Hkept. destruct (c15_fixed_3d o ms terms Ho) as (w & Hw & E). cbv zeta.
  cbv zeta in E. rewrite E. apply (exact_from_weights o w); try assumption.
  intros p q l Hp Hq Hf. apply sq_sum_1.
  pose proof (spherical_folds_3d coef o p q k l Ho Hs (Hkept p (or_intror Hp))
     (Hkept q (or_intror Hq)) (Hkept k (or_introl eq_refl)) Hf) as B.
  assert (C2 : coef ^ 2 <= 8 / 9).
  { pose proof (sqrt_sqrt 8 ltac:(lra)). pose proof (sqrt_pos 8).
    replace (8 / 9) with ((sqrt 8 / 3) ^ 2) by (simpl; lra). apply pow_incr. exact Hc. }
  apply lt_IZR. lra.
Qed.

(** *** One step of the schemes is the step with the true (not aliased) quadratic terms *)

Section Steps.

Variables (coef : R) (o : oper) (ms : list mode)
  (terms : list ((mode -> C) * (mode -> C) * (mode -> C))).
Hypothesis (Ho : oper_pos o) (Hs : same_spacing_3d o) (Hc : 0 <= coef <= sqrt 8 / 3).
Hypothesis Hkept : forall m, In m ms -> kept_spherical_3d coef o m = true.

Let N := tendencies_quadratic (grid_of o) ms terms.
Let Nexact := weighted exact_weight ms terms.

Lemma kept_cons k : kept_spherical_3d coef o k = true ->
  forall m, In m (k :: ms) -> kept_spherical_3d coef o m = true.
Proof. intros Hk m [<-|Hm]; [exact Hk|apply Hkept, Hm]. Qed.

Theorem c15_euler_phaseshift_random_step ax ay az dt diss s k :
  kept_spherical_3d coef o k = true ->
  time_step_Euler_phaseshift_random mode N dt diss
    (phaseshift_term (fst (get_phases_random_3d o ax ay az)))
    (phaseshift_term (snd (get_phases_random_3d o ax ay az))) s STATE k
  = ((s STATE k + RtoC dt * Nexact (s STATE) k) * diss k)%C.
Proof.
  intros Hk.
  pose proof (c15_exact_truncated_3d coef o ms terms ax ay az (s STATE) k Ho Hs Hc
    (kept_cons k Hk)) as E.
  unfold Nexact. rewrite <- E. reflexivity.
Qed.

Theorem c15_euler_phaseshift_step dt diss s k :
  kept_spherical_3d coef o k = true ->
  time_step_Euler_phaseshift mode N dt diss (phaseshift_term (phase_3d o)) s STATE k
  = ((s STATE k + RtoC dt * Nexact (s STATE) k) * diss k)%C.
Proof.
  intros Hk.
  pose proof (exact_fixed_3d coef o ms terms (s STATE) k Ho Hs Hc (kept_cons k Hk)) as E.
  unfold Nexact. rewrite <- E. reflexivity.
Qed.

Theorem c15_rk2_phaseshift_exact_step dt diss diss2 s k :
  kept_spherical_3d coef o k = true ->
  let S := s STATE in
  let T0 := Nexact S in
  let S1 m := ((S m + RtoC dt * T0 m) * diss m)%C in
  let T1 := Nexact S1 in
  time_step_RK2_phaseshift_exact mode N dt diss diss2 (phaseshift_term (phase_3d o)) s STATE k
  = (S k * diss k + RtoC dt * diss2 k * (RtoC (1/2) * (T0 k + T1 k)))%C.
Proof.
  intros Hk S T0 S1 T1.
  set (E := phaseshift_term (phase_3d o)).
  set (T0' := fun m => (RtoC (1/2) * (N S m + N (fun i => E i * S i) m / E m))%C).
  set (S1' := fun m => ((S m + RtoC dt * T0' m) * diss m)%C).
  assert (F : time_step_RK2_phaseshift_exact mode N dt diss diss2 E s STATE k
    = (S k * diss k + RtoC dt * diss2 k * (RtoC (1/2) * (T0' k +
        RtoC (1/2) * (N S1' k + N (fun i => E i * S1' i) k / E k))))%C) by reflexivity.
  rewrite F. clear F.
  assert (H0 : forall m, kept_spherical_3d coef o m = true -> T0' m = T0 m).
  { intros m Hm. unfold T0', T0, Nexact, N, E. 
    apply (exact_fixed_3d coef o ms terms S m Ho Hs Hc (kept_cons m Hm)). }
  assert (H1 : (RtoC (1/2) * (N S1' k + N (fun i => E i * S1' i) k / E k))%C = T1 k).
  { unfold T1, Nexact.
    rewrite <- (exact_fixed_3d coef o ms terms S1 k Ho Hs Hc (kept_cons k Hk)). fold N E.
    assert (X : forall m, In m ms -> S1' m = S1 m).
    { intros m Hm. unfold S1', S1. rewrite H0 by (apply Hkept, Hm). reflexivity. }
    unfold N. rewrite (tend_ext o ms terms S1' S1 k Ho X).
    rewrite (tend_ext o ms terms (fun i => E i * S1' i)%C (fun i => E i * S1 i)%C k Ho)
      by (intros m Hm; rewrite X by exact Hm; reflexivity).
    reflexivity. }
  rewrite H1, H0 by exact Hk. reflexivity.
Qed.

End Steps.

Example c15_example : oper_pos o48 /\ same_spacing_3d o48 /\ 0 <= 9 / 10 <= sqrt 8 / 3 /\
  (forall m, In m [(3, -2, 0)%Z; (-20, 0, 0)%Z] -> kept_spherical_3d (9/10) o48 m = true).
Proof.
  pose proof PI_RGT_0. split; [repeat split; simpl; lia || lra|].
  split; [split; reflexivity|].
  split.
  - assert (27 / 10 <= sqrt 8); [|lra].
    rewrite <- (sqrt_pow2 (27 / 10)) by lra. apply sqrt_le_1_alt. lra.
  - assert (E : 2 * PI / (2 * PI) = 1) by (field; lra).
    assert (I48 : INR 48 = 48) by (simpl; lra).
    intros m [<-|[<-|[]]]; unfold kept_spherical_3d, where_dealiased_spherical, K2_3d,
      kmax_spherical, Kx, Ky, Kz, deltakx, deltaky, deltakz, o48, mx, my, mz, geb;
      cbn [nx ny nz Lx Ly Lz fst snd]; rewrite E, I48;
      destruct (Rle_dec _ _) as [Hle|]; [exfalso; simpl in Hle; lra|reflexivity
        |exfalso; simpl in Hle; lra|reflexivity].
Qed.

Print Assumptions c16_pairs_1d.
Print Assumptions c16_pairs_2d.
Print Assumptions c16_pairs_3d.
Print Assumptions c15_random_3d.
Print Assumptions c15_random_2d.
Print Assumptions c15_random_1d.
Print Assumptions c15_fixed_3d.
Print Assumptions c15_fixed_2d.
Print Assumptions c15_fixed_1d.
Print Assumptions c15_exact_1d.
Print Assumptions c15_exact_truncated_3d.
Print Assumptions c15_exact_truncated_2d.
Print Assumptions c15_euler_phaseshift_random_step.
Print Assumptions c15_euler_phaseshift_step.
Print Assumptions c15_rk2_phaseshift_exact_step.
Print Assumptions c17_1d_partial.
Print Assumptions c17_1d_two_thirds_partial.
Print Assumptions c17_1d_boundary.
Print Assumptions c17_1d_refuted.
Print Assumptions c17_spherical_3d_partial.
Print Assumptions c17_spherical_2d_partial.
Print Assumptions c17_spherical_refuted.
Print Assumptions c18_spherical_3d_partial.
Print Assumptions c18_nma_3d_partial.
Print Assumptions c18_nma_2d_partial.
Print Assumptions c18_region_removed_3d_partial.
Print Assumptions c18_region_removed_2d_partial.
Print Assumptions c18_refuted.
