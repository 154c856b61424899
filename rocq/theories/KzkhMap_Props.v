(** * Properties of the maps in the plane (kh, kz) *)

From Coq Require Import String List Reals Bool Lra.
From Verif Require Import XCorr_Model KzkhMap_Model.
Import ListNotations.
Local Open Scope R_scope.

(** ** Specification, independent of the model *)

(** the average m of the values l of the records *)
Fixpoint total (l : list R) : R := match l with [] => 0 | x :: r => x + total r end.
Definition average_of (l : list R) (m : R) : Prop := l <> [] /\ m * INR (List.length l) = total l.

(** the names with a map *)
Definition spec_names (s : solver) (o : out) : list string :=
  match s, o with
  | Ns3d, Spec => ["K"; "Khr"; "Khd"]
  | Strat3d, Spec => ["A"; "Khr"; "Khd"; "Kz"]
  | Ns3d, Corr => ["xy"; "xz"; "yz"]
  | Strat3d, Corr => ["xy"; "xz"; "xb"; "yz"; "yb"; "zb"]
  end%string.
Definition spec_budgets (s : solver) : list string :=
  match s with
  | Ns3d => ["transfer_Kh"; "transfer_Kz"; "transfer_Khr"; "diss_Kh"; "diss_Kz"]
  | Strat3d => ["transfer_Kh"; "transfer_Kz"; "transfer_Khr"; "diss_Kh"; "diss_Kz"; "diss_A"; "conv_K2A"; "transfer_A"]
  end%string.

(** ** Lemmas *)

Lemma mem_In : forall k l, mem k l = true <-> In k l.
Proof.
  intros k l. unfold mem. rewrite existsb_exists. split.
  - intros [x [H E]]. apply String.eqb_eq in E. subst. exact H.
  - intros H. exists k. split; [exact H | apply String.eqb_refl].
Qed.

Lemma mem_not : forall k l, mem k l = false <-> ~ In k l.
Proof. intros k l. rewrite <- mem_In. destruct (mem k l); split; congruence. Qed.

Lemma total_eq : forall l, fold_right Rplus 0 l = total l.
Proof. induction l as [|x l IH]; simpl; [reflexivity | rewrite IH; reflexivity]. Qed.

Lemma mean_average : forall l m, average_of l m -> mean l = m.
Proof.
  intros l m [Hn E]. unfold mean. rewrite total_eq, <- E.
  assert (P : 0 < INR (List.length l)). { apply lt_0_INR. destruct l; [congruence | simpl; auto with arith]. }
  field. lra.
Qed.

Lemma saved_spec : forall s o, saved_kzkh s o = spec_names s o.
Proof. intros [|] [|]; reflexivity. Qed.

Lemma ln10 : 0 < ln 10.
Proof. rewrite <- ln_1. apply ln_increasing; lra. Qed.

Lemma log10_pos : forall x, 0 < x -> log10 x = Val (ln x / ln 10).
Proof. intros x H. unfold log10. destruct (Rlt_dec 0 x); [reflexivity | lra]. Qed.

Lemma log_sign_large : forall x, 1 < x -> 0 < ln x / ln 10.
Proof.
  intros x H. apply Rdiv_lt_0_compat; [rewrite <- ln_1; apply ln_increasing; lra | apply ln10].
Qed.

Lemma log_sign_small : forall x, 0 < x < 1 -> ln x / ln 10 < 0.
Proof.
  intros x H. assert (L : ln x < 0). { rewrite <- ln_1. apply ln_increasing; lra. }
  assert (G := Rdiv_lt_0_compat (- ln x) (ln 10) ltac:(lra) ln10).
  replace (ln x / ln 10) with (- (- ln x / ln 10)). - lra. - assert (H10 := ln10). field. lra.
Qed.

Lemma corr_value : forall x, x <> 0 -> plotted Corr x = Val (sign x * (ln (Rabs x) / ln 10)).
Proof. intros x H. unfold plotted. rewrite log10_pos; [reflexivity | apply Rabs_pos_lt; exact H]. Qed.

Lemma plot_found : forall s o file k, In k (spec_names s o) ->
  plot_kzkh s o file (Some k) false = inl (plotted o (mean (file k))).
Proof.
  intros s o file k H. unfold plot_kzkh. rewrite saved_spec. apply mem_In in H. rewrite H. destruct s, o; reflexivity.
Qed.

(** ** C288 *)

(** the map of the spectra is the logarithm of the average, increasing with it *)
Theorem c288_spectra_partial : forall s file k m, In k (spec_names s Spec) -> average_of (file k) m -> 0 < m ->
  exists v, plot_kzkh s Spec file (Some k) false = inl (Val v) /\ exp (v * ln 10) = m.
Proof.
  intros s file k m Hk Hm H. rewrite (plot_found s Spec file k Hk), (mean_average _ _ Hm). simpl.
  rewrite (log10_pos m H). exists (ln m / ln 10). split; [reflexivity|].
  replace (ln m / ln 10 * ln 10) with (ln m) by (assert (L := ln10); field; lra).
  apply exp_ln. exact H.
Qed.

Theorem c288_spectra_order_partial : forall x y, 0 < x -> 0 < y ->
  exists v w, plotted Spec x = Val v /\ plotted Spec y = Val w /\ (x < y <-> v < w).
Proof.
  intros x y Hx Hy. exists (ln x / ln 10), (ln y / ln 10).
  simpl. rewrite !log10_pos by assumption. split; [reflexivity|]. split; [reflexivity|].
  assert (L := ln10). unfold Rdiv. split; intros H.
  - apply Rmult_lt_compat_r; [apply Rinv_0_lt_compat; exact L | apply ln_increasing; assumption].
  - apply Rmult_lt_reg_r in H; [apply ln_lt_inv; assumption | apply Rinv_0_lt_compat; exact L].
Qed.

(** a cell without energy is not drawn *)
Theorem c288_spectra_zero_partial : plotted Spec 0 = MInf /\ plotted Corr 0 = NaN.
Proof.
  split; simpl; unfold log10.
  - destruct (Rlt_dec 0 0); [lra|]. destruct (Req_EM_T 0 0); [reflexivity | congruence].
  - rewrite Rabs_R0. destruct (Rlt_dec 0 0); [lra|]. destruct (Req_EM_T 0 0); [|congruence].
    unfold times_sign, sign. destruct (Rlt_dec 0 0) as [A|A]; [lra|]. destruct (Rlt_dec 0 0) as [B|B]; [lra | reflexivity].
Qed.

(** the map of the correlations has the sign of the correlation where it is larger than one in absolute value... *)
Theorem c288_sign_partial : forall s file k m, In k (spec_names s Corr) -> average_of (file k) m -> 1 < Rabs m ->
  exists v, plot_kzkh s Corr file (Some k) false = inl (Val v) /\ 0 < v * m /\ exp (Rabs v * ln 10) = Rabs m.
Proof.
  intros s file k m Hk Hm H. rewrite (plot_found s Corr file k Hk), (mean_average _ _ Hm).
  assert (N : m <> 0). { intros E. subst. rewrite Rabs_R0 in H. lra. }
  rewrite (corr_value m N). exists (sign m * (ln (Rabs m) / ln 10)). split; [reflexivity|].
  assert (P := log_sign_large _ H). assert (L := ln10).
  assert (E : Rabs (sign m * (ln (Rabs m) / ln 10)) * ln 10 = ln (Rabs m)).
  { rewrite Rabs_mult, (Rabs_pos_eq (ln (Rabs m) / ln 10)) by lra.
    replace (Rabs (sign m)) with 1. - field. lra.
    - unfold sign. destruct (Rlt_dec 0 m). + rewrite Rabs_R1. reflexivity.
      + destruct (Rlt_dec m 0); [|lra]. unfold Rabs. destruct (Rcase_abs (-1)); lra. }
  split.
  - unfold sign. destruct (Rlt_dec 0 m).
    + rewrite Rmult_1_l. apply Rmult_lt_0_compat; assumption.
    + destruct (Rlt_dec m 0); [|lra].
      replace (-1 * (ln (Rabs m) / ln 10) * m) with ((ln (Rabs m) / ln 10) * - m) by ring.
      apply Rmult_lt_0_compat; lra.
  - rewrite E. apply exp_ln. lra.
Qed.

(** ... and the opposite sign where it is smaller than one *)
Theorem c288_opposite_partial : forall s file k m, In k (spec_names s Corr) -> average_of (file k) m -> 0 < Rabs m < 1 ->
  exists v, plot_kzkh s Corr file (Some k) false = inl (Val v) /\ v * m < 0.
Proof.
  intros s file k m Hk Hm H. rewrite (plot_found s Corr file k Hk), (mean_average _ _ Hm).
  assert (N : m <> 0). { intros E. subst. rewrite Rabs_R0 in H. lra. }
  rewrite (corr_value m N). exists (sign m * (ln (Rabs m) / ln 10)). split; [reflexivity|].
  assert (P := log_sign_small _ H).
  unfold sign. destruct (Rlt_dec 0 m).
  - rewrite Rmult_1_l. assert (G := Rmult_lt_0_compat (- (ln (Rabs m) / ln 10)) m ltac:(lra) ltac:(lra)). lra.
  - destruct (Rlt_dec m 0); [|lra].
    assert (G := Rmult_lt_0_compat (- (ln (Rabs m) / ln 10)) (- m) ltac:(lra) ltac:(lra)). lra.
Qed.

(** two correlations with opposite signs have the same color *)
Theorem c288_ambiguous_partial : forall x, x <> 0 -> plotted Corr (- / x) = plotted Corr x.
Proof.
  intros x H. assert (N : - / x <> 0). { apply Ropp_neq_0_compat, Rinv_neq_0_compat. exact H. }
  rewrite (corr_value x H), (corr_value _ N). f_equal.
  rewrite Rabs_Ropp, Rabs_inv, ln_Rinv by (apply Rabs_pos_lt; exact H).
  assert (S : sign (- / x) = - sign x).
  { unfold sign. destruct (Rtotal_order x 0) as [L | [E | G]].
    - assert (I := Rinv_lt_0_compat x L). destruct (Rlt_dec 0 x); [lra|]. destruct (Rlt_dec x 0); [|lra].
      destruct (Rlt_dec 0 (- / x)); [lra|]. lra.
    - congruence.
    - assert (I := Rinv_0_lt_compat x G). destruct (Rlt_dec 0 x); [|lra].
      destruct (Rlt_dec 0 (- / x)); [lra|]. destruct (Rlt_dec (- / x) 0); lra. }
  rewrite S. assert (L := ln10). field. lra.
Qed.

(** the map does not show the sign of the correlations, and is not increasing *)
Theorem c288_sign_refuted : exists file, average_of (file "xz"%string) (1 / 10) /\
  exists v, plot_kzkh Ns3d Corr file (Some "xz"%string) false = inl (Val v) /\ v < 0.
Proof.
  exists (fun _ => [1 / 10]).
  assert (A : average_of [1 / 10] (1 / 10)). { split; [discriminate | simpl; lra]. }
  split; [exact A|].
  destruct (c288_opposite_partial Ns3d (fun _ => [1 / 10]) "xz"%string (1 / 10)) as [v [E N]].
  - right. left. reflexivity.
  - exact A.
  - rewrite Rabs_pos_eq; lra.
  - exists v. split; [exact E | lra].
Qed.

Theorem c288_order_refuted : exists x y v w, x < y /\ plotted Corr x = Val v /\ plotted Corr y = Val w /\ w < v.
Proof.
  exists (- / 10), (/ 10), 1, (- 1). split; [lra|]. assert (L := ln10).
  rewrite !corr_value by lra. unfold sign.
  destruct (Rlt_dec 0 (- / 10)); [lra|]. destruct (Rlt_dec (- / 10) 0); [|lra]. destruct (Rlt_dec 0 (/ 10)); [|lra].
  rewrite Rabs_Ropp, Rabs_pos_eq, ln_Rinv by lra.
  split; [f_equal; field; lra|]. split; [f_equal; field; lra | lra].
Qed.

(** the keys with a map *)
Theorem c288_keys_partial : forall s o file k,
  (In k (spec_names s o) <-> exists p, plot_kzkh s o file (Some k) false = inl p).
Proof.
  intros s o file k. split.
  - intros H. rewrite (plot_found s o file k H). eexists; reflexivity.
  - intros [p E]. unfold plot_kzkh in E. rewrite saved_spec in E.
    destruct (mem k (spec_names s o)) eqn:M; [apply mem_In; exact M|].
    destruct (mem k (axes SpectraKzKh)); destruct s, o; discriminate E.
Qed.

(** plot_kzkh() of the spectra of ns3d is an error, not those of ns3d.strat and of the correlations *)
Theorem c288_default_refuted : exists s o, forall file, plot_kzkh s o file None false = inr ValueErr.
Proof. exists Ns3d, Spec. intros file. reflexivity. Qed.

Theorem c288_default_partial : forall s o file, s = Strat3d \/ o = Corr ->
  exists k p, In k (spec_names s o) /\ plot_kzkh s o file None false = inl p /\ plot_kzkh s o file (Some k) false = inl p.
Proof.
  intros [|] [|] file H; [destruct H; discriminate | exists "xz"%string | exists "Khd"%string | exists "xz"%string];
    eexists; split; [simpl; tauto | split; reflexivity | simpl; tauto | split; reflexivity | simpl; tauto | split; reflexivity].
Qed.

(** the limits of the colors do not change the values; the spectra of ns3d.strat refuse them *)
Theorem c288_limits_partial : forall s o file key, s = Ns3d \/ o = Corr ->
  plot_kzkh s o file key true = plot_kzkh s o file key false.
Proof. intros [|] [|] file key [H | H]; try discriminate H; reflexivity. Qed.

Theorem c288_limits_refuted : exists s o, forall file key, plot_kzkh s o file key true = inr TypeErr.
Proof. exists Strat3d, Spec. reflexivity. Qed.

Example c288_example : forall file, file "Khd"%string = [1; 3] -> average_of (file "Khd"%string) 2 /\
  exists v, plot_kzkh Strat3d Spec file None false = inl (Val v) /\ exp (v * ln 10) = 2.
Proof.
  intros file E. assert (A : average_of (file "Khd"%string) 2). { rewrite E. split; [discriminate | simpl; lra]. }
  split; [exact A|]. apply (c288_spectra_partial Strat3d file "Khd"%string 2); [simpl; tauto | exact A | lra].
Qed.

(** ** C289 *)

Lemma budget_keys : forall s, keys_saved (budget_file s) = spec_budgets s.
Proof. intros [|]; vm_compute; reflexivity. Qed.

Lemma filter_same : forall (f : string -> bool) l l', (forall k, In k l <-> In k l') -> forall k, In k (filter f l) <-> In k (filter f l').
Proof. intros f l l' H k. rewrite !filter_In, H. reflexivity. Qed.

(** the order of the data sets in the file does not matter; each budget has a map of its average, anything else is refused *)
Theorem c289_budget : forall s keys file k, (forall x, In x keys <-> In x (budget_file s)) ->
  (forall m, In k (spec_budgets s) -> average_of (file k) m -> plot_budget keys file (Some k) = inl m) /\
  (~ In k (spec_budgets s) -> plot_budget keys file (Some k) = inr ValueErr).
Proof.
  intros s keys file k H. assert (S : In k (keys_saved keys) <-> In k (spec_budgets s)).
  { rewrite <- budget_keys. apply filter_same. exact H. }
  unfold plot_budget. split.
  - intros m Hk Hm. apply S, mem_In in Hk. rewrite Hk, (mean_average _ _ Hm). reflexivity.
  - intros Hk. rewrite <- S in Hk. apply mem_not in Hk. rewrite Hk. reflexivity.
Qed.

Theorem c289_default : forall keys file, plot_budget keys file None = plot_budget keys file (Some "transfer_Kh"%string).
Proof. reflexivity. Qed.

(** the three spectra of each budget on the axes are saved and have no map *)
Theorem c289_axes : forall s keys file b d, (forall x, In x keys <-> In x (budget_file s)) ->
  In b (spec_budgets s) -> In d ["_kx"; "_ky"; "_kz"]%string ->
  In (b ++ d)%string keys /\ plot_budget keys file (Some (b ++ d)%string) = inr ValueErr.
Proof.
  intros s keys file b d H Hb Hd. split.
  - apply H. destruct s; simpl in Hb, Hd; repeat (destruct Hb as [Hb | Hb]; [subst b|]); try contradiction;
      repeat (destruct Hd as [Hd | Hd]; [subst d|]); try contradiction; apply mem_In; vm_compute; reflexivity.
  - apply (proj2 (c289_budget s keys file (b ++ d)%string H)).
    destruct s; simpl in Hb, Hd; repeat (destruct Hb as [Hb | Hb]; [subst b|]); try contradiction;
      repeat (destruct Hd as [Hd | Hd]; [subst d|]); try contradiction; apply mem_not; vm_compute; reflexivity.
Qed.

Example c289_example : average_of [1; -3] (-1) /\
  plot_budget (budget_file Ns3d) (fun _ => [1; -3]) None = inl (-1).
Proof.
  assert (A : average_of [1; -3] (-1)). { split; [discriminate | simpl; lra]. }
  split; [exact A|]. rewrite c289_default.
  apply (c289_budget Ns3d (budget_file Ns3d) (fun _ => [1; -3])); [reflexivity | simpl; tauto | exact A].
Qed.

Print Assumptions c288_spectra_partial.
Print Assumptions c288_ambiguous_partial.
Print Assumptions c288_sign_refuted.
Print Assumptions c288_order_refuted.
Print Assumptions c288_keys_partial.
Print Assumptions c289_budget.
Print Assumptions c289_axes.
Print Assumptions c288_spectra_order_partial.
Print Assumptions c288_spectra_zero_partial.
Print Assumptions c288_sign_partial.
Print Assumptions c288_opposite_partial.
Print Assumptions c288_default_partial.
Print Assumptions c288_limits_partial.
Print Assumptions c288_default_refuted.
Print Assumptions c288_limits_refuted.
Print Assumptions c289_default.
