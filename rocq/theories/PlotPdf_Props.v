(** Theorems on plot_pdf of the increments (C299) *)

From Coq Require Import Reals List Arith Lia.
From Verif Require Import PlotPdf_Model.
Import ListNotations.
Local Open Scope R_scope.

(** ** Lemmas *)

Lemma loop_inl load order l : forall s cs, loop load order s l = inl cs ->
  length cs = length l /\ map irx cs = l
  /\ (forall j c, nth_error cs j = Some c -> nth_error colors (s + j) = Some (col c) /\ points c = draw load order (irx c)).
Proof.
  induction l as [|i l IH]; intros s cs H; cbn [loop] in H.
  - inversion H. split; [reflexivity|]. split; [reflexivity|]. intros [|j] c E; discriminate.
  - destruct (nth_error colors s) as [k|] eqn:Ek; [|discriminate]. destruct (loop load order (S s) l) as [r|] eqn:Er; [|discriminate].
    inversion H. subst cs. destruct (IH _ _ Er) as (A & B & D). cbn [length map irx]. split; [now rewrite A|]. split; [now rewrite B|].
    intros [|j] c E; cbn [nth_error] in E.
    + inversion E. subst c. cbn [col points irx]. rewrite Nat.add_0_r. auto.
    + replace (s + S j)%nat with (S s + j)%nat by lia. apply D. exact E.
Qed.

Lemma loop_works load order l : forall s, (s + length l <= 7)%nat -> exists cs, loop load order s l = inl cs.
Proof.
  induction l as [|i l IH]; intros s H; cbn [loop]; [eauto|]. cbn [length] in H.
  destruct (nth_error colors s) as [k|] eqn:Ek.
  - destruct (IH (S s)) as [cs ->]; [lia|]. eauto.
  - apply nth_error_None in Ek. cbn in Ek. lia.
Qed.

Lemma loop_fails load order l : forall s, (7 < s + length l)%nat -> (0 < length l)%nat -> loop load order s l = inr IndexErr.
Proof.
  induction l as [|i l IH]; intros s H P; cbn [loop length] in *; [lia|].
  destruct (nth_error colors s) as [k|] eqn:Ek; [|reflexivity].
  assert (L : (s < 7)%nat) by (change 7%nat with (length colors); apply nth_error_Some; congruence).
  destruct l as [|j l]; [cbn [length] in H; lia|]. rewrite IH; [reflexivity|cbn [length] in *; lia|cbn; lia].
Qed.

Lemma indices n nb j : (j < nb)%nat -> nth_error (map (fun k => (k * n / nb)%nat) (seq 0 nb)) j = Some (j * n / nb)%nat.
Proof.
  intros H. apply map_nth_error with (f := fun k => (k * n / nb)%nat).
  rewrite nth_error_nth' with (d := 0%nat) by (rewrite seq_length; exact H). rewrite seq_nth by exact H. reflexivity.
Qed.

(** ** C299 *)

(** at most 7 curves, at least as many separations: one curve per separation, all different, from the smallest one and
    evenly distributed among the separations, with different colors and the points (v, pdf v^order) *)
Theorem c299_curves_partial : forall load n order nb, (0 < nb <= 7)%nat -> (nb <= n)%nat ->
  exists cs, plot_pdf load n order nb = inl cs /\ length cs = nb
  /\ (forall j c, nth_error cs j = Some c -> (irx c < n)%nat /\ (nb * irx c <= j * n < nb * (irx c + 1))%nat
        /\ nth_error [K; Y; Rd; B; G; M; C] j = Some (col c)
        /\ points c = map (fun vp => (fst vp, snd vp * fst vp ^ order)) (load (irx c)))
  /\ (forall i j c d, nth_error cs i = Some c -> nth_error cs j = Some d -> (i < j)%nat -> (irx c < irx d)%nat /\ col c <> col d).
Proof.
  intros load n order nb H L. unfold plot_pdf, irx_to_plot.
  destruct (Nat.eqb_spec nb 0); [lia|]. destruct (Nat.eqb_spec n 0); [lia|].
  set (l := map (fun k => (k * n / nb)%nat) (seq 0 nb)).
  assert (Ll : length l = nb) by (unfold l; rewrite map_length, seq_length; reflexivity).
  destruct (loop_works load order l 0) as [cs E]; [lia|]. rewrite E. exists cs. split; [reflexivity|].
  destruct (loop_inl _ _ _ _ _ E) as (A & B & D). rewrite Ll in A. split; [exact A|].
  assert (I : forall j c, nth_error cs j = Some c -> (j < nb)%nat /\ irx c = (j * n / nb)%nat).
  { intros j c Ej. assert (Hj : (j < nb)%nat) by (rewrite <- A; apply nth_error_Some; congruence). split; [exact Hj|].
    apply map_nth_error with (f := irx) in Ej. rewrite B in Ej. unfold l in Ej. rewrite indices in Ej by exact Hj. congruence. }
  assert (Q : forall j c, nth_error cs j = Some c -> (nb * irx c <= j * n < nb * (irx c + 1))%nat).
  { intros j c Ej. destruct (I _ _ Ej) as [_ Ei]. rewrite Ei.
    pose proof (Nat.mul_div_le (j * n) nb ltac:(lia)). pose proof (Nat.mul_succ_div_gt (j * n) nb ltac:(lia)). split; lia. }
  split.
  - intros j c Ej. destruct (I _ _ Ej) as [Hj _]. pose proof (Q _ _ Ej) as Hq. destruct (D _ _ Ej) as [D1 D2].
    split; [nia|]. split; [exact Hq|]. split; [exact D1|exact D2].
  - intros i j c d Ei Ej Hij. pose proof (Q _ _ Ei). pose proof (Q _ _ Ej). split; [nia|].
    destruct (I _ _ Ei) as [Hi _], (I _ _ Ej) as [Hj _]. destruct (D _ _ Ei) as [D1 _], (D _ _ Ej) as [D2 _]. intros Ec. rewrite Ec in D1. rewrite <- D2 in D1.
    cbn [Nat.add] in D1. assert (i = j); [|lia].
    assert (ND : NoDup colors) by (repeat constructor; cbn; intuition discriminate).
    rewrite NoDup_nth_error in ND. apply ND; [cbn; lia|exact D1].
Qed.

(** more than 7 curves: an error for all files *)
Theorem c299_many : forall load n order nb, (7 < nb)%nat -> (0 < n)%nat -> plot_pdf load n order nb = inr IndexErr.
Proof.
  intros load n order nb H P. unfold plot_pdf, irx_to_plot. destruct (Nat.eqb_spec nb 0); [lia|]. destruct (Nat.eqb_spec n 0); [lia|].
  apply loop_fails; rewrite map_length, seq_length; lia.
Qed.

Theorem c299_many_refuted : exists nb, forall load order, plot_pdf load 100 order nb = inr IndexErr.
Proof. exists 8%nat. intros. apply c299_many; lia. Qed.

(** fewer separations than curves: some are drawn several times (the default nb_rx_to_plot is 5) *)
Theorem c299_repeated_refuted : exists n, forall load order, exists cs, plot_pdf load n order 5 = inl cs /\ map irx cs = [0; 0; 1; 2; 3]%nat.
Proof. exists 4%nat. intros. eexists. split; reflexivity. Qed.

(** the largest separation is drawn only if all are *)
Theorem c299_last : forall load n order nb cs, (0 < nb)%nat -> (nb < n)%nat -> plot_pdf load n order nb = inl cs ->
  forall c, In c cs -> (irx c < n - 1)%nat.
Proof.
  intros load n order nb cs P L E c I. unfold plot_pdf, irx_to_plot in E.
  destruct (Nat.eqb_spec nb 0); [lia|]. destruct (Nat.eqb_spec n 0); [lia|].
  destruct (loop_inl _ _ _ _ _ E) as (_ & B & _). apply in_map with (f := irx) in I. rewrite B in I. apply in_map_iff in I.
  destruct I as (k & Ek & Ik). apply in_seq in Ik. rewrite <- Ek. apply Nat.div_lt_upper_bound; [lia|]. nia.
Qed.

Example c299_example : exists cs, plot_pdf (fun _ => [(2, 3)]) 10 1 5 = inl cs /\ map irx cs = [0; 2; 4; 6; 8]%nat.
Proof. eexists. split; reflexivity. Qed.

Print Assumptions c299_curves_partial.
Print Assumptions c299_many.
Print Assumptions c299_many_refuted.
Print Assumptions c299_repeated_refuted.
Print Assumptions c299_last.
