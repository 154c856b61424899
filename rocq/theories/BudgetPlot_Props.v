(** The curves which check the budgets (C235, C236) and the cumulative dissipation (C237). *)
From Coq Require Import Reals List Bool Lra Lia Arith.
From Verif Require Import BudgetPlot_Model.
Import ListNotations.
Local Open Scope R_scope.

(** ** Specification: a quantity which is a polynomial of degree 2 of the time, with a closed budget *)
Record quad := mkQuad { qa : R; qb : R; qc : R }.
Definition qval (q : quad) (t : R) : R := qa q + qb q * t + qc q * t ^ 2.
Definition qder (q : quad) (t : R) : R := qb q + 2 * qc q * t.

Fixpoint increasing (ts : list R) : Prop := match ts with t :: r => match r with t' :: _ => t < t' /\ increasing r | [] => True end | [] => True end.

(** ** Lemmas *)

Lemma increasing_tl : forall t ts, increasing (t :: ts) -> increasing ts.
Proof. intros t [| t' ts] H; cbn in *; tauto. Qed.

Lemma increasing_adj : forall ts i, increasing ts -> (S i < length ts)%nat -> nth i ts 0 < nth (S i) ts 0.
Proof.
  induction ts as [| t r IH]; intros i H L; [cbn in L; lia |].
  destruct r as [| t' r]; [cbn in L; lia |].
  destruct i as [| i]; [cbn in *; tauto |].
  change (nth (S i) (t :: t' :: r) 0) with (nth i (t' :: r) 0); change (nth (S (S i)) (t :: t' :: r) 0) with (nth (S i) (t' :: r) 0).
  apply IH; [apply increasing_tl in H; auto | cbn in *; lia].
Qed.

Lemma slope_quad : forall q t t', t < t' -> slope (t, qval q t) (t', qval q t') = qb q + qc q * (t + t').
Proof. intros q t t' H; unfold slope, qval; cbn [fst snd]; field; lra. Qed.

Lemma second_order_quad : forall q t t' t'', t < t' -> t' < t'' -> second_order (t, qval q t) (t', qval q t') (t'', qval q t'') = qder q t'.
Proof. intros q t t' t'' H H'; unfold second_order, qval, qder; cbn [fst snd]; field; repeat split; lra. Qed.

Definition pts (q : quad) (ts : list R) : list point := map (fun t => (t, qval q t)) ts.

Lemma gradient_from_cons : forall q t t' t'' r, increasing (t :: t' :: t'' :: r) ->
  gradient_from (pts q (t :: t' :: t'' :: r)) = qder q t' :: gradient_from (pts q (t' :: t'' :: r)).
Proof.
  intros q t t' t'' r H.
  change (gradient_from (pts q (t :: t' :: t'' :: r))) with (second_order (t, qval q t) (t', qval q t') (t'', qval q t'') :: gradient_from (pts q (t' :: t'' :: r))).
  destruct H as (A & B & C); rewrite second_order_quad by auto; auto.
Qed.

(** the derivatives at the times but the first and the last *)
Lemma gradient_from_quad : forall q r t t', increasing (t :: t' :: r) ->
  exists x, gradient_from (pts q (t :: t' :: r)) = map (qder q) (removelast (t' :: r)) ++ [x] /\ (qc q = 0 -> x = qb q).
Proof.
  intros q; induction r as [| t'' r IH]; intros t t' H.
  - exists (qb q + qc q * (t + t')); split; [| intros ->; ring].
    cbn [pts map gradient_from removelast app]; rewrite slope_quad; auto.
    cbn in H; tauto.
  - rewrite gradient_from_cons by auto.
    destruct (IH t' t'') as (x & -> & X); [apply increasing_tl in H; auto |].
    exists x; split; auto.
Qed.

Lemma gradient_quad : forall q ts, increasing ts -> (2 <= length ts)%nat ->
  exists x y, gradient (pts q ts) = Some (x :: map (qder q) (removelast (tl ts)) ++ [y]) /\ (qc q = 0 -> x = qb q /\ y = qb q).
Proof.
  intros q ts H L; destruct ts as [| t [| t' r]]; try (cbn in L; lia).
  destruct (gradient_from_quad q r t t' H) as (y & E & Y).
  exists (qb q + qc q * (t + t')), y; split.
  - change (gradient (pts q (t :: t' :: r))) with (Some (slope (t, qval q t) (t', qval q t') :: gradient_from (pts q (t :: t' :: r)))).
    rewrite E, slope_quad by (cbn in H; tauto); auto.
  - intros C; split; [rewrite C; ring | auto].
Qed.

Lemma length_removelast : forall (A : Type) (l : list A), length (removelast l) = (length l - 1)%nat.
Proof.
  intros A; induction l as [| x l IH]; auto.
  destruct l as [| y l]; auto.
  change (removelast (x :: y :: l)) with (x :: removelast (y :: l)); cbn [length]; rewrite IH; cbn [length]; lia.
Qed.

Lemma nth_removelast : forall (A : Type) (d : A) l i, (S i < length l)%nat -> nth i (removelast l) d = nth i l d.
Proof.
  intros A d; induction l as [| x l IH]; intros i H; [cbn in H; lia |].
  destruct l as [| y l]; [cbn in H; lia |].
  change (removelast (x :: y :: l)) with (x :: removelast (y :: l)); destruct i as [| i]; auto.
  cbn [nth]; apply IH; cbn in *; lia.
Qed.

(** for a closed budget the gradient is the model, at all the times but the first and the last ones, and everywhere if the
    budget is steady *)
Lemma gradient_budget : forall q (l : list means) (f model : means -> R), increasing (map m_t l) -> (2 <= length l)%nat ->
  (forall m, In m l -> f m = qval q (m_t m) /\ model m = qder q (m_t m)) ->
  exists g, gradient (map (fun m => (m_t m, f m)) l) = Some g /\ length g = length l
    /\ (forall i, (0 < i)%nat -> (S i < length l)%nat -> nth i g 0 = nth i (map model l) 0)
    /\ (qc q = 0 -> g = map model l).
Proof.
  intros q l f model I L H.
  assert (P : map (fun m => (m_t m, f m)) l = pts q (map m_t l)).
  { unfold pts; rewrite map_map; apply map_ext_in; intros m M; destruct (H m M) as [-> _]; auto. }
  assert (Mo : map model l = map (qder q) (map m_t l)).
  { rewrite map_map; apply map_ext_in; intros m M; destruct (H m M) as [_ ->]; auto. }
  rewrite P, Mo.
  assert (L' : (2 <= length (map m_t l))%nat) by (rewrite map_length; auto).
  rewrite <- (map_length m_t l).
  clear H P Mo L; revert I L'; generalize (map m_t l); intros ts I L.
  destruct (gradient_quad q ts I L) as (x & y & E & XY); rewrite E.
  eexists; split; [reflexivity |].
  destruct ts as [| t ts]; [cbn in L; lia |]; cbn [tl] in *.
  assert (Lr : length (x :: map (qder q) (removelast ts) ++ [y]) = length (t :: ts)).
  { cbn [length] in *; rewrite app_length, map_length, length_removelast; cbn [length]; lia. }
  split; auto; split.
  - intros [| i] Hi Hl; [lia |]; cbn [length] in Hl, L.
    cbn [nth map].
    rewrite app_nth1 by (rewrite map_length, length_removelast; lia).
    rewrite !(nth_indep _ 0 (qder q 0)) by (rewrite map_length, ?length_removelast; lia).
    rewrite !map_nth, nth_removelast by lia; auto.
  - intros C; destruct (XY C) as [-> ->].
    assert (K : forall l', map (qder q) l' = map (fun _ => qb q) l') by (intros l'; apply map_ext; intros; unfold qder; rewrite C; ring).
    rewrite !K; cbn [map]; f_equal.
    destruct (exists_last (l := ts)) as (l' & z & ->); [intros ->; cbn in L; lia |].
    rewrite removelast_last, map_app; auto.
Qed.

Definition same_inside (a b : list (R * R)) : Prop :=
  length a = length b /\ forall i, (0 < i)%nat -> (S i < length a)%nat -> nth i a (0, 0) = nth i b (0, 0).

Lemma combine_same : forall ts g h, length g = length ts -> length h = length ts ->
  (forall i, (0 < i)%nat -> (S i < length ts)%nat -> nth i g 0 = nth i h 0) -> same_inside (combine ts g) (combine ts h).
Proof.
  intros ts g h G H E; split; [rewrite !combine_length; lia |].
  intros i I L; rewrite combine_length, G, Nat.min_id in L.
  rewrite !combine_nth by lia; f_equal; auto.
Qed.

Lemma map_fst_combine : forall (a b : list R), length b = length a -> map fst (combine a b) = a.
Proof. induction a as [| x a IH]; intros [| y b] K; cbn in *; try discriminate; auto; f_equal; auto. Qed.

Lemma map_snd_combine : forall (a b : list R), length b = length a -> map snd (combine a b) = b.
Proof. induction a as [| x a IH]; intros [| y b] K; cbn in *; try discriminate; auto; f_equal; auto. Qed.

(** ** C235: ns2d and ns3d *)

(** if the energy is a polynomial of degree 2 of the time and the budget of the records is closed, the curve of dE/dt and the
    one of P - eps are the same at all the times but the first and the last, and everywhere if dE/dt is constant *)
Theorem c235_energy : forall (forcing : bool) q l, increasing (map m_t l) -> (2 <= length l)%nat ->
  (forall m, In m l -> m_E m = qval q (m_t m) /\ (if forcing then m_PK m - m_epsK m else - m_epsK m) = qder q (m_t m)) ->
  exists c1 c2 : list (R * R), plot_dt_energy forcing l = Ok (c1, c2) /\ map fst c1 = map m_t l
    /\ map snd c2 = map (fun m => if forcing then m_PK m - m_epsK m else - m_epsK m) l /\ same_inside c1 c2 /\ (qc q = 0 -> c1 = c2).
Proof.
  intros forcing q l I L H.
  destruct (gradient_budget q l m_E (fun m => if forcing then m_PK m - m_epsK m else - m_epsK m) I L H) as (g & G & Lg & E & C).
  unfold plot_dt_energy; rewrite G; do 2 eexists; split; [reflexivity |].
  split; [| split; [| split]].
  - apply map_fst_combine; rewrite map_length; auto.
  - apply map_snd_combine; rewrite !map_length; auto.
  - apply combine_same; rewrite ?map_length; auto.
  - intros Z; rewrite (C Z); auto.
Qed.

Theorem c235_energy_ns3d : forall (forcing strat : bool) q l, increasing (map m_t l) -> (2 <= length l)%nat ->
  (forall m, In m l -> m_E m = qval q (m_t m) /\
     (if forcing then m_PK m + (if strat then m_PA m else 0) else 0) - (m_epsK m + (if strat then m_epsA m else 0)) = qder q (m_t m)) ->
  exists c1 P visc c2, plot_dt_E forcing strat l = Ok (c1, P, visc, c2)
    /\ map snd c2 = map (fun m => (if forcing then m_PK m + (if strat then m_PA m else 0) else 0) - (m_epsK m + (if strat then m_epsA m else 0))) l
    /\ same_inside c1 c2 /\ (qc q = 0 -> c1 = c2)
    /\ (forcing = true -> forall i, (i < length l)%nat -> snd (nth i c2 (0, 0)) = snd (nth i P (0, 0)) + snd (nth i visc (0, 0))).
Proof.
  intros forcing strat q l I L H.
  set (eps := fun m => if strat then m_epsK m + m_epsA m else m_epsK m).
  set (P := fun m => if strat then m_PK m + m_PA m else m_PK m).
  destruct (gradient_budget q l m_E (fun m => if forcing then - eps m + P m else - eps m) I L) as (g & G & Lg & E & C).
  { intros m M; destruct (H m M) as [A B]; split; auto; rewrite <- B; unfold eps, P; destruct forcing, strat; ring. }
  unfold plot_dt_E; rewrite G; do 4 eexists; split; [reflexivity |].
  split; [| split; [| split]].
  - rewrite map_snd_combine by (rewrite !map_length; auto); apply map_ext; intros m; destruct forcing, strat; ring.
  - apply combine_same; rewrite ?map_length; auto.
  - intros Z; rewrite (C Z); auto.
  - intros -> i Hi.
    rewrite !combine_nth by (rewrite !map_length; auto); cbn [snd].
    rewrite !(nth_indep _ 0 (P (mkMeans 0 0 0 0 0 0 0 0 0 0 0))) by (rewrite map_length; auto).
    set (z := mkMeans 0 0 0 0 0 0 0 0 0 0 0).
    rewrite (map_nth P).
    rewrite (nth_indep _ (P z) (- eps z + P z)) by (rewrite map_length; auto).
    rewrite (map_nth (fun m => - eps m + P m)).
    rewrite (nth_indep _ (P z) (- eps z)) by (rewrite map_length; auto).
    rewrite (map_nth (fun m => - eps m)); ring.
Qed.

Theorem c235_enstrophy_partial : forall q l, increasing (map m_t l) -> (2 <= length l)%nat ->
  (forall m, In m l -> m_Z m = qval q (m_t m) /\ m_PZ m - m_epsZ m = qder q (m_t m)) ->
  exists c1 c2 o, plot_dt_enstrophy true l = Ok (c1, c2, o) /\ map snd c2 = map (fun m => m_PZ m - m_epsZ m) l
    /\ map (map snd) o = [map m_epsZ l; map m_PZ l; map m_PZ1 l; map m_PZ2 l] /\ same_inside c1 c2 /\ (qc q = 0 -> c1 = c2).
Proof.
  intros q l I L H.
  destruct (gradient_budget q l m_Z (fun m => m_PZ m - m_epsZ m) I L H) as (g & G & Lg & E & C).
  unfold plot_dt_enstrophy; rewrite G; do 3 eexists; split; [reflexivity |].
  split; [| split; [| split]].
  - apply map_snd_combine; rewrite !map_length; auto.
  - cbn [map]; rewrite !map_snd_combine by (rewrite !map_length; auto); auto.
  - apply combine_same; rewrite ?map_length; auto.
  - intros Z; rewrite (C Z); auto.
Qed.

(** without forcing, plot_dt_enstrophy is always an error *)
Theorem c235_no_forcing : forall l, (2 <= length l)%nat -> plot_dt_enstrophy false l = NameError.
Proof. intros [| m [| m' l]] H; try (cbn in H; lia); reflexivity. Qed.

Theorem c235_no_forcing_refuted : exists q l, increasing (map m_t l) /\ (2 <= length l)%nat
  /\ (forall m, In m l -> m_Z m = qval q (m_t m) /\ - m_epsZ m = qder q (m_t m))
  /\ forall c, plot_dt_enstrophy false l <> Ok c.
Proof.
  exists (mkQuad 1 0 0), [mkMeans 0 0 1 0 0 0 0 0 0 0 0; mkMeans 1 0 1 0 0 0 0 0 0 0 0].
  split; [cbn; lra |]; split; [cbn; lia |]; split.
  - intros m [<- | [<- | []]]; cbn; split; unfold qval, qder; cbn; ring.
  - intros c; rewrite c235_no_forcing by (cbn; lia); discriminate.
Qed.

(** the first and the last values are only first order *)
Theorem c235_edges : exists q l, increasing (map m_t l) /\ (forall m, In m l -> m_E m = qval q (m_t m) /\ - m_epsK m = qder q (m_t m))
  /\ forall c1 c2, plot_dt_energy false l = Ok (c1, c2) -> nth 0 c1 (0, 0) <> nth 0 c2 (0, 0).
Proof.
  exists (mkQuad 1 (-2) 1), [mkMeans 0 1 0 2 0 0 0 0 0 0 0; mkMeans 1 0 0 0 0 0 0 0 0 0 0].
  split; [cbn; lra |]; split.
  - intros m [<- | [<- | []]]; cbn; split; unfold qval, qder; cbn; ring.
  - intros c1 c2 H; cbn in H.
    assert (E1 : c1 = [(0, (0 - 1) / (1 - 0)); (1, (0 - 1) / (1 - 0))]) by (unfold slope in H; cbn in H; congruence).
    assert (E2 : c2 = [(0, - (2)); (1, - 0)]) by congruence.
    rewrite E1, E2; cbn; intros F; injection F as F; lra.
Qed.

Example c235_example : exists q l, increasing (map m_t l) /\ length l = 3%nat /\ qc q = 1
  /\ forall m, In m l -> m_E m = qval q (m_t m) /\ m_PK m - m_epsK m = qder q (m_t m).
Proof.
  exists (mkQuad 1 (-2) 1), [mkMeans 0 1 0 2 0 0 0 0 0 0 0; mkMeans 1 0 0 0 0 0 0 0 0 0 0; mkMeans 3 4 0 0 0 0 4 0 0 0 0].
  split; [cbn; lra |]; split; [reflexivity |]; split; [reflexivity |].
  intros m [<- | [<- | [<- | []]]]; cbn; split; unfold qval, qder; cbn; ring.
Qed.

(** ** C236: ns2d.strat *)

(** the first curve is on the derivative of the energy, at all the middles *)
Theorem c236_derivative : forall (forcing : bool) q l t v, increasing (map m_t l) -> (forall m, In m l -> m_E m = qval q (m_t m)) ->
  In (t, v) (fst (plot_dt_energy_strat forcing l)) -> v = qder q t.
Proof.
  intros forcing q l t v I H; unfold plot_dt_energy_strat; cbn [fst].
  assert (P : map (fun m => (m_t m, m_E m)) l = pts q (map m_t l)).
  { unfold pts; rewrite map_map; apply map_ext_in; intros m M; rewrite (H m M); auto. }
  rewrite P; clear H P; revert I; generalize (map m_t l); clear l.
  induction l as [| a l IH]; intros I K; [destruct K |].
  destruct l as [| b l]; [destruct K |].
  destruct K as [E | K].
  - cbn [fst] in E; assert (A : a < b) by (cbn in I; tauto).
    assert (T : t = (b + a) / 2) by congruence; assert (V : v = slope (a, qval q a) (b, qval q b)) by congruence.
    rewrite V, T, slope_quad by auto; unfold qder; field.
  - apply IH; auto; apply increasing_tl in I; auto.
Qed.

(** ... and there is one value per interval, at its middle *)
Theorem c236_middles : forall (forcing : bool) l, map fst (fst (plot_dt_energy_strat forcing l)) = map (fun p => (fst p + snd p) / 2) (combine (map m_t l) (tl (map m_t l))).
Proof.
  intros forcing l; unfold plot_dt_energy_strat; cbn [fst].
  assert (G : forall l' : list point, map fst (diff_points l') = map (fun p => (fst p + snd p) / 2) (combine (map fst l') (tl (map fst l')))).
  { induction l' as [| p l' IH]; auto.
    destruct l' as [| p' l']; auto.
    change (diff_points (p :: p' :: l')) with (((fst p' + fst p) / 2, slope p p') :: diff_points (p' :: l')).
    change (map fst (p :: p' :: l')) with (fst p :: fst p' :: map fst l').
    cbn [tl combine map fst snd]; rewrite IH.
    cbn [tl map]; f_equal; f_equal; apply Rplus_comm. }
  rewrite G, map_map; reflexivity.
Qed.

(** for a steady budget the second one is on the same line *)
Theorem c236_model_partial : forall (forcing : bool) q l t v, qc q = 0 ->
  (forall m, In m l -> (if forcing then m_PK m + m_PA m else 0) - (m_epsK m + m_epsA m) = qder q (m_t m)) ->
  In (t, v) (snd (plot_dt_energy_strat forcing l)) -> v = qder q t.
Proof.
  intros forcing q l t v C H K; unfold plot_dt_energy_strat in K; cbn [snd] in K.
  apply in_combine_r in K.
  assert (K' : In v (map (fun m => if forcing then m_PK m + m_PA m - (m_epsK m + m_epsA m) else - (m_epsK m + m_epsA m)) l)).
  { destruct l; cbn [map tl] in *; [auto | right; auto]. }
  apply in_map_iff in K'; destruct K' as (m & E & M).
  specialize (H m M); rewrite <- E; unfold qder in *; rewrite C in *.
  destruct forcing; lra.
Qed.

(** but otherwise the values of P - eps are plotted at the middle of the next interval, not at their time *)
Theorem c236_model_refuted : exists (forcing : bool) q l t v, increasing (map m_t l)
  /\ (forall m, In m l -> m_E m = qval q (m_t m) /\ (if forcing then m_PK m + m_PA m else 0) - (m_epsK m + m_epsA m) = qder q (m_t m))
  /\ In (t, v) (snd (plot_dt_energy_strat forcing l)) /\ v <> qder q t.
Proof.
  exists false, (mkQuad 4 (-4) 1), [mkMeans 0 4 0 4 0 0 0 0 0 0 0; mkMeans 1 1 0 2 0 0 0 0 0 0 0; mkMeans 2 0 0 0 0 0 0 0 0 0 0].
  exists (1 + (2 - 1) / 2), (- (2 + 0)).
  split; [cbn; lra |]; split; [| split].
  - intros m [<- | [<- | [<- | []]]]; cbn; split; unfold qval, qder; cbn; ring.
  - cbn; left; reflexivity.
  - unfold qder; cbn; lra.
Qed.

(** the shift: the i-th value of the model is at the middle of its interval, the last one at its time *)
Theorem c236_shift : forall (forcing : bool) l i, (0 < i)%nat -> (S i < length l)%nat ->
  fst (nth (i - 1) (snd (plot_dt_energy_strat forcing l)) (0, 0)) = (nth i (map m_t l) 0 + nth (S i) (map m_t l) 0) / 2.
Proof.
  intros forcing l i I L; unfold plot_dt_energy_strat; cbn [snd].
  assert (SL : forall ts, length (shifted ts) = length ts).
  { induction ts as [| t [| t' ts] IH]; auto; cbn [shifted length] in *; rewrite IH; auto. }
  assert (SN : forall ts n, (S n < length ts)%nat -> nth n (shifted ts) 0 = (nth n ts 0 + nth (S n) ts 0) / 2).
  { induction ts as [| t ts IH]; intros n N; [cbn in N; lia |].
    destruct ts as [| t' ts]; [cbn in N; lia |].
    change (shifted (t :: t' :: ts)) with ((t + (t' - t) / 2) :: shifted (t' :: ts)).
    destruct n as [| n]; [cbn; field |].
    change (nth (S n) (t :: t' :: ts) 0) with (nth n (t' :: ts) 0); change (nth (S (S n)) (t :: t' :: ts) 0) with (nth (S n) (t' :: ts) 0).
    rewrite <- IH by (cbn in *; lia); auto. }
  destruct i as [| i]; [lia |]; replace (S i - 1)%nat with i by lia.
  set (model := map (fun m => if forcing then m_PK m + m_PA m - (m_epsK m + m_epsA m) else - (m_epsK m + m_epsA m)) l).
  assert (LM : length model = length l) by apply map_length.
  assert (LT : length (shifted (map m_t l)) = length l) by (rewrite SL, map_length; auto).
  assert (E : nth (S i) (shifted (map m_t l)) 0 = (nth (S i) (map m_t l) 0 + nth (S (S i)) (map m_t l) 0) / 2) by (apply SN; rewrite map_length; auto).
  rewrite <- E; clear E SN SL.
  destruct (shifted (map m_t l)) as [| s ss], model as [| x xs]; try (cbn in *; lia).
  cbn [tl]; rewrite combine_nth by (cbn in *; lia); auto.
Qed.

Example c236_example : increasing (map m_t [mkMeans 0 4 0 4 0 0 0 0 0 0 0; mkMeans 1 1 0 2 0 0 0 0 0 0 0]).
Proof. cbn; lra. Qed.

(** ** C237: the cumulative dissipation *)

(** Specification: the dissipation of the modes up to the i-th one *)
Definition diss_upto (nu : R) (n : nat) (ks : list (R * R)) (i : nat) : R :=
  fold_right Rplus 0 (map (fun ke => 2 * nu * fst ke ^ n * snd ke) (firstn (S i) ks)).
Definition diss_all (nu : R) (n : nat) (ks : list (R * R)) : R := fold_right Rplus 0 (map (fun ke => 2 * nu * fst ke ^ n * snd ke) ks).

Lemma cumsum_from_nth : forall l acc i, (i < length l)%nat -> nth i (cumsum_from acc l) 0 = acc + fold_right Rplus 0 (firstn (S i) l).
Proof.
  induction l as [| x l IH]; intros acc i H; [cbn in H; lia |].
  destruct i as [| i]; [cbn; ring |].
  change (nth (S i) (cumsum_from acc (x :: l)) 0) with (nth i (cumsum_from (acc + x) l) 0).
  rewrite IH by (cbn in H; lia).
  change (firstn (S (S i)) (x :: l)) with (x :: firstn (S i) l); cbn [fold_right]; ring.
Qed.

Lemma cumsum_from_length : forall l acc, length (cumsum_from acc l) = length l.
Proof. induction l as [| x l IH]; intros acc; cbn; auto. Qed.

Lemma last_nth : forall (l : list R), l <> [] -> last l 0 = nth (length l - 1) l 0.
Proof.
  induction l as [| x l IH]; intros H; [tauto |].
  destruct l as [| y l]; auto.
  change (last (x :: y :: l) 0) with (last (y :: l) 0); rewrite IH by discriminate.
  cbn [length]; replace (S (S (length l)) - 1)%nat with (S (length l)) by lia.
  replace (S (length l) - 1)%nat with (length l) by lia; reflexivity.
Qed.

Lemma flux_nth : forall nu n dk ks i, (i < length ks)%nat -> nth i (flux nu n dk ks) 0 = dk / 2 * diss_upto nu n ks i.
Proof.
  intros nu n dk ks i H; unfold flux, cumsum, diss_upto.
  rewrite (nth_indep _ 0 (dk * 0)) by (rewrite map_length, cumsum_from_length, map_length; auto).
  rewrite map_nth, cumsum_from_nth by (rewrite map_length; auto).
  rewrite firstn_map.
  assert (G : forall l : list (R * R), dk * (0 + fold_right Rplus 0 (map (fun ke => nu * fst ke ^ n * snd ke) l))
              = dk / 2 * fold_right Rplus 0 (map (fun ke => 2 * nu * fst ke ^ n * snd ke) l)).
  { induction l as [| x l IH]; cbn [map fold_right]; [field |].
    transitivity (dk * (nu * fst x ^ n * snd x) + dk * (0 + fold_right Rplus 0 (map (fun ke => nu * fst ke ^ n * snd ke) l))); [ring |].
    rewrite IH; field. }
  apply G.
Qed.

Lemma flux_length : forall nu n dk ks, length (flux nu n dk ks) = length ks.
Proof. intros; unfold flux, cumsum; rewrite map_length, cumsum_from_length, map_length; auto. Qed.

Lemma flux_last : forall nu n dk ks, ks <> [] -> last (flux nu n dk ks) 0 = dk / 2 * diss_all nu n ks.
Proof.
  intros nu n dk ks H.
  assert (L : (0 < length ks)%nat) by (destruct ks; [tauto | cbn; lia]).
  rewrite last_nth by (intros E; apply (f_equal (@length R)) in E; rewrite flux_length in E; cbn in E; lia).
  rewrite flux_length, flux_nth by lia; unfold diss_upto, diss_all; rewrite firstn_all2 by lia; auto.
Qed.

(** each value is the share of the dissipation by nu_2 (nu_4) of the wave numbers up to k *)
Theorem c237_share_partial : forall nu_2 nu_4 ks i, (1 < length ks)%nat -> 0 < fst (nth 1 ks (0, 0)) -> (i < length ks)%nat ->
  0 < diss_all nu_2 2 ks + diss_all nu_4 4 ks ->
  nth i (fst (plot3d_cumul_diss nu_2 nu_4 0 ks)) 0 = diss_upto nu_2 2 ks i / (diss_all nu_2 2 ks + diss_all nu_4 4 ks)
  /\ nth i (snd (plot3d_cumul_diss nu_2 nu_4 0 ks)) 0 = diss_upto nu_4 4 ks i / (diss_all nu_2 2 ks + diss_all nu_4 4 ks).
Proof.
  intros nu_2 nu_4 ks i L D I P; unfold plot3d_cumul_diss; cbn [fst snd].
  set (dk := fst (nth 1 ks (0, 0))) in *.
  assert (NE : ks <> []) by (intros ->; cbn in L; lia).
  rewrite !flux_last by auto.
  set (e := dk / 2 * diss_all nu_2 2 ks + dk / 2 * diss_all nu_4 4 ks).
  assert (G : forall l, (i < length l)%nat -> nth i (map (fun x => x / e) l) 0 = nth i l 0 / e).
  { intros l H; rewrite (nth_indep _ 0 (0 / e)) by (rewrite map_length; auto); apply (map_nth (fun x => x / e)). }
  rewrite !G, !flux_nth by (rewrite ?flux_length; auto).
  unfold e; split; field; split; try lra; intros E;
    assert (0 < dk * (diss_all nu_2 2 ks + diss_all nu_4 4 ks)) by (apply Rmult_lt_0_compat; auto); lra.
Qed.

Lemma sum_nonneg : forall l, Forall (fun x => 0 <= x) l -> 0 <= fold_right Rplus 0 l.
Proof. induction l as [| x l IH]; intros F; cbn; [lra |]; inversion F; subst; specialize (IH H2); lra. Qed.

Lemma diss_upto_mono : forall nu n ks i j, 0 <= nu -> Forall (fun ke => 0 <= fst ke /\ 0 <= snd ke) ks -> (i <= j)%nat ->
  0 <= diss_upto nu n ks i <= diss_upto nu n ks j /\ diss_upto nu n ks j <= diss_all nu n ks.
Proof.
  intros nu n ks i j N F H.
  set (f := fun ke : R * R => 2 * nu * fst ke ^ n * snd ke).
  assert (P : forall l, Forall (fun ke => 0 <= fst ke /\ 0 <= snd ke) l -> 0 <= fold_right Rplus 0 (map f l)).
  { intros l Fl; apply sum_nonneg, Forall_map; eapply Forall_impl; [| exact Fl].
    intros [k e] [A B]; unfold f; cbn [fst snd] in *; apply Rmult_le_pos; auto; apply Rmult_le_pos; [lra | apply pow_le; auto]. }
  assert (A : forall l l', fold_right Rplus 0 (map f (l ++ l')) = fold_right Rplus 0 (map f l) + fold_right Rplus 0 (map f l')).
  { induction l as [| x l IH]; intros l'; cbn [app map fold_right]; [ring | rewrite IH; ring]. }
  assert (Sub : forall a b, (a <= b)%nat -> fold_right Rplus 0 (map f (firstn a ks)) <= fold_right Rplus 0 (map f (firstn b ks))).
  { intros a b AB.
    assert (E : firstn b ks = firstn a ks ++ skipn a (firstn b ks)).
    { rewrite <- (firstn_skipn a (firstn b ks)) at 1; rewrite firstn_firstn, Nat.min_l by auto; auto. }
    rewrite E, A.
    assert (Q : Forall (fun ke => 0 <= fst ke /\ 0 <= snd ke) (skipn a (firstn b ks))).
    { rewrite Forall_forall in *; intros x X; apply F.
      rewrite <- (firstn_skipn b ks); apply in_or_app; left.
      rewrite <- (firstn_skipn a (firstn b ks)); apply in_or_app; auto. }
    apply P in Q; lra. }
  unfold diss_upto, diss_all; fold f; repeat split.
  - apply P; rewrite Forall_forall in *; intros x X; apply F; rewrite <- (firstn_skipn (S i) ks); apply in_or_app; auto.
  - apply Sub; lia.
  - destruct (Nat.le_gt_cases (S j) (length ks)) as [J | J].
    + rewrite <- (firstn_all ks) at 2; apply Sub; auto.
    + rewrite firstn_all2 by lia; lra.
Qed.

(** the curves increase from 0 to 1, the sum of the last values is 1 *)
Theorem c237_curves_partial : forall nu_2 nu_4 ks, (1 < length ks)%nat -> 0 < fst (nth 1 ks (0, 0)) -> 0 <= nu_2 -> 0 <= nu_4 ->
  Forall (fun ke => 0 <= fst ke /\ 0 <= snd ke) ks -> 0 < diss_all nu_2 2 ks + diss_all nu_4 4 ks ->
  let d2 := fst (plot3d_cumul_diss nu_2 nu_4 0 ks) in let d4 := snd (plot3d_cumul_diss nu_2 nu_4 0 ks) in
  (forall i j, (i <= j < length ks)%nat -> 0 <= nth i d2 0 <= nth j d2 0 /\ 0 <= nth i d4 0 <= nth j d4 0 /\ nth j d2 0 + nth j d4 0 <= 1)
  /\ nth (length ks - 1) d2 0 + nth (length ks - 1) d4 0 = 1.
Proof.
  intros nu_2 nu_4 ks L D N2 N4 F P d2 d4.
  assert (V : forall i, (i < length ks)%nat -> nth i d2 0 = diss_upto nu_2 2 ks i / (diss_all nu_2 2 ks + diss_all nu_4 4 ks)
                /\ nth i d4 0 = diss_upto nu_4 4 ks i / (diss_all nu_2 2 ks + diss_all nu_4 4 ks)).
  { intros i I; apply c237_share_partial; auto. }
  set (T := diss_all nu_2 2 ks + diss_all nu_4 4 ks) in *.
  assert (IT : 0 < / T) by (apply Rinv_0_lt_compat; auto).
  split.
  - intros i j IJ; destruct (V i ltac:(lia)) as [-> ->], (V j ltac:(lia)) as [-> ->].
    destruct (diss_upto_mono nu_2 2 ks i j N2 F ltac:(lia)) as [[A1 A2] A3].
    destruct (diss_upto_mono nu_4 4 ks i j N4 F ltac:(lia)) as [[B1 B2] B3].
    unfold Rdiv; repeat split; try (apply Rmult_le_pos; lra); try (apply Rmult_le_compat_r; lra).
    rewrite <- Rmult_plus_distr_r; apply Rmult_le_reg_r with T; auto.
    rewrite Rmult_assoc, Rinv_l by lra; unfold T; lra.
  - destruct (V (length ks - 1)%nat ltac:(lia)) as [-> ->]; unfold diss_upto.
    rewrite firstn_all2 by lia; unfold T, diss_all in *; field; lra.
Qed.

(** with nu_8 the values are not shares of the total dissipation *)
Theorem c237_nu8_refuted : exists nu_2 nu_4 nu_8 ks i, (i < length ks)%nat /\ 0 < nu_2 /\ 0 < nu_8
  /\ 0 < diss_all nu_2 2 ks + diss_all nu_4 4 ks + diss_all nu_8 8 ks
  /\ nth i (fst (plot3d_cumul_diss nu_2 nu_4 nu_8 ks)) 0 <> diss_upto nu_2 2 ks i / (diss_all nu_2 2 ks + diss_all nu_4 4 ks + diss_all nu_8 8 ks).
Proof.
  exists 1, 0, 1, [(0, 0); (1, 1)], 1%nat; unfold diss_all, diss_upto; cbn; repeat split; try lra; try lia.
Qed.

Lemma sum_fold : forall l, sum l = fold_right Rplus 0 l.
Proof. induction l as [| x l IH]; cbn; auto; rewrite IH; auto. Qed.

Lemma sum_map_scale : forall (A : Type) c (f : A -> R) l, sum (map (fun x => c * f x) l) = c * sum (map f l).
Proof. intros A c f; induction l as [| x l IH]; cbn [map sum]; [ring | rewrite IH; ring]. Qed.

Lemma sum_plus : forall (A : Type) (f g : A -> R) l, sum (map (fun x => f x + g x) l) = sum (map f l) + sum (map g l).
Proof. intros A f g; induction l as [| x l IH]; cbn [map sum]; [ring | rewrite IH; ring]. Qed.

Lemma sum_exchange : forall (f : R -> R -> R) a b, sum (map (fun x => sum (map (fun y => f x y) b)) a) = sum (map (fun y => sum (map (fun x => f x y) a)) b).
Proof.
  intros f a b; induction a as [| x a IH]; cbn [map sum].
  - induction b as [| y b IHb]; cbn [map sum]; auto; rewrite <- IHb; ring.
  - rewrite IH, <- sum_plus; reflexivity.
Qed.

Lemma cumsum_last : forall l c, l <> [] -> last (map (Rmult c) (cumsum l)) 0 = c * sum l.
Proof.
  intros l c H.
  assert (L : length (map (Rmult c) (cumsum l)) = length l) by (unfold cumsum; rewrite map_length, cumsum_from_length; auto).
  assert (L0 : (0 < length l)%nat) by (destruct l; [tauto | cbn; lia]).
  rewrite last_nth by (intros E; rewrite E in L; cbn in L; lia).
  rewrite L, (nth_indep _ 0 (c * 0)) by lia.
  rewrite map_nth; unfold cumsum; rewrite cumsum_from_nth by lia.
  rewrite firstn_all2 by lia; assert (Q := sum_fold l); apply f_equal; lra.
Qed.

(** in the (kh, kz) plane, the curves of kh and of kz end with the same values, the sum of which is 1 *)
Theorem c237_kzkh_partial : forall nu_2 nu_4 spec kzs khs, kzs <> [] -> khs <> [] ->
  let r := plot_kzkh_cumul_diss nu_2 nu_4 spec kzs khs in
  last (hflux nu_2 1 spec kzs khs) 0 + last (hflux nu_4 2 spec kzs khs) 0 <> 0 ->
  last (fst (fst r)) 0 = last (fst (snd r)) 0 /\ last (snd (fst r)) 0 = last (snd (snd r)) 0 /\ last (fst (fst r)) 0 + last (snd (fst r)) 0 = 1.
Proof.
  intros nu_2 nu_4 spec kzs khs Z H r T; unfold r, plot_kzkh_cumul_diss; cbn [fst snd].
  set (e := last (hflux nu_2 1 spec kzs khs) 0 + last (hflux nu_4 2 spec kzs khs) 0) in *.
  assert (M : forall l, last (map (fun x => x / e) l) 0 = last l 0 / e).
  { induction l as [| x l IH]; [cbn; unfold Rdiv; ring |].
    destruct l as [| y l]; auto. }
  assert (S : forall nu n, last (hflux nu n spec kzs khs) 0 = last (zflux nu n spec kzs khs) 0).
  { intros nu n; unfold hflux, zflux; rewrite !cumsum_last by (intros E; apply map_eq_nil in E; tauto).
    rewrite (sum_map_scale _ (nth 1 kzs 0) (fun kh => sum (map (fun kz => diss_kzkh nu n spec kz kh) kzs))).
    rewrite (sum_map_scale _ (nth 1 khs 0) (fun kz => sum (map (fun kh => diss_kzkh nu n spec kz kh) khs))).
    rewrite (sum_exchange (fun kz kh => diss_kzkh nu n spec kz kh)); ring. }
  rewrite !M, <- !S; repeat split; unfold e; field; auto.
Qed.

(** ... and the intermediate values are the shares of the modes up to kh (kz): [kzkh_diss] is the dissipation of the modes
    of a rectangle *)
Definition kzkh_diss (nu : R) (n : nat) (spec : R -> R -> R) (kzs khs : list R) : R :=
  fold_right Rplus 0 (map (fun p => 2 * nu * (fst p * fst p + snd p * snd p) ^ n * spec (snd p) (fst p)) (list_prod khs kzs)).

Lemma fold_app : forall l l', fold_right Rplus 0 (l ++ l') = fold_right Rplus 0 l + fold_right Rplus 0 l'.
Proof. induction l as [| x l IH]; intros l'; cbn [app fold_right]; [ring | rewrite IH; ring]. Qed.

Lemma kzkh_diss_sum : forall nu n spec kzs khs,
  kzkh_diss nu n spec kzs khs = 2 * sum (map (fun kh => sum (map (fun kz => diss_kzkh nu n spec kz kh) kzs)) khs).
Proof.
  intros nu n spec kzs; unfold kzkh_diss; induction khs as [| kh khs IH]; [cbn; ring |].
  cbn [list_prod]; rewrite map_app, fold_app, IH; cbn [map sum].
  assert (E : fold_right Rplus 0 (map (fun p => 2 * nu * (fst p * fst p + snd p * snd p) ^ n * spec (snd p) (fst p)) (map (fun y => (kh, y)) kzs))
              = 2 * sum (map (fun kz => diss_kzkh nu n spec kz kh) kzs)).
  { clear IH; induction kzs as [| kz kzs IH]; [cbn; ring |].
    cbn [map fold_right sum fst snd]; rewrite IH; unfold diss_kzkh at 2.
    replace (kh ^ 2 + kz ^ 2) with (kh * kh + kz * kz) by ring; ring. }
  rewrite E; ring.
Qed.

Lemma cumsum_nth : forall (f : R -> R) c d (l : list R) i, (i < length l)%nat ->
  nth i (map (Rmult c) (cumsum (map (fun x => d * f x) l))) 0 = c * d * sum (map f (firstn (S i) l)).
Proof.
  intros f c d l i H; unfold cumsum.
  rewrite (nth_indep _ 0 (c * 0)) by (rewrite map_length, cumsum_from_length, map_length; auto).
  rewrite map_nth, cumsum_from_nth by (rewrite map_length; auto).
  rewrite firstn_map.
  assert (Q := sum_fold (map (fun x => d * f x) (firstn (S i) l))).
  assert (Q' := sum_map_scale R d f (firstn (S i) l)).
  rewrite <- Q, Q'; ring.
Qed.

Theorem c237_kzkh_share_partial : forall nu_2 nu_4 spec kzs khs i, 0 < nth 1 kzs 0 -> 0 < nth 1 khs 0 -> kzs <> [] -> khs <> [] ->
  let T := kzkh_diss nu_2 1 spec kzs khs + kzkh_diss nu_4 2 spec kzs khs in 0 < T ->
  let r := plot_kzkh_cumul_diss nu_2 nu_4 spec kzs khs in
  ((i < length khs)%nat -> nth i (fst (fst r)) 0 = kzkh_diss nu_2 1 spec kzs (firstn (S i) khs) / T
                           /\ nth i (snd (fst r)) 0 = kzkh_diss nu_4 2 spec kzs (firstn (S i) khs) / T)
  /\ ((i < length kzs)%nat -> nth i (fst (snd r)) 0 = kzkh_diss nu_2 1 spec (firstn (S i) kzs) khs / T
                           /\ nth i (snd (snd r)) 0 = kzkh_diss nu_4 2 spec (firstn (S i) kzs) khs / T).
Proof.
  intros nu_2 nu_4 spec kzs khs i DZ DH Z H T P r; unfold r, plot_kzkh_cumul_diss; cbn [fst snd].
  set (dz := nth 1 kzs 0) in *; set (dh := nth 1 khs 0) in *.
  assert (HL : forall nu n, last (hflux nu n spec kzs khs) 0 = dh * dz / 2 * kzkh_diss nu n spec kzs khs).
  { intros nu n; unfold hflux; rewrite cumsum_last by (intros E; apply map_eq_nil in E; tauto); fold dz dh.
    rewrite kzkh_diss_sum, (sum_map_scale _ dz (fun kh => sum (map (fun kz => diss_kzkh nu n spec kz kh) kzs))); field. }
  assert (HN : forall nu n, (i < length khs)%nat -> nth i (hflux nu n spec kzs khs) 0 = dh * dz / 2 * kzkh_diss nu n spec kzs (firstn (S i) khs)).
  { intros nu n I; unfold hflux; fold dz dh.
    rewrite (cumsum_nth (fun kh => sum (map (fun kz => diss_kzkh nu n spec kz kh) kzs))), kzkh_diss_sum by auto; field. }
  assert (ZN : forall nu n, (i < length kzs)%nat -> nth i (zflux nu n spec kzs khs) 0 = dh * dz / 2 * kzkh_diss nu n spec (firstn (S i) kzs) khs).
  { intros nu n I; unfold zflux; fold dz dh.
    rewrite (cumsum_nth (fun kz => sum (map (fun kh => diss_kzkh nu n spec kz kh) khs))), kzkh_diss_sum by auto.
    rewrite (sum_exchange (fun kz kh => diss_kzkh nu n spec kz kh)); field. }
  rewrite !HL.
  set (e := dh * dz / 2 * kzkh_diss nu_2 1 spec kzs khs + dh * dz / 2 * kzkh_diss nu_4 2 spec kzs khs).
  assert (E : e = dh * dz / 2 * T) by (unfold e, T; ring).
  assert (DD : 0 < dh * dz) by (apply Rmult_lt_0_compat; auto).
  assert (G : forall l, (i < length l)%nat -> nth i (map (fun x => x / e) l) 0 = nth i l 0 / e).
  { intros l L; rewrite (nth_indep _ 0 (0 / e)) by (rewrite map_length; auto); apply (map_nth (fun x => x / e)). }
  split; intros I; rewrite !G by (unfold hflux, zflux, cumsum; rewrite map_length, cumsum_from_length, map_length; auto).
  - rewrite !HN, E by auto; split; field; repeat split; lra.
  - rewrite !ZN, E by auto; split; field; repeat split; lra.
Qed.

Example c237_example : 0 < diss_all 1 2 [(0, 0); (1, 1); (2, 1)] + diss_all 1 4 [(0, 0); (1, 1); (2, 1)].
Proof. unfold diss_all; cbn; lra. Qed.

Print Assumptions c235_energy.
Print Assumptions c235_energy_ns3d.
Print Assumptions c235_enstrophy_partial.
Print Assumptions c235_no_forcing.
Print Assumptions c235_no_forcing_refuted.
Print Assumptions c235_edges.
Print Assumptions c236_derivative.
Print Assumptions c236_middles.
Print Assumptions c236_model_partial.
Print Assumptions c236_model_refuted.
Print Assumptions c236_shift.
Print Assumptions c237_share_partial.
Print Assumptions c237_curves_partial.
Print Assumptions c237_nu8_refuted.
Print Assumptions c237_kzkh_partial.
Print Assumptions c237_kzkh_share_partial.
