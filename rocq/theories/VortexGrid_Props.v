(** * Properties of the initial grid of vortices of sw1l *)
From Coq Require Import List Reals Arith Lra Lia Permutation.
From Verif Require Import VortexGrid_Model.
Import ListNotations.
Local Open Scope R_scope.

(** ** Specification *)
Definition total (l : list R) : R := fold_right Rplus 0 l.
(** circulation of a vorticity on the points of the grid (up to the area of a cell) *)
Definition circulation (points : list (R * R)) (om : R -> R -> R) : R := total (map (fun p => om (fst p) (snd p)) points).
(** a vortex of amplitude 1 centred at (x0, y0) *)
Definition vortex (SD x0 y0 x y : R) : R := exp (- ((x - x0) ^ 2 + (y - y0) ^ 2) / (2 * SD ^ 2)).
(** centre of the cell i of n cells of [0, L] *)
Definition middle (L : R) (n i : nat) : R := (INR i + / 2) * L / INR n.
Definition count (s : R) (l : list R) : nat := count_occ Req_EM_T l s.

(** ** Lemmas *)
Lemma total_app a b : total (a ++ b) = total a + total b.
Proof. unfold total. induction a as [|x a IH]; cbn; [lra|]. rewrite IH. lra. Qed.

Lemma total_perm a b : Permutation a b -> total a = total b.
Proof. intros H. induction H; cbn; unfold total in *; cbn in *; lra. Qed.

Lemma fold_total {A} (f : A -> R) l acc : fold_left (fun a x => a + f x) l acc = acc + total (map f l).
Proof. revert acc. induction l as [|x l IH]; intros acc; cbn; [lra|]. rewrite IH. unfold total. lra. Qed.

Lemma total_ext {A} (f g : A -> R) l : (forall x, In x l -> f x = g x) -> total (map f l) = total (map g l).
Proof. intros H. f_equal. apply map_ext_in. exact H. Qed.

Lemma total_scal {A} c (f : A -> R) l : total (map (fun x => c * f x) l) = c * total (map f l).
Proof. unfold total. induction l as [|x l IH]; cbn; [lra|]. rewrite IH. lra. Qed.

Lemma total_plus {A} (f g : A -> R) l : total (map (fun x => f x + g x) l) = total (map f l) + total (map g l).
Proof. unfold total. induction l as [|x l IH]; cbn; [lra|]. rewrite IH. lra. Qed.

Lemma total_exch {A B} (f : A -> B -> R) l m :
  total (map (fun x => total (map (f x) m)) l) = total (map (fun y => total (map (fun x => f x y) l)) m).
Proof.
  induction l as [|x l IH].
  - cbn. induction m as [|y m IHm]; [reflexivity|]. cbn in *. unfold total in *. rewrite <- IHm. lra.
  - cbn [map]. change (total (map (f x) m) + total (map (fun x0 => total (map (f x0) m)) l)
                       = total (map (fun y => f x y + total (map (fun x0 => f x0 y) l)) m)).
    rewrite IH, total_plus. reflexivity.
Qed.

Definition cells (n : nat) : list (nat * nat) := flat_map (fun i => map (fun j => (i, j)) (seq 0 n)) (seq 0 n).

Lemma total_flat {A} (f : nat -> A -> R) (m : list A) l :
  total (map (fun i => total (map (f i) m)) l) = total (map (fun ij => f (fst ij) (snd ij)) (flat_map (fun i => map (fun j => (i, j)) m) l)).
Proof.
  induction l as [|i l IH]; [reflexivity|]. cbn [map flat_map]. rewrite map_app, total_app, <- IH, map_map. reflexivity.
Qed.

Lemma seq_shift_k k n : seq k n = map (fun j => (k + j)%nat) (seq 0 n).
Proof.
  revert k. induction n as [|n IH]; intros k; [reflexivity|]. cbn [seq map]. rewrite Nat.add_0_r. f_equal.
  rewrite (IH (S k)), (IH 1%nat), map_map. apply map_ext. intros j. lia.
Qed.

Lemma cells_index n m : map (fun ij => (fst ij * n + snd ij)%nat) (flat_map (fun i => map (fun j => (i, j)) (seq 0 n)) (seq 0 m)) = seq 0 (m * n).
Proof.
  induction m as [|m IH]; [reflexivity|].
  rewrite seq_S, flat_map_app, map_app, IH. cbn [flat_map plus]. rewrite app_nil_r, map_map. cbn [fst snd].
  rewrite <- seq_shift_k. replace (S m * n)%nat with (m * n + n)%nat by lia. rewrite seq_app. reflexivity.
Qed.

Lemma nth_total l : total (map (fun i => nth i l 0) (seq 0 (length l))) = total l.
Proof.
  f_equal. apply nth_ext with (d := 0) (d' := 0); [rewrite map_length, seq_length; reflexivity|].
  intros k Hk. rewrite map_length, seq_length in Hk. rewrite nth_indep with (d' := nth (length l) l 0) by (rewrite map_length, seq_length; exact Hk).
  rewrite (map_nth (fun i => nth i l 0)), seq_nth by exact Hk. reflexivity.
Qed.

Lemma plus_minus_2 n : plus_minus (S (S n)) = -1 :: 1 :: plus_minus n.
Proof.
  unfold plus_minus. cbn [seq map Nat.even]. do 2 f_equal. rewrite <- !seq_shift, !map_map. apply map_ext. intros i. reflexivity.
Qed.

Lemma plus_minus_even k : total (plus_minus (2 * k)) = 0 /\ count 1 (plus_minus (2 * k)) = k /\ count (-1) (plus_minus (2 * k)) = k.
Proof.
  induction k as [|k [A [B D]]]; [repeat split|].
  replace (2 * S k)%nat with (S (S (2 * k))) by lia. rewrite plus_minus_2. unfold total, count in *. cbn [fold_right count_occ]. rewrite A.
  destruct (Req_EM_T (-1) 1) as [e|_]; [lra|]. destruct (Req_EM_T 1 1) as [_|n]; [|lra].
  destruct (Req_EM_T (-1) (-1)) as [_|n]; [|lra]. destruct (Req_EM_T 1 (-1)) as [e|_]; [lra|]. rewrite B, D. repeat split; lra.
Qed.

Lemma count_perm s a b : Permutation a b -> count s a = count s b.
Proof. intros H. unfold count. apply Permutation_count_occ. exact H. Qed.

Lemma centre_middle L n i : (0 < n)%nat -> centre L n i = middle L n i.
Proof. intros H. unfold centre, middle. assert (0 < INR n) by (apply lt_0_INR; exact H). field. lra. Qed.

(** ** C242 *)
Section C242.
Variable shuffle : list R -> list R.
Hypothesis shuffle_perm : forall l, Permutation (shuffle l) l.

(** as many pluses as minuses *)
Theorem c242_signs : forall n, Nat.even n = true ->
  length (random_plus_minus_list shuffle n) = (n * n)%nat
  /\ (2 * count 1 (random_plus_minus_list shuffle n) = n * n)%nat
  /\ (2 * count (-1) (random_plus_minus_list shuffle n) = n * n)%nat.
Proof.
  intros n E. apply Nat.even_spec in E. destruct E as [k E].
  unfold random_plus_minus_list. split.
  - rewrite (Permutation_length (shuffle_perm _)). unfold plus_minus. rewrite map_length, seq_length. reflexivity.
  - rewrite !(count_perm _ _ _ (shuffle_perm _)). replace (n * n)%nat with (2 * (k * n))%nat by (subst n; lia).
    destruct (plus_minus_even (k * n)) as [_ [A B]]. rewrite A, B. split; lia.
Qed.

(** the vorticity is the sum of the vortices centred in the cells, with these signs *)
Theorem c242_vorticity : forall Lx Ly amp n sd om, (0 < n)%nat -> vortex_grid_shape shuffle Lx Ly amp n sd = Ok om ->
  exists SD, (forall s, sd = Some s -> SD = s) /\ (sd = None -> SD = Rmin (Lx / INR n) (Ly / INR n) / 12) /\
  forall x y, om x y = amp * total (map (fun ij => nth (fst ij * n + snd ij) (random_plus_minus_list shuffle n) 0
                                     * vortex SD (middle Lx n (fst ij)) (middle Ly n (snd ij)) x y) (cells n)).
Proof.
  intros Lx Ly amp n sd om Hn H. unfold vortex_grid_shape in H. destruct (Nat.odd n); [discriminate|]. injection H as <-.
  exists (sd_value Lx Ly n sd). split; [intros s ->; reflexivity|]. split; [intros ->; reflexivity|].
  intros x y. unfold omega.
  set (g := fun i j => wz_gaussian amp (sd_value Lx Ly n sd) (x - centre Lx n i) (y - centre Ly n j) (nth (i * n + j) (random_plus_minus_list shuffle n) 0)).
  assert (F : forall l acc, fold_left (fun om i => fold_left (fun om' j => om' + g i j) (seq 0 n) om) l acc
              = acc + total (map (fun i => total (map (g i) (seq 0 n))) l)).
  { induction l as [|i l IH]; intros acc; cbn [fold_left map]; [unfold total; cbn; lra|]. rewrite IH, fold_total. unfold total. cbn [fold_right]. lra. }
  unfold g in F. rewrite F. fold g. rewrite Rplus_0_l.
  change (total (map (fun i => total (map (g i) (seq 0 n))) (seq 0 n)) = amp * total (map (fun ij => nth (fst ij * n + snd ij) (random_plus_minus_list shuffle n) 0
     * vortex (sd_value Lx Ly n sd) (middle Lx n (fst ij)) (middle Ly n (snd ij)) x y) (cells n))).
  rewrite (total_flat g (seq 0 n) (seq 0 n)), <- total_scal. apply total_ext. intros [i j] _. unfold g, wz_gaussian, vortex. cbn [fst snd].
  rewrite !centre_middle by exact Hn. ring.
Qed.

(** no error if and only if n_vort is even *)
Theorem c242_even : forall Lx Ly amp n sd, vortex_grid_shape shuffle Lx Ly amp n sd = ValueError <-> Nat.even n = false.
Proof.
  intros Lx Ly amp n sd. unfold vortex_grid_shape, Nat.odd. destruct (Nat.even n); cbn [negb]; split; congruence.
Qed.

(** no net circulation if all the vortices have the same circulation on the points of the grid *)
Theorem c242_circulation_partial : forall Lx Ly amp n sd om points gamma, (0 < n)%nat ->
  vortex_grid_shape shuffle Lx Ly amp n sd = Ok om ->
  (forall SD i j, (forall s, sd = Some s -> SD = s) -> (sd = None -> SD = Rmin (Lx / INR n) (Ly / INR n) / 12) -> (i < n)%nat -> (j < n)%nat ->
     circulation points (vortex SD (middle Lx n i) (middle Ly n j)) = gamma SD) ->
  circulation points om = 0.
Proof.
  intros Lx Ly amp n sd om points gamma Hn H Hg.
  assert (E : Nat.even n = true).
  { destruct (Nat.even n) eqn:E; [reflexivity|]. apply (c242_even Lx Ly amp n sd) in E. congruence. }
  destruct (c242_vorticity Lx Ly amp n sd om Hn H) as [SD [HS [HN Hom]]].
  unfold circulation. rewrite (total_ext _ (fun p => amp * total (map (fun ij => nth (fst ij * n + snd ij) (random_plus_minus_list shuffle n) 0
                                     * vortex SD (middle Lx n (fst ij)) (middle Ly n (snd ij)) (fst p) (snd p)) (cells n)))) by (intros p _; apply Hom).
  rewrite total_scal. rewrite (total_exch (fun p ij => nth (fst ij * n + snd ij) (random_plus_minus_list shuffle n) 0
                                     * vortex SD (middle Lx n (fst ij)) (middle Ly n (snd ij)) (fst p) (snd p))).
  rewrite (total_ext _ (fun ij => gamma SD * nth (fst ij * n + snd ij) (random_plus_minus_list shuffle n) 0)).
  - rewrite total_scal. rewrite <- (map_map (fun ij => (fst ij * n + snd ij)%nat) (fun k => nth k (random_plus_minus_list shuffle n) 0)).
    unfold cells. rewrite cells_index.
    destruct (c242_signs n E) as [L _]. rewrite <- L, nth_total. unfold random_plus_minus_list. rewrite (total_perm _ _ (shuffle_perm _)).
    apply Nat.even_spec in E. destruct E as [k E]. replace (n * n)%nat with (2 * (k * n))%nat by (subst n; lia).
    destruct (plus_minus_even (k * n)) as [-> _]. ring.
  - intros [i j] Iij. cbn [fst snd]. rewrite total_scal.
    unfold cells in Iij. apply in_flat_map in Iij. destruct Iij as [i' [I1 I2]]. apply in_map_iff in I2. destruct I2 as [j' [E2 I2]]. injection E2 as -> ->.
    apply in_seq in I1. apply in_seq in I2.
    specialize (Hg SD i j HS HN ltac:(lia) ltac:(lia)). unfold circulation in Hg. rewrite Hg. ring.
Qed.
End C242.

(** the vortices are not repeated with the periods of the domain: the circulation is not zero *)
Definition shuffle_2 (l : list R) : list R :=
  match l with [a; b; c; d] => [b; d; a; c] | _ => l end.

Lemma shuffle_2_perm l : Permutation (shuffle_2 l) l.
Proof.
  destruct l as [|a [|b [|c [|d [|e l]]]]]; try apply Permutation_refl. cbn.
  apply Permutation_trans with [b; a; c; d].
  - apply perm_skip. apply Permutation_trans with [a; d; c]; [apply perm_swap|]. apply perm_skip. apply perm_swap.
  - apply perm_swap.
Qed.

Theorem c242_circulation_refuted : exists shuffle Lx Ly amp n sd om points,
  (forall l, Permutation (shuffle l) l) /\ (0 < n)%nat /\ vortex_grid_shape shuffle Lx Ly amp n sd = Ok om
  /\ circulation points om <> 0.
Proof.
  exists shuffle_2, 2, 2, 1, 2%nat, (Some 1). eexists. exists [(0, 0); (1, 0); (0, 1); (1, 1)].
  split; [exact shuffle_2_perm|]. split; [lia|]. split; [reflexivity|].
  unfold circulation, omega, total, random_plus_minus_list, plus_minus, wz_gaussian, sd_value, centre. cbn [map seq Nat.mul Nat.add Nat.even shuffle_2 fold_left fold_right fst snd nth].
  change (INR 2) with 2. change (INR 1) with 1. change (INR 0) with 0.
  assert (P : forall a b, a < b -> exp a < exp b) by (intros; apply exp_increasing; assumption).
  repeat match goal with |- context [exp (?a / ?b)] =>
    let E := fresh in
    first [assert (E : a / b = - (1) * / 4) by lra | assert (E : a / b = - (5) * / 4) by lra | assert (E : a / b = - (9) * / 4) by lra];
    rewrite E; clear E end.
  assert (A := P (- (5) * / 4) (- (1) * / 4) ltac:(lra)). assert (B := P (- (9) * / 4) (- (5) * / 4) ltac:(lra)). intros Z. lra.
Qed.

(** the hypothesis of c242_circulation_partial for a grid with a point in each cell centre *)
Example c242_hyps : exists om, vortex_grid_shape shuffle_2 2 2 1 2 (Some 1) = Ok om
  /\ forall i j, (i < 2)%nat -> (j < 2)%nat ->
     circulation [(/ 2, / 2); (/ 2, 3 / 2); (3 / 2, / 2); (3 / 2, 3 / 2)] (vortex 1 (middle 2 2 i) (middle 2 2 j)) = 1 + 2 * exp (- (1) * / 2) + exp (- (1)).
Proof.
  eexists. split; [reflexivity|]. intros i j Hi Hj.
  assert (M0 : middle 2 2 0 = / 2) by (unfold middle; cbn; lra). assert (M1 : middle 2 2 1 = 3 / 2) by (unfold middle; cbn; lra).
  destruct i as [|[|i]]; [| |lia]; (destruct j as [|[|j]]; [| |lia]); rewrite ?M0, ?M1; unfold circulation, total, vortex; cbn [map fold_right fst snd];
  repeat match goal with |- context [exp (?a / ?b)] =>
    let E := fresh in
    first [assert (E : a / b = 0) by lra | assert (E : a / b = - (1) * / 2) by lra | assert (E : a / b = - (1)) by lra];
    rewrite E; clear E end; rewrite exp_0; ring.
Qed.

Print Assumptions c242_signs.
Print Assumptions c242_vorticity.
Print Assumptions c242_even.
Print Assumptions c242_circulation_partial.
Print Assumptions c242_circulation_refuted.
