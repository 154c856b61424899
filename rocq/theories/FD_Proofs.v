(** * Finite differences: lemmas *)

From Coq Require Import Reals List Arith Lia Lra.
From Verif Require Import FD_Model.
Import ListNotations.
Open Scope R_scope.

(** ** Vocabulary of the properties *)

(** sum of f over 0 .. n-1 *)
Fixpoint rsum (n : nat) (f : nat -> R) : R :=
  match n with O => 0 | S m => rsum m f + f m end.

(** neighbours on a periodic line of n points *)
Definition next (n i : nat) : nat := if Nat.eqb (S i) n then O else S i.
Definition prev (n i : nat) : nat := if Nat.eqb i 0 then (n - 1)%nat else (i - 1)%nat.

Definition inner (n : nat) (a b : nat -> R) : R := rsum n (fun i => a i * b i).

(** ** Sums *)

Lemma rsum_ext n f g : (forall i, (i < n)%nat -> f i = g i) -> rsum n f = rsum n g.
Proof.
  induction n as [|n IH]; simpl; intros H; [reflexivity|].
  rewrite IH, H; auto with arith.
Qed.

Lemma rsum_plus n f g : rsum n (fun i => f i + g i) = rsum n f + rsum n g.
Proof. induction n; simpl; [ring|]. rewrite IHn. ring. Qed.

Lemma rsum_scal n c f : rsum n (fun i => c * f i) = c * rsum n f.
Proof. induction n; simpl; [ring|]. rewrite IHn. ring. Qed.

Lemma rsum_minus n f g : rsum n (fun i => f i - g i) = rsum n f - rsum n g.
Proof. induction n; simpl; [ring|]. rewrite IHn. ring. Qed.

Lemma rsum_nonneg n f : (forall i, (i < n)%nat -> 0 <= f i) -> 0 <= rsum n f.
Proof.
  induction n as [|n IH]; simpl; intros H; [lra|].
  pose proof (H n ltac:(lia)). pose proof (IH ltac:(intros; apply H; lia)). lra.
Qed.

Lemma rsum_zero n f : (forall i, (i < n)%nat -> f i = 0) -> rsum n f = 0.
Proof.
  intros H. rewrite (rsum_ext n f (fun i => 0 * 0)) by (intros; rewrite H by lia; ring).
  rewrite rsum_scal. ring.
Qed.

Lemma rsum_0_inv n f : (forall i, (i < n)%nat -> 0 <= f i) -> rsum n f = 0 ->
  forall i, (i < n)%nat -> f i = 0.
Proof.
  induction n as [|n IH]; simpl; intros H E i Hi; [lia|].
  pose proof (rsum_nonneg n f ltac:(intros; apply H; lia)) as P.
  pose proof (H n ltac:(lia)) as Q.
  destruct (Nat.eq_dec i n) as [->|]; [lra|].
  apply IH; [intros; apply H; lia|lra|lia].
Qed.

Lemma rsum_shift n f : rsum (S n) f = f O + rsum n (fun i => f (S i)).
Proof. induction n; simpl in *; [ring|]. rewrite IHn. ring. Qed.

Lemma rsum_next n f : rsum n (fun i => f (next n i)) = rsum n f.
Proof.
  destruct n as [|n]; [reflexivity|].
  rewrite (rsum_shift n f). simpl. unfold next at 2. rewrite Nat.eqb_refl.
  rewrite (rsum_ext n (fun i => f (next (S n) i)) (fun i => f (S i))); [ring|].
  intros i Hi. unfold next. destruct (Nat.eqb_spec (S i) (S n)); [lia|reflexivity].
Qed.

Lemma prev_next n i : (i < n)%nat -> prev n (next n i) = i.
Proof.
  intros H. unfold prev, next.
  destruct (Nat.eqb_spec (S i) n); [simpl; lia|].
  simpl. lia.
Qed.

Lemma next_prev n i : (i < n)%nat -> next n (prev n i) = i.
Proof.
  intros H. unfold prev, next. destruct (Nat.eqb_spec i 0) as [->|].
  - replace (S (n - 1)) with n by lia. now rewrite Nat.eqb_refl.
  - replace (S (i - 1)) with i by lia.
    destruct (Nat.eqb_spec i n); [lia|reflexivity].
Qed.

Lemma next_lt n i : (i < n)%nat -> (next n i < n)%nat.
Proof. intros H. unfold next. destruct (Nat.eqb_spec (S i) n); lia. Qed.

Lemma prev_lt n i : (i < n)%nat -> (prev n i < n)%nat.
Proof. intros H. unfold prev. destruct (Nat.eqb_spec i 0); lia. Qed.

Lemma rsum_prev n f : rsum n (fun i => f (prev n i)) = rsum n f.
Proof.
  rewrite <- (rsum_next n (fun i => f (prev n i))).
  apply rsum_ext. intros i Hi. now rewrite prev_next.
Qed.

(** sum over a product grid *)
Lemma rsum_add b m f : rsum (b + m) f = rsum b f + rsum m (fun i => f (b + i)%nat).
Proof.
  induction m; simpl.
  - rewrite Nat.add_0_r. ring.
  - rewrite Nat.add_succ_r. simpl. rewrite IHm. ring.
Qed.

Lemma rsum_grid ny nx f :
  rsum (nx * ny) f = rsum ny (fun j => rsum nx (fun i => f (j * nx + i)%nat)).
Proof.
  induction ny as [|ny IH].
  - rewrite Nat.mul_0_r. reflexivity.
  - replace (nx * S ny)%nat with (nx * ny + nx)%nat by lia.
    rewrite rsum_add, IH. simpl. f_equal.
    apply rsum_ext. intros i _. f_equal. lia.
Qed.

(** ** Sparse matrices *)

Lemma dot_app A B a i : dot (A ++ B) a i = dot A a i + dot B a i.
Proof. unfold dot. induction A; simpl; [ring|]. rewrite IHA. ring. Qed.

Lemma dot_scale c A a i : dot (scale c A) a i = c * dot A a i.
Proof.
  unfold dot, scale. induction A as [|e A IH]; simpl; [ring|]. rewrite IH.
  unfold row, col, val; simpl. destruct (Nat.eqb _ i); ring.
Qed.

Lemma dot_mdiv A c a i : dot (mdiv A c) a i = dot A a i / c.
Proof.
  unfold dot, mdiv. induction A as [|e A IH]; simpl; [unfold Rdiv; ring|]. rewrite IH.
  unfold row, col, val; simpl. destruct (Nat.eqb _ i); unfold Rdiv; ring.
Qed.

Lemma dot_msub A B a i : dot (msub A B) a i = dot A a i - dot B a i.
Proof. unfold msub. rewrite dot_app, dot_scale. ring. Qed.

(** entries with the rows g(j) for j in a range, g injective *)
Lemma dot_map_seq (g h : nat -> nat) (v : R) s m a i :
  dot (map (fun j => (g j, h j, v)) (seq s m)) a i
  = rsum m (fun j => if Nat.eqb (g (s + j)%nat) i then v * a (h (s + j)%nat) else 0).
Proof.
  revert s. induction m as [|m IH]; intros s; [reflexivity|].
  simpl seq. simpl map. rewrite (rsum_shift m).
  change (dot (?e :: ?l) a i) with
    ((if Nat.eqb (row e) i then val e * a (col e) else 0) + dot l a i).
  rewrite IH. unfold row, col, val; simpl.
  rewrite Nat.add_0_r. f_equal. apply rsum_ext. intros j _.
  now rewrite Nat.add_succ_r.
Qed.

Lemma rsum_single m (f : nat -> R) k : (k < m)%nat ->
  (forall j, (j < m)%nat -> j <> k -> f j = 0) -> rsum m f = f k.
Proof.
  induction m as [|m IH]; intros Hk H; [lia|]. simpl.
  destruct (Nat.eq_dec k m) as [->|Hne].
  - rewrite rsum_zero; [ring|]. intros j Hj. apply H; lia.
  - rewrite IH by (try lia; intros; apply H; lia). rewrite (H m) by lia. ring.
Qed.

Lemma dot_up n v k a i :
  dot (diag n v (Up k)) a i = if Nat.ltb i (n - k) then v * a (i + k)%nat else 0.
Proof.
  unfold diag. rewrite dot_map_seq. destruct (Nat.ltb_spec i (n - k)).
  - rewrite (rsum_single _ _ i H).
    + simpl. now rewrite Nat.eqb_refl.
    + intros j Hj Hne. simpl. destruct (Nat.eqb_spec j i); [lia|reflexivity].
  - apply rsum_zero. intros j Hj. simpl. destruct (Nat.eqb_spec j i); [lia|reflexivity].
Qed.

Lemma dot_down n v k a i :
  dot (diag n v (Down k)) a i
  = if andb (Nat.leb k i) (Nat.ltb i n) then v * a (i - k)%nat else 0.
Proof.
  unfold diag. rewrite (dot_map_seq (fun j => (j + k)%nat) (fun j => j)).
  destruct (Nat.leb_spec k i); simpl.
  - destruct (Nat.ltb_spec i n).
    + rewrite (rsum_single _ _ (i - k)%nat);
        [|lia|intros j Hj Hne; simpl; destruct (Nat.eqb_spec (j + k) i); [lia|reflexivity]].
      simpl.
      destruct (Nat.eqb_spec (i - k + k) i); [reflexivity|lia].
    + apply rsum_zero. intros j Hj. simpl. destruct (Nat.eqb_spec (j + k) i); [lia|reflexivity].
  - apply rsum_zero. intros j Hj. simpl. destruct (Nat.eqb_spec (j + k) i); [lia|reflexivity].
Qed.

Lemma dot_identity n a i : (i < n)%nat -> dot (identity n) a i = a i.
Proof.
  intros H. unfold identity. rewrite (dot_map_seq (fun j => j) (fun j => j)).
  rewrite (rsum_single _ _ i H).
  - simpl. rewrite Nat.eqb_refl. ring.
  - intros j Hj Hne. simpl. destruct (Nat.eqb_spec j i); [lia|reflexivity].
Qed.

(** ** The 1D operators *)

Lemma px_1d_ok nx dx a i : (3 <= nx)%nat -> (i < nx)%nat ->
  dot (sparse_px_1d nx dx) a i = (a (next nx i) - a (prev nx i)) / (2 * dx).
Proof.
  intros Hn Hi. unfold sparse_px_1d. rewrite dot_mdiv. f_equal.
  unfold diags; cbn [flat_map fst snd]. rewrite !dot_app, !dot_up, !dot_down.
  change (dot [] a i) with 0. unfold next, prev.
  destruct (Nat.eqb_spec (S i) nx), (Nat.eqb_spec i 0);
  repeat match goal with
         | |- context[Nat.leb ?x ?y] => destruct (Nat.leb_spec x y); try lia
         | |- context[Nat.ltb ?x ?y] => destruct (Nat.ltb_spec x y); try lia
         end; simpl andb; cbv iota.
  - replace (i - (nx - 1))%nat with 0%nat by lia. ring.
  - subst i. simpl. ring.
  - replace (i + 1)%nat with (S i) by lia. ring.
Qed.

Lemma pxx_1d_ok nx dx a i : (3 <= nx)%nat -> (i < nx)%nat ->
  dot (sparse_pxx_1d nx dx) a i = (a (next nx i) - 2 * a i + a (prev nx i)) / dx ^ 2.
Proof.
  intros Hn Hi. unfold sparse_pxx_1d. rewrite dot_mdiv. f_equal.
  unfold diags; cbn [flat_map fst snd]. rewrite !dot_app, !dot_up, !dot_down.
  change (dot [] a i) with 0. unfold next, prev.
  destruct (Nat.eqb_spec (S i) nx), (Nat.eqb_spec i 0);
  repeat match goal with
         | |- context[Nat.leb ?x ?y] => destruct (Nat.leb_spec x y); try lia
         | |- context[Nat.ltb ?x ?y] => destruct (Nat.ltb_spec x y); try lia
         end; simpl andb; cbv iota; rewrite ?Nat.add_0_r.
  - replace (i - (nx - 1))%nat with 0%nat by lia. ring.
  - subst i. simpl. ring.
  - replace (i + 1)%nat with (S i) by lia. ring.
Qed.

(** ** The 2D operators *)

Lemma dot_entries size values func a i : (i < size)%nat ->
  dot (sparse_entries size values func) a i
  = rsum (List.length values) (fun iv => nth iv values 0 * a (func i iv)).
Proof.
  intros Hi. unfold sparse_entries.
  assert (H : forall s m, dot (flat_map (fun i0 => map (fun iv => (i0, func i0 iv, nth iv values 0))
               (seq 0 (List.length values))) (seq s m)) a i
     = if andb (Nat.leb s i) (Nat.ltb i (s + m))
       then rsum (List.length values) (fun iv => nth iv values 0 * a (func i iv)) else 0).
  { intros s m. revert s. induction m as [|m IH]; intros s.
    - simpl. destruct (Nat.leb_spec s i), (Nat.ltb_spec i (s + 0)); simpl; auto; lia.
    - simpl seq. cbn [flat_map]. rewrite dot_app, IH.
      assert (E : dot (map (fun iv => (s, func s iv, nth iv values 0))
                (seq 0 (List.length values))) a i
              = if Nat.eqb s i then rsum (List.length values)
                   (fun iv => nth iv values 0 * a (func i iv)) else 0).
      { clear.
        assert (G : forall n o, dot (map (fun iv => (s, func s iv, nth iv values 0)) (seq o n)) a i
          = if Nat.eqb s i then rsum n (fun iv => nth (o + iv) values 0 * a (func i (o + iv)%nat))
            else 0).
        { induction n as [|n IH]; intros o; [simpl; destruct (Nat.eqb s i); reflexivity|].
          simpl seq. simpl map.
          change (dot (?e :: ?l) a i) with
            ((if Nat.eqb (row e) i then val e * a (col e) else 0) + dot l a i).
          rewrite IH, (rsum_shift n). unfold row, col, val; simpl fst; simpl snd.
          destruct (Nat.eqb_spec s i) as [->|]; [|ring].
          rewrite Nat.add_0_r. f_equal. apply rsum_ext. intros j _.
          now rewrite Nat.add_succ_r. }
        rewrite (G _ 0%nat). reflexivity. }
      rewrite E.
      destruct (Nat.eqb_spec s i), (Nat.leb_spec (S s) i), (Nat.leb_spec s i),
        (Nat.ltb_spec i (S s + m)), (Nat.ltb_spec i (s + S m)); simpl; try lia; ring. }
  rewrite H. destruct (Nat.leb_spec 0 i), (Nat.ltb_spec i (0 + size)); simpl; try lia.
  reflexivity.
Qed.

Lemma pos_div n i0 i1 : (i1 < n)%nat -> ((i0 * n + i1) / n = i0)%nat.
Proof.
  intros H. rewrite Nat.div_add_l by lia. rewrite Nat.div_small by lia. lia.
Qed.
Lemma pos_mod n i0 i1 : (i1 < n)%nat -> ((i0 * n + i1) mod n = i1)%nat.
Proof.
  intros H. rewrite Nat.add_comm, Nat.mod_add by lia. apply Nat.mod_small; lia.
Qed.

Lemma next_mod n i : (i < n)%nat -> ((i + 1) mod n = next n i)%nat.
Proof.
  intros H. unfold next. destruct (Nat.eqb_spec (S i) n).
  - replace (i + 1)%nat with n by lia. apply Nat.mod_same. lia.
  - rewrite Nat.mod_small; lia.
Qed.

Lemma pred_mod_ok n i : (i < n)%nat -> pred_mod i n = prev n i.
Proof.
  intros H. unfold prev, pred_mod. destruct (Nat.eqb_spec i 0) as [->|].
  - apply Nat.mod_small. lia.
  - replace (i + (n - 1))%nat with (i - 1 + 1 * n)%nat by lia.
    rewrite Nat.mod_add by lia. apply Nat.mod_small. lia.
Qed.

Lemma row_next nx ny i0 : (0 < nx)%nat -> (i0 < ny)%nat ->
  (((i0 + 1) * nx) mod (nx * ny) = next ny i0 * nx)%nat.
Proof.
  intros Hx H. replace (nx * ny)%nat with (ny * nx)%nat by lia.
  rewrite Nat.mul_mod_distr_r by lia. now rewrite next_mod.
Qed.

Lemma row_prev nx ny i0 : (0 < nx)%nat -> (i0 < ny)%nat ->
  ((i0 * nx + (nx * ny - nx)) mod (nx * ny) = prev ny i0 * nx)%nat.
Proof.
  intros Hx H.
  replace (i0 * nx + (nx * ny - nx))%nat with ((i0 + (ny - 1)) * nx)%nat by nia.
  replace (nx * ny)%nat with (ny * nx)%nat by lia.
  rewrite Nat.mul_mod_distr_r by lia. now rewrite <- pred_mod_ok.
Qed.

(** ** Time step *)

Lemma inner_comm n a b : inner n a b = inner n b a.
Proof. apply rsum_ext. intros; ring. Qed.

Lemma dot_plus L (x y : nat -> R) i : dot L (fun j => x j + y j) i = dot L x i + dot L y i.
Proof.
  unfold dot. induction L as [|e L IH]; simpl; [ring|].
  rewrite IH. destruct (Nat.eqb (row e) i); ring.
Qed.

Lemma dot_minus L (x y : nat -> R) i : dot L (fun j => x j - y j) i = dot L x i - dot L y i.
Proof.
  unfold dot. induction L as [|e L IH]; simpl; [ring|].
  rewrite IH. destruct (Nat.eqb (row e) i); ring.
Qed.

(** |x|^2 - |S|^2 = dt/2 <L(x+S), x+S> + dt <N, x+S> for the solution of the linear system *)
Lemma energy_balance n L dt (S N x : nat -> R) :
  (forall i, (i < n)%nat ->
     dot (msub (identity n) (scale (dt / 2) L)) x i = right_hand_side L S N dt i) ->
  inner n x x - inner n S S
  = dt / 2 * inner n (dot L (fun j => x j + S j)) (fun j => x j + S j)
    + dt * inner n N (fun j => x j + S j).
Proof.
  intros H. unfold inner. rewrite <- rsum_minus, <- !rsum_scal, <- rsum_plus.
  apply rsum_ext. intros i Hi. specialize (H i Hi).
  rewrite dot_msub, dot_scale, dot_identity in H by exact Hi.
  unfold right_hand_side in H. rewrite dot_plus.
  replace (x i * x i - S i * S i) with ((x i - S i) * (x i + S i)) by ring.
  replace (x i - S i) with (dt / 2 * (dot L x i + dot L S i) + dt * N i) by lra. ring.
Qed.

(** total of the columns: conservation of the sum *)
Lemma mean_balance n L dt (S N x : nat -> R) :
  (forall i, (i < n)%nat ->
     dot (msub (identity n) (scale (dt / 2) L)) x i = right_hand_side L S N dt i) ->
  rsum n x - rsum n S
  = dt / 2 * rsum n (dot L (fun j => x j + S j)) + dt * rsum n N.
Proof.
  intros H. rewrite <- rsum_minus, <- !rsum_scal, <- rsum_plus.
  apply rsum_ext. intros i Hi. specialize (H i Hi).
  rewrite dot_msub, dot_scale, dot_identity in H by exact Hi.
  unfold right_hand_side in H. rewrite dot_plus. lra.
Qed.
