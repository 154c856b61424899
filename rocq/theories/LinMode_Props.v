(** C147: the initial linear mode; C148: the empirical frequencies. *)
From Coq Require Import Reals ZArith List Bool Lia Lra.
From Verif Require Import LinMode_Model.
Import ListNotations.
Local Open Scope Z_scope.

(** ** Specification *)

(** the modes which have to be initialised *)
Definition region (i_mode0 i_mode1 delta ikx iky : Z) : Prop :=
  i_mode0 <= ikx < i_mode0 + delta /\ i_mode1 <= iky < i_mode1 + delta.

(** the amplitude times N^2 in the mode if P, else nothing *)
Definition initialised (amplitude N : R) (m : Z -> Z -> bool) (i j : Z) (P : Prop) : Prop :=
  (P -> linear_mode amplitude N m i j = amplitude * N ^ 2)%R /\ (~ P -> linear_mode amplitude N m i j = 0)%R.

Lemma initialised_iff amplitude N m i j P : (m i j = true <-> P) -> initialised amplitude N m i j P.
Proof.
  intros H. unfold initialised, linear_mode. destruct (m i j); split; intros HP; try reflexivity.
  - exfalso. apply HP, H. reflexivity.
  - apply H in HP. discriminate.
Qed.

Lemma cond_region a b d ikx iky : cond a b d ikx iky = true <-> region a b d ikx iky.
Proof. unfold cond, region. rewrite !andb_true_iff, !Z.leb_le. lia. Qed.

Lemma in_indices n0 n1 i j : In (i, j) (indices n0 n1) <-> 0 <= i < n0 /\ 0 <= j < n1.
Proof.
  unfold indices. rewrite in_flat_map. split.
  - intros (a & Ha & H). apply in_map_iff in H as (b & E & Hb). injection E as <- <-. apply in_seq in Ha, Hb. lia.
  - intros [H1 H2]. exists (Z.to_nat i). split; [apply in_seq; lia|]. apply in_map_iff. exists (Z.to_nat j).
    split; [f_equal; lia|apply in_seq; lia].
Qed.

Lemma put_ones_spec s0 s1 idx : forall a,
  (forall i j, In (i, j) idx -> i < s0 /\ j < s1) ->
  exists b, put_ones s0 s1 idx a = Some b /\ forall i j, b i j = true <-> In (i, j) idx \/ a i j = true.
Proof.
  induction idx as [|[i0 j0] idx IH]; intros a H; [exists a; split; [reflexivity|]; intros; cbn; tauto|].
  cbn [put_ones]. destruct (H i0 j0 (or_introl eq_refl)) as [H0 H1].
  replace (i0 <? s0) with true by (symmetry; apply Z.ltb_lt; exact H0). replace (j0 <? s1) with true by (symmetry; apply Z.ltb_lt; exact H1). cbn [andb].
  destruct (IH (fun i' j' => if (i' =? i0) && (j' =? j0) then true else a i' j') (fun i j Hij => H i j (or_intror Hij))) as (b & E & Hb).
  exists b. split; [exact E|]. intros i j. rewrite Hb. cbn [In].
  destruct (Z.eqb_spec i i0) as [->|N]; [destruct (Z.eqb_spec j j0) as [->|N]|]; cbn [andb].
  - split; [intros _; left; left; reflexivity|right; reflexivity].
  - split; [tauto|]. intros [[E'|]|]; [congruence|tauto|tauto].
  - split; [tauto|]. intros [[E'|]|]; [congruence|tauto|tauto].
Qed.

Lemma put_ones_error s0 s1 idx : forall a, (exists i j, In (i, j) idx /\ (s0 <= i \/ s1 <= j)) -> put_ones s0 s1 idx a = None.
Proof.
  induction idx as [|[i0 j0] idx IH]; intros a (i & j & H & B); [destruct H|]. cbn [put_ones].
  destruct H as [E|H].
  - injection E as -> ->. destruct (Z.ltb_spec i s0), (Z.ltb_spec j s1); cbn [andb]; try reflexivity. lia.
  - destruct (_ && _); [|reflexivity]. apply IH. exists i, j. auto.
Qed.

(** ** C147 *)

(** several processes: exactly the modes asked for, for any shape *)
Theorem c147_mpi : forall (a b d start s0 s1 : Z), exists m, put_ones_mpi a b d start s0 s1 = Some m
  /\ forall amplitude N i j, 0 <= i < s0 -> 0 <= j < s1 -> initialised amplitude N m i j (region a b d (start + i) j).
Proof.
  intros a b d start s0 s1. unfold put_ones_mpi. set (idx := filter _ _).
  destruct (put_ones_spec s0 s1 idx (fun _ _ => false)) as (m & E & H).
  { intros i j Hij. unfold idx in Hij. apply filter_In in Hij as [Hij _]. apply in_indices in Hij. lia. }
  exists m. split; [exact E|]. intros amplitude N i j Hi Hj. apply initialised_iff. rewrite H. unfold idx. rewrite filter_In, in_indices. cbn [fst snd]. rewrite cond_region.
  split; [intros [[_ ?]|?]; [assumption|discriminate]|intros ?; left; tauto].
Qed.

(** one process: exactly the modes asked for, if they are all in the square of the wavenumbers lower than both sizes *)
Theorem c147_seq_partial : forall (a b d s0 s1 : Z), a + d <= Z.min s0 s1 -> b + d <= Z.min s0 s1 ->
  exists m, put_ones_seq a b d s0 s1 = Some m
  /\ forall amplitude N iky ikx, 0 <= iky < s0 -> 0 <= ikx < s1 -> initialised amplitude N m iky ikx (region a b d ikx iky).
Proof.
  intros a b d s0 s1 Ha Hb. unfold put_ones_seq. set (idx := filter _ _).
  destruct (put_ones_spec s0 s1 idx (fun _ _ => false)) as (m & E & H).
  { intros i j Hij. unfold idx in Hij. apply filter_In in Hij as [Hij C]. apply in_indices in Hij. cbn [fst snd] in C. apply cond_region in C. unfold region in C. lia. }
  exists m. split; [exact E|]. intros amplitude N i j Hi Hj. apply initialised_iff. rewrite H. unfold idx. rewrite filter_In, in_indices. cbn [fst snd]. rewrite cond_region.
  split; [intros [[_ ?]|?]; [assumption|discriminate]|]. intros Rg. left. split; [unfold region in Rg; lia|exact Rg].
Qed.

(** one process, in all the cases: an exception or exactly the modes with iky < shapeK[1] and ikx < shapeK[0] *)
Theorem c147_seq_exact : forall (a b d s0 s1 : Z),
  (put_ones_seq a b d s0 s1 = None <-> exists ikx iky, region a b d ikx iky /\ 0 <= ikx < s0 /\ 0 <= iky < s1 /\ (s1 <= ikx \/ s0 <= iky))
  /\ forall m, put_ones_seq a b d s0 s1 = Some m ->
     forall iky ikx, 0 <= iky < s0 -> 0 <= ikx < s1 -> m iky ikx = true <-> region a b d ikx iky /\ iky < s1 /\ ikx < s0.
Proof.
  intros a b d s0 s1. unfold put_ones_seq. set (idx := filter _ _).
  assert (Hidx : forall i j, In (i, j) idx <-> (0 <= i < s1 /\ 0 <= j < s0) /\ region a b d j i).
  { intros i j. unfold idx. rewrite filter_In, in_indices. cbn [fst snd]. rewrite cond_region. reflexivity. }
  destruct (existsb (fun ij => (s0 <=? fst ij) || (s1 <=? snd ij)) idx) eqn:X.
  - apply existsb_exists in X as ([i j] & Hij & B). cbn [fst snd] in B. apply orb_prop in B.
    assert (B' : s0 <= i \/ s1 <= j) by (destruct B as [B|B]; apply Z.leb_le in B; tauto).
    rewrite (put_ones_error s0 s1 idx) by (exists i, j; auto). split; [|discriminate].
    split; [|reflexivity]. intros _. apply Hidx in Hij. exists j, i. tauto.
  - assert (B : forall i j, In (i, j) idx -> i < s0 /\ j < s1).
    { intros i j Hij. destruct (Z_lt_le_dec i s0), (Z_lt_le_dec j s1); [auto| | |]; exfalso;
        (assert (T : existsb (fun ij => (s0 <=? fst ij) || (s1 <=? snd ij)) idx = true)
          by (apply existsb_exists; exists (i, j); split; [exact Hij|]; cbn [fst snd]; apply orb_true_iff; rewrite !Z.leb_le; lia));
        congruence. }
    destruct (put_ones_spec s0 s1 idx (fun _ _ => false) B) as (m & E & H). rewrite E. split.
    + split; [discriminate|]. intros (ikx & iky & Rg & H1 & H2 & H3). exfalso.
      assert (Hin : In (iky, ikx) idx) by (apply Hidx; tauto). apply B in Hin. lia.
    + intros m' Em. injection Em as <-. intros i j Hi Hj. rewrite H, Hidx.
      split; [intros [?|?]; [tauto|discriminate]|]. intros (Rg & L1 & L2). left. split; [lia|exact Rg].
Qed.

(** nx = 32, ny = 8: the mode (10, 2) is a mode of the grid, and nothing is initialised *)
Theorem c147_seq_refuted : exists (nx ny a b : Z) (m : Z -> Z -> bool), 0 <= a <= nx / 2 /\ 0 <= b < ny
  /\ put_ones_seq a b 1 ny (nx / 2 + 1) = Some m /\ region a b 1 a b
  /\ forall iky ikx, 0 <= iky < ny -> 0 <= ikx <= nx / 2 -> m iky ikx = false.
Proof.
  exists 32, 8, 10, 2. eexists. split; [cbn; lia|]. split; [lia|]. split; [vm_compute; reflexivity|]. split; [unfold region; lia|].
  intros. reflexivity.
Qed.

Example c147_example : 3 + 2 <= Z.min 8 17 /\ 2 + 2 <= Z.min 8 17 /\ region 3 2 2 4 3.
Proof. unfold region. lia. Qed.

(** ** C148 *)

Local Open Scope R_scope.

(** mean of a function of the frequency, weighted by the spectrum *)
Definition wmean (omegas spectrum : list R) (f : R -> R) : R :=
  sum_list (map (fun os => f (fst os) * snd os) (combine omegas spectrum)) / sum_list spectrum.

Lemma wsum_lin l f g c : sum_list (map (fun os : R * R => (f (fst os) + c * g (fst os)) * snd os) l)
  = sum_list (map (fun os => f (fst os) * snd os) l) + c * sum_list (map (fun os => g (fst os) * snd os) l).
Proof. unfold sum_list. induction l as [|a l IH]; cbn [map fold_right]; [ring|]. rewrite IH. ring. Qed.

Lemma combine_sum omegas spectrum : length omegas = length spectrum -> sum_list (map (fun os : R * R => 1 * snd os) (combine omegas spectrum)) = sum_list spectrum.
Proof.
  revert spectrum. induction omegas as [|o omegas IH]; intros [|s spectrum] L; cbn in L; try lia; [reflexivity|].
  unfold sum_list in *. cbn [combine map fold_right snd]. rewrite IH by lia. ring.
Qed.

Lemma wsum_le l f g : (forall os : R * R, In os l -> 0 <= snd os /\ f (fst os) <= g (fst os)) ->
  sum_list (map (fun os => f (fst os) * snd os) l) <= sum_list (map (fun os => g (fst os) * snd os) l).
Proof.
  unfold sum_list. induction l as [|a l IH]; intros H; cbn [map fold_right]; [lra|].
  pose proof (IH (fun os Hos => H os (or_intror Hos))). destruct (H a (or_introl eq_refl)) as [H1 H2].
  pose proof (Rmult_le_compat_r (snd a) _ _ H1 H2). lra.
Qed.

(** mean and standard deviation of the frequency, between the frequencies of the spectrum *)
Theorem c148_frequencies : forall (omegas spectrum : list R), length omegas = length spectrum -> (forall s, In s spectrum -> 0 <= s) -> sum_list spectrum <> 0 ->
  exists oe de, omega_emp omegas spectrum = Some oe /\ delta_omega_emp omegas spectrum = Some de
  /\ oe = wmean omegas spectrum (fun o => o) /\ 0 <= de /\ de ^ 2 = wmean omegas spectrum (fun o => o ^ 2) - oe ^ 2
  /\ forall a b, (forall o, In o omegas -> a <= o <= b) -> a <= oe <= b.
Proof.
  intros omegas spectrum L P N. unfold delta_omega_emp, omega_emp, omega_norm. destruct (Req_EM_T (sum_list spectrum) 0) as [E|_]; [contradiction|].
  eexists. eexists. split; [reflexivity|]. split; [reflexivity|]. set (oe := _ / _).
  set (l := combine omegas spectrum) in *.
  assert (Pl : forall os, In os l -> 0 <= snd os) by (intros [o s] H; apply in_combine_r in H; apply P; exact H).
  assert (Ol : forall os, In os l -> In (fst os) omegas) by (intros [o s] H; apply in_combine_l in H; exact H).
  assert (Q : 0 < sum_list spectrum).
  { assert (H : 0 <= sum_list spectrum); [|lra]. clear - P. unfold sum_list. induction spectrum as [|s spectrum IH]; cbn; [lra|].
    pose proof (P s (or_introl eq_refl)). pose proof (IH (fun x Hx => P x (or_intror Hx))). lra. }
  assert (S1 : sum_list (map (fun os : R * R => 1 * snd os) l) = sum_list spectrum) by (apply combine_sum; exact L).
  assert (EOE : oe * sum_list spectrum = sum_list (map (fun os => fst os * snd os) l)) by (unfold oe; field; lra).
  assert (V : sum_list (map (fun os : R * R => (fst os - oe) ^ 2 * snd os) l) / sum_list spectrum = wmean omegas spectrum (fun o => o ^ 2) - oe ^ 2).
  { unfold wmean. fold l.
    rewrite (map_ext (fun os : R * R => (fst os - oe) ^ 2 * snd os) (fun os => ((fun o => o ^ 2 + (-2 * oe) * o) (fst os) + oe ^ 2 * (fun _ => 1) (fst os)) * snd os))
      by (intros os; ring).
    rewrite (wsum_lin l (fun o => o ^ 2 + (-2 * oe) * o) (fun _ => 1) (oe ^ 2)), S1.
    rewrite (wsum_lin l (fun o => o ^ 2) (fun o => o) (-2 * oe)), <- EOE. field. lra. }
  split; [reflexivity|]. split; [apply sqrt_pos|]. split.
  - rewrite pow2_sqrt; [exact V|]. unfold Rdiv. apply Rmult_le_pos; [|left; apply Rinv_0_lt_compat; exact Q].
    assert (Z : sum_list (map (fun os : R * R => 0 * snd os) l) = 0) by (clear; unfold sum_list; induction l as [|a l IH]; cbn; [reflexivity|rewrite IH; ring]).
    rewrite <- Z. apply (wsum_le l (fun _ => 0) (fun o => (o - oe) ^ 2)). intros os Hos. split; [apply Pl; exact Hos|apply pow2_ge_0].
  - intros a b Hab. split.
    + apply Rmult_le_reg_r with (sum_list spectrum); [exact Q|]. rewrite EOE, <- S1.
      rewrite <- (Rplus_0_l (a * _)). 
      assert (T := wsum_lin l (fun _ => 0) (fun _ => 1) a). cbn beta in T.
      assert (Z : sum_list (map (fun os : R * R => 0 * snd os) l) = 0) by (clear; unfold sum_list; induction l as [|x l IH]; cbn; [reflexivity|rewrite IH; ring]).
      rewrite Z in T. rewrite <- T. apply (wsum_le l (fun _ => 0 + a * 1) (fun o => o)). intros os Hos. split; [apply Pl; exact Hos|].
      destruct (Hab (fst os) (Ol os Hos)). lra.
    + apply Rmult_le_reg_r with (sum_list spectrum); [exact Q|]. rewrite EOE, <- S1.
      rewrite <- (Rplus_0_l (b * _)).
      assert (T := wsum_lin l (fun _ => 0) (fun _ => 1) b). cbn beta in T.
      assert (Z : sum_list (map (fun os : R * R => 0 * snd os) l) = 0) by (clear; unfold sum_list; induction l as [|x l IH]; cbn; [reflexivity|rewrite IH; ring]).
      rewrite Z in T. rewrite <- T. apply (wsum_le l (fun o => o) (fun _ => 0 + b * 1)). intros os Hos. split; [apply Pl; exact Hos|].
      destruct (Hab (fst os) (Ol os Hos)). lra.
Qed.

Example c148_example : length [0; 1] = length [1; 3] /\ (forall s, In s [1; 3] -> 0 <= s) /\ sum_list [1; 3] <> 0 /\ omega_emp [0; 1] [1; 3] = Some (3 / 4).
Proof.
  split; [reflexivity|]. split; [intros s [<-|[<-|[]]]; lra|]. unfold omega_emp, omega_norm, sum_list. cbn. split; [lra|].
  destruct (Req_EM_T _ 0) as [E|_]; [lra|]. f_equal. field.
Qed.

Print Assumptions c147_mpi.
Print Assumptions c147_seq_partial.
Print Assumptions c147_seq_exact.
Print Assumptions c147_seq_refuted.
Print Assumptions c148_frequencies.
