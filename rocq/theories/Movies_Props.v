(** C162: the times of the frames; C163: the player; C164: the repetitions; C165: the vectors; C166: the time average. *)
From Coq Require Import QArith Qround ZArith List Bool Lia Lqa Arith Qfield.
From Verif Require Import Movies_Model.
From Verif Require Probes_Model.
Import ListNotations.
Local Open Scope Q_scope.

Lemma Qltb_lt a b : Qltb a b = true <-> a < b.
Proof. unfold Qltb. destruct (Qle_bool b a) eqn:E; cbn; [apply Qle_bool_iff in E; split; [discriminate|lra]|]. split; [intros _|reflexivity]. apply Qnot_le_lt. intros H. apply Qle_bool_iff in H. congruence. Qed.
Lemma Qltb_le a b : Qltb a b = false <-> b <= a.
Proof. destruct (Qltb a b) eqn:E; split; intros H; try discriminate; try reflexivity; [apply Qltb_lt in E; lra|]. apply Qnot_lt_le. intros L. apply Qltb_lt in L. congruence. Qed.

Lemma Qceiling_spec x : x <= inject_Z (Qceiling x) /\ inject_Z (Qceiling x) < x + 1.
Proof.
  split; [apply Qle_ceiling|]. unfold Qceiling. rewrite inject_Z_opp. pose proof (Qlt_floor (- x)) as H. rewrite inject_Z_plus in H. change (inject_Z 1) with 1 in H. lra.
Qed.
Lemma Zle_of_Q a b : inject_Z a <= inject_Z b -> (a <= b)%Z. Proof. now rewrite <- Zle_Qle. Qed.

(** ** C162 *)

Lemma arange_spec tmin tmax dt : tmin < tmax -> 0 < dt -> exists ani, arange tmin tmax dt = inl ani /\ ani <> []
  /\ (forall k, (k < length ani)%nat -> nth k ani 0 == tmin + inject_Z (Z.of_nat k) * dt)
  /\ (forall t, In t ani -> tmin <= t < tmax)
  /\ tmax <= tmin + inject_Z (Z.of_nat (length ani)) * dt
  /\ (forall m : Z, inject_Z m * dt < tmax - tmin -> (m < Z.of_nat (length ani))%Z).
Proof.
  intros T D. unfold arange. destruct (Qeq_bool dt 0) eqn:E; [apply Qeq_bool_iff in E; lra|]. eexists. split; [reflexivity|].
  unfold Probes_Model.arange. set (c := Qceiling ((tmax - tmin) / dt)).
  destruct (Qceiling_spec ((tmax - tmin) / dt)) as [C1 C2]. fold c in C1, C2.
  assert (M : (tmax - tmin) / dt * dt == tmax - tmin) by (field; lra).
  assert (Cp : (0 < c)%Z).
  { apply Z.lt_nge. intros H. rewrite Zle_Qle in H. change (inject_Z 0) with 0 in H. assert (0 < (tmax - tmin) / dt) by (apply Qlt_shift_div_l; lra). lra. }
  rewrite map_length, seq_length. split; [|split; [|split; [|split]]].
  - destruct (Z.to_nat c) eqn:N; [lia|]. discriminate.
  - intros k Hk. rewrite (nth_indep _ 0 (tmin + inject_Z (Z.of_nat 0) * dt)) by (rewrite map_length, seq_length; exact Hk).
    rewrite (map_nth (fun i => tmin + inject_Z (Z.of_nat i) * dt)), seq_nth by exact Hk. reflexivity.
  - intros t Ht. apply in_map_iff in Ht as (k & <- & Hk). apply in_seq in Hk as [_ Hk].
    assert (K0 : 0 <= inject_Z (Z.of_nat k)) by (change 0 with (inject_Z 0); rewrite <- Zle_Qle; lia).
    assert (K1 : inject_Z (Z.of_nat k) <= inject_Z c - 1) by (change 1 with (inject_Z 1); unfold Qminus; rewrite <- inject_Z_opp, <- inject_Z_plus, <- Zle_Qle; lia).
    split; [nra|]. nra.
  - rewrite Z2Nat.id by lia. nra.
  - intros m Hm. rewrite Z2Nat.id by lia. apply Z.lt_nge. intros H. rewrite Zle_Qle in H. nra.
Qed.

(** from tmin by steps of dt, the last frame is before tmax, by dt at most *)
Theorem c162_times_partial : forall tmin tmax dt : Q, tmin < tmax -> 0 < dt -> dt <= tmax ->
  exists ani, init_ani_times tmin tmax dt = inl ani /\ ani <> []
  /\ (forall k, (k < length ani)%nat -> nth k ani 0 == tmin + inject_Z (Z.of_nat k) * dt)
  /\ (forall t, In t ani -> tmin <= t < tmax)
  /\ tmax <= tmin + inject_Z (Z.of_nat (length ani)) * dt.
Proof.
  intros tmin tmax dt T D1 D2. destruct (arange_spec tmin tmax dt T D1) as (ani & E & H1 & H2 & H3 & H4 & _). exists ani. unfold init_ani_times.
  replace (Qltb tmax tmin) with false by (symmetry; apply Qltb_le; lra). replace (Qltb tmax dt) with false by (symmetry; now apply Qltb_le).
  repeat (split; [assumption|]). exact H4.
Qed.

Theorem c162_errors : forall tmin tmax dt : Q, (tmax < tmin -> init_ani_times tmin tmax dt = inr ValueError)
  /\ (tmin <= tmax -> tmax < dt -> init_ani_times tmin tmax dt = inl [tmin; tmax])
  /\ (tmin <= tmax -> 0 <= tmax -> init_ani_times tmin tmax 0 = inr ZeroDivisionError).
Proof.
  intros tmin tmax dt. unfold init_ani_times. split; [|split].
  - intros H. now apply Qltb_lt in H as ->.
  - intros H1 H2. apply Qltb_le in H1 as ->. now apply Qltb_lt in H2 as ->.
  - intros H1 H2. apply Qltb_le in H1 as ->. now apply Qltb_le in H2 as ->.
Qed.

(** the movies of the physical fields: at least two frames, between tmin and tmax, not after the last file *)
Theorem c162_phys_fields : forall (times : list Q) (tmin tmax dt : Q) (ani : list Q), 0 < dt -> phys_ani_times times tmin tmax dt = inl ani ->
  (2 <= length ani)%nat /\ hd 0 ani == tmin /\ forall t, In t ani -> tmin <= t <= tmax /\ t <= max_time times.
Proof.
  intros times tmin tmax dt ani D H. unfold phys_ani_times in H. destruct (Qltb (max_time times) tmax) eqn:E1; [discriminate|]. apply Qltb_le in E1.
  destruct (init_ani_times tmin tmax dt) as [a|] eqn:E2; [|discriminate]. destruct (Qltb dt _) eqn:E3; [discriminate|].
  destruct (Qltb ((tmax - tmin) / 2) dt) eqn:E4; [discriminate|]. apply Qltb_le in E4. injection H as ->.
  assert (W : 2 * dt <= tmax - tmin) by (assert ((tmax - tmin) / 2 == (tmax - tmin) * (1 # 2)) by field; lra).
  unfold init_ani_times in E2. destruct (Qltb tmax tmin); [discriminate|]. destruct (Qltb tmax dt).
  - injection E2 as <-. split; [cbn; lia|]. split; [reflexivity|]. intros t [<-|[<-|[]]]; lra.
  - destruct (arange_spec tmin tmax dt) as (ani' & E & N & H2 & H3 & _ & H5); [lra|exact D|]. rewrite E in E2. injection E2 as ->. split; [|split].
    + assert (L : (1 < Z.of_nat (length ani))%Z) by (apply H5; change (inject_Z 1) with 1; lra). lia.
    + destruct ani as [|a0 l]; [contradiction|]. specialize (H2 O ltac:(cbn; lia)). cbn [nth] in H2. cbn [hd]. rewrite H2. change (inject_Z (Z.of_nat 0)) with 0. ring.
    + intros t Ht. specialize (H3 t Ht). lra.
Qed.

Lemma max_time_ge l : forall t, In t l -> t <= max_time l.
Proof.
  unfold max_time. generalize (first_time l). intros a. induction l as [|x l IH]; intros t; [contradiction|]. cbn [fold_right].
  set (m := fold_right (fun a b => if Qle_bool a b then b else a) a l) in *. destruct (Qle_bool x m) eqn:E.
  - apply Qle_bool_iff in E. intros [<-|H]; [exact E|now apply IH].
  - assert (m < x) by (apply Qnot_le_lt; intros H; apply Qle_bool_iff in H; congruence). intros [<-|H']; [lra|]. specialize (IH t H'). lra.
Qed.
Lemma min_time_le l : forall t a, In t l -> fold_right (fun a b => if Qle_bool a b then a else b) a l <= t.
Proof.
  intros t a. induction l as [|x l IH]; [contradiction|]. cbn [fold_right]. set (m := fold_right (fun a b => if Qle_bool a b then a else b) a l) in *. destruct (Qle_bool x m) eqn:E.
  - apply Qle_bool_iff in E. intros [<-|H]; [lra|]. specialize (IH H). lra.
  - assert (m < x) by (apply Qnot_le_lt; intros H; apply Qle_bool_iff in H; congruence). intros [<-|H']; [lra|]. now apply IH.
Qed.

Lemma max_time_in l : l <> [] -> In (max_time l) l.
Proof.
  intros N. unfold max_time. assert (H : forall a, In (fold_right (fun a b => if Qle_bool a b then b else a) a l) (a :: l)).
  { intros a. clear N. induction l as [|x l IH]; [now left|]. cbn [fold_right]. destruct (Qle_bool x _); [|right; now left]. destruct IH as [H|H]; [left; exact H|right; now right]. }
  destruct l as [|x l]; [contradiction|]. destruct (H (first_time (x :: l))) as [E|E]; [rewrite <- E; now left|exact E].
Qed.
Lemma min_time_in l : l <> [] -> In (min_time l) l.
Proof.
  intros N. unfold min_time. assert (H : forall a, In (fold_right (fun a b => if Qle_bool a b then a else b) a l) (a :: l)).
  { intros a. clear N. induction l as [|x l IH]; [now left|]. cbn [fold_right]. destruct (Qle_bool x _); [right; now left|]. destruct IH as [H|H]; [left; exact H|right; now right]. }
  destruct l as [|x l]; [contradiction|]. destruct (H (first_time (x :: l))) as [E|E]; [rewrite <- E; now left|exact E].
Qed.
Lemma insert_q_in x l y : In y (insert_q x l) <-> y = x \/ In y l.
Proof. induction l as [|z l IH]; [cbn; intuition|]. cbn [insert_q]. destruct (Qle_bool x z); cbn [In]; [intuition|]. rewrite IH. intuition. Qed.
Lemma insert_q_length x l : length (insert_q x l) = S (length l).
Proof. induction l as [|z l IH]; [reflexivity|]. cbn [insert_q]. destruct (Qle_bool x z); cbn [length]; lia. Qed.
Lemma sort_q_in l y : In y (sort_q l) <-> In y l.
Proof. induction l as [|x l IH]; [reflexivity|]. cbn [sort_q fold_right]. rewrite insert_q_in. fold (sort_q l). rewrite IH. cbn. intuition. Qed.
Lemma sort_q_length l : length (sort_q l) = length l.
Proof. induction l as [|x l IH]; [reflexivity|]. cbn [sort_q fold_right]. rewrite insert_q_length. fold (sort_q l). cbn. lia. Qed.
Lemma median_const l c : l <> [] -> (forall x, In x l -> x == c) -> median l == c.
Proof.
  intros N H. unfold median. cbn zeta. pose proof (sort_q_length l) as L. assert (P : (0 < length (sort_q l))%nat) by (destruct l; [contradiction|rewrite L; cbn; lia]).
  assert (G : forall i, (i < length (sort_q l))%nat -> nth i (sort_q l) 0 == c) by (intros i Hi; apply H, sort_q_in, nth_In, Hi).
  rewrite !G; [field| |].
  - apply Nat.div_lt; lia.
  - apply Nat.div_lt_upper_bound; lia.
Qed.
(** the files saved at constant intervals: the movie without argument is accepted, with a step of half the interval *)
Lemma diff_uniform t0 d n : forall s x, In x (diff (map (fun k => t0 + inject_Z (Z.of_nat k) * d) (seq s n))) -> x == d.
Proof.
  induction n as [|n IH]; intros s x; [contradiction|]. destruct n as [|n]; [contradiction|]. cbn [seq map diff]. intros [<-|H].
  - rewrite Nat2Z.inj_succ. unfold Z.succ. rewrite inject_Z_plus. change (inject_Z 1) with 1. ring.
  - apply (IH (S s)). exact H.
Qed.
Theorem c162_default_partial : forall (t0 d : Q) (n : nat), 0 <= t0 -> 0 < d -> (2 <= n)%nat ->
  let times := map (fun k => t0 + inject_Z (Z.of_nat k) * d) (seq 0 n) in
  exists ani, phys_ani_times_default times = inl ani /\ default_dt times == d / 2 /\ hd 0 ani == t0 /\ (forall t, In t ani -> t <= t0 + inject_Z (Z.of_nat (n - 1)) * d).
Proof.
  intros t0 d n T D N times.
  assert (NE : times <> []) by (unfold times; destruct n; [lia|discriminate]).
  assert (Md : median (diff times) == d).
  { apply median_const; [unfold times; destruct n as [|[|n]]; [lia|lia|discriminate]|]. intros x Hx. now apply diff_uniform in Hx. }
  assert (Dd : default_dt times == d / 2) by (unfold default_dt; now rewrite Md).
  assert (R : forall t, In t times -> t0 <= t <= t0 + inject_Z (Z.of_nat (n - 1)) * d).
  { intros t Ht. unfold times in Ht. apply in_map_iff in Ht as (k & <- & Hk). apply in_seq in Hk. assert (0 <= inject_Z (Z.of_nat k)) by (change 0 with (inject_Z 0); rewrite <- Zle_Qle; lia). assert (inject_Z (Z.of_nat k) <= inject_Z (Z.of_nat (n - 1))) by (rewrite <- Zle_Qle; lia). nra. }
  assert (I : forall k, (k < n)%nat -> In (t0 + inject_Z (Z.of_nat k) * d) times) by (intros k Hk; unfold times; apply in_map_iff; exists k; split; [reflexivity|apply in_seq; lia]).
  assert (Mx : max_time times == t0 + inject_Z (Z.of_nat (n - 1)) * d) by (pose proof (R _ (max_time_in times NE)); pose proof (max_time_ge times _ (I (n - 1)%nat ltac:(lia))); lra).
  assert (Mn : min_time times == t0). { pose proof (R _ (min_time_in times NE)). pose proof (min_time_le times _ (first_time times) (I 0%nat ltac:(lia))) as K. fold (min_time times) in K. change (inject_Z (Z.of_nat 0)) with 0 in K. lra. }
  assert (F : first_time times == t0) by (unfold times, first_time; destruct n; [lia|]; cbn [seq map hd]; change (inject_Z (Z.of_nat 0)) with 0; ring).
  assert (L : last_time times == t0 + inject_Z (Z.of_nat (n - 1)) * d).
  { unfold last_time, times. destruct n as [|m]; [lia|]. rewrite seq_S, map_app. cbn [map]. rewrite last_last. cbn [Nat.add]. now replace (S m - 1)%nat with m by lia. }
  assert (N1 : 1 <= inject_Z (Z.of_nat (n - 1))) by (change 1 with (inject_Z 1); rewrite <- Zle_Qle; lia).
  assert (D2 : d / 2 == d * (1 # 2)) by field.
  unfold phys_ani_times_default. destruct (phys_ani_times times (min_time times) (max_time times) (default_dt times)) as [ani|e] eqn:E.
  - exists ani. split; [reflexivity|]. split; [exact Dd|]. destruct (c162_phys_fields times (min_time times) (max_time times) (default_dt times) ani) as (P1 & P2 & P3); [rewrite Dd; lra|exact E|]. split; [now rewrite P2|].
    intros t Ht. destruct (P3 t Ht) as [P4 P5]. lra.
  - exfalso. unfold phys_ani_times in E.
    replace (Qltb (max_time times) (max_time times)) with false in E by (symmetry; apply Qltb_le; lra).
    assert (LT : min_time times < max_time times) by nra.
    assert (DT : default_dt times <= max_time times) by nra.
    destruct (c162_times_partial (min_time times) (max_time times) (default_dt times) LT ltac:(rewrite Dd; lra) DT) as (a & EA & _). rewrite EA in E. cbn zeta in E.
    assert (LN : length times = n) by (unfold times; now rewrite map_length, seq_length).
    assert (C1 : (last_time times - first_time times) / inject_Z (Z.of_nat (length times)) <= d).
    { rewrite LN, L, F. apply Qle_shift_div_r; [change 0 with (inject_Z 0); rewrite <- Zlt_Qlt; lia|]. assert (inject_Z (Z.of_nat (n - 1)) <= inject_Z (Z.of_nat n)) by (rewrite <- Zle_Qle; lia). nra. }
    revert E C1. generalize ((last_time times - first_time times) / inject_Z (Z.of_nat (length times))). intros q E C1.
    replace (Qltb (default_dt times) (q / 4)) with false in E.
    2:{ symmetry. apply Qltb_le. assert (q / 4 == q * (1 # 4)) by field. lra. }
    replace (Qltb ((max_time times - min_time times) / 2) (default_dt times)) with false in E; [discriminate|].
    symmetry. apply Qltb_le. assert ((max_time times - min_time times) / 2 == (max_time times - min_time times) * (1 # 2)) by field. nra.
Qed.
(** otherwise the default step may be refused *)
Theorem c162_default_refuted : exists times : list Q, (forall t, In t times -> 0 <= t) /\ phys_ani_times_default times = inr ValueError.
Proof. exists [0; 1; 2; 100]. split; [|reflexivity]. intros t [<-|[<-|[<-|[<-|[]]]]]; lra. Qed.

(** the last saved time is not in the movie *)
Theorem c162_last_refuted : exists (times : list Q) (tmin tmax dt : Q) (ani : list Q), tmax = last_time times /\ tmin = first_time times
  /\ phys_ani_times times tmin tmax dt = inl ani /\ forall t, In t ani -> ~ t == tmax.
Proof. exists [0; 1; 2], 0, 2, 1, [0 + 0 * 1; 0 + 1 * 1]. repeat split; try reflexivity. intros t [<-|[<-|[]]] H; lra. Qed.
(** a step longer than the duration: only one frame although the case of the two limits is foreseen *)
Theorem c162_one_frame_refuted : exists tmin tmax dt : Q, tmin < tmax /\ tmax - tmin < dt /\ exists t, init_ani_times tmin tmax dt = inl [t].
Proof. exists 10, 11, 2. split; [lra|]. split; [lra|]. eexists. reflexivity. Qed.
(** tmin = tmax: no frame, then a division by zero *)
Theorem c162_no_frame_refuted : exists tmin tmax dt : Q, tmin <= tmax /\ 0 < dt /\ exists ani, init_ani_times tmin tmax dt = inl ani /\ time_of_frame ani 0 = inr ZeroDivisionError.
Proof. exists 1, 1, 1. split; [lra|]. split; [lra|]. eexists. split; reflexivity. Qed.
(** tmin is not checked: a frame before the first file *)
Theorem c162_before_refuted : exists (times : list Q) (tmin tmax dt : Q) (ani : list Q), phys_ani_times times tmin tmax dt = inl ani /\ exists t, In t ani /\ t < first_time times.
Proof. exists [1; 2; 3], 0, 3, 1, [0 + 0 * 1; 0 + 1 * 1; 0 + 2 * 1]. split; [reflexivity|]. exists (0 + 0 * 1). split; [left; reflexivity|]. cbn. lra. Qed.

Example c162_example : exists ani, init_ani_times 0 2 (1 # 2) = inl ani /\ length ani = 4%nat.
Proof. eexists. split; reflexivity. Qed.

(** ** C163 *)
Local Open Scope Z_scope.

(** next and previous frames, cyclically *)
Definition succ (lo hi i : Z) : Z := if i =? hi then lo else i + 1.
Definition pred (lo hi i : Z) : Z := if i =? lo then hi else i - 1.

Theorem c163_frames : forall (lo hi : Z) (p : player), lo <= index p <= hi ->
  let q := next_frame lo hi p in
  lo <= index q <= hi /\ index q = (if forwards p then succ else pred) lo hi (index p) /\ forwards q = forwards p
  /\ (paused p = false -> (paused q = true <-> ((index q = lo \/ index q = hi) /\ (if forwards p then index p <> hi else index p <> lo)))).
Proof.
  intros lo hi [i f b] H. cbn [index forwards paused] in *. unfold next_frame, direction, succ, pred. cbn [index forwards paused].
  destruct f; cbn zeta.
  - destruct (Z.ltb_spec (i + 1) lo), (Z.ltb_spec hi (i + 1)), (Z.eqb_spec (i + 1) hi), (Z.eqb_spec (i + 1) lo), (Z.eqb_spec i hi); cbn [orb index forwards paused]; try lia;
    (split; [lia|]); (split; [lia|]); (split; [reflexivity|]); intros ->; split; intros K; try discriminate; try reflexivity; lia.
  - destruct (Z.ltb_spec (i + -1) lo), (Z.ltb_spec hi (i + -1)), (Z.eqb_spec (i + -1) hi), (Z.eqb_spec (i + -1) lo), (Z.eqb_spec i lo); cbn [orb index forwards paused]; try lia;
    (split; [lia|]); (split; [lia|]); (split; [reflexivity|]); intros ->; split; intros K; try discriminate; try reflexivity; lia.
Qed.

Lemma onestep_index lo hi p : lo < hi -> lo <= index p <= hi -> index (onestep lo hi p) = (if forwards p then succ else pred) lo hi (index p).
Proof.
  intros L H. destruct p as [i f b]. cbn [index forwards] in *. unfold onestep, direction, succ, pred. cbn [index forwards].
  destruct f, (Z.ltb_spec lo i), (Z.ltb_spec i hi), (Z.eqb_spec i lo), (Z.eqb_spec i hi); cbn [andb negb]; lia.
Qed.

(** the buttons, when there are two frames at least *)
Theorem c163_buttons_partial : forall (lo hi : Z) (p : player), lo < hi -> lo <= index p <= hi ->
  lo <= index (onestep lo hi p) <= hi /\ paused (onestep lo hi p) = true
  /\ index (one_forward lo hi p) = succ lo hi (index p) /\ index (one_backward lo hi p) = pred lo hi (index p)
  /\ index (one_backward lo hi (one_forward lo hi p)) = index p /\ index (one_forward lo hi (one_backward lo hi p)) = index p.
Proof.
  intros lo hi p L H.
  assert (F : forall p, lo <= index p <= hi -> index (one_forward lo hi p) = succ lo hi (index p)) by (intros q Hq; unfold one_forward; rewrite onestep_index; [reflexivity|exact L|exact Hq]).
  assert (B : forall p, lo <= index p <= hi -> index (one_backward lo hi p) = pred lo hi (index p)) by (intros q Hq; unfold one_backward; rewrite onestep_index; [reflexivity|exact L|exact Hq]).
  assert (SR : lo <= succ lo hi (index p) <= hi) by (unfold succ; destruct (Z.eqb_spec (index p) hi); lia).
  assert (PR : lo <= pred lo hi (index p) <= hi) by (unfold pred; destruct (Z.eqb_spec (index p) lo); lia).
  split; [rewrite onestep_index by assumption; destruct (forwards p); assumption|]. split; [reflexivity|].
  split; [now apply F|]. split; [now apply B|]. split.
  - rewrite B by (rewrite F by exact H; exact SR). rewrite F by exact H. unfold succ, pred. destruct (Z.eqb_spec (index p) hi); [rewrite Z.eqb_refl; lia|]. destruct (Z.eqb_spec (index p + 1) lo); lia.
  - rewrite F by (rewrite B by exact H; exact PR). rewrite B by exact H. unfold succ, pred. destruct (Z.eqb_spec (index p) lo); [rewrite Z.eqb_refl; lia|]. destruct (Z.eqb_spec (index p - 1) hi); lia.
Qed.

(** with one frame the button goes out of the frames, and stays there *)
Theorem c163_single_refuted : exists (lo hi : Z) (p : player), lo <= index p <= hi /\ ~ (lo <= index (one_forward lo hi p) <= hi)
  /\ forall n, ~ (lo <= index (Nat.iter n (one_backward lo hi) (one_forward lo hi p)) <= hi).
Proof.
  exists 0, 0, (mkPlayer 0 true true). split; [cbn; lia|]. split; [cbn; lia|]. intros n.
  assert (E : index (Nat.iter n (one_backward 0 0) (one_forward 0 0 (mkPlayer 0 true true))) = 1); [|rewrite E; lia].
  induction n as [|n IH]; [reflexivity|]. cbn [Nat.iter nat_rect]. unfold Nat.iter in IH. unfold one_backward at 1, onestep. cbn [index]. now rewrite IH.
Qed.
Example c163_example : index (next_frame 0 3 (mkPlayer 3 true false)) = 0. Proof. reflexivity. Qed.

(** ** C164 *)

(** an integer: each time is shown this number of times *)
Theorem c164_count_partial : forall (n : Z) (ani : list Q), 1 <= n -> ani <> [] ->
  fst (animate (RInt n) ani) = n * Z.of_nat (length ani)
  /\ forall k c, (k < length ani)%nat -> (Z.of_nat c < n)%Z -> (Z.of_nat (c * length ani + k) < fst (animate (RInt n) ani)) /\ time_of_frame ani (c * length ani + k) = inl (nth k ani 0%Q).
Proof.
  intros n ani N A. unfold animate. cbn [as_int fst]. destruct (Z.eqb_spec n 0); [lia|]. cbn [negb]. split; [reflexivity|].
  intros k c K C. split; [nia|]. unfold time_of_frame. destruct (length ani) as [|l] eqn:E; [lia|]. f_equal. f_equal.
  rewrite Nat.add_comm, Nat.mod_add by lia. now apply Nat.mod_small.
Qed.

(** repeat=True, the default value, does not loop: it is repeat=False *)
Theorem c164_loop_refuted : exists r : repeat_arg, r = RBool true /\ (forall ani, snd (animate r ani) = false) /\ forall ani, animate r ani = animate (RBool false) ani.
Proof. exists (RBool true). repeat split. Qed.
Example c164_example : animate (RInt 3) [0%Q; 1%Q] = (6, false). Proof. reflexivity. Qed.

(** ** C165 *)

Lemma strided_1 n : strided n 1 = n.
Proof. unfold strided. rewrite Nat.sub_diag, Nat.add_0_r. apply Nat.div_1_r. Qed.

(** normalize_vectors=True, step=1: each frame normalised by its maximum *)
Theorem c165_vectors_partial : forall (n skip : nat) (vmax : Q) (v : nat -> Q),
  init_vectors (Some true) n 1 skip vmax v = inl (update_vectors skip vmax v)
  /\ (0 < vmax -> forall i, - vmax <= v (i * skip)%nat -> v (i * skip)%nat <= vmax -> -1 <= update_vectors skip vmax v i <= 1)%Q.
Proof.
  intros n skip vmax v. split.
  - unfold init_vectors. rewrite strided_1, Nat.eqb_refl. reflexivity.
  - intros P i H1 H2. unfold update_vectors. split; [apply Qle_shift_div_l|apply Qle_shift_div_r]; lra.
Qed.
(** by default the vectors of the first frame are not normalised (documented default: True), those of the next ones are *)
Theorem c165_default_refuted : exists (n skip : nat) (vmax : Q) (v : nat -> Q) a, init_vectors None n 1 skip vmax v = inl a /\ ~ (a O == update_vectors skip vmax v O)%Q.
Proof. exists 1%nat, 1%nat, 2%Q, (fun _ => 2%Q). eexists. split; [reflexivity|]. cbn. unfold update_vectors, Qeq. cbn. lia. Qed.
(** normalize_vectors=False has no effect after the first frame *)
Theorem c165_false_refuted : exists (n skip : nat) (vmax : Q) (v : nat -> Q) a, init_vectors (Some false) n 1 skip vmax v = inl a /\ ~ (a O == update_vectors skip vmax v O)%Q.
Proof. exists 1%nat, 1%nat, 2%Q, (fun _ => 2%Q). eexists. split; [reflexivity|]. cbn. unfold update_vectors, Qeq. cbn. lia. Qed.
(** step other than 1: the positions and the components do not have the same size *)
Theorem c165_step_refuted : exists (n step skip : nat), forall normalize vmax v, init_vectors normalize n step skip vmax v = inr ValueError.
Proof. exists 4%nat, 2%nat, 1%nat. reflexivity. Qed.
Example c165_example : exists a, init_vectors (Some true) 4 1 2 2%Q (fun i => inject_Z (Z.of_nat i)) = inl a /\ (a 1%nat == 1)%Q.
Proof. eexists. split; reflexivity. Qed.

(** ** C166 *)
Local Open Scope Q_scope.

Lemma div_length (a : Q * Q) l x : x / inject_Z (Z.of_nat (length (a :: l))) * inject_Z (Z.of_nat (length (a :: l))) == x.
Proof.
  assert (H : ~ inject_Z (Z.of_nat (length (a :: l))) == 0) by (change 0 with (inject_Z 0); rewrite inject_Z_injective; cbn [length]; lia).
  revert H. generalize (inject_Z (Z.of_nat (length (a :: l)))). intros y H. field. exact H.
Qed.

(** the mean of the files from tmin to tmax; of all the files by default; an error if there is none *)
Theorem c166_mean : forall (fs : files) (tmin tmax : Q),
  let sel := filter (fun f => Qle_bool tmin (fst f) && Qle_bool (fst f) tmax) fs in
  (forall f, In f sel <-> In f fs /\ tmin <= fst f <= tmax)
  /\ (sel = [] -> plot_mean fs (Some tmin) (Some tmax) = inr IndexError)
  /\ (sel <> [] -> exists m, plot_mean fs (Some tmin) (Some tmax) = inl m /\ m * inject_Z (Z.of_nat (length sel)) == qsum (map snd sel)).
Proof.
  intros fs tmin tmax sel. split; [|split].
  - intros f. unfold sel. rewrite filter_In, andb_true_iff, !Qle_bool_iff. tauto.
  - intros E. unfold plot_mean. fold sel. now rewrite E.
  - intros N. unfold plot_mean. fold sel. destruct sel as [|s l]; [contradiction|]. eexists. split; [reflexivity|].
    apply div_length.
Qed.
Theorem c166_default : forall fs : files, fs <> [] -> exists m, plot_mean fs None None = inl m /\ m * inject_Z (Z.of_nat (length fs)) == qsum (map snd fs).
Proof.
  intros fs N. unfold plot_mean. cbn zeta.
  set (lo := min_time (map fst fs)).
  assert (F : filter (fun f => Qle_bool lo (fst f) && Qle_bool (fst f) (max_time (map fst fs))) fs = fs).
  { assert (G : forall f, In f fs -> Qle_bool lo (fst f) && Qle_bool (fst f) (max_time (map fst fs)) = true).
    { intros f Hf. apply andb_true_iff. split; apply Qle_bool_iff; [apply min_time_le|apply max_time_ge]; now apply in_map. }
    revert G. generalize lo (max_time (map fst fs)). clear. intros lo hi G. induction fs as [|f l IH]; [reflexivity|]. cbn [filter]. rewrite (G f (or_introl eq_refl)). f_equal. apply IH. intros f' H'. apply G. now right. }
  rewrite F. destruct fs as [|f l]; [contradiction|]. eexists. split; [reflexivity|]. apply div_length.
Qed.
Example c166_example : exists m, plot_mean [(0, 1); (1, 3); (2, 5)] (Some (1 # 2)) None = inl m /\ m == 4.
Proof. eexists. split; reflexivity. Qed.

Print Assumptions c162_times_partial.
Print Assumptions c162_errors.
Print Assumptions c162_phys_fields.
Print Assumptions c162_default_partial.
Print Assumptions c162_default_refuted.
Print Assumptions c162_last_refuted.
Print Assumptions c162_one_frame_refuted.
Print Assumptions c162_no_frame_refuted.
Print Assumptions c162_before_refuted.
Print Assumptions c163_frames.
Print Assumptions c163_buttons_partial.
Print Assumptions c163_single_refuted.
Print Assumptions c164_count_partial.
Print Assumptions c164_loop_refuted.
Print Assumptions c165_vectors_partial.
Print Assumptions c165_default_refuted.
Print Assumptions c165_false_refuted.
Print Assumptions c165_step_refuted.
Print Assumptions c166_mean.
Print Assumptions c166_default.
