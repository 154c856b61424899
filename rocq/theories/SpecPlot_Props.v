(** * Properties of the plots of the spectra of plate2d, sw1l and ns2d.strat *)

From Coq Require Import String QArith Qabs Qpower ZArith List Bool Lia Permutation Reals Lqa.
From Verif Require Import PhysFiles_Model PhysFiles_Proofs Probes_Model Probes_Props Spec2D_Model Spec2D_Props SpecPlot_Model.
Import ListNotations.
Local Open Scope Q_scope.

Lemma ltb_spec a b : ltb a b = true <-> a < b.
Proof. unfold ltb. rewrite negb_true_iff. split; intros H. - apply Qnot_le_lt. intros L. apply Qle_bool_iff in L. congruence. - apply not_true_iff_false. intros L. apply Qle_bool_iff in L. lra. Qed.
Lemma ltb_false a b : ltb a b = false <-> b <= a.
Proof. unfold ltb. rewrite negb_false_iff. apply Qle_bool_iff. Qed.
Lemma eqb_false a b : ~ a == b -> Qeq_bool a b = false.
Proof. intros H. apply not_true_iff_false. intros E. apply Qeq_bool_iff in E. contradiction. Qed.
Lemma inject_pos z : (0 < z)%Z -> 0 < inject_Z z. Proof. intros H. change 0 with (inject_Z 0). now rewrite <- Zlt_Qlt. Qed.

(** every step-th record from imin to imax *)
Definition every (step imin imax : nat) (l : list nat) : Prop := forall n, In n l <-> exists k, n = (imin + k * step)%nat /\ (n <= imax)%nat.
Lemma range_every imin imax step : (1 <= step)%nat -> every step imin imax (range imin imax step).
Proof. intros H n. unfold range. apply range_from_in; lia. Qed.

(** the step: at least one record, otherwise the nearest number of intervals *)
Definition good_step (x : Q) (i : Z) : Prop := (1 <= i)%Z /\ (i = 1%Z \/ Qabs (inject_Z i - x) <= 1 # 2).

Lemma round_nonneg x : 0 <= x -> (0 <= round_even x)%Z.
Proof.
  intros H. pose proof (round_even_near x) as N. apply Z.le_ngt. intros L. assert (A : inject_Z (round_even x) <= -1) by (change (-1) with (inject_Z (-1)); rewrite <- Zle_Qle; lia).
  pose proof (proj1 (Qabs_diff_Qle_condition _ _ _) N) as D. lra.
Qed.

(** C197: plot2d of plate2d, plot1d and plot2d of sw1l, with at least two records *)
Theorem c197_records_partial : forall times tmin tmax delta_t d, delta_t_save times = Some d -> 0 < d -> 0 < delta_t ->
  exists i l, good_step (delta_t / d) i /\ sw_records times tmin tmax delta_t = inl l /\ every (Z.to_nat i) (closest times tmin) (closest times tmax) l
    /\ ((2 <= length times)%nat -> plate2d_records times tmin tmax delta_t = inl l).
Proof.
  intros times tmin tmax delta_t d D Hd Ht. assert (X : 0 < delta_t / d) by (apply Qlt_shift_div_l; lra). pose proof (round_nonneg (delta_t / d) ltac:(lra)) as R. pose proof (round_even_near (delta_t / d)) as N.
  set (i := if (round_even (delta_t / d) =? 0)%Z then 1%Z else round_even (delta_t / d)).
  assert (G : good_step (delta_t / d) i). { unfold good_step, i. destruct (Z.eqb_spec (round_even (delta_t / d)) 0); [split; [lia|now left]|]. split; [lia|right]. exact N. }
  assert (E : sw_records times tmin tmax delta_t = inl (range (closest times tmin) (closest times tmax) (Z.to_nat i))).
  { unfold sw_records, nb_intervals. rewrite D. rewrite eqb_false by lra. rewrite (eqb_false delta_t 0) by lra. cbn [negb]. rewrite andb_true_r. cbn zeta. fold i. rewrite eqb_false; [reflexivity|].
    destruct G as [G _]. assert (0 < inject_Z i) by (apply inject_pos; lia). nra. }
  exists i, (range (closest times tmin) (closest times tmax) (Z.to_nat i)). split; [exact G|]. split; [exact E|]. split; [apply range_every; destruct G; lia|].
  intros L. unfold plate2d_records. destruct (length times) as [|[|n]]; [lia|lia|exact E].
Qed.
(** no records but the mean if delta_t = 0 *)
Theorem c197_only_mean : forall times tmin tmax d, delta_t_save times = Some d -> 0 < d -> sw_records times tmin tmax 0 = inl [].
Proof.
  intros times tmin tmax d D Hd. unfold sw_records, nb_intervals. rewrite D, eqb_false by lra. cbn [negb Qeq_bool]. rewrite andb_false_r. cbn zeta.
  assert (R : round_even (0 / d) = 0%Z). { pose proof (round_even_near (0 / d)) as N. assert (Z0 : 0 / d == 0) by (field; lra). apply Qabs_diff_Qle_condition in N. destruct N as [A B].
    assert (round_even (0 / d) < 1)%Z by (rewrite Zlt_Qlt; change (inject_Z 1) with 1; lra). assert (-1 < round_even (0 / d))%Z by (rewrite Zlt_Qlt; change (inject_Z (-1)) with (-1); lra). lia. }
  rewrite R. reflexivity.
Qed.
(** plot1d of plate2d: the same if delta_t is at least the mean interval (more precisely, if it is not rounded to 0), otherwise nothing at all *)
Theorem c197_plate1d_partial : forall times tmin tmax delta_t d, delta_t_save times = Some d -> 0 < d -> 0 < delta_t ->
  (d <= delta_t -> plate1d_records times tmin tmax delta_t = sw_records times tmin tmax delta_t)
  /\ (2 * delta_t < d -> plate1d_records times tmin tmax delta_t = inl []).
Proof.
  intros times tmin tmax delta_t d D Hd Ht. unfold plate1d_records, sw_records, nb_intervals. rewrite D. rewrite eqb_false by lra. rewrite (eqb_false delta_t 0) by lra. cbn [negb]. rewrite andb_true_r. cbn zeta.
  pose proof (round_even_near (delta_t / d)) as N. apply Qabs_diff_Qle_condition in N. destruct N as [N1 N2]. split; intros H.
  - assert (X : 1 <= delta_t / d) by (apply Qle_shift_div_l; lra). assert (0 < round_even (delta_t / d))%Z by (rewrite Zlt_Qlt; change (inject_Z 0) with 0; lra).
    destruct (Z.eqb_spec (round_even (delta_t / d)) 0); [lia|]. assert (0 < inject_Z (round_even (delta_t / d))) by now apply inject_pos.
    rewrite (eqb_false (d * _)), (eqb_false (inject_Z _ * d)) by nra. reflexivity.
  - assert (X : delta_t / d < 1 # 2) by (apply Qlt_shift_div_r; lra). assert (X0 : 0 < delta_t / d) by (apply Qlt_shift_div_l; lra).
    assert (round_even (delta_t / d) < 1)%Z by (rewrite Zlt_Qlt; change (inject_Z 1) with 1; lra). pose proof (round_nonneg (delta_t / d) ltac:(lra)). assert (round_even (delta_t / d) = 0)%Z as -> by lia.
    replace (Qeq_bool (d * inject_Z 0) 0) with true; [reflexivity|]. symmetry. apply Qeq_bool_iff. change (inject_Z 0) with 0. ring.
Qed.
(** with only one record, plot2d of plate2d and the plots of sw1l are errors; plot1d of plate2d draws nothing with a small delta_t *)
Theorem c197_refuted : exists times t, times = [t] /\ (forall tmin tmax delta_t, plate2d_records times tmin tmax delta_t = inr UnboundLocalError) /\ (forall tmin tmax delta_t, sw_records times tmin tmax delta_t = inr ValueError)
  /\ plate1d_records [0; 2; 4] 0 4 (1 # 2) = inl [] /\ sw_records [0; 2; 4] 0 4 (1 # 2) = inl [0; 1; 2]%nat.
Proof. exists [0], 0. split; [reflexivity|]. split; [reflexivity|]. split; [reflexivity|]. split; reflexivity. Qed.
Example c197_example : delta_t_save [0; 2; 4] = Some (4 # 2) /\ 0 < 4 # 2 /\ sw_records [0; 2; 4] 0 4 4 = inl [0; 2]%nat.
Proof. split; [reflexivity|]. split; [lra|]. reflexivity. Qed.

(** ** C198: the drawn energies of plate2d *)
Definition tiny : Q := 1 # 1000000000000000.
Lemma eps_tiny : eps = tiny. Proof. reflexivity. Qed.
Definition near (e a b : Q) : Prop := Qabs (a - b) <= e.
Lemma near_le e a b : near e a b <-> b - e <= a <= b + e. Proof. unfold near. rewrite Qabs_diff_Qle_condition. split; intros [H1 H2]; split; lra. Qed.

(** a record: each energy up to 1e-15 and their sum *)
Theorem c198_record : forall ek el ee t k l e, 0 <= ek -> 0 <= el -> 0 <= ee -> plate_record ek el ee = (t, k, l, e) ->
  near tiny k ek /\ near tiny l el /\ near tiny e ee /\ t == k + l + e /\ 0 <= k /\ 0 <= l /\ 0 <= e.
Proof. change tiny with eps.
  intros ek el ee t k l e A B C E. unfold plate_record in E. cbn zeta in E.
  assert (H : forall x, 0 <= x -> near eps (if ltb x eps then 0 else x) x /\ 0 <= (if ltb x eps then 0 else x)).
  { intros x X. destruct (ltb x eps) eqn:L; [apply ltb_spec in L|]; split; try lra; apply near_le; unfold eps in *; lra. }
  destruct (H ek A) as [A1 A2], (H el B) as [B1 B2], (H ee C) as [C1 C2].
  assert (k = if ltb ek eps then 0 else ek) as -> by congruence. assert (l = if ltb el eps then 0 else el) as -> by congruence. assert (e = if ltb ee eps then 0 else ee) as -> by congruence.
  split; [exact A1|]. split; [exact B1|]. split; [exact C1|]. split; [|split; [exact A2|split; [exact B2|exact C2]]]. assert (t = (if ltb ek eps then 0 else ek) + (if ltb el eps then 0 else el) + (if ltb ee eps then 0 else ee)) as -> by congruence. reflexivity.
Qed.
(** the means: right if and only if the mean kinetic energy is at least 1e-15 or the others are (nearly) zero *)
Theorem c198_means_partial : forall ek el ee, 
  (tiny <= ek -> plate_means ek el ee = (ek, el, ee)) /\ (ek < tiny -> plate_means ek el ee = (0, 0, 0)).
Proof. change tiny with eps.
  intros ek el ee. unfold plate_means. cbn zeta. split; intros H.
  - apply ltb_false in H. rewrite !H. reflexivity.
  - apply ltb_spec in H. rewrite !H. replace (ltb 0 eps) with true by reflexivity. reflexivity.
Qed.
(** a bent plate at rest: the mean of the linear potential energy is drawn as zero (and each record as it is) *)
Theorem c198_refuted : exists ek el ee, ek = 0 /\ el = 1 /\ ee = 1 /\ plate_means ek el ee = (0, 0, 0) /\ plate_record ek el ee = (2, 0, 1, 1).
Proof. exists 0, 1, 1. split; [reflexivity|]. split; [reflexivity|]. split; [reflexivity|]. split; reflexivity. Qed.

(** ** C199: the drawn energies of sw1l *)
Lemma clip_near y : near (2 * tiny) (clip y) y.
Proof. change tiny with eps.
  unfold clip. destruct (ltb (Qabs y) eps) eqn:L; [|apply near_le; unfold eps; lra]. apply ltb_spec, Qabs_Qlt_condition in L. apply near_le. unfold eps in *. lra.
Qed.
(** the means of the energies of each key up to 5e-15; the total is the sum of EK and EA, and EK the sum of EKr and EKd up to 1e-15 *)
Theorem c199_means : forall ek ea ekr,
  (forall k, near (5 * tiny) (sw_mean k ek ea ekr) (sw_field k ek ea ekr)) /\ sw_mean Etot ek ea ekr == sw_mean EK ek ea ekr + sw_mean EA ek ea ekr
  /\ near tiny (sw_mean EKr ek ea ekr + sw_mean EKd ek ea ekr) (sw_mean EK ek ea ekr).
Proof. change tiny with eps.
  intros ek ea ekr. pose proof (clip_near ek) as A. pose proof (clip_near ea) as B. pose proof (clip_near ekr) as C. rewrite near_le in A, B, C. unfold tiny in A, B, C. unfold eps in *. split; [|split].
  - intros k. apply near_le. destruct k; unfold sw_mean, sw_field; cbn zeta; unfold eps; lra.
  - reflexivity.
  - apply near_le. unfold sw_mean. cbn zeta. unfold eps. lra.
Qed.
(** the records: nonnegative energies up to 2e-15 *)
Theorem c199_records : forall k ek ea ekr, 0 <= sw_field k ek ea ekr -> near tiny (sw_record k ek ea ekr) (sw_field k ek ea ekr) /\ tiny <= sw_record k ek ea ekr.
Proof. change tiny with eps.
  intros k ek ea ekr H. unfold sw_record. cbn zeta. set (y := sw_field k ek ea ekr) in *. clearbody y. destruct (ltb y eps) eqn:L.
  - apply ltb_spec in L. split; [|lra]. apply near_le. lra.
  - apply ltb_false in L. split; [|exact L]. apply near_le. unfold eps. lra.
Qed.
(** the fields of the keys *)
Theorem c199_fields : forall ek ea ekr, sw_field Etot ek ea ekr == sw_field EK ek ea ekr + sw_field EA ek ea ekr /\ sw_field EK ek ea ekr == sw_field EKr ek ea ekr + sw_field EKd ek ea ekr
  /\ sw_field EK ek ea ekr = ek /\ sw_field EA ek ea ekr = ea /\ sw_field EKr ek ea ekr = ekr.
Proof. intros. cbn [sw_field]. split; [reflexivity|]. split; [ring|]. split; [reflexivity|]. split; reflexivity. Qed.
(** with the default keys and colours each mean has the colour of its records *)
Theorem c199_colors_partial : forall n, (n < 5)%nat -> sw_mean_color (nth n [Etot; EK; EA; EKr; EKd] Etot) ["k"; "r"; "b"; "r--"; "r:"]%string = nth n ["k"; "r"; "b"; "r--"; "r:"]%string ""%string.
Proof. intros n H. destruct n as [|[|[|[|[|n]]]]]; try reflexivity. lia. Qed.
(** in general not: the colour of the mean total is the first one *)
Theorem c199_colors_refuted : exists keys colors n, (n < length keys)%nat /\ length keys = length colors /\ sw_mean_color (nth n keys Etot) colors <> nth n colors ""%string.
Proof. exists [EK; Etot], ["r"; "k"]%string, 1%nat. split; [cbn; lia|]. split; [reflexivity|]. discriminate. Qed.

(** ** C200: the dissipation *)
(** -d/dt of the energy at the wave number kh, for the energy 1, because of the viscosities *)
Definition dissipation (nu2 nu4 nu8 kh : Q) : Q := 2 * (nu2 * kh ^ 2 + nu4 * kh ^ 4 + nu8 * kh ^ 8).
Theorem c200_one_viscosity_partial : forall nu2 nu4 nu8 kh, 0 <= nu2 -> 0 <= nu4 -> 0 <= nu8 ->
  (nu4 == 0 /\ nu8 == 0 \/ nu2 == 0 /\ nu8 == 0 \/ nu2 == 0 /\ nu4 == 0) ->
  match diss_coef nu2 nu4 nu8 kh with Some c => c == dissipation nu2 nu4 nu8 kh | None => nu2 == 0 /\ nu4 == 0 /\ nu8 == 0 end.
Proof.
  intros nu2 nu4 nu8 kh A B C H. unfold diss_coef, diss_nu, dissipation.
  destruct (ltb 0 nu2) eqn:L2; [apply ltb_spec in L2|apply ltb_false in L2].
  - destruct H as [[H1 H2]|[[H1 H2]|[H1 H2]]]; [rewrite H1, H2; change (Z.of_nat 2) with 2%Z; ring|lra|lra].
  - destruct (ltb 0 nu4) eqn:L4; [apply ltb_spec in L4|apply ltb_false in L4].
    + destruct H as [[H1 H2]|[[H1 H2]|[H1 H2]]]; [lra|rewrite H1, H2; change (Z.of_nat 4) with 4%Z; ring|lra].
    + assert (E2 : nu2 == 0) by lra. assert (E4 : nu4 == 0) by lra. destruct (ltb 0 nu8) eqn:L8; [rewrite E2, E4; change (Z.of_nat 8) with 8%Z; ring|]. apply ltb_false in L8. split; [exact E2|]. split; [exact E4|lra].
Qed.
(** never more than the dissipation *)
Theorem c200_below : forall nu2 nu4 nu8 kh c, 0 <= nu2 -> 0 <= nu4 -> 0 <= nu8 -> 0 <= kh -> diss_coef nu2 nu4 nu8 kh = Some c -> c <= dissipation nu2 nu4 nu8 kh.
Proof.
  intros nu2 nu4 nu8 kh c A B C K H. unfold diss_coef, diss_nu, dissipation in *. change (Z.of_nat 2) with 2%Z in *. change (Z.of_nat 4) with 4%Z in *. change (Z.of_nat 8) with 8%Z in *.
  assert (P : forall n : Z, (0 < n)%Z -> 0 <= kh ^ n) by (intros n _; now apply Qpower_pos).
  pose proof (P 2%Z ltac:(lia)) as P2. pose proof (P 4%Z ltac:(lia)) as P4. pose proof (P 8%Z ltac:(lia)) as P8.
  assert (0 <= nu2 * kh ^ 2) by (now apply Qmult_le_0_compat). assert (0 <= nu4 * kh ^ 4) by (now apply Qmult_le_0_compat). assert (0 <= nu8 * kh ^ 8) by (now apply Qmult_le_0_compat).
  destruct (ltb 0 nu2); [change (Z.of_nat 2) with 2%Z in H; assert (c = 2 * nu2 * kh ^ 2) as -> by congruence; lra|]. destruct (ltb 0 nu4); [change (Z.of_nat 4) with 4%Z in H; assert (c = 2 * nu4 * kh ^ 4) as -> by congruence; lra|]. destruct (ltb 0 nu8); [change (Z.of_nat 8) with 8%Z in H; assert (c = 2 * nu8 * kh ^ 8) as -> by congruence; lra|discriminate].
Qed.
(** with two viscosities only the one of lowest order is drawn *)
Theorem c200_refuted : exists nu2 nu4 nu8 kh c, 0 < nu2 /\ 0 < nu8 /\ diss_coef nu2 nu4 nu8 kh = Some c /\ 100 * c < dissipation nu2 nu4 nu8 kh.
Proof. exists 1, 0, 1, 10, 200. split; [lra|]. split; [lra|]. split; [reflexivity|]. reflexivity. Qed.

(** ** C201: the averaged spectrum (kx, kz) of ns2d.strat *)
Theorem c201_mean_partial : forall k times values i j, increasing times -> length values = length times -> (i < j < length times)%nat -> k = None \/ k = Some "ap_fft"%string \/ k = Some "am_fft"%string ->
  exists m, md_plot k times values (Some (nth i times 0)) (Some (nth j times 0)) = inl m /\ m == sumq (map (fun n => nth n values 0) (seq i (j - i))) / inject_Z (Z.of_nat (j - i)).
Proof.
  intros k times values i j I L H K. unfold md_plot. replace (negb (key_known k)) with false by (destruct K as [-> |[-> | ->]]; reflexivity). replace (has_text k) with true by (destruct K as [-> |[-> | ->]]; reflexivity). cbn zeta.
  rewrite !closest_exact by (try exact I; lia).
  assert (D : ~ nth i times 0 == nth j times 0). { intros E. pose proof (I i j ltac:(lia)) as G. lra. }
  rewrite eqb_false by exact D. pose proof (slice_seq values i (j - 1) ltac:(lia)) as S. unfold slice in S. replace (j - 1 + 1 - i)%nat with (j - i)%nat in S by lia. rewrite S.
  unfold mean. rewrite map_length, seq_length. destruct (map (fun n => nth n values 0) (seq i (j - i))) as [|x r] eqn:M; [exfalso; assert (Z : length (map (fun n => nth n values 0) (seq i (j - i))) = 0%nat) by (now rewrite M); rewrite map_length, seq_length in Z; lia|]. eexists. split; [reflexivity|]. reflexivity.
Qed.
(** one time: its record *)
Theorem c201_one_time : forall k times values i, increasing times -> (i < length times)%nat -> k = None \/ k = Some "ap_fft"%string \/ k = Some "am_fft"%string ->
  md_plot k times values (Some (nth i times 0)) (Some (nth i times 0)) = inl (nth i values 0).
Proof.
  intros k times values i I H K. unfold md_plot. replace (negb (key_known k)) with false by (destruct K as [-> |[-> | ->]]; reflexivity). replace (has_text k) with true by (destruct K as [-> |[-> | ->]]; reflexivity). cbn zeta.
  replace (Qeq_bool (nth i times 0) (nth i times 0)) with true by (symmetry; apply Qeq_bool_iff; reflexivity). now rewrite closest_exact.
Qed.
(** the last record is left out, two times closest to the same record give nan, and the documented keys E, EK and EA are errors *)
Theorem c201_refuted : exists times values, increasing times /\ md_plot None times values None None = inl (0 + 0 # 2) /\ values = [0; 0; 3]
  /\ md_plot None times values (Some (9 # 10)) (Some (11 # 10)) = inr Nan
  /\ (forall tmin tmax, md_plot (Some "E"%string) times values tmin tmax = inr ValueError) /\ (forall tmin tmax, md_plot (Some "EK"%string) times values tmin tmax = inr UnboundLocalError /\ md_plot (Some "EA"%string) times values tmin tmax = inr UnboundLocalError).
Proof.
  exists [0; 1; 2], [0; 0; 3]. split; [exact inc_012|]. split; [reflexivity|]. split; [reflexivity|]. split; [reflexivity|]. split; [reflexivity|]. split; reflexivity.
Qed.

(** ** C202: the axes of the figure *)
Lemma kz_split m : (0 < m)%nat -> kz (2 * m) = map (fun i => Z.of_nat i) (seq 0 (m + 1)) ++ map (fun i => (Z.of_nat i - Z.of_nat m + 1)%Z) (seq 0 (m - 1)).
Proof.
  intros M. unfold kz. replace (seq 0 (2 * m)) with (seq 0 (m + 1) ++ seq (0 + (m + 1)) (m - 1)) by (rewrite <- seq_app; f_equal; lia). rewrite map_app. f_equal.
  - apply map_ext_in. intros i I. apply in_seq in I. destruct (Nat.ltb_spec (2 * i) (2 * m)); [reflexivity|]. destruct (Nat.eqb_spec (2 * i) (2 * m)); lia.
  - assert (E : seq (0 + (m + 1)) (m - 1) = map (fun i => (i + (m + 1))%nat) (seq 0 (m - 1))).
    { assert (G : forall c n s, seq (s + c) n = map (fun i => (i + c)%nat) (seq s n)) by (intros c; induction n as [|n IH]; intros s; [reflexivity|]; cbn [seq map]; f_equal; rewrite <- IH; reflexivity). apply G. }
    rewrite E, map_map. apply map_ext_in. intros i I. apply in_seq in I. destruct (Nat.ltb_spec (2 * (i + (m + 1))) (2 * m)); [lia|]. destruct (Nat.eqb_spec (2 * (i + (m + 1))) (2 * m)); lia.
Qed.
(** the vertical wave numbers are in increasing order, from -(ny/2 - 1) to ny/2, and each value of the data stays with its wave number *)
Theorem c202_axis : forall m, (0 < m)%nat -> reorder (2 * m) (kz (2 * m)) = map (fun i => (Z.of_nat i - Z.of_nat m + 1)%Z) (seq 0 (2 * m)).
Proof.
  intros m M. assert (L1 : length (map (fun i => Z.of_nat i) (seq 0 (m + 1))) = (m + 1)%nat) by now rewrite map_length, seq_length.
  unfold reorder. replace (2 * m / 2)%nat with m by (rewrite Nat.mul_comm, Nat.div_mul; lia). rewrite kz_split by exact M.
  rewrite skipn_app, L1, Nat.sub_diag, skipn_all2 by (rewrite L1; lia). rewrite firstn_app, L1, Nat.sub_diag, firstn_all2 by (rewrite L1; lia). cbn [skipn firstn app]. rewrite app_nil_r.
  replace (2 * m)%nat with (m - 1 + (m + 1))%nat by lia. rewrite (seq_app (m - 1) (m + 1)), map_app. f_equal.
  assert (E : forall n s t, map (fun i => Z.of_nat i) (seq s n) = map (fun i => (Z.of_nat i - Z.of_nat t)%Z) (seq (s + t) n)).
  { induction n as [|n IH]; intros s t; [reflexivity|]. cbn [seq map]. f_equal; [lia|]. rewrite (IH (S s) t). reflexivity. }
  rewrite (E _ 0%nat (m - 1)%nat). apply map_ext_in. intros i _. lia.
Qed.
Theorem c202_data : forall {A} ny (l : list A) (k : list Z), length l = length k -> Permutation (combine (reorder ny k) (reorder ny l)) (combine k l).
Proof.
  intros A ny l k L. unfold reorder. set (n := (ny / 2 + 1)%nat).
  assert (C : forall (a b : list Z) (c d : list A), length a = length c -> combine (a ++ b) (c ++ d) = combine a c ++ combine b d).
  { induction a as [|x a IH]; intros b [|y c] d E; try discriminate; [reflexivity|]. cbn [app combine]. f_equal. apply IH. now injection E. }
  rewrite C by (rewrite !skipn_length, L; reflexivity). eapply Permutation_trans; [apply Permutation_app_comm|]. rewrite <- C by (rewrite !firstn_length, L; reflexivity). now rewrite !firstn_skipn.
Qed.
From Coq Require Import Lra.
Local Open Scope R_scope.
Definition inside (r : R * R * R * R) (kx kz : R) : Prop := let '(x, z, w, h) := r in x <= kx <= x + w /\ z <= kz <= z + h.
(** the rectangles are the forced region of tcrandom_anisotropic (without delta_angle): kh between sin(angle) kmin and sin(angle) kmax and kv between cos(angle) kmin and cos(angle) kmax,
    kmin = deltak nkmin with deltak the largest mode spacing *)
Theorem c202_rectangle_partial : forall dkx dkz angle nkmin nkmax deltak, deltak = Rmax dkx dkz -> 0 < dkx -> 0 < dkz -> 0 <= angle <= PI / 2 -> nkmin <= nkmax -> forall kx kz,
  let kmin := deltak * nkmin in let kmax := deltak * nkmax in
  (inside (rectangle dkx dkz angle nkmin nkmax) kx kz <-> sin angle * kmin <= kx <= sin angle * kmax /\ cos angle * kmin <= kz <= cos angle * kmax)
  /\ (inside (rectangle_negative dkx dkz angle nkmin nkmax) kx kz <-> inside (rectangle dkx dkz angle nkmin nkmax) kx (- kz)).
Proof.
  intros dkx dkz a nkmin nkmax dk -> X Z A N kx kz kmin kmax. pose proof (Rmax_l dkx dkz). set (dk := Rmax dkx dkz) in *. pose proof PI_RGT_0.
  assert (S : 0 <= sin a) by (apply sin_ge_0; lra). assert (C : 0 <= cos a) by (apply cos_ge_0; lra).
  assert (M : dk * nkmin <= dk * nkmax) by (apply Rmult_le_compat_l; lra).
  assert (Ms : sin a * dk * nkmin <= sin a * dk * nkmax) by (rewrite !Rmult_assoc; now apply Rmult_le_compat_l). assert (Mc : cos a * dk * nkmin <= cos a * dk * nkmax) by (rewrite !Rmult_assoc; now apply Rmult_le_compat_l).
  unfold rectangle_negative, inside, rectangle. cbn zeta. fold dk. rewrite (Rabs_left1 (sin a * dk * nkmin - _)), (Rabs_left1 (cos a * dk * nkmin - _)) by lra. unfold kmin, kmax. rewrite <- !Rmult_assoc. split; split; intros [H1 H2]; (split; lra).
Qed.
(** with delta_angle the forced region (K between kmin and kmax and the angle with the vertical at most delta_angle / 2 from angle) is not the rectangle *)
Theorem c202_delta_angle_refuted : exists dkx dkz angle delta_angle nkmin nkmax K theta, 0 < dkx /\ dkx = dkz /\ nkmin < nkmax /\ nkmin * dkx <= K <= nkmax * dkx /\ angle - delta_angle / 2 <= theta <= angle + delta_angle / 2
  /\ ~ inside (rectangle dkx dkz angle nkmin nkmax) (K * sin theta) (K * cos theta).
Proof.
  exists 1, 1, (PI / 4), (PI / 2), 1, 2, 1, 0. pose proof PI_RGT_0. split; [lra|]. split; [reflexivity|]. split; [lra|]. split; [lra|]. split; [lra|].
  unfold inside, rectangle. cbn zeta. rewrite Rmax_left by lra. rewrite sin_0. intros [[H1 _] _]. assert (0 < sin (PI / 4)) by (apply sin_gt_0; lra). lra.
Qed.
Example c202_example : inside (rectangle 1 1 0 2 3) 0 (5 / 2).
Proof. apply (c202_rectangle_partial 1 1 0 2 3 1); try lra; [now rewrite Rmax_left by lra|pose proof PI_RGT_0; lra|]. rewrite sin_0, cos_0. lra. Qed.

Print Assumptions c197_records_partial. Print Assumptions c197_only_mean. Print Assumptions c197_plate1d_partial. Print Assumptions c197_refuted. Print Assumptions c198_record. Print Assumptions c198_means_partial. Print Assumptions c198_refuted.
Print Assumptions c199_means. Print Assumptions c199_records. Print Assumptions c199_fields. Print Assumptions c199_colors_partial. Print Assumptions c199_colors_refuted. Print Assumptions c200_one_viscosity_partial. Print Assumptions c200_below. Print Assumptions c200_refuted.
Print Assumptions c201_mean_partial. Print Assumptions c201_one_time. Print Assumptions c201_refuted. Print Assumptions c202_axis. Print Assumptions c202_data. Print Assumptions c202_rectangle_partial. Print Assumptions c202_delta_angle_refuted.
