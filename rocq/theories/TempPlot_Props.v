(** Theorems on plot_temporal_spectra (C298) *)

From Coq Require Import String List Reals Bool Arith Lra Lia.
From Verif Require Import Aniso_Model Aniso_Props TempPlot_Model.
Import ListNotations.
Local Open Scope string_scope.
Local Open Scope R_scope.

(** ** Specification *)

(** the frequency over N of the internal wave of wave numbers (kh, kz) *)
Definition reduced_frequency (kh kz : R) : R := kh / sqrt (kh * kh + kz * kz).

(** E omega^c; not defined for the first frequency (0) if c is not 0 *)
Definition is_compensated (omegas : list R) (c : nat) (E : nat -> R) (f : nat -> option R) : Prop :=
  forall io, (0 < nth io omegas 0 -> (0 < io)%nat -> f io = Some (E io * nth io omegas 0 ^ c)) /\ (c = 0%nat -> f io = Some (E io)).

Definition nearest_index (l : list R) (i : nat) : Prop := (i < List.length l)%nat /\ forall j, (j < List.length l)%nat -> nth i l 0 <= nth j l 0.

(** ** Lemmas *)

Lemma compensated_spec omegas c E : is_compensated omegas c E (compensated omegas c E).
Proof.
  intros io. unfold compensated. split.
  - intros H I. destruct (Nat.eqb_spec c 0) as [->|_]; [f_equal; cbn; field|].
    destruct (Nat.eqb_spec io 0); [lia|]. f_equal. unfold Rdiv. rewrite Rinv_inv. reflexivity.
  - intros ->. cbn [Nat.eqb]. f_equal. field.
Qed.

Lemma argmin_spec r : forall best ibest i (f : nat -> R), (ibest < i)%nat -> f ibest = best ->
  (forall j, (j < List.length r)%nat -> nth j r 0 = f (i + j)%nat) -> (forall j, (j < i)%nat -> best <= f j) ->
  let m := argmin_from best ibest i r in
  (m < i + List.length r)%nat /\ forall j, (j < i + List.length r)%nat -> f m <= f j.
Proof.
  induction r as [|x r IH]; intros best ibest i f L E R B; cbn [argmin_from List.length].
  - cbn. split; [lia|]. intros j Hj. rewrite E. apply B. lia.
  - assert (Ex : x = f i) by (rewrite <- (Nat.add_0_r i); apply (R 0%nat); cbn; lia).
    assert (Rr : forall j, (j < List.length r)%nat -> nth j r 0 = f (S i + j)%nat).
    { intros j Hj. replace (S i + j)%nat with (i + S j)%nat by lia. apply (R (S j)). cbn. lia. }
    replace (i + S (List.length r))%nat with (S i + List.length r)%nat by lia.
    destruct (Rlt_dec x best) as [Hlt|Hge].
    + apply IH; [lia|auto|exact Rr|]. intros j Hj. destruct (Nat.eq_dec j i) as [->|]; [lra|]. assert (best <= f j) by (apply B; lia). lra.
    + apply IH; [lia|auto|exact Rr|]. intros j Hj. destruct (Nat.eq_dec j i) as [->|]; [lra|]. apply B. lia.
Qed.

Lemma argmin_nearest l : l <> [] -> nearest_index l (argmin l).
Proof.
  destruct l as [|x r]; [congruence|]. intros _. cbn [argmin].
  destruct (argmin_spec r x 0 1 (fun j => nth j (x :: r) 0)) as [A B].
  - lia.
  - reflexivity.
  - intros j _. reflexivity.
  - intros j Hj. assert (j = 0)%nat by lia. subst j. cbn. lra.
  - split; [exact A|exact B].
Qed.

Lemma mem_spec x l : mem x l = true <-> In x l.
Proof.
  unfold mem. rewrite existsb_exists. split.
  - intros (y & I & E). apply String.eqb_eq in E. subst. exact I.
  - intros I. exists x. split; [exact I|apply String.eqb_refl].
Qed.

Section Theorems.
Variables (is3d : bool) (fields : list string) (omegas : list R) (spectrum : string -> nat -> R).
Notation plot := (plot_temporal_spectra is3d fields omegas spectrum).

(** ** C298 *)

(** without N: the spectrum of the asked key, or of the first field *)
Theorem c298_without_N_partial : forall key xlim c res proj ar f, In key fields \/ is3d = true /\ (key = "Khd" \/ key = "Khr") ->
  exists fig g, plot None (Some key) xlim c res proj ar f = inl fig
  /\ axis fig = omegas /\ curves fig = [(key, g)] /\ is_compensated omegas c (spectrum key) g.
Proof.
  intros key xlim c res proj ar f H. unfold plot_temporal_spectra, choose_key.
  assert (P : mem key (keys_plot is3d fields) = true).
  { apply mem_spec. unfold keys_plot. apply in_or_app. destruct H as [H|[-> [->| ->]]]; [left; exact H|right; cbn; auto|right; cbn; auto]. }
  assert (Q : mem key (saved is3d fields None) = true).
  { apply mem_spec. unfold saved. apply in_or_app. destruct H as [H|[-> [->| ->]]]; [left; exact H|right; cbn; auto|right; cbn; auto]. }
  rewrite P, Q. eexists _, _. split; [reflexivity|]. split; [reflexivity|]. split; [reflexivity|]. apply compensated_spec.
Qed.

Theorem c298_default_key : forall N xlim c res proj ar f k r, fields = k :: r ->
  plot N None xlim c res proj ar f = plot N (Some k) xlim c res proj ar f.
Proof. intros N xlim c res proj ar f k r H. unfold plot_temporal_spectra, choose_key. rewrite H. reflexivity. Qed.

Theorem c298_unknown : forall N key xlim c res proj ar f, ~ In key fields -> key <> "Khd" -> key <> "Khr" -> key <> "Kp" ->
  plot N (Some key) xlim c res proj ar f = inr KeyErr.
Proof.
  intros N key xlim c res proj ar f H A B C. unfold plot_temporal_spectra, choose_key.
  destruct (mem key (keys_plot is3d fields)) eqn:E; [|reflexivity]. apply mem_spec in E. unfold keys_plot in E. apply in_app_or in E.
  destruct E as [E|E]; [contradiction|]. destruct is3d; cbn in E; [|contradiction]. destruct E as [E|[E|[E|[]]]]; congruence.
Qed.

(** with N: the kinetic and potential energies, and in 3D the parts allowed by the projection *)
Theorem c298_curves : forall n key xlim c res proj ar f fig, plot (Some n) key xlim c res proj ar f = inl fig ->
  axis fig = map (fun o => o / n) omegas
  /\ (exists ek ea, In ("EK", ek) (curves fig) /\ In ("EA", ea) (curves fig)
      /\ is_compensated omegas c (fun io => if is3d then spectrum "Khr" io + (spectrum "Khd" io + spectrum "vz" io / 2) else spectrum "K" io) ek
      /\ is_compensated omegas c (spectrum "A") ea)
  /\ map fst (curves fig) = (["EK"] ++ (if is3d then (match proj with Poloidal => [] | _ => ["toro"] end) ++ (match proj with Toroidal => [] | _ => ["polo"] end) else []) ++ ["EA"])%list
  /\ (forall g, In ("toro", g) (curves fig) -> is_compensated omegas c (spectrum "Khr") g)
  /\ (forall g, In ("polo", g) (curves fig) -> is_compensated omegas c (fun io => spectrum "Khd" io + spectrum "vz" io / 2) g).
Proof.
  intros n key xlim c res proj ar f fig H. unfold plot_temporal_spectra in H.
  destruct (choose_key is3d fields key); [|discriminate]. destruct (guides n f); [|discriminate]. inversion H. clear H. cbn [axis curves].
  assert (P : is_compensated omegas c (fun io => spectrum "Khd" io + spectrum "vz" io / 2) (compensated omegas c (EKp spectrum))).
  { intros io. destruct (compensated_spec omegas c (EKp spectrum) io) as [A B]. unfold EKp in *. replace (0.5 * spectrum "vz" io) with (spectrum "vz" io / 2) in * by lra. auto. }
  assert (K : is_compensated omegas c (fun io => if is3d then spectrum "Khr" io + (spectrum "Khd" io + spectrum "vz" io / 2) else spectrum "K" io) (compensated omegas c (EK is3d spectrum))).
  { intros io. destruct (compensated_spec omegas c (EK is3d spectrum) io) as [A B]. unfold EK, EKhr, EKp in *.
    replace (0.5 * spectrum "vz" io) with (spectrum "vz" io / 2) in * by lra. auto. }
  split; [reflexivity|]. split; [|split; [|split]].
  - exists (compensated omegas c (EK is3d spectrum)), (compensated omegas c (spectrum "A")). split; [left; reflexivity|]. split.
    + unfold curves_N. apply in_or_app. right. apply in_or_app. right. left. reflexivity.
    + split; [exact K|apply compensated_spec].
  - unfold curves_N. destruct is3d, proj; reflexivity.
  - intros g I. unfold curves_N in I. destruct is3d, proj; cbn in I;
      repeat (destruct I as [I|I]; [try discriminate; inversion I; apply compensated_spec|]); destruct I.
  - intros g I. unfold curves_N in I. destruct is3d, proj; cbn in I;
      repeat (destruct I as [I|I]; [try discriminate; inversion I; exact P|]); destruct I.
Qed.

(** the dashed line: slope -2 of the spectrum, through the kinetic energy at the frequency nearest to N *)
Theorem c298_slope : forall n key xlim c res proj ar f fig, omegas <> [] -> plot (Some n) key xlim c res proj ar f = inl fig ->
  exists i, nearest_index (map (fun o => Rabs (o / n - 1)) omegas) i
  /\ forall w, 0 < w -> match compensated omegas c (EK is3d spectrum) i with
     | Some e => exists y, slope fig w = Some y /\ y * w ^ 2 = e * w ^ c /\ (w = 1 -> y = e)
     | None => slope fig w = None
     end.
Proof.
  intros n key xlim c res proj ar f fig O H. unfold plot_temporal_spectra in H.
  destruct (choose_key is3d fields key); [|discriminate]. destruct (guides n f); [|discriminate]. inversion H. clear H. cbn [slope].
  exists (index_N omegas n). split.
  - apply argmin_nearest. destruct omegas; [congruence|discriminate].
  - intros w Hw. destruct (compensated omegas c (EK is3d spectrum) (index_N omegas n)) as [e|]; [|reflexivity].
    eexists. split; [reflexivity|]. unfold scaling. split; [field; lra|]. intros ->. rewrite !pow1. field.
Qed.

(** the dots: the frequencies of the modes (nx, nz), nx = 1 .. 10, nz = 1, 2 of the box; the line at N; the limits *)
Theorem c298_modes : forall n key xlim c proj Lx Lz f fig, 0 < Lx -> 0 < Lz ->
  plot (Some n) key xlim c true proj (Lx / Lz) f = inl fig ->
  let freq nz := map (fun nx => reduced_frequency (2 * PI / Lx * INR nx) (2 * PI / Lz * nz)) (seq 1 10) in
  resonant fig = (freq 1, freq 2) /\ In (Vline 1) (marks fig) /\ limits fig = xlim.
Proof.
  intros n key xlim c proj Lx Lz f fig Hx Hz H freq. unfold plot_temporal_spectra in H.
  destruct (choose_key is3d fields key); [|discriminate]. destruct (guides n f); [|discriminate]. 
  assert (E : resonant fig = (map (fun nx => modes (Lx / Lz) nx 1) (seq 1 10), map (fun nx => modes (Lx / Lz) nx 2) (seq 1 10))
    /\ In (Vline 1) (marks fig) /\ limits fig = xlim).
  { inversion H. split; [reflexivity|]. split; [left; reflexivity|reflexivity]. }
  clear H.
  pose proof PI_RGT_0 as HPI.
  assert (M : forall nx nz, (1 <= nx)%nat -> modes (Lx / Lz) nx nz = reduced_frequency (2 * PI / Lx * INR nx) (2 * PI / Lz * INR nz)).
  { intros nx nz Hn. unfold modes, reduced_frequency. assert (P : 0 < INR nx) by (apply lt_0_INR; lia).
    set (x := INR nx) in *. set (z := INR nz).
    assert (Q : 0 < x ^ 2 + (Lx / Lz) ^ 2 * z ^ 2).
    { assert (0 < x ^ 2) by (apply pow_lt; exact P). pose proof (pow2_ge_0 (Lx / Lz * z)) as T. rewrite Rpow_mult_distr in T. lra. }
    assert (A : 0 < 2 * PI / Lx) by (apply Rdiv_lt_0_compat; lra).
    replace (2 * PI / Lx * x * (2 * PI / Lx * x) + 2 * PI / Lz * z * (2 * PI / Lz * z))
      with ((2 * PI / Lx) * (2 * PI / Lx) * (x ^ 2 + (Lx / Lz) ^ 2 * z ^ 2)) by (field; lra).
    rewrite sqrt_mult_alt by nra. rewrite sqrt_square by lra. rewrite sqrt_div_alt by exact Q.
    replace (x ^ 2) with (x * x) at 1 by ring. rewrite sqrt_square by lra.
    pose proof (sqrt_lt_R0 _ Q). field. repeat split; lra. }
  destruct E as (E & E1 & E2). split; [|split; assumption]. rewrite E.
  unfold freq. f_equal; apply map_ext_in; intros nx I.
  - rewrite M by (apply in_seq in I; lia). reflexivity.
  - rewrite M by (apply in_seq in I; lia). reflexivity.
Qed.

(** the band of the anisotropic forcing with delta_angle: the frequencies of all the waves of the forced region *)
Theorem c298_band : forall n key xlim c res proj ar (p : aniso) d, n <> 0 -> proper p -> delta_angle p = Some d ->
  forall fig, plot (Some n) key xlim c res proj ar (Anisotropic (angle p) (delta_angle p)) = inl fig ->
  exists lo hi, marks fig = [Vline 1; Band lo hi]
  /\ (forall kh kv, wanted p kh kv -> lo <= reduced_frequency kh kv <= hi)
  /\ (exists kh kv, wanted p kh kv /\ reduced_frequency kh kv = lo) /\ (exists kh kv, wanted p kh kv /\ reduced_frequency kh kv = hi).
Proof.
  intros n key xlim c res proj ar p d Hn (Hk & _ & _ & _ & Ha) D fig H. rewrite D in *. unfold plot_temporal_spectra in H.
  destruct (choose_key is3d fields key); [|discriminate]. cbn [guides] in H. inversion H. clear H. cbn [marks].
  exists (sin (angle p - d / 2)), (sin (angle p + d / 2)). pose proof PI_RGT_0 as HPI.
  assert (F : forall k t, 0 < k -> reduced_frequency (k * sin t) (k * cos t) = sin t).
  { intros k t K. unfold reduced_frequency. rewrite polar_norm by exact K. field. lra. }
  split; [|split; [|split]].
  - replace (0.5 * d) with (d / 2) by lra. f_equal. f_equal. f_equal; field; exact Hn.
  - intros kh kv W. unfold wanted in W. rewrite D in W. destruct W as (k & t & K & T & -> & V).
    assert (E : reduced_frequency (k * sin t) kv = sin t).
    { destruct V as [->|[_ V]]; [apply F; lra|]. rewrite <- (F k t) at 2 by lra. unfold reduced_frequency. rewrite <- V. f_equal. f_equal. ring. }
    rewrite E. split; apply sin_incr_1; lra.
  - exists (kmin p * sin (angle p - d / 2)), (kmin p * cos (angle p - d / 2)). split; [|apply F; lra].
    unfold wanted. rewrite D. exists (kmin p), (angle p - d / 2). repeat split; try lra; try (left; reflexivity).
  - exists (kmin p * sin (angle p + d / 2)), (kmin p * cos (angle p + d / 2)). split; [|apply F; lra].
    unfold wanted. rewrite D. exists (kmin p), (angle p + d / 2). repeat split; try lra; try (left; reflexivity).
Qed.

(** the periodic forcings: the line at their frequency; an error for the other movements of the milestone *)
Theorem c298_periodic_partial : forall n key xlim c res proj ar fig, n <> 0 ->
  (forall o, plot (Some n) key xlim c res proj ar (Watu o) = inl fig -> marks fig = [Vline 1; Vline (o / n)])
  /\ (forall T, plot (Some n) key xlim c res proj ar (Milestone (PeriodicUniform T)) = inl fig -> marks fig = [Vline 1; Vline (2 * PI / T / n)])
  /\ plot (Some n) key xlim c res proj ar (Milestone Uniform) = inr KeyErr
  /\ plot (Some n) key xlim c res proj ar (Milestone Sinusoidal) = inr KeyErr.
Proof.
  intros n key xlim c res proj ar fig Hn. unfold plot_temporal_spectra.
  destruct (choose_key is3d fields key) as [k|[]]; cbn [guides period_info]; repeat split; intros; try discriminate; inversion H; reflexivity.
Qed.

(** with N the key has no effect *)
Theorem c298_key_ignored : forall n k1 k2 xlim c res proj ar f, In k1 fields -> In k2 fields ->
  plot (Some n) (Some k1) xlim c res proj ar f = plot (Some n) (Some k2) xlim c res proj ar f.
Proof.
  intros n k1 k2 xlim c res proj ar f A B. unfold plot_temporal_spectra, choose_key.
  assert (P : forall k, In k fields -> mem k (keys_plot is3d fields) = true) by (intros k I; apply mem_spec; unfold keys_plot; apply in_or_app; auto).
  rewrite (P _ A), (P _ B). reflexivity.
Qed.
End Theorems.

(** the key Kp is accepted, but its spectrum is never saved *)
Theorem c298_Kp_refuted : exists key, In key (keys_plot true ["vx"; "vy"; "vz"]) /\ forall omegas spectrum xlim c res proj ar f,
  plot_temporal_spectra true ["vx"; "vy"; "vz"] omegas spectrum None (Some key) xlim c res proj ar f = inr KeyErr.
Proof. exists "Kp". split; [cbn; tauto|]. reflexivity. Qed.

Theorem c298_milestone_refuted : exists f, forall n fields key omegas spectrum xlim c res proj ar, In key fields ->
  plot_temporal_spectra true fields omegas spectrum (Some n) (Some key) xlim c res proj ar f = inr KeyErr
  /\ exists fig, plot_temporal_spectra true fields omegas spectrum (Some n) (Some key) xlim c res proj ar OtherForcing = inl fig.
Proof.
  exists (Milestone Sinusoidal). intros n fields key omegas spectrum xlim c res proj ar I. unfold plot_temporal_spectra, choose_key.
  assert (P : mem key (keys_plot true fields) = true) by (apply mem_spec; unfold keys_plot; apply in_or_app; auto).
  rewrite P. split; [reflexivity|eexists; reflexivity].
Qed.

(** with N the asked field is not drawn *)
Theorem c298_key_refuted : exists spectrum n fig, plot_temporal_spectra false ["ux"; "uy"; "b"] [1] spectrum (Some n) (Some "b") None 0 false PNone 1 OtherForcing = inl fig
  /\ forall name g, In (name, g) (curves fig) -> g 0%nat <> Some (spectrum "b" 0%nat).
Proof.
  exists (fun s _ => if String.eqb s "b" then 1 else 0), 1. eexists. split; [reflexivity|].
  intros name g [E|[E|[]]]; inversion E; cbn; intros X; inversion X; lra.
Qed.

(** without delta_angle the forced region contains waves of other frequencies than the line *)
Theorem c298_box_refuted : exists (p : aniso) kh kv, proper p /\ delta_angle p = None /\ wanted p kh kv
  /\ guides 1 (Anisotropic (angle p) (delta_angle p)) = inl [Vline (1 * sin (angle p) / 1)] /\ reduced_frequency kh kv <> 1 * sin (angle p) / 1.
Proof.
  pose proof PI_RGT_0 as HPI. exists (mkAniso 1 2 (PI / 6) None false 1 1 1), 1, (sqrt 3 / 2).
  unfold proper, wanted, in_box. cbn [delta_angle angle kmin kmax kz_negative_enable deltakx deltaky deltakz].
  split; [lra|]. split; [reflexivity|]. rewrite sin_PI6, cos_PI6.
  assert (T : sqrt 3 * sqrt 3 = 3) by (apply sqrt_sqrt; lra). pose proof (sqrt_lt_R0 3 ltac:(lra)) as P3.
  split; [split; [lra|left; lra]|]. split; [cbn [guides]; rewrite sin_PI6; reflexivity|]. unfold reduced_frequency. replace (1 * 1 + sqrt 3 / 2 * (sqrt 3 / 2)) with (7 / 4) by nra.
  assert (S : sqrt (7 / 4) * sqrt (7 / 4) = 7 / 4) by (apply sqrt_sqrt; lra). pose proof (sqrt_lt_R0 (7 / 4) ltac:(lra)).
  intros E. assert (sqrt (7 / 4) = 2).
  { replace (sqrt (7 / 4)) with (1 / (1 / sqrt (7 / 4))) by (field; lra). rewrite E. field. }
  nra.
Qed.

Example c298_example : proper (ex_quarter false) /\ exists fig,
  plot_temporal_spectra true ["vx"; "vy"; "vz"; "b"] [0; 1] (fun _ _ => 1) (Some 1) None None 2 true PNone (1 / 1)
    (Anisotropic (angle (ex_quarter false)) (delta_angle (ex_quarter false))) = inl fig.
Proof. split; [apply ex_quarter_proper|eexists; reflexivity]. Qed.

Print Assumptions c298_without_N_partial.
Print Assumptions c298_default_key.
Print Assumptions c298_unknown.
Print Assumptions c298_curves.
Print Assumptions c298_slope.
Print Assumptions c298_modes.
Print Assumptions c298_band.
Print Assumptions c298_periodic_partial.
Print Assumptions c298_key_ignored.
Print Assumptions c298_Kp_refuted.
Print Assumptions c298_milestone_refuted.
Print Assumptions c298_key_refuted.
Print Assumptions c298_box_refuted.
