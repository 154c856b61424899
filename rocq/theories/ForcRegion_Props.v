(** Theorems on plot_forcing_region (C295) *)

From Coq Require Import Reals Bool Arith ZArith List Lra Lia.
From Verif Require Import Aniso_Model Aniso_Props ForcRegion_Model.
Import ListNotations.
Local Open Scope R_scope.

(** ** Specification *)

(** the point at the distance [k] of the origin, in the direction making the angle [th] with the vertical *)
Definition polar (k th : R) : R * R := (k * sin th, k * cos th).

(** the ends of an arc of matplotlib: angles in degrees from the horizontal axis *)
Definition arc_point (diameter theta : R) : R * R := (diameter / 2 * cos (theta * PI / 180), diameter / 2 * sin (theta * PI / 180)).

Definition within (lim : R * R) (x : R) : Prop := fst lim <= x <= snd lim.

(** ** Lemmas *)

Lemma in_argwhere2 n0 n1 c i j : In (i, j) (argwhere2 n0 n1 c) <-> (i < n0)%nat /\ (j < n1)%nat /\ c i j = false.
Proof.
  unfold argwhere2. rewrite filter_In, in_prod_iff, !in_seq. cbn [fst snd]. rewrite negb_true_iff.
  split; intros H; repeat split; try lia; tauto.
Qed.

Lemma in_argwhere3 n0 n1 n2 c i j k : In (i, (j, k)) (argwhere3 n0 n1 n2 c)
  <-> (i < n0)%nat /\ (j < n1)%nat /\ (k < n2)%nat /\ c i j k = false.
Proof.
  unfold argwhere3. rewrite filter_In, !in_prod_iff, !in_seq. cbn [fst snd]. rewrite negb_true_iff.
  split; intros H; repeat split; try lia; tauto.
Qed.

Lemma half_05 x : 0.5 * x = x / 2. Proof. lra. Qed.

Lemma deg_rad a d : (90 - degrees a + 0.5 * degrees d) * PI / 180 = PI / 2 - (a - d / 2).
Proof. unfold degrees. pose proof PI_RGT_0. replace 0.5 with (/ 2) by lra. field. lra. Qed.

(** ** C295 *)

(** the drawn points are the horizontal and vertical wave numbers of the forced modes *)
Theorem c295_markers_2d : forall g nkmin nkmax a delta neg dx dy dz fig,
  plot_forcing_region g false nkmin nkmax a delta neg dx dy dz = inl fig ->
  forall x y, In (x, y) (markers fig)
  <-> exists ikx iky, forced_2d g (forcing_maker false nkmin nkmax a delta neg dx dy dz) ikx iky
      /\ x = dx * IZR ikx /\ y = dy * IZR iky.
Proof.
  intros g nkmin nkmax a delta neg dx dy dz fig H x y.
  set (p := forcing_maker false nkmin nkmax a delta neg dx dy dz).
  assert (E : markers fig = markers_2d g p).
  { destruct delta; cbn in H; inversion H; reflexivity. }
  rewrite E. unfold markers_2d. rewrite in_map_iff. split.
  - intros ((i0, i1) & Ep & I). apply in_argwhere2 in I. destruct I as (I0 & I1 & Ic). inversion Ep. subst.
    exists (Z.of_nat i1), (wavenumber (ny_coarse_2d g p) i0). split; [|split].
    + exists i0, i1. auto.
    + cbn [snd]. rewrite INR_IZR_INZ. reflexivity.
    + reflexivity.
  - intros (ikx & iky & (i0 & i1 & I0 & I1 & E1 & E0 & Ic) & Ex & Ey). exists (i0, i1). split.
    + cbn [fst snd]. rewrite Ex, Ey, <- E1, <- E0, INR_IZR_INZ. reflexivity.
    + apply in_argwhere2. auto.
Qed.

Theorem c295_markers_3d : forall g nkmin nkmax a delta neg dx dy dz fig,
  plot_forcing_region g true nkmin nkmax a delta neg dx dy dz = inl fig ->
  forall x y, In (x, y) (markers fig)
  <-> exists ikx iky ikz, forced_3d g (forcing_maker true nkmin nkmax a delta neg dx dy dz) ikx iky ikz
      /\ x = horizontal (dx * IZR ikx) (dy * IZR iky) /\ y = dz * IZR ikz.
Proof.
  intros g nkmin nkmax a delta neg dx dy dz fig H x y.
  set (p := forcing_maker true nkmin nkmax a delta neg dx dy dz).
  assert (E : markers fig = markers_3d g p).
  { destruct delta; cbn in H; inversion H; reflexivity. }
  rewrite E. unfold markers_3d. rewrite in_map_iff. split.
  - intros ((i0, (i1, i2)) & Ep & I). apply in_argwhere3 in I. destruct I as (I0 & I1 & I2 & Ic). inversion Ep. subst.
    exists (Z.of_nat i2), (wavenumber (ny_coarse_3d g p) i1), (wavenumber (nz_coarse_3d g p) i0). split; [|split].
    + exists i0, i1, i2. repeat split; auto.
    + cbn [fst snd]. rewrite INR_IZR_INZ. reflexivity.
    + reflexivity.
  - intros (ikx & iky & ikz & (i0 & i1 & i2 & I0 & I1 & I2 & E2 & E1 & E0 & Ic) & Ex & Ey). exists (i0, (i1, i2)). split.
    + cbn [fst snd]. rewrite Ex, Ey, <- E2, <- E1, <- E0, INR_IZR_INZ. reflexivity.
    + apply in_argwhere3. auto.
Qed.

(** without delta_angle: the rectangle of the wanted modes *)
Theorem c295_rectangle : forall g is3d nkmin nkmax a neg dx dy dz,
  let p := forcing_maker is3d nkmin nkmax a NoneP neg dx dy dz in
  exists fig x y w h, plot_forcing_region g is3d nkmin nkmax a NoneP neg dx dy dz = inl fig
  /\ region fig = [Rectangle x y w h]
  /\ forall kh kv, (x <= kh <= x + w /\ y <= kv <= y + h) <-> in_box (kmin p) (kmax p) a false kh kv.
Proof.
  intros g is3d nkmin nkmax a neg dx dy dz p. eexists _, _, _, _, _. split; [reflexivity|]. split; [reflexivity|].
  intros kh kv. fold p. unfold in_box, khmin_forcing, kvmin_forcing, khmax_forcing, kvmax_forcing.
  change (delta_angle p) with (@None R). change (angle p) with a. split.
  - intros [A B]. split; [lra|left; lra].
  - intros [A [B|[B _]]]; [|discriminate]. split; lra.
Qed.

(** with delta_angle (a number): the two arcs and the two segments are the edge of the sector, which is a closed curve *)
Theorem c295_sector : forall g is3d nkmin nkmax a d neg dx dy dz,
  let p := forcing_maker is3d nkmin nkmax a (Num d) neg dx dy dz in
  exists fig D0 D1 t1 t2 x0 y0 x1 y1 x2 y2 x3 y3,
  plot_forcing_region g is3d nkmin nkmax a (Num d) neg dx dy dz = inl fig
  /\ region fig = [Arc D0 t1 t2; Arc D1 t1 t2; Segment x0 y0 x1 y1; Segment x2 y2 x3 y3]
  /\ (x0, y0) = polar (kmin p) (a - d / 2) /\ (x1, y1) = polar (kmax p) (a - d / 2)
  /\ (x2, y2) = polar (kmin p) (a + d / 2) /\ (x3, y3) = polar (kmax p) (a + d / 2)
  /\ arc_point D0 t2 = (x0, y0) /\ arc_point D0 t1 = (x2, y2)
  /\ arc_point D1 t2 = (x1, y1) /\ arc_point D1 t1 = (x3, y3).
Proof.
  intros g is3d nkmin nkmax a d neg dx dy dz p.
  assert (T2 : (90 - degrees a + 0.5 * degrees d) * PI / 180 = PI / 2 - (a - d / 2)) by apply deg_rad.
  assert (T1 : (90 - degrees a - 0.5 * degrees d) * PI / 180 = PI / 2 - (a + d / 2)).
  { unfold degrees. pose proof PI_RGT_0. replace 0.5 with (/ 2) by lra. field. lra. }
  eexists _, _, _, _, _, _, _, _, _, _, _, _, _. split; [reflexivity|]. split; [reflexivity|]. fold p.
  unfold polar, arc_point, khmin_forcing, kvmin_forcing, khmax_forcing, kvmax_forcing.
  change (delta_angle p) with (Some d). change (angle p) with a. cbv iota.
  rewrite T1, T2, !cos_shift, !sin_shift, !half_05.
  repeat split; f_equal; try ring; field.
Qed.

(** without negative kz all the forced modes are visible and in the drawn region *)
Lemma wanted_visible p kh kv : proper p -> kz_negative_enable p = false -> wanted p kh kv ->
  within (0, 1.2 * kmax p) kh /\ within (0, 1.2 * kmax p) kv.
Proof.
  intros (Hk & _ & _ & _ & Ha) N W. unfold wanted in W. unfold within. cbn [fst snd]. pose proof PI_RGT_0 as HPI.
  rewrite N in W. destruct (delta_angle p) as [d|].
  - destruct W as (k & th & K & T & E1 & [E2|[E2 _]]); [|discriminate].
    assert (0 <= sin th) by (apply sin_ge_0; lra). assert (0 <= cos th) by (apply cos_ge_0; lra).
    pose proof (SIN_bound th). pose proof (COS_bound th). subst. split; split; nra.
  - destruct W as [A [B|[B _]]]; [|discriminate].
    assert (0 <= sin (angle p)) by (apply sin_ge_0; lra). assert (0 <= cos (angle p)) by (apply cos_ge_0; lra).
    pose proof (SIN_bound (angle p)). pose proof (COS_bound (angle p)). split; split; nra.
Qed.

Theorem c295_visible_partial : forall g is3d nkmin nkmax a delta dx dy dz fig,
  (forall n, (n <= g n)%nat) ->
  let p := forcing_maker is3d nkmin nkmax a delta false dx dy dz in proper p ->
  plot_forcing_region g is3d nkmin nkmax a delta false dx dy dz = inl fig ->
  forall x y, In (x, y) (markers fig) -> wanted p x y /\ within (xlim fig) x /\ within (ylim fig) y.
Proof.
  intros g is3d nkmin nkmax a delta dx dy dz fig Hg p Hp H x y I.
  assert (W : wanted p x y).
  { destruct is3d.
    - apply (c295_markers_3d _ _ _ _ _ _ _ _ _ _ H) in I. destruct I as (ikx & iky & ikz & F & -> & ->).
      assert (Z0 : (0 <= ikx)%Z) by (destruct F as (i0 & i1 & i2 & _ & _ & _ & E & _); lia).
      apply (c123_3d_partial g p Hg Hp _ _ _ Z0) in F. apply F.
    - apply (c295_markers_2d _ _ _ _ _ _ _ _ _ _ H) in I. destruct I as (ikx & iky & F & -> & ->).
      assert (Z0 : (0 <= ikx)%Z) by (destruct F as (i0 & i1 & _ & _ & E & _); lia).
      apply (c123_2d g p Hg Hp _ _ Z0) in F. apply F. }
  split; [exact W|].
  assert (L : xlim fig = (0, 1.2 * kmax p) /\ ylim fig = (0, 1.2 * kmax p)).
  { destruct delta; cbn in H; inversion H; split; reflexivity. }
  destruct L as [-> ->]. apply wanted_visible; [exact Hp|reflexivity|exact W].
Qed.

(** the title gives the bounds and the ticks are the wave numbers if the largest step is the vertical one, resp. for
    equal steps *)
Theorem c295_title_ticks_partial : forall g (is3d : bool) nkmin nkmax a delta neg dx dy dz fig,
  let p := forcing_maker is3d nkmin nkmax a delta neg dx dy dz in
  plot_forcing_region g is3d nkmin nkmax a delta neg dx dy dz = inl fig ->
  ytick fig = (if is3d then dz else dy) /\ xtick fig = ytick fig
  /\ (dx <= ytick fig -> dy <= ytick fig -> title_kmin fig = kmin p /\ title_kmax fig = kmax p).
Proof.
  intros g is3d nkmin nkmax a delta neg dx dy dz fig p H.
  assert (E : ytick fig = (if is3d then dz else dy) /\ xtick fig = ytick fig
    /\ title_kmin fig = nkmin * ytick fig /\ title_kmax fig = nkmax * ytick fig).
  { destruct delta; cbn in H; inversion H; repeat split. }
  destruct E as (Ey & Ex & E1 & E2). split; [exact Ey|]. split; [exact Ex|]. intros Lx Ly. rewrite E1, E2.
  assert (K : (if is3d then deltak_3d dx dy dz else deltak_2d dx dy) = ytick fig).
  { rewrite Ey in *. destruct is3d; unfold deltak_3d, deltak_2d.
    - apply Rmax_right. apply Rmax_lub; assumption.
    - apply Rmax_right. assumption. }
  unfold p, forcing_maker. cbn [kmin kmax]. rewrite K. split; ring.
Qed.

(** with the default delta_angle of the 3D solvers (any string) the method fails, although the forcing works *)
Theorem c295_default_3d_refuted : exists delta, delta = default_delta_angle_3d /\
  forall g is3d nkmin nkmax a neg dx dy dz,
  plot_forcing_region g is3d nkmin nkmax a delta neg dx dy dz = inr TypeErr
  /\ delta_angle (forcing_maker is3d nkmin nkmax a delta neg dx dy dz) = Some (PI / 18).
Proof.
  exists default_delta_angle_3d. split; [reflexivity|]. intros. split; [reflexivity|].
  unfold forcing_maker, default_delta_angle_3d, ensure_radians, radians. cbn [delta_angle]. f_equal. field.
Qed.

Theorem c295_fails_iff : forall g is3d nkmin nkmax a delta neg dx dy dz,
  plot_forcing_region g is3d nkmin nkmax a delta neg dx dy dz = inr TypeErr <-> exists x, delta = Deg x.
Proof.
  intros. destruct delta; cbn; split; intros H; try discriminate; try (destruct H; discriminate); eauto.
Qed.

(** with kz_negative_enable: forced modes below the axes, for each grid *)
Theorem c295_negative_refuted : exists nkmin nkmax a d x y, forall g, (forall n, (n <= g n)%nat) ->
  exists fig, plot_forcing_region g false nkmin nkmax a (Num d) true 1 1 1 = inl fig
  /\ proper (forcing_maker false nkmin nkmax a (Num d) true 1 1 1)
  /\ In (x, y) (markers fig) /\ ~ within (ylim fig) y.
Proof.
  exists 1, 4, (PI / 4), (PI / 6), 2, (-2). intros g Hg. eexists. split; [reflexivity|].
  set (p := forcing_maker false 1 4 (PI / 4) (Num (PI / 6)) true 1 1 1).
  assert (Ep : p = ex_quarter true).
  { unfold p, ex_quarter, forcing_maker, deltak_2d. rewrite Rmax_left by lra. cbn. f_equal; lra. }
  assert (Hp : proper p) by (rewrite Ep; apply ex_quarter_proper).
  split; [exact Hp|]. split.
  - apply (c295_markers_2d g 1 4 (PI / 4) (Num (PI / 6)) true 1 1 1 _ eq_refl). exists 2%Z, (-2)%Z. split; [|split; lra].
    fold p. apply c123_2d; [exact Hg|exact Hp|discriminate|]. rewrite Ep.
    pose proof (proj2 (proj2 c123_2d_example)) as F. apply c123_2d in F; [exact F|auto|apply ex_quarter_proper|discriminate].
  - unfold within. cbn [ylim fst snd]. lra.
Qed.

(** the steps along x and z differ: the ticks of the horizontal axis are not wave numbers, and the title does not give
    the bounds *)
Theorem c295_ticks_refuted : exists dx dy, 0 < dx /\ 0 < dy /\ forall g nkmin nkmax a, exists fig,
  plot_forcing_region g false nkmin nkmax a NoneP false dx dy 1 = inl fig
  /\ forall n : Z, xtick fig <> dx * IZR n.
Proof.
  exists 2, 1. split; [lra|]. split; [lra|]. intros g nkmin nkmax a. eexists. split; [reflexivity|].
  intros n H. cbn [xtick] in H. assert (E : IZR 1 = IZR (2 * n)) by (rewrite mult_IZR; exact H). apply eq_IZR in E. lia.
Qed.

Theorem c295_title_refuted : exists dx dy, 0 < dx /\ 0 < dy /\ forall g nkmin nkmax a, 0 < nkmin -> exists fig,
  plot_forcing_region g false nkmin nkmax a NoneP false dx dy 1 = inl fig
  /\ title_kmin fig < kmin (forcing_maker false nkmin nkmax a NoneP false dx dy 1).
Proof.
  exists 2, 1. split; [lra|]. split; [lra|]. intros g nkmin nkmax a H. eexists. split; [reflexivity|].
  cbn. unfold deltak_2d. rewrite Rmax_left by lra. lra.
Qed.

Example c295_example : forall g, (forall n, (n <= g n)%nat) -> exists fig,
  plot_forcing_region g false 1 4 (PI / 4) (Num (PI / 6)) false 1 1 1 = inl fig
  /\ proper (forcing_maker false 1 4 (PI / 4) (Num (PI / 6)) false 1 1 1) /\ In (2, 2) (markers fig).
Proof.
  intros g Hg. eexists. split; [reflexivity|].
  set (p := forcing_maker false 1 4 (PI / 4) (Num (PI / 6)) false 1 1 1).
  assert (Ep : p = ex_quarter false).
  { unfold p, ex_quarter, forcing_maker, deltak_2d. rewrite Rmax_left by lra. cbn. f_equal; lra. }
  assert (Hp : proper p) by (rewrite Ep; apply ex_quarter_proper). split; [exact Hp|].
  apply (c295_markers_2d g 1 4 (PI / 4) (Num (PI / 6)) false 1 1 1 _ eq_refl). exists 2%Z, 2%Z. split; [|split; lra].
  fold p. apply c123_2d; [exact Hg|exact Hp|discriminate|]. rewrite Ep.
  pose proof (proj1 c123_2d_example) as F. apply c123_2d in F; [exact F|auto|apply ex_quarter_proper|discriminate].
Qed.

Print Assumptions c295_markers_2d.
Print Assumptions c295_markers_3d.
Print Assumptions c295_rectangle.
Print Assumptions c295_sector.
Print Assumptions c295_visible_partial.
Print Assumptions c295_title_ticks_partial.
Print Assumptions c295_default_3d_refuted.
Print Assumptions c295_fails_iff.
Print Assumptions c295_negative_refuted.
Print Assumptions c295_ticks_refuted.
Print Assumptions c295_title_refuted.
