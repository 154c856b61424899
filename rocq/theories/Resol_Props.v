(** * Change of the resolution of a state: C39 *)

From Coq Require Import List Arith ZArith Bool Reals Lia Lra.
From Coquelicot Require Import Complex.
From Verif Require Import Oper_Model Oper_Spec Oper_Proofs Resol_Model Resol_Proofs.
Import ListNotations.
Local Open Scope nat_scope.

(** the numbers of points along y are such that the smaller one is even: every common wavenumber which is not the
    Nyquist wavenumber of the smaller grid keeps its coefficient, every wavenumber larger than the Nyquist wavenumber of
    the smaller grid is zero, and so is the opposite of this Nyquist wavenumber *)
Theorem c39_fill_2d_partial (V : Type) (zero : V) ny_in nkx_in ny_out nkx_out m (f : nat -> nat -> V) :
  1 <= m -> min ny_out ny_in = 2 * m ->
  let g := fill_field_fft_2d ny_in nkx_in ny_out nkx_out f (fun _ _ => zero) in
  (forall ky i_in i_out ikx,
      holds (Z.of_nat ny_in) (Z.of_nat i_in) ky -> holds (Z.of_nat ny_out) (Z.of_nat i_out) ky ->
      (Z.abs ky < Z.of_nat m)%Z -> ikx < nkx_in -> ikx < nkx_out -> g i_out ikx = f i_in ikx)
  /\ (forall ky i_out ikx, holds (Z.of_nat ny_out) (Z.of_nat i_out) ky ->
      ((Z.of_nat m < Z.abs ky)%Z \/ ky = (- Z.of_nat m)%Z \/ nkx_in <= ikx \/ nkx_out <= ikx) -> g i_out ikx = zero)
  /\ (forall ikx, ikx < nkx_in -> ikx < nkx_out -> g m ikx = f m ikx).
Proof.
  intros Hm Hmin g.
  assert (E : min ny_out ny_in / 2 = m) by (rewrite Hmin, Nat.mul_comm; apply Nat.div_mul; lia).
  assert (G : forall a b, g a b = if (b <? min nkx_out nkx_in) && row m ny_out a then f (src m ny_in ny_out a) b else zero).
  { intros a b. unfold g. rewrite fill_2d_closed. rewrite E. reflexivity. }
  split; [|split].
  - intros ky i_in i_out ikx Hi Ho Hk X1 X2. rewrite G.
    destruct (row_src_common m ny_in ny_out i_in i_out ky) as [R S]; try assumption; try lia.
    rewrite R, S, (proj2 (Nat.ltb_lt _ _)) by lia. reflexivity.
  - intros ky i_out ikx Ho H. rewrite G. destruct (Nat.ltb_spec ikx (min nkx_out nkx_in)); cbn [andb]; [|reflexivity].
    assert (R : row m ny_out i_out = false); [|rewrite R; reflexivity].
    unfold holds, row in *.
    destruct (Nat.leb_spec i_out m), (Nat.ltb_spec (ny_out - m) i_out), (Nat.ltb_spec i_out ny_out); cbn [andb orb]; try reflexivity; lia.
  - intros ikx X1 X2. rewrite G, (proj2 (Nat.ltb_lt _ _)) by lia. unfold row, src. rewrite Nat.leb_refl. reflexivity.
Qed.

(** the smaller number of points is odd: the most negative common wavenumber is lost (its opposite is kept) *)
Theorem c39_fill_2d_odd_refuted :
  exists (ny_in ny_out : nat), forall (f : nat -> nat -> nat), exists i_in i_out,
    holds (Z.of_nat ny_in) (Z.of_nat i_in) (-1) /\ holds (Z.of_nat ny_out) (Z.of_nat i_out) (-1)
    /\ (ny_in < ny_out)%nat /\ fill_field_fft_2d ny_in 2 ny_out 3 f (fun _ _ => 0) i_out 0 = 0
    /\ fill_field_fft_2d ny_in 2 ny_out 3 f (fun _ _ => 0) 1 0 = f 1 0.
Proof.
  exists 3, 4. intros f. exists 2, 3. unfold holds.
  split; [lia|]. split; [lia|]. split; [lia|]. split; reflexivity.
Qed.

(** the same for every odd size *)
Theorem c39_fill_2d_odd_lost (V : Type) (zero : V) ny_in nkx_in ny_out nkx_out m (f : nat -> nat -> V) :
  1 <= m -> min ny_out ny_in = 2 * m + 1 ->
  let g := fill_field_fft_2d ny_in nkx_in ny_out nkx_out f (fun _ _ => zero) in
  (forall ky i_in i_out ikx,
      holds (Z.of_nat ny_in) (Z.of_nat i_in) ky -> holds (Z.of_nat ny_out) (Z.of_nat i_out) ky ->
      (- Z.of_nat m < ky <= Z.of_nat m)%Z -> ikx < nkx_in -> ikx < nkx_out -> g i_out ikx = f i_in ikx)
  /\ (forall i_out ikx, holds (Z.of_nat ny_out) (Z.of_nat i_out) (- Z.of_nat m) -> g i_out ikx = zero).
Proof.
  intros Hm Hmin g.
  assert (E : min ny_out ny_in / 2 = m).
  { rewrite Hmin, Nat.add_comm, Nat.mul_comm, Nat.div_add by lia. reflexivity. }
  assert (G : forall a b, g a b = if (b <? min nkx_out nkx_in) && row m ny_out a then f (src m ny_in ny_out a) b else zero).
  { intros a b. unfold g. rewrite fill_2d_closed. rewrite E. reflexivity. }
  split.
  - intros ky i_in i_out ikx Hi Ho Hk X1 X2. rewrite G, (proj2 (Nat.ltb_lt _ _)) by lia.
    assert (R : row m ny_out i_out = true /\ src m ny_in ny_out i_out = i_in).
    { unfold holds, row, src in *.
      destruct (Nat.leb_spec i_out m), (Nat.ltb_spec (ny_out - m) i_out), (Nat.ltb_spec i_out ny_out); cbn [andb orb];
        split; try reflexivity; lia. }
    destruct R as [-> ->]. reflexivity.
  - intros i_out ikx Ho. rewrite G.
    assert (R : row m ny_out i_out = false).
    { unfold holds, row in *.
      destruct (Nat.leb_spec i_out m), (Nat.ltb_spec (ny_out - m) i_out), (Nat.ltb_spec i_out ny_out); cbn [andb orb]; try reflexivity; lia. }
    rewrite R, Bool.andb_false_r. reflexivity.
Qed.

(** the coefficients of the Nyquist wavenumber of the smaller grid are copied, only for the positive wavenumber: the
    spectrum of a real field becomes one which is not the spectrum of a real field *)
Theorem c39_nyquist_2d_refuted :
  exists (ny_in ny_out : nat) (f : nat -> nat -> C),
    hermitian_column ny_in f 0
    /\ ~ hermitian_column ny_out (fill_field_fft_2d ny_in 2 ny_out 4 f (fun _ _ => RtoC 0)) 0.
Proof.
  exists 2, 4, (fun _ _ => RtoC 1). split.
  - intros i Hi. unfold RtoC, Cconj. cbn. apply f_equal2; ring.
  - intros H. specialize (H 1 ltac:(lia)). cbn in H. inversion H. lra.
Qed.

(** the fields without Nyquist coefficients: real fields stay real *)
Theorem c39_real_2d_partial ny_in nkx_in ny_out nkx_out m (f : nat -> nat -> C) :
  1 <= m -> min ny_out ny_in = 2 * m -> 1 <= nkx_in -> 1 <= nkx_out ->
  f m 0 = RtoC 0 -> hermitian_column ny_in f 0 ->
  hermitian_column ny_out (fill_field_fft_2d ny_in nkx_in ny_out nkx_out f (fun _ _ => RtoC 0)) 0.
Proof.
  intros Hm Hmin X1 X2 Hf H i Hi.
  assert (E : min ny_out ny_in / 2 = m) by (rewrite Hmin, Nat.mul_comm; apply Nat.div_mul; lia).
  rewrite !fill_2d_closed, E, (proj2 (Nat.ltb_lt _ _)) by lia. cbn [andb].
  assert (C0 : Cconj (RtoC 0) = RtoC 0) by (unfold Cconj, RtoC; cbn; apply f_equal2; ring).
  unfold row, src, opposite. destruct i as [|i].
  - cbn [Nat.leb orb]. apply (H 0). lia.
  - set (j := S i) in *. assert (1 <= j) by (unfold j; lia). clearbody j. clear i.
    destruct (Nat.leb_spec j m) as [A|A], (Nat.leb_spec (ny_out - j) m) as [B|B].
    + cbn [orb]. assert (j = m) by lia. subst j. replace (ny_out - m) with m by lia. rewrite Hf. symmetry. assumption.
    + cbn [orb]. destruct (Nat.ltb_spec (ny_out - m) (ny_out - j)), (Nat.ltb_spec (ny_out - j) ny_out); try lia; cbn [andb].
      * replace (ny_out - (ny_out - j)) with j by lia.
        specialize (H j ltac:(lia)). unfold opposite in H. destruct j; [lia|]. exact H.
      * assert (j = m) by lia. subst j. rewrite Hf. symmetry. exact C0.
    + cbn [orb]. destruct (Nat.ltb_spec (ny_out - m) j), (Nat.ltb_spec j ny_out); try lia; cbn [andb].
      * specialize (H (ny_in - (ny_out - j)) ltac:(lia)). unfold opposite in H.
        destruct (ny_in - (ny_out - j)) eqn:F; [lia|].
        rewrite <- H. f_equal. lia.
      * assert (ny_out - j = m) as -> by lia. rewrite Hf. symmetry. exact C0.
    + cbn [orb]. destruct (Nat.ltb_spec (ny_out - m) j), (Nat.ltb_spec (ny_out - m) (ny_out - j)); try lia; cbn [andb].
      symmetry. exact C0.
Qed.

(** the memory-efficient version (three dimensions), the smaller sizes along z and y being even *)
Theorem c39_mini_3d_partial (V : Type) (zero : V) nz_in ny_in nkx_in nz_out ny_out nkx_out mz my (f : nat -> nat -> nat -> V) :
  1 <= mz -> 1 <= my -> min nz_out nz_in = 2 * mz -> min ny_out ny_in = 2 * my ->
  let g := mini_fill_field_fft_3d nz_in ny_in nkx_in nz_out ny_out nkx_out f (fun _ _ _ => zero) in
  (forall kz ky iz_in iz_out iy_in iy_out ikx,
      holds (Z.of_nat nz_in) (Z.of_nat iz_in) kz -> holds (Z.of_nat nz_out) (Z.of_nat iz_out) kz ->
      holds (Z.of_nat ny_in) (Z.of_nat iy_in) ky -> holds (Z.of_nat ny_out) (Z.of_nat iy_out) ky ->
      (Z.abs kz < Z.of_nat mz)%Z -> (Z.abs ky < Z.of_nat my)%Z -> ikx < nkx_in -> ikx < nkx_out ->
      g iz_out iy_out ikx = f iz_in iy_in ikx)
  /\ (forall kz ky iz_out iy_out ikx,
      holds (Z.of_nat nz_out) (Z.of_nat iz_out) kz -> holds (Z.of_nat ny_out) (Z.of_nat iy_out) ky ->
      ((Z.of_nat mz < Z.abs kz)%Z \/ (Z.of_nat my < Z.abs ky)%Z \/ nkx_in <= ikx \/ nkx_out <= ikx) ->
      g iz_out iy_out ikx = zero).
Proof.
  intros Hz Hy Ez Ey g.
  assert (E0 : min nz_out nz_in / 2 = mz) by (rewrite Ez, Nat.mul_comm; apply Nat.div_mul; lia).
  assert (E1 : min ny_out ny_in / 2 = my) by (rewrite Ey, Nat.mul_comm; apply Nat.div_mul; lia).
  assert (G : forall a b c, g a b c = if row mz nz_out a && row my ny_out b && (c <? min nkx_out nkx_in)
    then f (src mz nz_in nz_out a) (src my ny_in ny_out b) c else zero).
  { intros a b c. unfold g. rewrite mini_closed. rewrite E0, E1. reflexivity. }
  split.
  - intros kz ky iz_in iz_out iy_in iy_out ikx A B C D Kz Ky X1 X2. rewrite G.
    destruct (row_src_common mz nz_in nz_out iz_in iz_out kz) as [R S]; try assumption; try lia.
    destruct (row_src_common my ny_in ny_out iy_in iy_out ky) as [R' S']; try assumption; try lia.
    rewrite R, S, R', S', (proj2 (Nat.ltb_lt _ _)) by lia. reflexivity.
  - intros kz ky iz_out iy_out ikx A B H. rewrite G.
    destruct (Nat.ltb_spec ikx (min nkx_out nkx_in)); [|rewrite Bool.andb_false_r; reflexivity].
    destruct H as [H | [H | H]]; [| |lia].
    + rewrite (row_other mz nz_out iz_out kz) by (assumption || lia). reflexivity.
    + rewrite (row_other my ny_out iy_out ky) by (assumption || lia). rewrite Bool.andb_false_r. reflexivity.
Qed.

Theorem c39_mini_3d_odd_refuted :
  exists nz_in nz_out (f : nat -> nat -> nat -> nat) iz_in iz_out,
    holds (Z.of_nat nz_in) (Z.of_nat iz_in) (-1) /\ holds (Z.of_nat nz_out) (Z.of_nat iz_out) (-1)
    /\ f iz_in 0 0 <> 0 /\ mini_fill_field_fft_3d nz_in 2 2 nz_out 2 2 f (fun _ _ _ => 0) iz_out 0 0 = 0.
Proof.
  exists 3, 5, (fun _ _ _ => 1), 2, 4. unfold holds. split; [lia|]. split; [lia|]. split; [lia|]. reflexivity.
Qed.

(** from a coarse grid to a grid at least as fine (three dimensions, even and odd sizes): every coefficient of the coarse
    grid goes to its wavenumber and the others are zero *)
Theorem c39_fill_3d_finer_partial (V : Type) (zero : V) nz_in ny_in nkx_in nz_out ny_out nkx_out (f : nat -> nat -> nat -> V) :
  2 <= nz_in <= nz_out -> 2 <= ny_in <= ny_out -> nkx_in <= nkx_out ->
  let g := fill_field_fft_3d nz_in ny_in nkx_in nz_out ny_out nkx_out f (fun _ _ _ => zero) in
  (forall kz ky iz_in iz_out iy_in iy_out ikx,
      holds (Z.of_nat nz_in) (Z.of_nat iz_in) kz -> holds (Z.of_nat nz_out) (Z.of_nat iz_out) kz ->
      holds (Z.of_nat ny_in) (Z.of_nat iy_in) ky -> holds (Z.of_nat ny_out) (Z.of_nat iy_out) ky ->
      ikx < nkx_in -> g iz_out iy_out ikx = f iz_in iy_in ikx)
  /\ (forall iz_out iy_out ikx,
      (forall kz ky iz_in iy_in,
          holds (Z.of_nat nz_in) (Z.of_nat iz_in) kz -> holds (Z.of_nat nz_out) (Z.of_nat iz_out) kz ->
          holds (Z.of_nat ny_in) (Z.of_nat iy_in) ky -> holds (Z.of_nat ny_out) (Z.of_nat iy_out) ky -> nkx_in <= ikx) ->
      g iz_out iy_out ikx = zero).
Proof.
  intros Hz Hy Hx g.
  assert (E : g = put_coarse_3d nz_in ny_in nkx_in nz_out ny_out f (fun _ _ _ => zero)) by (apply fill_3d_up; assumption).
  clearbody g. subst g.
  destruct (put_loop_3d nz_in ny_in nkx_in nz_out ny_out f (fun _ _ _ => zero)) as [P1 P2]; [lia..|].
  split.
  - intros kz ky iz_in iz_out iy_in iy_out ikx A B C D X.
    assert (Hi : iy_in < ny_in) by (unfold holds in C; lia).
    assert (Hj : iz_in < nz_in) by (unfold holds in A; lia).
    pose proof (holds_inj _ _ _ _ D (ikc_holds ny_in ny_out iy_in ky ltac:(lia) Hi C)) as F. apply Nat2Z.inj in F. subst iy_out.
    pose proof (holds_inj _ _ _ _ B (ikc_holds nz_in nz_out iz_in kz ltac:(lia) Hj A)) as F. apply Nat2Z.inj in F. subst iz_out.
    apply P1; assumption.
  - intros iz_out iy_out ikx H. apply P2. intros h i Hh Hi Hx'.
    destruct (Nat.eq_dec iz_out (ik_from_ikc h nz_in nz_out false)); [right | left; assumption].
    intros E. subst iz_out iy_out.
    destruct (holds_ex (Z.of_nat ny_in) (Z.of_nat i)) as [k Hk]; [lia|].
    destruct (holds_ex (Z.of_nat nz_in) (Z.of_nat h)) as [l Hl]; [lia|].
    specialize (H l k h i Hl (ikc_holds nz_in nz_out h l ltac:(lia) Hh Hl) Hk (ikc_holds ny_in ny_out i k ltac:(lia) Hi Hk)). lia.
Qed.

(** towards a coarser grid: the coefficients of wavenumbers which do not exist in the new grid are written on the place of
    other wavenumbers, and the coefficients of the negative wavenumbers are lost *)
Theorem c39_fill_3d_coarser_refuted :
  exists nz_in nz_out (f : nat -> nat -> nat -> nat) i3 im1_in im1_out,
    holds (Z.of_nat nz_in) (Z.of_nat i3) 3 /\ holds (Z.of_nat nz_in) (Z.of_nat im1_in) (-1)
    /\ holds (Z.of_nat nz_out) (Z.of_nat im1_out) (-1)
    /\ f i3 0 0 <> f im1_in 0 0
    /\ fill_field_fft_3d nz_in 2 2 nz_out 2 2 f (fun _ _ _ => 0) im1_out 0 0 = f i3 0 0.
Proof.
  exists 8, 4, (fun i _ _ => i), 3, 7, 3. unfold holds. split; [lia|]. split; [lia|]. split; [lia|]. split; [lia|]. reflexivity.
Qed.

(** the state of a simulation with the same resolution is taken as it is *)
Theorem c39_same_resolution (V : Type) (zero : V) nx ny nz (f2 : nat -> nat -> V) (f3 : nat -> nat -> nat -> V) :
  make_state_spect_2d zero nx ny nx ny f2 = f2 /\ make_state_spect_3d zero nx ny nz nx ny nz f3 = f3.
Proof. unfold make_state_spect_2d, make_state_spect_3d. rewrite !Nat.eqb_refl. split; reflexivity. Qed.

(** the whole states: a wavenumber kx is held by both grids when it is at most the half of both numbers of points *)
Theorem c39_state_2d_partial (V : Type) (zero : V) nx_in ny_in nx ny m (f : nat -> nat -> V) :
  1 <= m -> min ny ny_in = 2 * m ->
  let g := make_state_spect_2d zero nx_in ny_in nx ny f in
  (forall kx ky i_in i_out, 2 * kx <= nx_in -> 2 * kx <= nx ->
      holds (Z.of_nat ny_in) (Z.of_nat i_in) ky -> holds (Z.of_nat ny) (Z.of_nat i_out) ky ->
      (Z.abs ky < Z.of_nat m)%Z -> g i_out kx = f i_in kx)
  /\ (forall kx ky i_out, 2 * kx <= nx -> holds (Z.of_nat ny) (Z.of_nat i_out) ky ->
      (nx_in < 2 * kx \/ (Z.of_nat ny_in < 2 * Z.abs ky)%Z) -> g i_out kx = zero).
Proof.
  intros Hm Hmin. cbv zeta. unfold make_state_spect_2d.
  destruct (Nat.eqb_spec nx nx_in); cbn [andb]; [destruct (Nat.eqb_spec ny ny_in)|]; cbn [andb].
  - subst. split.
    + intros kx ky i_in i_out _ _ Hi Ho _. pose proof (holds_inj _ _ _ _ Hi Ho) as E. apply Nat2Z.inj in E. subst. reflexivity.
    + intros kx ky i_out X Ho. unfold holds in Ho. lia.
  - destruct (c39_fill_2d_partial V zero ny_in (nx_in / 2 + 1) ny (nx / 2 + 1) m f Hm Hmin) as (P1 & P2 & _).
    pose proof (Nat.div_mod nx 2 ltac:(lia)). pose proof (Nat.mod_upper_bound nx 2 ltac:(lia)).
    pose proof (Nat.div_mod nx_in 2 ltac:(lia)). pose proof (Nat.mod_upper_bound nx_in 2 ltac:(lia)).
    split.
    + intros kx ky i_in i_out X1 X2 Hi Ho Hk. apply (P1 ky); try assumption; lia.
    + intros kx ky i_out X Ho [H' | H']; apply (P2 ky); try assumption; [right; right; left; lia|].
      unfold holds in Ho. lia.
  - destruct (c39_fill_2d_partial V zero ny_in (nx_in / 2 + 1) ny (nx / 2 + 1) m f Hm Hmin) as (P1 & P2 & _).
    pose proof (Nat.div_mod nx 2 ltac:(lia)). pose proof (Nat.mod_upper_bound nx 2 ltac:(lia)).
    pose proof (Nat.div_mod nx_in 2 ltac:(lia)). pose proof (Nat.mod_upper_bound nx_in 2 ltac:(lia)).
    split.
    + intros kx ky i_in i_out X1 X2 Hi Ho Hk. apply (P1 ky); try assumption; lia.
    + intros kx ky i_out X Ho [H' | H']; apply (P2 ky); try assumption; [right; right; left; lia|].
      unfold holds in Ho. lia.
Qed.

Theorem c39_state_3d_finer_partial (V : Type) (zero : V) nx_in ny_in nz_in nx ny nz (f : nat -> nat -> nat -> V) :
  nx_in <= nx -> 2 <= ny_in <= ny -> 2 <= nz_in <= nz ->
  let g := make_state_spect_3d zero nx_in ny_in nz_in nx ny nz f in
  (forall kx ky kz iy_in iz_in iy_out iz_out, 2 * kx <= nx_in ->
      holds (Z.of_nat ny_in) (Z.of_nat iy_in) ky -> holds (Z.of_nat ny) (Z.of_nat iy_out) ky ->
      holds (Z.of_nat nz_in) (Z.of_nat iz_in) kz -> holds (Z.of_nat nz) (Z.of_nat iz_out) kz ->
      g iz_out iy_out kx = f iz_in iy_in kx)
  /\ (forall kx ky kz iy_out iz_out, 2 * kx <= nx ->
      holds (Z.of_nat ny) (Z.of_nat iy_out) ky -> holds (Z.of_nat nz) (Z.of_nat iz_out) kz ->
      (nx_in < 2 * kx \/ (Z.of_nat ny_in < 2 * Z.abs ky)%Z \/ (Z.of_nat nz_in < 2 * Z.abs kz)%Z) -> g iz_out iy_out kx = zero).
Proof.
  intros Hx Hy Hz. cbv zeta. unfold make_state_spect_3d.
  destruct (_ && _) eqn:E.
  - apply andb_prop in E as [E E3]. apply andb_prop in E as [E1 E2]. apply Nat.eqb_eq in E1, E2, E3. subst. split.
    + intros kx ky kz iy_in iz_in iy_out iz_out _ A B C D.
      pose proof (holds_inj _ _ _ _ A B) as F. apply Nat2Z.inj in F. subst.
      pose proof (holds_inj _ _ _ _ C D) as F. apply Nat2Z.inj in F. subst. reflexivity.
    + intros kx ky kz iy_out iz_out X A B. unfold holds in A, B. lia.
  - clear E.
    pose proof (Nat.div_mod nx 2 ltac:(lia)). pose proof (Nat.mod_upper_bound nx 2 ltac:(lia)).
    pose proof (Nat.div_mod nx_in 2 ltac:(lia)). pose proof (Nat.mod_upper_bound nx_in 2 ltac:(lia)).
    destruct (c39_fill_3d_finer_partial V zero nz_in ny_in (nx_in / 2 + 1) nz ny (nx / 2 + 1) f) as [P1 P2]; [lia..|].
    split.
    + intros kx ky kz iy_in iz_in iy_out iz_out X A B C D. apply (P1 kz ky); try assumption; lia.
    + intros kx ky kz iy_out iz_out X A B H'. apply P2. intros l k h i Hl Hl' Hk Hk'.
      pose proof (holds_fun _ _ _ _ A Hk'). pose proof (holds_fun _ _ _ _ B Hl'). subst. unfold holds in Hl, Hk. lia.
Qed.

Example c39_example :
  (* from 4 x 4 points to 6 x 6 points: rows 0, 1, 2 (Nyquist, for +2 only) and -1 *)
  (1 <= 2 /\ min 6 4 = 2 * 2)%nat
  /\ map (fun i => make_state_spect_2d 0 4 4 6 6 (fun a b => 10 * a + b + 1) i 1) [0; 1; 2; 3; 4; 5] = [2; 12; 22; 0; 0; 32].
Proof. split; [lia | reflexivity]. Qed.

Example c39_example_3d :
  (2 <= 4 <= 6 /\ 2 <= 3 <= 5 /\ 3 <= 4)%nat
  /\ map (fun i => make_state_spect_3d 0 4 3 4 6 5 6 (fun a b c => 100 * a + 10 * b + c + 1) i 4 1) [0; 1; 2; 3; 4; 5]
     = [22; 122; 222; 0; 0; 322]
  /\ map (fun i => mini_fill_field_fft_3d 6 2 4 4 2 3 (fun a b c => 100 * a + 10 * b + c + 1) (fun _ _ _ => 0) i 0 1) [0; 1; 2; 3]
     = [2; 102; 202; 502].
Proof. split; [lia|]. split; reflexivity. Qed.

Example c39_real_example : hermitian_column 4 (fun i _ => if i =? 2 then RtoC 0 else RtoC 1) 0.
Proof.
  intros i Hi. destruct i as [|[|[|[|i]]]]; try lia; cbn; unfold Cconj, RtoC; cbn [fst snd]; apply f_equal2; ring.
Qed.

Print Assumptions c39_fill_2d_partial.
Print Assumptions c39_fill_2d_odd_refuted.
Print Assumptions c39_fill_2d_odd_lost.
Print Assumptions c39_nyquist_2d_refuted.
Print Assumptions c39_real_2d_partial.
Print Assumptions c39_mini_3d_partial.
Print Assumptions c39_mini_3d_odd_refuted.
Print Assumptions c39_fill_3d_finer_partial.
Print Assumptions c39_fill_3d_coarser_refuted.
Print Assumptions c39_same_resolution.
Print Assumptions c39_state_2d_partial.
Print Assumptions c39_state_3d_finer_partial.
