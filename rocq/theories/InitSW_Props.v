(** Properties of the initial fields of sw1l and plate2d and of the type from_file. *)
From Coq Require Import String Reals List ZArith Permutation Lia Lra Bool.
From Verif Require Import TSpec_Model TSpec_Props Noise_Model Noise_Props InitSW_Model.
Import ListNotations.
Local Open Scope R_scope.

(** ** Sums with one nonzero term *)
Lemma rsum_only n i (f : nat -> R) : (i < n)%nat -> (forall j, (j < n)%nat -> j <> i -> f j = 0) -> rsum n f = f i.
Proof.
  intros Hi Z. rewrite (rsum_ext n f (fun j => if (j =? i)%nat then f i else 0)); [now apply rsum_point|].
  intros j Hj. destruct (Nat.eqb_spec j i) as [->|ne]; [reflexivity|]. now apply Z.
Qed.
Lemma rsum_null n (f : nat -> R) : (forall j, (j < n)%nat -> f j = 0) -> rsum n f = 0.
Proof. intros Z. rewrite (rsum_ext n f (fun _ => 0)) by exact Z. apply rsum_zero. Qed.
Lemma rsum2_only n m i0 j0 (f : nat -> nat -> R) : (i0 < n)%nat -> (j0 < m)%nat -> (forall i j, (i < n)%nat -> (j < m)%nat -> (i, j) <> (i0, j0) -> f i j = 0) ->
  rsum n (fun i => rsum m (fun j => f i j)) = f i0 j0.
Proof.
  intros Hi Hj Z. rewrite (rsum_only n i0); [|exact Hi|].
  - rewrite (rsum_only m j0); [reflexivity|exact Hj|]. intros j H N. apply Z; [exact Hi|exact H|congruence].
  - intros i H N. apply rsum_null. intros j H'. apply Z; [exact H|exact H'|congruence].
Qed.

Lemma ky_adim_zero ny iky : (iky < ny)%nat -> ky_adim ny iky = 0%Z -> iky = 0%nat.
Proof. unfold ky_adim. destruct (2 * iky <=? ny)%nat; lia. Qed.
Lemma ky_adim_0 ny : ky_adim ny 0 = 0%Z. Proof. unfold ky_adim. destruct (2 * 0 <=? ny)%nat eqn:E; [reflexivity|apply Nat.leb_gt in E; lia]. Qed.

Section Grid.
Variables (nx ny : nat) (Lx Ly coef : R).
Hypotheses (ny0 : (0 < ny)%nat) (Lx0 : 0 < Lx) (Ly0 : 0 < Ly).

Lemma deltakx_pos : 0 < deltakx Lx. Proof using Lx0. unfold deltakx. pose proof PI_RGT_0. apply Rdiv_lt_0_compat; lra. Qed.
Lemma deltaky_pos : 0 < deltaky Ly. Proof using Ly0. unfold deltaky. pose proof PI_RGT_0. apply Rdiv_lt_0_compat; lra. Qed.

Lemma wave_fft_spec eta_max k iky ikx : (iky < ny)%nat ->
  wave_eta_fft ny Lx Ly eta_max k iky ikx = if andb (iky =? 0)%nat (Z.of_nat ikx =? k)%Z then eta_max else 0.
Proof using Lx0 Ly0.
  intros H. unfold wave_eta_fft. cbn zeta. unfold KX, KY. pose proof deltakx_pos as DX. pose proof deltaky_pos as DY.
  destruct (Req_EM_T (deltakx Lx * INR ikx) (deltakx Lx * IZR k)) as [e|ne].
  - apply Rmult_eq_reg_l in e; [|lra]. rewrite INR_IZR_INZ in e. apply eq_IZR in e. rewrite (proj2 (Z.eqb_eq _ _) e), andb_true_r.
    destruct (Req_EM_T (deltaky Ly * IZR (ky_adim ny iky)) 0) as [e'|ne'].
    + apply Rmult_integral in e' as [e'|e']; [lra|]. apply eq_IZR_R0 in e'. apply ky_adim_zero in e'; [|exact H]. now rewrite e'.
    + destruct (Nat.eqb_spec iky 0) as [->|_]; [|reflexivity]. exfalso. apply ne'. rewrite ky_adim_0. ring.
  - destruct (Z.eqb_spec (Z.of_nat ikx) k) as [<-|_]; [|now rewrite andb_false_r]. exfalso. apply ne. now rewrite INR_IZR_INZ.
Qed.

(** the surface: one mode of the half spectrum, with its weight *)
Lemma wave_eta eta_max (m : nat) ix iy : (m <= nx / 2)%nat ->
  ifft2 nx ny (dealiasing2 nx ny coef (wave_eta_fft ny Lx Ly eta_max (Z.of_nat m))) ix iy
  = if where_dealiased nx ny coef 0 m then 0 else weight nx m * (eta_max * cos (2 * PI * (INR m * INR ix / INR nx))).
Proof using ny0 Lx0 Ly0.
  intros H. unfold ifft2. rewrite (rsum2_only ny (nkx nx) 0 m); [|exact ny0|unfold nkx; lia|].
  - unfold dealiasing2. rewrite wave_fft_spec by exact ny0. rewrite Nat.eqb_refl, Z.eqb_refl. cbn [andb].
    destruct (where_dealiased nx ny coef 0 m); [ring|]. unfold phase. rewrite ky_adim_0. f_equal. f_equal. f_equal. f_equal. unfold Rdiv. ring.
  - intros i j Hi Hj N. unfold dealiasing2. rewrite wave_fft_spec by exact Hi.
    destruct (where_dealiased nx ny coef i j); [ring|]. destruct (Nat.eqb_spec i 0) as [->|_]; cbn [andb]; [|ring]. destruct (Z.eqb_spec (Z.of_nat j) (Z.of_nat m)) as [e|_]; [|ring].
    exfalso. apply N. f_equal. lia.
Qed.
Lemma ifft2_zero ix iy : ifft2 nx ny (dealiasing2 nx ny coef (fun _ _ => 0)) ix iy = 0.
Proof using. unfold ifft2. apply rsum_null. intros i _. apply rsum_null. intros j _. unfold dealiasing2. destruct (where_dealiased _ _ _ i j); ring. Qed.

(** C192: a wave along x of wavenumber ikx at rest: its amplitude is twice eta_max *)
Theorem c192_wave_partial : forall eta_max (m : nat), (1 <= m)%nat -> (2 * m < nx)%nat -> where_dealiased nx ny coef 0 m = false ->
  forall ix iy, let '(ux, uy, eta) := wave_state nx ny Lx Ly coef eta_max (Z.of_nat m) in
  ux ix iy = 0 /\ uy ix iy = 0 /\ eta ix iy = 2 * eta_max * cos (2 * PI * INR m * (INR ix / INR nx)).
Proof using ny0 Lx0 Ly0.
  intros eta_max m M1 M2 T ix iy. unfold wave_state. split; [apply ifft2_zero|]. split; [apply ifft2_zero|].
  rewrite wave_eta by (apply Nat.div_le_lower_bound; lia). rewrite T. unfold weight. destruct (Nat.eqb_spec m 0) as [e|_]; [lia|]. destruct (Nat.eqb_spec (2 * m) nx) as [e|_]; [lia|]. cbn [orb].
  replace (2 * PI * (INR m * INR ix / INR nx)) with (2 * PI * INR m * (INR ix / INR nx)) by (unfold Rdiv; ring). ring.
Qed.
(** ikx = 0: a uniform layer; a mode outside of the grid or truncated: nothing, without any error *)
Theorem c192_degenerate : forall eta_max ix iy,
  (0 <= coef -> snd (wave_state nx ny Lx Ly coef eta_max 0) ix iy = eta_max)
  /\ (forall k, (k < 0)%Z \/ (Z.of_nat nx < 2 * k)%Z -> snd (wave_state nx ny Lx Ly coef eta_max k) ix iy = 0)
  /\ (forall m : nat, (2 * m <= nx)%nat -> where_dealiased nx ny coef 0 m = true -> snd (wave_state nx ny Lx Ly coef eta_max (Z.of_nat m)) ix iy = 0).
Proof using ny0 Lx0 Ly0.
  intros eta_max ix iy. unfold wave_state. cbn [snd]. split; [|split].
  - intros C. pose proof (wave_eta eta_max 0 ix iy (Nat.le_0_l _)) as W. change (Z.of_nat 0) with 0%Z in W. rewrite W. clear W. unfold where_dealiased. rewrite ky_adim_0, Rabs_R0. unfold gtb. pose proof (pos_INR (nx / 2)). pose proof (pos_INR (ny / 2)).
    assert (0 <= coef * INR (nx / 2)) by now apply Rmult_le_pos. assert (0 <= coef * INR (ny / 2)) by now apply Rmult_le_pos.
    destruct (Rlt_dec (coef * INR (nx / 2)) (INR 0)) as [l|_]; [change (INR 0) with 0 in l; exfalso; lra|]. destruct (Rlt_dec (coef * INR (ny / 2)) 0) as [l|_]; [exfalso; lra|]. cbn [orb]. unfold weight. cbn [Nat.eqb orb].
    change (INR 0) with 0. replace (2 * PI * (0 * INR ix / INR nx)) with 0 by (unfold Rdiv; ring). rewrite cos_0. ring.
  - intros k K. unfold ifft2. apply rsum_null. intros i Hi. apply rsum_null. intros j Hj. unfold dealiasing2. rewrite wave_fft_spec by exact Hi.
    destruct (where_dealiased nx ny coef i j); [ring|]. destruct (Z.eqb_spec (Z.of_nat j) k) as [e|_]; [|rewrite andb_false_r; ring].
    exfalso. unfold nkx in Hj. pose proof (Nat.mul_div_le nx 2). lia.
  - intros m M T. rewrite wave_eta by (apply Nat.div_le_lower_bound; lia). now rewrite T.
Qed.
End Grid.

(** the truncation in terms of the wave number: the mode is kept if and only if ikx <= coef nx / 2 *)
Theorem c192_kept : forall nx ny coef m, 0 <= coef -> where_dealiased nx ny coef 0 m = false <-> INR m <= coef * INR (nx / 2).
Proof.
  intros nx ny coef m C. unfold where_dealiased. rewrite ky_adim_0, Rabs_R0. unfold gtb. pose proof (pos_INR (ny / 2)). assert (0 <= coef * INR (ny / 2)) by now apply Rmult_le_pos.
  destruct (Rlt_dec (coef * INR (ny / 2)) 0) as [l|_]; [exfalso; lra|]. destruct (Rlt_dec _ (INR m)); cbn [orb]; split; intros; try lra; try reflexivity; discriminate.
Qed.
Lemma c192_default_mode : where_dealiased 16 16 (2 / 3) 0 2 = false.
Proof.
  unfold where_dealiased. replace (ky_adim 16 0) with 0%Z by reflexivity. rewrite Rabs_R0. unfold gtb. replace (16 / 2)%nat with 8%nat by reflexivity. cbn [INR].
  destruct (Rlt_dec _ (1 + 1)) as [l|_]; [exfalso; lra|]. destruct (Rlt_dec _ 0) as [l|_]; [exfalso; lra|reflexivity].
Qed.
(** with the default parameters (eta_max = 1, ikx = 2): the elevation is 2 > eta_max at a crest, and the depth 1 + eta is negative in a trough *)
Theorem c192_refuted : exists nx ny Lx Ly coef (eta_max : R) ikx, let eta := snd (wave_state nx ny Lx Ly coef eta_max ikx) in
  eta_max = 1 /\ ikx = 2%Z /\ eta 0%nat 0%nat > eta_max /\ 1 + eta 4%nat 0%nat < 0.
Proof.
  exists 16%nat, 16%nat, 1, 1, (2 / 3), 1, 2%Z. cbn zeta. split; [reflexivity|]. split; [reflexivity|].
  assert (W : forall ix, snd (wave_state 16 16 1 1 (2 / 3) 1 2) ix 0%nat = 2 * 1 * cos (2 * PI * INR 2 * (INR ix / INR 16))).
  { intros ix. pose proof (c192_wave_partial 16 16 1 1 (2 / 3) ltac:(lia) ltac:(lra) ltac:(lra) 1 2 ltac:(lia) ltac:(lia) c192_default_mode ix 0) as H. unfold wave_state in *. cbn [snd]. exact (proj2 (proj2 H)). }
  rewrite !W. replace (2 * PI * INR 2 * (INR 0 / INR 16)) with 0 by (cbn; field). replace (2 * PI * INR 2 * (INR 4 / INR 16)) with PI by (cbn; field). rewrite cos_0, cos_PI. lra.
Qed.

(** ** The vortex grid *)
Lemma plus_minus_even n : forall s, let l := map (fun i => if Nat.even i then -1 else 1) (seq (2 * s) (2 * n)) in
  count_occ Req_EM_T l 1 = n /\ count_occ Req_EM_T l (-1) = n /\ forall a, In a l -> a = 1 \/ a = -1.
Proof.
  induction n as [|n IH]; intros s; cbn zeta.
  - cbn. split; [reflexivity|]. split; [reflexivity|]. intros a [].
  - replace (2 * S n)%nat with (S (S (2 * n))) by lia. cbn [seq map]. replace (S (S (2 * s))) with (2 * S s)%nat by lia. specialize (IH (S s)). cbn zeta in IH. destruct IH as (A & B & C).
    replace (Nat.even (S (2 * s))) with false by (symmetry; rewrite Nat.even_succ, <- Nat.negb_even, Nat.even_mul; reflexivity). replace (Nat.even (2 * s)) with true by (symmetry; rewrite Nat.even_mul; reflexivity).
    cbn [count_occ]. destruct (Req_EM_T (-1) 1) as [e|_]; [exfalso; lra|]. destruct (Req_EM_T 1 1) as [_|e]; [|now exfalso]. destruct (Req_EM_T (-1) (-1)) as [_|e]; [|now exfalso]. destruct (Req_EM_T 1 (-1)) as [e|_]; [exfalso; lra|].
    split; [now rewrite A|]. split; [now rewrite B|]. intros a [<-|[<-|I]]; [now right|now left|now apply C].
Qed.
(** C193: as many vortices of each sign, whatever the shuffling *)
Theorem c193_signs : forall N signs, (N mod 2 = 0)%nat -> Permutation (plus_minus N) signs ->
  length signs = (N * N)%nat /\ count_occ Req_EM_T signs 1 = count_occ Req_EM_T signs (-1) /\ (2 * count_occ Req_EM_T signs 1%R = N * N)%nat /\ forall a, In a signs -> a = 1 \/ a = -1.
Proof.
  intros N signs E P. assert (D : exists m, (N * N = 2 * m)%nat) by (exists (N / 2 * N)%nat; rewrite (Nat.div_mod N 2) at 1 by lia; rewrite E; lia). destruct D as [m M].
  destruct (plus_minus_even m 0) as (A & B & C). replace (2 * 0)%nat with 0%nat in * by lia. unfold plus_minus in P. rewrite M in P.
  assert (Q : forall x, count_occ Req_EM_T signs x = count_occ Req_EM_T (map (fun i => if Nat.even i then -1 else 1) (seq 0 (2 * m))) x) by (intros x; symmetry; revert x; now apply Permutation_count_occ).
  split; [rewrite <- (Permutation_length P), map_length, seq_length; lia|]. rewrite !Q, A, B. split; [reflexivity|]. split; [lia|]. intros a I. apply C. eapply Permutation_in; [apply Permutation_sym, P|exact I].
Qed.

Lemma rsum_le n f g : (forall i, (i < n)%nat -> f i <= g i) -> rsum n f <= rsum n g.
Proof. induction n as [|n IH]; intros H; cbn [rsum]; [lra|]. apply Rplus_le_compat; [apply IH; intros; apply H; lia|apply H; lia]. Qed.
Lemma rsum_abs n f : Rabs (rsum n f) <= rsum n (fun i => Rabs (f i)).
Proof. induction n as [|n IH]; cbn [rsum]; [rewrite Rabs_R0; lra|]. eapply Rle_trans; [apply Rabs_triang|lra]. Qed.
Lemma rsum_const n (c : R) : rsum n (fun _ => c) = INR n * c.
Proof. induction n as [|n IH]; cbn [rsum]; [cbn; ring|]. rewrite IH, S_INR. ring. Qed.
Lemma rsum_minus n f g : rsum n (fun i => f i - g i) = rsum n f - rsum n g.
Proof. induction n as [|n IH]; cbn [rsum]; [ring|]. rewrite IH. ring. Qed.

(** all but one term of a double sum are small *)
Lemma rsum2_near n m i0 j0 (f : nat -> nat -> R) B : (i0 < n)%nat -> (j0 < m)%nat -> (forall i j, (i < n)%nat -> (j < m)%nat -> (i, j) <> (i0, j0) -> Rabs (f i j) <= B) ->
  Rabs (rsum n (fun i => rsum m (fun j => f i j)) - f i0 j0) <= (INR n * INR m - 1) * B.
Proof.
  intros Hi Hj Z. set (d := fun i j => if andb (i =? i0)%nat (j =? j0)%nat then f i0 j0 else 0).
  assert (D : rsum n (fun i => rsum m (fun j => d i j)) = f i0 j0).
  { rewrite (rsum2_only n m i0 j0); [unfold d; now rewrite !Nat.eqb_refl|exact Hi|exact Hj|]. intros i j _ _ N. unfold d. destruct (Nat.eqb_spec i i0) as [->|_]; [|reflexivity]. destruct (Nat.eqb_spec j j0) as [->|_]; [now exfalso|reflexivity]. }
  rewrite <- D. rewrite <- rsum_minus. rewrite (rsum_ext n _ (fun i => rsum m (fun j => f i j - d i j))) by (intros; now rewrite rsum_minus).
  set (b := fun i j => if andb (i =? i0)%nat (j =? j0)%nat then B else 0).
  assert (E : rsum n (fun i => rsum m (fun j => b i j)) = B).
  { rewrite (rsum2_only n m i0 j0); [unfold b; now rewrite !Nat.eqb_refl|exact Hi|exact Hj|]. intros i j _ _ N. unfold b. destruct (Nat.eqb_spec i i0) as [->|_]; [|reflexivity]. destruct (Nat.eqb_spec j j0) as [->|_]; [now exfalso|reflexivity]. }
  replace ((INR n * INR m - 1) * B) with (rsum n (fun i => rsum m (fun j => B - b i j))).
  2:{ rewrite (rsum_ext n _ (fun i => INR m * B - rsum m (fun j => b i j))) by (intros; now rewrite rsum_minus, rsum_const). rewrite rsum_minus, rsum_const, E. ring. }
  eapply Rle_trans; [apply rsum_abs|]. apply rsum_le. intros i I. eapply Rle_trans; [apply rsum_abs|]. apply rsum_le. intros j J. unfold d, b.
  destruct (Nat.eqb_spec i i0) as [->|Ni]; cbn [andb].
  - destruct (Nat.eqb_spec j j0) as [->|Nj]; [rewrite !Rminus_eq_0, Rabs_R0; lra|]. rewrite !Rminus_0_r. apply Z; congruence.
  - rewrite !Rminus_0_r. apply Z; congruence.
Qed.

Lemma centres_far L N i j : 0 < L -> (0 < N)%nat -> i <> j -> (L / INR N) ^ 2 <= (x_vort L N i - x_vort L N j) ^ 2.
Proof.
  intros HL HN D. assert (0 < INR N) by now apply lt_0_INR. replace (x_vort L N i - x_vort L N j) with ((INR i - INR j) * (L / INR N)) by (unfold x_vort; field; lra).
  rewrite Rpow_mult_distr. pose proof (pow2_ge_0 (L / INR N)). assert (1 <= (INR i - INR j) ^ 2); [|nra].
  destruct (Nat.lt_total i j) as [G|[G|G]]; [|contradiction|]; apply le_INR in G; rewrite S_INR in G; nra.
Qed.
(** C193: with the default standard deviation, the vorticity at the centre of a vortex is omega_max times its sign up to (N^2 - 1) e^-72 omega_max:
    the vortices do not overlap *)
Theorem c193_centre : forall Lx Ly omega_max N signs i0 j0, 0 < Lx -> 0 < Ly -> 0 <= omega_max -> (0 < N)%nat -> (N mod 2 = 0)%nat -> Permutation (plus_minus N) signs -> (i0 < N)%nat -> (j0 < N)%nat ->
  exists w, vortex_grid Lx Ly omega_max N None signs ((INR i0 + 1 / 2) * Lx / INR N) ((INR j0 + 1 / 2) * Ly / INR N) = inl w
    /\ Rabs (w - nth (i0 * N + j0) signs 0 * omega_max) <= (INR N * INR N - 1) * (omega_max * exp (-72)).
Proof.
  intros Lx Ly om N signs i0 j0 X Y O P E S I J. unfold vortex_grid. rewrite E. cbn [Nat.eqb negb]. destruct (Nat.eqb_spec N 0) as [e|_]; [lia|]. eexists. split; [reflexivity|].
  assert (HN : 0 < INR N) by now apply lt_0_INR. set (SD := default_sd Lx Ly N).
  assert (MX : 0 < Lx / INR N) by (apply Rdiv_lt_0_compat; lra). assert (MY : 0 < Ly / INR N) by (apply Rdiv_lt_0_compat; lra).
  assert (SP : 0 < SD) by (unfold SD, default_sd; assert (0 < Rmin (Lx / INR N) (Ly / INR N)) by (apply Rmin_glb_lt; assumption); lra).
  assert (SX : 12 * SD <= Lx / INR N) by (unfold SD, default_sd; pose proof (Rmin_l (Lx / INR N) (Ly / INR N)); lra).
  assert (SY : 12 * SD <= Ly / INR N) by (unfold SD, default_sd; pose proof (Rmin_r (Lx / INR N) (Ly / INR N)); lra).
  set (x := (INR i0 + 1 / 2) * Lx / INR N). set (y := (INR j0 + 1 / 2) * Ly / INR N).
  assert (EX : x = x_vort Lx N i0) by (unfold x, x_vort; field; lra). assert (EY : y = x_vort Ly N j0) by (unfold y, x_vort; field; lra).
  pose proof (rsum2_near N N i0 j0 (fun i j => wz_gaussian om SD (x - x_vort Lx N i) (y - x_vort Ly N j) (nth (i * N + j) signs 0)) (om * exp (-72)) I J) as H. cbn beta in H.
  replace (wz_gaussian om SD (x - x_vort Lx N i0) (y - x_vort Ly N j0) (nth (i0 * N + j0) signs 0)) with (nth (i0 * N + j0) signs 0 * om) in H.
  2:{ unfold wz_gaussian. rewrite EX, EY, !Rminus_eq_0. replace (- (0 ^ 2 + 0 ^ 2) / (2 * SD ^ 2)) with 0 by (field; lra). rewrite exp_0. ring. }
  apply H. clear H. intros i j Hi Hj D. unfold wz_gaussian. destruct (c193_signs N signs E S) as (L & _ & _ & Sg).
  assert (B : Rabs (nth (i * N + j) signs 0) = 1). { destruct (Sg (nth (i * N + j) signs 0)) as [-> | ->]; [apply nth_In; rewrite L; nia|apply Rabs_R1|rewrite Rabs_left; lra]. }
  rewrite !Rabs_mult, B, (Rabs_right om), (Rabs_right (exp _)) by (try lra; left; apply exp_pos). rewrite Rmult_1_l. apply Rmult_le_compat_l; [exact O|].
  assert (G : - ((x - x_vort Lx N i) ^ 2 + (y - x_vort Ly N j) ^ 2) / (2 * SD ^ 2) <= -72).
  { assert (Q : 144 * SD ^ 2 <= (x - x_vort Lx N i) ^ 2 + (y - x_vort Ly N j) ^ 2).
    { pose proof (pow2_ge_0 (x - x_vort Lx N i)). pose proof (pow2_ge_0 (y - x_vort Ly N j)). rewrite EX, EY in *.
      destruct (Nat.eq_dec i0 i) as [<-|Ni].
      - assert (Nj : j0 <> j) by congruence. pose proof (centres_far Ly N j0 j Y P Nj). assert ((12 * SD) ^ 2 <= (Ly / INR N) ^ 2) by (apply pow_incr; lra). nra.
      - pose proof (centres_far Lx N i0 i X P Ni). assert ((12 * SD) ^ 2 <= (Lx / INR N) ^ 2) by (apply pow_incr; lra). nra. }
    assert (0 < SD ^ 2) by (apply pow_lt; exact SP). apply Rmult_le_reg_r with (2 * SD ^ 2); [lra|]. unfold Rdiv. rewrite Rmult_assoc, Rinv_l by lra. lra. }
  destruct G as [G|G]; [left; now apply exp_increasing|right; now rewrite G].
Qed.
(** the grids which are refused *)
Theorem c193_errors : forall Lx Ly om N sd signs x y,
  (vortex_grid Lx Ly om N sd signs x y = inr ValueError <-> (N mod 2 = 1)%nat) /\ (vortex_grid Lx Ly om N sd signs x y = inr ZeroDivision <-> N = 0%nat)
  /\ (N <> 0%nat -> (N mod 2 = 0)%nat -> exists w, vortex_grid Lx Ly om N sd signs x y = inl w).
Proof.
  intros. unfold vortex_grid. pose proof (Nat.mod_upper_bound N 2 ltac:(lia)) as U. destruct (Nat.eqb_spec (N mod 2) 0) as [e|ne]; cbn [negb].
  - destruct (Nat.eqb_spec N 0) as [->|e']; [repeat split; intros; try congruence; discriminate|]. split; [split; intros H; [discriminate|lia]|]. split; [split; intros H; [discriminate|lia]|]. intros. now eexists.
  - split; [split; intros; [lia|reflexivity]|]. split; [split; intros H; [discriminate|subst; now exfalso]|]. intros. lia.
Qed.
Example c193_example : exists w, vortex_grid 2 3 1 2 None (plus_minus 2) ((INR 1 + 1 / 2) * 2 / INR 2) ((INR 0 + 1 / 2) * 3 / INR 2) = inl w /\ Rabs (w - nth (1 * 2 + 0) (plus_minus 2) 0 * 1) <= (INR 2 * INR 2 - 1) * (1 * exp (-72)).
Proof. apply c193_centre; try lra; try lia; try reflexivity. Qed.

(** ** The noise of plate2d *)
Section PlateNoise.
Variables (kvec : nat -> vec) (truncated : nat -> bool) (n : nat) (ifft fft : (nat -> R) -> nat -> R).
Hypotheses (ifft_scale : forall s c j, ifft (fun i => s * c i) j = s * ifft c j) (ifft_ext : forall c c' j, (forall i, c i = c' i) -> ifft c j = ifft c' j) (fft_ifft : forall s c i, fft (fun j => s * ifft c j) i = s * c i).

Lemma plate_fft_eq k0 velo_max c i : plate_fft kvec truncated n ifft fft k0 velo_max c i = vscale (velo_max / plate_max kvec truncated n ifft k0 c) (plate_filtered kvec truncated k0 c i).
Proof using fft_ifft.
  assert (E : fft3 fft (plate_wz kvec truncated n ifft k0 velo_max c) i = vscale (velo_max / plate_max kvec truncated n ifft k0 c) (plate_filtered kvec truncated k0 c i)).
  { unfold fft3, plate_wz, ifft3, vscale, vx, vy, vz. cbn [fst snd]. now rewrite !fft_ifft. }
  unfold plate_fft. unfold dealiasing at 1. rewrite E. destruct (truncated i) eqn:T; [|reflexivity]. unfold plate_filtered, smooth, dealiasing. rewrite T. unfold vscale, vx, vy, vz. cbn [fst snd]. f_equal; [f_equal|]; ring.
Qed.
(** C194: the initial deflection and its velocity have no mean, are truncated, and the maximum of sqrt(w^2 + z^2) is the one asked *)
Theorem c194_noise : forall k0 velo_max c, 0 <= velo_max -> 0 < plate_max kvec truncated n ifft k0 c ->
  (forall i, K2 kvec i = 0 \/ truncated i = true -> plate_fft kvec truncated n ifft fft k0 velo_max c i = (0, 0, 0))
  /\ is_max n (fun j => norm (ifft3 ifft (plate_fft kvec truncated n ifft fft k0 velo_max c) j)) velo_max.
Proof using ifft_scale ifft_ext fft_ifft.
  intros k0 velo_max c V M. split.
  - intros i H. rewrite plate_fft_eq. unfold plate_filtered, smooth, dealiasing, remove_mean.
    destruct H as [H|H]; [destruct (truncated i); [|destruct (Req_EM_T (K2 kvec i) 0); [|contradiction]]|rewrite H]; unfold vscale, vx, vy, vz; cbn [fst snd]; (f_equal; [f_equal|]); ring.
  - eapply scaled_max with (f := fun j => norm (ifft3 ifft (plate_filtered kvec truncated k0 c) j)) (s := velo_max / plate_max kvec truncated n ifft k0 c).
    + instantiate (1 := plate_max kvec truncated n ifft k0 c). field. lra.
    + apply rmax_spec.
    + apply Rmult_le_pos; [exact V|]. left. now apply Rinv_0_lt_compat.
    + intros j. rewrite <- (Rabs_right (velo_max / plate_max kvec truncated n ifft k0 c)) at 1 by (apply Rle_ge, Rmult_le_pos; [exact V|left; now apply Rinv_0_lt_compat]). rewrite <- norm_scale. f_equal.
      unfold ifft3, vscale, vx, vy, vz. cbn [fst snd]. f_equal; [f_equal|]; rewrite <- ifft_scale; apply ifft_ext; intros i; rewrite plate_fft_eq; unfold vscale, vx, vy, vz; cbn [fst snd]; reflexivity.
Qed.
(** the modes are damped around the wavenumber of the length *)
Theorem c194_cutoff : forall length Lx c i, 0 <= length -> 0 < Lx -> let k0 := plate_k0 length Lx in
  (k0 = 2 * PI / length \/ length = 0 /\ k0 = 2 * PI / (Lx / 4)) /\
  exists h, 0 < h < 1 /\ (K kvec i <= k0 -> 1 / 2 <= h) /\ (k0 <= K kvec i -> h <= 1 / 2) /\ (truncated i = false -> K2 kvec i <> 0 -> plate_filtered kvec truncated k0 c i = vscale h (c i)).
Proof using.
  intros length Lx c i L X k0. assert (P : 0 < k0). { unfold k0, plate_k0. pose proof PI_RGT_0. destruct (Req_EM_T length 0); apply Rdiv_lt_0_compat; lra. }
  split; [unfold k0, plate_k0; destruct (Req_EM_T length 0); [right; split; [assumption|reflexivity]|now left]|].
  exists (H_smooth (k0 - K kvec i) (1 * k0)). destruct (H_smooth_half (1 * k0) ltac:(lra) (k0 - K kvec i)) as [H1 H2]. split; [apply H_smooth_range|]. split; [intros; apply H1; lra|]. split; [intros; apply H2; lra|].
  intros T N. unfold plate_filtered, smooth, dealiasing, remove_mean. rewrite T. destruct (Req_EM_T (K2 kvec i) 0); [contradiction|reflexivity].
Qed.
End PlateNoise.
Example c194_example : let kvec := fun i => (INR i, 0, 0) in let c := fun _ : nat => (1, 1, 0) in
  is_max 1 (fun j => norm (ifft3 idf (plate_fft kvec (fun i => Nat.leb 2 i) 1 idf idf 1 3 c) j)) 3.
Proof.
  cbn zeta. apply c194_noise; try (intros; unfold idf; reflexivity); try lra; [intros c c' j H; unfold idf; apply H|].
  unfold plate_max. destruct (rmax_spec 1 (fun j => norm (ifft3 idf (plate_filtered (fun i => (INR i, 0, 0)) (fun i => Nat.leb 2 i) 1 (fun _ => (1, 1, 0))) j))) as [A _]. eapply Rlt_le_trans; [|apply (A 1%nat); lia].
  unfold ifft3, idf, plate_filtered, smooth, dealiasing, remove_mean. cbn [Nat.leb]. destruct (Req_EM_T (K2 (fun i => (INR i, 0, 0)) 1) 0) as [e|_]; [exfalso; unfold K2, vx, vy, vz in e; cbn in e; lra|].
  unfold norm, vscale, vx, vy, vz. cbn [fst snd]. pose proof (H_smooth_range (1 - K (fun i => (INR i, 0, 0)) 1) (1 * 1)) as H. set (h := H_smooth _ _) in *. apply sqrt_lt_R0. nra.
Qed.

(** ** The harmonic of plate2d *)
Lemma py_index_ok n i j : py_index n i = inl j <-> (0 <= i < Z.of_nat n)%Z /\ Z.of_nat j = i \/ (- Z.of_nat n <= i < 0)%Z /\ Z.of_nat j = (i + Z.of_nat n)%Z.
Proof.
  unfold py_index. destruct (Z.ltb_spec i (- Z.of_nat n)); [split; [discriminate|lia]|]. destruct (Z.ltb_spec i 0).
  - split; [intros E; right; assert (j = Z.to_nat (i + Z.of_nat n)) as -> by congruence; lia|intros [H'|H']; [lia|f_equal; lia]].
  - destruct (Z.ltb_spec i (Z.of_nat n)); [|split; [discriminate|lia]]. split; [intros E; left; assert (j = Z.to_nat i) as -> by congruence; lia|intros [H'|H']; [f_equal; lia|lia]].
Qed.
Section Harmonic.
Variables (nx ny : nat) (coef : R).
(** C195: away from the first and last columns, one plane wave of amplitude 2, if its mode is neither outside of the grid nor truncated *)
Theorem c195_mode_partial : forall (j0 j1 : nat), (j0 < ny)%nat -> (1 <= j1)%nat -> (2 * j1 < nx)%nat -> where_dealiased nx ny coef j0 j1 = false ->
  exists w, harmonic nx ny coef (Z.of_nat j0) (Z.of_nat j1) = inl w /\ forall ix iy, w ix iy = 2 * cos (2 * PI * (INR j1 * INR ix / INR nx + IZR (ky_adim ny j0) * INR iy / INR ny)).
Proof using.
  intros j0 j1 H0 H1 H2 T. unfold harmonic. assert (D : (j1 < nkx nx)%nat) by (unfold nkx; assert (j1 <= nx / 2)%nat by (apply Nat.div_le_lower_bound; lia); lia).
  assert (P0 : py_index ny (Z.of_nat j0) = inl j0) by (apply py_index_ok; lia). assert (P1 : py_index (nkx nx) (Z.of_nat j1) = inl j1) by (apply py_index_ok; lia). rewrite P0, P1. eexists. split; [reflexivity|].
  assert (HM : forall i j, (j < nkx nx)%nat -> hermitian nx ny (one_mode j0 j1) i j = one_mode j0 j1 i j).
  { intros i j Hj. unfold hermitian. destruct (Nat.eqb_spec j 0) as [->|_]; cbn [orb].
    - unfold one_mode. destruct (Nat.eqb_spec 0 j1); [lia|]. rewrite !andb_false_r. field.
    - destruct (Nat.eqb_spec (2 * j) nx) as [e|_]; [|reflexivity]. unfold one_mode. destruct (Nat.eqb_spec j j1); [lia|]. rewrite !andb_false_r. field. }
  intros ix iy. unfold ifft2. rewrite (rsum2_only ny (nkx nx) j0 j1); [|exact H0|exact D|].
  - unfold dealiasing2. rewrite T, HM by exact D. unfold one_mode. rewrite !Nat.eqb_refl. cbn [andb]. unfold weight. destruct (Nat.eqb_spec j1 0) as [e|_]; [lia|]. destruct (Nat.eqb_spec (2 * j1) nx) as [e|_]; [lia|]. cbn [orb]. unfold phase. ring.
  - intros i j Hi Hj N. unfold dealiasing2. destruct (where_dealiased nx ny coef i j); [ring|]. rewrite HM by exact Hj. unfold one_mode. destruct (Nat.eqb_spec i j0) as [->|_]; cbn [andb]; [|ring]. destruct (Nat.eqb_spec j j1) as [->|_]; [now exfalso|ring].
Qed.
(** a truncated mode: the plate is at rest; a mode outside of the grid: an error *)
Theorem c195_lost : forall (j0 j1 : nat), (j0 < ny)%nat -> (1 <= j1)%nat -> (2 * j1 < nx)%nat -> where_dealiased nx ny coef j0 j1 = true ->
  exists w, harmonic nx ny coef (Z.of_nat j0) (Z.of_nat j1) = inl w /\ forall ix iy, w ix iy = 0.
Proof using.
  intros j0 j1 H0 H1 H2 T. unfold harmonic. assert (D : (j1 < nkx nx)%nat) by (unfold nkx; assert (j1 <= nx / 2)%nat by (apply Nat.div_le_lower_bound; lia); lia).
  assert (P0 : py_index ny (Z.of_nat j0) = inl j0) by (apply py_index_ok; lia). assert (P1 : py_index (nkx nx) (Z.of_nat j1) = inl j1) by (apply py_index_ok; lia). rewrite P0, P1. eexists. split; [reflexivity|].
  intros ix iy. unfold ifft2. apply rsum_null. intros i Hi. apply rsum_null. intros j Hj. unfold dealiasing2. destruct (where_dealiased nx ny coef i j) eqn:W; [ring|].
  unfold hermitian. destruct (Nat.eqb_spec j 0) as [->|_]; cbn [orb].
  - unfold one_mode. destruct (Nat.eqb_spec 0 j1); [lia|]. rewrite !andb_false_r. field.
  - destruct (Nat.eqb_spec (2 * j) nx) as [e|_]; [unfold one_mode; destruct (Nat.eqb_spec j j1); [lia|]; rewrite !andb_false_r; field|]. unfold one_mode.
    destruct (Nat.eqb_spec i j0) as [->|_]; cbn [andb]; [|ring]. destruct (Nat.eqb_spec j j1) as [->|_]; [congruence|ring].
Qed.
Theorem c195_errors : forall i0 i1, (exists w, harmonic nx ny coef i0 i1 = inl w) <-> (- Z.of_nat ny <= i0 < Z.of_nat ny)%Z /\ (- Z.of_nat (nkx nx) <= i1 < Z.of_nat (nkx nx))%Z.
Proof using.
  intros i0 i1. unfold harmonic. split.
  - intros [w H]. destruct (py_index ny i0) as [j0|] eqn:A; [|discriminate]. destruct (py_index (nkx nx) i1) as [j1|] eqn:B; [|discriminate]. apply py_index_ok in A, B. lia.
  - intros [A B]. unfold py_index.
    destruct (Z.ltb_spec i0 (- Z.of_nat ny)); [lia|]. destruct (Z.ltb_spec i1 (- Z.of_nat (nkx nx))); [lia|]. destruct (Z.ltb_spec i0 (Z.of_nat ny)); [|lia]. destruct (Z.ltb_spec i1 (Z.of_nat (nkx nx))); [|lia].
    destruct (i0 <? 0)%Z, (i1 <? 0)%Z; now eexists.
Qed.
End Harmonic.
(** in terms of the wave numbers: i0 = ky is a numpy index (ky + ny is the same one for ky < 0) *)
Lemma where_dealiased_spec nx ny coef ky (j0 j1 : nat) : (- Z.of_nat ny < 2 * ky <= Z.of_nat ny)%Z -> Z.of_nat j0 = (if (ky <? 0)%Z then ky + Z.of_nat ny else ky)%Z ->
  ky_adim ny j0 = ky /\ (where_dealiased nx ny coef j0 j1 = true <-> coef * INR (nx / 2) < INR j1 \/ coef * INR (ny / 2) < Rabs (IZR ky)).
Proof.
  intros K J. assert (E : ky_adim ny j0 = ky). { unfold ky_adim. destruct (Z.ltb_spec ky 0); destruct (Nat.leb_spec (2 * j0) ny); lia. }
  split; [exact E|]. unfold where_dealiased. rewrite E. unfold gtb. destruct (Rlt_dec _ (INR j1)); [cbn; tauto|]. destruct (Rlt_dec _ (Rabs _)); cbn; intuition congruence.
Qed.
Theorem c195_wave_partial : forall nx ny coef ky (j1 : nat), (- Z.of_nat ny < 2 * ky <= Z.of_nat ny)%Z -> (1 <= j1)%nat -> (2 * j1 < nx)%nat ->
  exists w, harmonic nx ny coef ky (Z.of_nat j1) = inl w /\ (ky < 0 -> harmonic nx ny coef (ky + Z.of_nat ny) (Z.of_nat j1) = inl w)%Z
    /\ ((INR j1 <= coef * INR (nx / 2) /\ Rabs (IZR ky) <= coef * INR (ny / 2)) -> forall ix iy, w ix iy = 2 * cos (2 * PI * (INR j1 * INR ix / INR nx + IZR ky * INR iy / INR ny)))
    /\ (~ (INR j1 <= coef * INR (nx / 2) /\ Rabs (IZR ky) <= coef * INR (ny / 2)) -> forall ix iy, w ix iy = 0).
Proof.
  intros nx ny coef ky j1 K J1 J2. set (j0 := Z.to_nat (if (ky <? 0)%Z then ky + Z.of_nat ny else ky)%Z).
  assert (J0 : Z.of_nat j0 = (if (ky <? 0)%Z then ky + Z.of_nat ny else ky)%Z) by (unfold j0; destruct (Z.ltb_spec ky 0); lia). assert (H0 : (j0 < ny)%nat) by (destruct (Z.ltb_spec ky 0); lia).
  destruct (where_dealiased_spec nx ny coef ky j0 j1 K J0) as [E W].
  assert (S : harmonic nx ny coef ky (Z.of_nat j1) = harmonic nx ny coef (Z.of_nat j0) (Z.of_nat j1) /\ (ky < 0 -> harmonic nx ny coef (ky + Z.of_nat ny) (Z.of_nat j1) = harmonic nx ny coef (Z.of_nat j0) (Z.of_nat j1))%Z).
  { unfold harmonic. assert (P0 : py_index ny (Z.of_nat j0) = inl j0) by (apply py_index_ok; lia). assert (P1 : py_index ny ky = inl j0) by (apply py_index_ok; destruct (Z.ltb_spec ky 0); lia). split; [now rewrite P0, P1|]. intros N. apply Z.ltb_lt in N. rewrite N in J0. now rewrite J0. }
  destruct S as [S1 S2]. rewrite S1. destruct (where_dealiased nx ny coef j0 j1) eqn:T.
  - destruct (c195_lost nx ny coef j0 j1 H0 J1 J2 T) as (w & A & B). exists w. split; [exact A|]. split; [intros N; rewrite S2 by exact N; exact A|]. split; [|intros _; exact B].
    intros [U V]. exfalso. destruct (proj1 W eq_refl); lra.
  - destruct (c195_mode_partial nx ny coef j0 j1 H0 J1 J2 T) as (w & A & B). exists w. split; [exact A|]. split; [intros N; rewrite S2 by exact N; exact A|]. rewrite E in B. split; [intros _; exact B|].
    intros N. exfalso. apply N. split; apply Rnot_lt_le; intros L; assert (false = true) by (apply W; tauto); discriminate.
Qed.
(** the default mode (20, 25): the state is zero on the grid 64 x 64 truncated at 2/3, an error on the grid 32 x 32 *)
Theorem c195_refuted : exists nx ny coef w, nx = 64%nat /\ ny = 64%nat /\ coef = 2 / 3 /\ harmonic nx ny coef 20 25 = inl w /\ (forall ix iy, w ix iy = 0) /\ harmonic 32 32 coef 20 25 = inr IndexError.
Proof.
  assert (T : where_dealiased 64 64 (2 / 3) 20 25 = true).
  { unfold where_dealiased, gtb. replace (64 / 2)%nat with 32%nat by reflexivity. destruct (Rlt_dec (2 / 3 * INR 32) (INR 25)) as [_|n]; [reflexivity|]. exfalso. apply n. rewrite !INR_IZR_INZ. cbn. lra. }
  destruct (c195_lost 64 64 (2 / 3) 20 25 ltac:(lia) ltac:(lia) ltac:(lia) T) as (w & A & B). exists 64%nat, 64%nat, (2 / 3), w. split; [reflexivity|]. split; [reflexivity|]. split; [reflexivity|]. split; [exact A|]. split; [exact B|]. reflexivity.
Qed.
Example c195_example : where_dealiased 128 128 (2 / 3) 20 25 = false.
Proof.
  unfold where_dealiased, gtb. replace (128 / 2)%nat with 64%nat by reflexivity. replace (ky_adim 128 20) with 20%Z by reflexivity. rewrite Rabs_right by lra. rewrite !INR_IZR_INZ. cbn [Z.of_nat].
  destruct (Rlt_dec _ _) as [l|_]; [exfalso; cbn in l; lra|]. destruct (Rlt_dec _ _) as [l|_]; [exfalso; cbn in l; lra|reflexivity].
Qed.

(** ** from_file *)
Section FromFile.
Context {A : Type} (zero : A).
Local Open Scope string_scope.
(** C196: a file is accepted if and only if the dimensions of its axes, and their lengths if they are saved, are those of the simulation *)
Theorem c196_accepted : forall oper keys (f : @file A), (exists s, load zero oper keys f = inl s) <->
  forall r, In r (f_axes f) -> (exists n, get ("n" ++ r) oper = Some n /\ get ("n" ++ r) (f_oper f) = Some n)
    /\ (get ("L" ++ r) (f_oper f) = None \/ exists l, get ("L" ++ r) oper = Some l /\ get ("L" ++ r) (f_oper f) = Some l).
Proof using.
  intros oper keys f. unfold load. destruct (forallb (check_axis oper f) (f_axes f)) eqn:F.
  - split; [|now eexists]. intros _ r I. rewrite forallb_forall in F. specialize (F r I). unfold check_axis in F. destruct (get ("n" ++ r) oper) as [a|]; [|discriminate]. destruct (get ("n" ++ r) (f_oper f)) as [b|]; [|discriminate].
    apply andb_true_iff in F as [F1 F2]. apply Z.eqb_eq in F1 as ->. split; [now exists b|]. destruct (get ("L" ++ r) (f_oper f)) as [lf|]; [|now left]. destruct (get ("L" ++ r) oper) as [l|]; [|discriminate]. apply Z.eqb_eq in F2 as ->. right. now exists lf.
  - split; [intros [s H]; discriminate|]. intros H. exfalso. apply not_true_iff_false in F. apply F. apply forallb_forall. intros r I. unfold check_axis. destruct (H r I) as [(n & -> & ->) [-> | (l & -> & ->)]]; rewrite Z.eqb_refl; [reflexivity|]. now rewrite Z.eqb_refl.
Qed.
(** the needed variables which are in the file have its arrays, and the time and iteration are those of the file *)
Theorem c196_fields_partial : forall oper keys (f : @file A) s t it, load zero oper keys f = inl (s, t, it) ->
  map fst s = keys /\ t = f_time f /\ (forall i, f_it f = Some i -> it = i)
  /\ forall k a, In (k, a) s -> (forall b, get k (f_arrays f) = Some b -> a = b) /\ (get k (f_arrays f) = None -> a = zero).
Proof using.
  intros oper keys f s t it H. unfold load in H. destruct (forallb _ _); [|discriminate].
  assert (s = map (fun k => (k, match get k (f_arrays f) with Some a => a | None => zero end)) keys) as -> by congruence. assert (t = f_time f) as -> by congruence. assert (it = match f_it f with Some i => i | None => 0%nat end) as -> by congruence.
  split; [rewrite map_map; cbn [fst]; apply map_id|]. split; [reflexivity|]. split; [intros i ->; reflexivity|]. intros k a I. apply in_map_iff in I as (k' & E & _). assert (k' = k) as -> by congruence.
  split; [intros b G; rewrite G in E|intros G; rewrite G in E]; congruence.
Qed.
End FromFile.
(** a file without one of the needed variables is accepted: the variable is zero *)
Theorem c196_missing_refuted : exists (oper : list (string * Z)) keys (f : @file Z) s t it k, load 0%Z oper keys f = inl (s, t, it) /\ In k keys /\ get k (f_arrays f) = None /\ In (k, 0%Z) s.
Proof.
  exists [("nx", 4%Z)]%string, ["ux"; "uy"]%string, (File [("nx", 4%Z)]%string ["x"]%string [("ux", 7%Z)]%string 1 (Some 3%nat)). eexists _, _, _, "uy"%string. split; [reflexivity|]. split; [right; left; reflexivity|]. split; [reflexivity|]. right. left. reflexivity.
Qed.

Print Assumptions c192_wave_partial. Print Assumptions c192_degenerate. Print Assumptions c192_kept. Print Assumptions c192_refuted. Print Assumptions c193_signs. Print Assumptions c193_centre. Print Assumptions c193_errors.
Print Assumptions c194_noise. Print Assumptions c194_cutoff. Print Assumptions c195_mode_partial. Print Assumptions c195_lost. Print Assumptions c195_errors. Print Assumptions c195_wave_partial. Print Assumptions c195_refuted. Print Assumptions c196_accepted. Print Assumptions c196_fields_partial. Print Assumptions c196_missing_refuted.
