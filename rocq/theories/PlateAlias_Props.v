(** * plate2d with the usual truncation (2/3 of the modes of each direction): C101, C102, C104 are refuted; examples *)

From Coq Require Import Reals Lra ZArith Lia String List Bool FunctionalExtensionality.
From Coquelicot Require Import Coquelicot.
From Verif Require Import CExp DFT Alias_Model Alias_Proofs Oper_Model Budget_Model Budget_Spec Budget_Proofs Budget2D_Proofs
  Means_Model Means_Spec Means_Proofs Means_Props Means3D_Props Plate_Model Plate_Spec Plate_Proofs Plate_Props.
Import ListNotations.
Local Open Scope R_scope.

(** ** A grid of 11 x 5 points: all its modes; the modes removed by a truncation at coef = num / den *)

Definition o55 : oper := mkOper 11 5 1 (2 * PI) (2 * PI) (2 * PI).
Definition ms55 : list mode :=
  flat_map (fun x => map (fun y => (x, y, 0)%Z) [-2; -1; 0; 1; 2]%Z) [-5; -4; -3; -2; -1; 0; 1; 2; 3; 4; 5]%Z.
(** |k| > coef n / 2 in one of the directions *)
Definition cut (num den : Z) (m : mode) : bool :=
  ((num * 11 <? 2 * den * Z.abs (mx m)) || (num * 5 <? 2 * den * Z.abs (my m)))%Z.

Lemma o55_pos : oper_pos o55.
Proof. pose proof PI_RGT_0. repeat split; cbn; lia || lra. Qed.
Lemma o55_Kx m : Kx o55 m = IZR (mx m).
Proof. unfold Kx, deltakx. cbn [Lx o55]. pose proof PI_RGT_0. field. lra. Qed.
Lemma o55_Ky m : Ky o55 m = IZR (my m).
Proof. unfold Ky, deltaky. cbn [Ly o55]. pose proof PI_RGT_0. field. lra. Qed.

Lemma ms55_all (P : mode -> bool) : forallb P ms55 = true -> forall m, In m ms55 -> P m = true.
Proof. intros H. apply forallb_forall. exact H. Qed.

Definition zin (m : mode) : bool := existsb (mode_eqb m) ms55.
Lemma zin_in m : zin m = true <-> In m ms55.
Proof.
  unfold zin. rewrite existsb_exists. split; [intros [x [H E]]; apply mode_eqb_eq in E; subst; exact H | intros H; exists m; split; [exact H | apply mode_eqb_eq; reflexivity]].
Qed.

Fixpoint nodupb (l : list mode) : bool := match l with [] => true | x :: l => negb (existsb (mode_eqb x) l) && nodupb l end.
Lemma nodupb_ok l : nodupb l = true -> NoDup l.
Proof.
  induction l as [|x l IH]; intros H; [constructor|]. cbn in H. apply andb_true_iff in H. destruct H as [H1 H2]. constructor; [|exact (IH H2)].
  intros I. apply negb_true_iff in H1. apply not_true_iff_false in H1. apply H1. apply existsb_exists. exists x. split; [exact I | apply mode_eqb_eq; reflexivity].
Qed.

Lemma cut_opp num den m : cut num den (mopp m) = cut num den m.
Proof. unfold cut, mopp, mx, my. cbn [fst snd]. rewrite !Z.abs_opp. reflexivity. Qed.

Lemma modes55 num den : plate_modes (cut num den) ms55.
Proof.
  split; [split|split].
  - apply nodupb_ok. vm_compute. reflexivity.
  - intros m H. apply zin_in. apply (ms55_all (fun m => zin (mopp m))); [vm_compute; reflexivity | exact H].
  - intros m H. apply Z.eqb_eq. apply (ms55_all (fun m => (mz m =? 0)%Z)); [vm_compute; reflexivity | exact H].
  - intros m _. apply cut_opp.
Qed.

(** these are all the modes of the grid *)
Lemma ms55_grid m : In m ms55 <-> (2 * Z.abs (mx m) <= 11 /\ 2 * Z.abs (my m) <= 5 /\ mz m = 0)%Z.
Proof.
  split.
  - intros H. assert (E : ((2 * Z.abs (mx m) <=? 11) && (2 * Z.abs (my m) <=? 5) && (mz m =? 0))%Z = true).
    { apply (ms55_all (fun m => (2 * Z.abs (mx m) <=? 11) && (2 * Z.abs (my m) <=? 5) && (mz m =? 0))%Z); [vm_compute; reflexivity | exact H]. }
    rewrite !andb_true_iff, !Z.leb_le, Z.eqb_eq in E. lia.
  - intros (H1 & H2 & H3). destruct m as [[x y] z]. unfold mx, my, mz in *. cbn [fst snd] in *. subst z.
    apply in_flat_map. exists x. split.
    + assert (x = -5 \/ x = -4 \/ x = -3 \/ x = -2 \/ x = -1 \/ x = 0 \/ x = 1 \/ x = 2 \/ x = 3 \/ x = 4 \/ x = 5)%Z by lia. cbn. intuition.
    + apply in_map_iff. exists y. split; [reflexivity|]. assert (y = -2 \/ y = -1 \/ y = 0 \/ y = 1 \/ y = 2)%Z by lia. cbn. intuition.
Qed.

(** ** Fields with integer coefficients *)

Definition zsum (l : list mode) (f : mode -> Z) : Z := fold_right (fun m s => f m + s)%Z 0%Z l.
Definition zfield (a : mode -> Z) : field := fun m => RtoC (IZR (a m)).
Definition zcross (p q : mode) : Z := (mx p * my q - my p * mx q)%Z.
Definition zmonge (a b : mode -> Z) (k : mode) : Z :=
  zsum ms55 (fun p => if (a p =? 0)%Z then 0%Z else zsum ms55 (fun q => if congruent (grid_of o55) (msubt (madd p q) k) then zcross p q ^ 2 * (a p * b q) else 0))%Z.
Definition zbracket (a b : mode -> Z) (k : mode) : Z :=
  zsum ms55 (fun p => if (a p =? 0)%Z then 0%Z else zsum ms55 (fun q => if mode_eqb (madd p q) k then zcross p q ^ 2 * (a p * b q) else 0))%Z.
Definition zk4 (m : mode) : Z := ((mx m ^ 2 + my m ^ 2) ^ 2)%Z.

Lemma lsum_zsum l f g : (forall m, In m l -> f m = RtoC (IZR (g m))) -> lsum l f = RtoC (IZR (zsum l g)).
Proof.
  induction l as [|x l IH]; intros H; [reflexivity|]. rewrite lsum_cons, (H x) by (left; reflexivity). rewrite IH by (intros; apply H; right; assumption).
  cbn [zsum fold_right]. rewrite plus_IZR, RtoC_plus. reflexivity.
Qed.

Lemma jac_z p q : jac o55 p q = IZR (zcross p q).
Proof. unfold jac, zcross. rewrite !o55_Kx, !o55_Ky, minus_IZR, !mult_IZR. reflexivity. Qed.

Lemma term_z p q a b : (RtoC (jac o55 p q ^ 2) * (zfield a p * zfield b q))%C = RtoC (IZR (zcross p q ^ 2 * (a p * b q))).
Proof.
  unfold zfield. rewrite jac_z, <- !RtoC_mult. f_equal. rewrite !mult_IZR. f_equal. replace (zcross p q ^ 2)%Z with (zcross p q * zcross p q)%Z by ring.
  rewrite mult_IZR. ring.
Qed.

Lemma monge_z a b k : fft o55 (monge_ampere_from_fft o55 ms55 (zfield a) (zfield b)) k = RtoC (IZR (zmonge a b k)).
Proof.
  rewrite monge_fft by exact o55_pos. apply lsum_zsum. intros p _. destruct (a p =? 0)%Z eqn:E.
  - apply Z.eqb_eq in E. apply lsum_zero. intros q _. unfold zfield. rewrite E. destruct (congruent _ _); ring.
  - apply lsum_zsum. intros q _. destruct (congruent _ _); [apply term_z | reflexivity].
Qed.

Lemma bracket_z a b k : bracket o55 ms55 (zfield a) (zfield b) k = RtoC (IZR (zbracket a b k)).
Proof.
  unfold bracket. apply lsum_zsum. intros p _. destruct (a p =? 0)%Z eqn:E.
  - apply Z.eqb_eq in E. apply lsum_zero. intros q _. unfold zfield. rewrite E. destruct (mode_eqb _ _); ring.
  - apply lsum_zsum. intros q _. destruct (mode_eqb _ _); [|reflexivity]. rewrite <- jac_cross by exact o55_pos. apply term_z.
Qed.

Lemma k4_z m : k4 o55 m = IZR (zk4 m).
Proof.
  rewrite <- K4_k4 by exact o55_pos. unfold K4, K2_2d, zk4. rewrite o55_Kx, o55_Ky.
  replace ((mx m ^ 2 + my m ^ 2) ^ 2)%Z with ((mx m * mx m + my m * my m) * (mx m * mx m + my m * my m))%Z by ring.
  rewrite mult_IZR, plus_IZR, !mult_IZR. ring.
Qed.

(** ** The state: z is the sum of 2 cos(2 x - y) and 2 cos(3 x + y), w is 2 cos(3 x - y) *)

Definition one_of (l : list mode) (m : mode) : Z := if existsb (mode_eqb m) l then 1%Z else 0%Z.
Definition zz : mode -> Z := one_of [(2, -1, 0); (-2, 1, 0); (3, 1, 0); (-3, -1, 0)]%Z.
Definition zw : mode -> Z := one_of [(3, -1, 0); (-3, 1, 0)]%Z.
(** 625 chi *)
Definition zchi (m : mode) : Z := if first_mode m then 0%Z else (- (625 * zmonge zz zz m) / zk4 m)%Z.
(** the same, once computed *)
Definition zchi_table (m : mode) : Z := if existsb (mode_eqb m) [(5, 0, 0); (-5, 0, 0)]%Z then (- 50)%Z else if existsb (mode_eqb m) [(1, 2, 0); (-1, -2, 0)]%Z then (- 1250)%Z else 0%Z.

Lemma zchi_check : forallb (fun m => (zchi m =? zchi_table m)%Z && (first_mode m || (zk4 m * zchi_table m =? - (625 * zmonge zz zz m))%Z)) ms55 = true.
Proof. vm_compute. reflexivity. Qed.

Lemma zfield_real a : forallb (fun m => (a (mopp m) =? a m)%Z) ms55 = true -> real_field ms55 (zfield a).
Proof. intros H m Im. apply (ms55_all _ H) in Im. apply Z.eqb_eq in Im. unfold zfield. rewrite Im. apply C_eq; cbn; ring. Qed.

Lemma zfield_trunc num den a : forallb (fun m => negb (cut num den m) || (a m =? 0)%Z) ms55 = true -> truncated (cut num den) ms55 (zfield a).
Proof. intros H m Im E. apply (ms55_all _ H) in Im. rewrite E in Im. cbn in Im. apply Z.eqb_eq in Im. unfold zfield. rewrite Im. reflexivity. Qed.

Lemma zz_real : real_field ms55 (zfield zz).
Proof. apply zfield_real. vm_compute. reflexivity. Qed.
Lemma zw_real : real_field ms55 (zfield zw).
Proof. apply zfield_real. vm_compute. reflexivity. Qed.
Lemma zz_trunc : truncated (cut 2 3) ms55 (zfield zz).
Proof. apply zfield_trunc. vm_compute. reflexivity. Qed.
Lemma zw_trunc : truncated (cut 2 3) ms55 (zfield zw).
Proof. apply zfield_trunc. vm_compute. reflexivity. Qed.

Lemma chi_z m : In m ms55 -> chi_state o55 ms55 (zfield zz) m = (RtoC (/ 625) * zfield zchi_table m)%C.
Proof.
  intros Im. pose proof (ms55_all _ zchi_check m Im) as E. apply andb_true_iff in E. destruct E as [E0 E]. rewrite chi_value by exact o55_pos. destruct (first_mode m) eqn:F.
  - assert (Z0 : zchi_table m = 0%Z) by (apply Z.eqb_eq in E0; rewrite <- E0; unfold zchi; rewrite F; reflexivity). unfold zfield. rewrite Z0. ring.
  - cbn [orb] in E. apply Z.eqb_eq in E. rewrite monge_z. apply (f_equal IZR) in E. rewrite mult_IZR, opp_IZR, mult_IZR in E.
    pose proof (K2_not0_pos o55 m o55_pos) as P. rewrite (K2_first o55 m F) in *.
    assert (K : K2_2d o55 m ^ 2 = IZR (zk4 m)) by (rewrite <- k4_z, <- K4_k4 by exact o55_pos; reflexivity). rewrite K.
    assert (P2 : 0 < IZR (zk4 m)) by (rewrite <- K; apply pow_lt; exact P). unfold zfield. rewrite <- !RtoC_mult. f_equal.
    apply Rmult_eq_reg_l with (625 * IZR (zk4 m)); [|apply Rgt_not_eq; lra]. transitivity (- (625 * IZR (zmonge zz zz m))); [field; lra|]. rewrite <- E. field.
Qed.

Lemma monge_zchi k : fft o55 (monge_ampere_from_fft o55 ms55 (zfield zz) (chi_state o55 ms55 (zfield zz))) k = RtoC (/ 625 * IZR (zmonge zz zchi_table k)).
Proof.
  rewrite (monge_ext o55 ms55 o55_pos _ (fun m => RtoC 1 * zfield zz m)%C _ (fun m => RtoC (/ 625) * zfield zchi_table m)%C).
  - rewrite monge_scal by exact o55_pos. rewrite monge_z, <- RtoC_mult. f_equal. ring.
  - intros m _. ring.
  - intros m Im. apply chi_z. exact Im.
Qed.

(** the rate of change of the energy *)
Lemma rate55 : work o55 ms55 (zfield zw) (zfield zz) + means o55 ms55 (fun _ => 0) (fun _ => 0) 0 None (zfield zw, zfield zz) "conv_l_to_e" = 44 / 25.
Proof.
  rewrite conv_le. unfold work.
  rewrite (total_lsum ms55 _ (fun m => RtoC (/ 625) * RtoC (IZR (zw m * zmonge zz zchi_table m)))%C).
  2:{ intros m _. rewrite monge_zchi. unfold zfield. rewrite mult_IZR. cbn. ring. }
  rewrite (total_lsum ms55 (fun m => fst (fft o55 (monge_ampere_from_fft o55 ms55 (zfield zw) (zfield zz)) m * Cconj (chi_state o55 ms55 (zfield zz) m))%C)
    (fun m => RtoC (/ 625) * RtoC (IZR (zmonge zw zz m * zchi_table m)))%C).
  2:{ intros m Im. rewrite monge_z, (chi_z m Im). unfold zfield. rewrite mult_IZR. cbn. ring. }
  rewrite !lsum_scal.
  rewrite (lsum_zsum ms55 _ (fun m => zw m * zmonge zz zchi_table m)%Z) by reflexivity.
  rewrite (lsum_zsum ms55 _ (fun m => zmonge zw zz m * zchi_table m)%Z) by reflexivity.
  replace (zsum ms55 (fun m => zw m * zmonge zz zchi_table m)%Z) with (- 2500)%Z by (vm_compute; reflexivity).
  replace (zsum ms55 (fun m => zmonge zw zz m * zchi_table m)%Z) with (- 3600)%Z by (vm_compute; reflexivity).
  rewrite <- !RtoC_mult. cbn [RtoC fst]. lra.
Qed.

(** ** C102: the energy is not conserved with the truncation 2/3 *)

Theorem c102_default_refuted : exists o ms (w z : R -> field), oper_pos o
  /\ (forall m, In m ms <-> (2 * Z.abs (mx m) <= Z.of_nat (nx o) /\ 2 * Z.abs (my m) <= Z.of_nat (ny o) /\ mz m = 0)%Z)
  /\ let removed := fun m => ((Z.of_nat (nx o) <? 3 * Z.abs (mx m)) || (Z.of_nat (ny o) <? 3 * Z.abs (my m)))%Z in
  plate_modes removed ms /\ real_field ms (w 0) /\ real_field ms (z 0) /\ truncated removed ms (w 0) /\ truncated removed ms (z 0)
  /\ moves ms w 0 (fst (tendencies o ms removed (w 0, z 0))) /\ moves ms z 0 (snd (tendencies o ms removed (w 0, z 0)))
  /\ is_derive (fun s => written (plate2d_means o ms (fun _ => 0) (fun _ => 0) 0 None (w s, z s)) "E") 0 (44 / 25).
Proof.
  set (F := tendencies o55 ms55 (cut 2 3) (zfield zw, zfield zz)).
  exists o55, ms55, (line 0 (zfield zw) (fst F)), (line 0 (zfield zz) (snd F)).
  split; [exact o55_pos|]. split; [exact ms55_grid|]. cbv zeta.
  assert (E : (fun m => ((Z.of_nat (nx o55) <? 3 * Z.abs (mx m)) || (Z.of_nat (ny o55) <? 3 * Z.abs (my m)))%Z) = cut 2 3).
  { apply functional_extensionality. intros m. unfold cut. cbn [nx ny o55]. f_equal; apply eq_true_iff_eq; rewrite !Z.ltb_lt; lia. }
  rewrite E. rewrite !line_at. split; [apply modes55|]. split; [exact zw_real|]. split; [exact zz_real|]. split; [exact zw_trunc|]. split; [exact zz_trunc|].
  fold F. split; [apply line_moves|]. split; [apply line_moves|].
  eapply is_derive_eq.
  - apply (energy_rate o55 ms55 (cut 2 3) o55_pos (fun _ => 0) (fun _ => 0) 0 None (line 0 (zfield zw) (fst F)) (line 0 (zfield zz) (snd F)) 0).
    + rewrite line_at. exact zw_trunc.
    + rewrite !line_at. intros m Im. pose proof (line_moves ms55 0 (zfield zw) (fst F) m Im) as [D1 D2].
      assert (Q : full_tendency o55 ms55 (cut 2 3) (fun _ => 0) (fun _ => 0) None (zfield zw) (zfield zz) m = fst F m).
      { unfold full_tendency, plus_f, damped, forcing_w. fold F. generalize (fst F m) (zfield zw m). intros x y. apply C_eq; cbn; ring. }
      rewrite Q. split; assumption.
    + rewrite !line_at. apply line_moves.
  - rewrite !line_at, rate55, eps_rate. rewrite (total_ext ms55 _ (fun m => 0 * norm2 (zfield zw m))) by (intros; ring). rewrite total_scal. ring.
Qed.

(** ** C101: with this truncation the tendencies are not those of the equations *)

Lemma stress_z : stress o55 ms55 (zfield zz) (chi_state o55 ms55 (zfield zz)).
Proof.
  intros m Im. pose proof (first_zero ms55 (cut 2 3) (modes55 2 3) m Im) as F0. split.
  - intros E. apply F0 in E. rewrite chi_value by exact o55_pos. rewrite E. reflexivity.
  - intros N. rewrite <- F0 in N. apply not_true_iff_false in N. rewrite <- K4_k4 by exact o55_pos. rewrite K4_chi by exact o55_pos. rewrite N.
    rewrite monge_z, bracket_z. f_equal. f_equal. f_equal. apply Z.eqb_eq.
    apply (ms55_all (fun m => (zmonge zz zz m =? zbracket zz zz m)%Z)); [vm_compute; reflexivity | exact Im].
Qed.

Theorem c101_default_refuted : exists o ms (w z chi : field) k, oper_pos o
  /\ (forall m, In m ms <-> (2 * Z.abs (mx m) <= Z.of_nat (nx o) /\ 2 * Z.abs (my m) <= Z.of_nat (ny o) /\ mz m = 0)%Z)
  /\ let removed := fun m => ((Z.of_nat (nx o) <? 3 * Z.abs (mx m)) || (Z.of_nat (ny o) <? 3 * Z.abs (my m)))%Z in
  plate_modes removed ms /\ real_field ms z /\ truncated removed ms z /\ stress o ms z chi /\ In k ms /\ removed k = false
  /\ fst (tendencies o ms removed (w, z)) k <> (- (RtoC (k4 o k) * z k) + bracket o ms z chi k)%C.
Proof.
  exists o55, ms55, (zfield zw), (zfield zz), (chi_state o55 ms55 (zfield zz)), (3, -1, 0)%Z. split; [exact o55_pos|]. split; [exact ms55_grid|]. cbv zeta.
  assert (E : (fun m => ((Z.of_nat (nx o55) <? 3 * Z.abs (mx m)) || (Z.of_nat (ny o55) <? 3 * Z.abs (my m)))%Z) = cut 2 3).
  { apply functional_extensionality. intros m. unfold cut. cbn [nx ny o55]. f_equal; apply eq_true_iff_eq; rewrite !Z.ltb_lt; lia. }
  rewrite E. split; [apply modes55|]. split; [exact zz_real|]. split; [exact zz_trunc|]. split; [exact stress_z|].
  split; [apply zin_in; vm_compute; reflexivity|]. split; [reflexivity|].
  unfold tendencies, dealiasing. cbn [fst]. change (cut 2 3 (3, -1, 0)%Z) with false. cbn iota.
  rewrite (monge_ext o55 ms55 o55_pos (zfield zz) (zfield zz) (chi_solver o55 ms55 (zfield zz)) (chi_state o55 ms55 (zfield zz))) by (intros; reflexivity || apply chi_eq).
  rewrite monge_zchi. unfold bracket.
  rewrite (lsum_ext ms55 _ (fun p => RtoC (/ 625) * lsum ms55 (fun q => if mode_eqb (madd p q) (3, -1, 0)%Z then RtoC (cross o55 p q ^ 2) * (zfield zz p * zfield zchi_table q) else RtoC 0))%C).
  2:{ intros p _. rewrite <- lsum_scal. apply lsum_ext. intros q Iq. rewrite (chi_z q Iq). destruct (mode_eqb _ _); ring. }
  rewrite lsum_scal. change (lsum ms55 (fun p => lsum ms55 (fun q => if mode_eqb (madd p q) (3, -1, 0)%Z then RtoC (cross o55 p q ^ 2) * (zfield zz p * zfield zchi_table q) else RtoC 0))%C)
    with (bracket o55 ms55 (zfield zz) (zfield zchi_table) (3, -1, 0)%Z). rewrite bracket_z, <- RtoC_mult.
  replace (zfield zz (3, -1, 0)%Z) with (RtoC 0) by reflexivity. rewrite lap4. replace (zfield zz (3, -1, 0)%Z) with (RtoC 0) by reflexivity. rewrite !Cmult_0_r.
  intros Q. apply (f_equal fst) in Q. cbn -[IZR zmonge zbracket] in Q.
  replace (zmonge zz zchi_table (3, -1, 0)%Z) with (- 1250)%Z in Q by (vm_compute; reflexivity).
  replace (zbracket zz zchi_table (3, -1, 0)%Z) with 0%Z in Q by (vm_compute; reflexivity). lra.
Qed.

(** ** C104: for a small state the result is 0 although the energy is not conserved *)

Lemma T_value o ms removed w z m : oper_pos o -> truncated removed ms w -> In m ms ->
  energy_tendency o ms (tendencies o ms removed (w, z)) w z (chi_state o ms z) m
  = fst (fft o (monge_ampere_from_fft o ms z (chi_state o ms z)) m * Cconj (w m))%C - fst (fft o (monge_ampere_from_fft o ms w z) m * Cconj (chi_state o ms z m))%C.
Proof.
  intros Ho Hw Im. unfold energy_tendency. rewrite (monge_ext o ms Ho (snd (tendencies o ms removed (w, z))) w z z); [|intros k Ik; apply z_tendency; assumption | reflexivity].
  rewrite (z_tendency o ms removed w z m Hw Im). unfold tendencies, dealiasing. cbn [fst].
  rewrite (monge_ext o ms Ho z z (chi_solver o ms z) (chi_state o ms z)) by (intros; reflexivity || apply chi_eq). rewrite lap4.
  destruct (removed m) eqn:E.
  - rewrite (Hw m Im E). generalize (fft o (monge_ampere_from_fft o ms z (chi_state o ms z)) m) (fft o (monge_ampere_from_fft o ms w z) m) (chi_state o ms z m) (z m).
    intros [a b] [c d] [e f] [g h]. cbn. ring.
  - generalize (fft o (monge_ampere_from_fft o ms z (chi_state o ms z)) m) (fft o (monge_ampere_from_fft o ms w z) m) (chi_state o ms z m) (z m) (w m).
    intros [a b] [c d] [e f] [g h] [i j]. generalize (K4 o m). intros r. cbn. ring.
Qed.

Definition scaled (c : R) (a : field) : field := fun m => (RtoC c * a m)%C.

Lemma scaled_trunc c removed ms a : truncated removed ms a -> truncated removed ms (scaled c a).
Proof. intros H m Im E. unfold scaled. rewrite (H m Im E). ring. Qed.
Lemma scaled_real c ms a : real_field ms a -> real_field ms (scaled c a).
Proof. intros H m Im. unfold scaled. rewrite (H m Im). apply C_eq; cbn; ring. Qed.

Lemma T_scaled o ms removed w z c m : oper_pos o -> truncated removed ms w -> In m ms ->
  energy_tendency o ms (tendencies o ms removed (scaled c w, scaled c z)) (scaled c w) (scaled c z) (chi_state o ms (scaled c z)) m
  = c ^ 4 * energy_tendency o ms (tendencies o ms removed (w, z)) w z (chi_state o ms z) m.
Proof.
  intros Ho Hw Im. rewrite !T_value by (try apply scaled_trunc; assumption).
  rewrite (monge_ext o ms Ho (scaled c z) (fun m => RtoC c * z m)%C (chi_state o ms (scaled c z)) (fun m => RtoC (c * c) * chi_state o ms z m)%C);
    [|reflexivity | intros k _; unfold scaled; apply chi_scal; exact Ho].
  rewrite monge_scal by exact Ho. unfold scaled. rewrite (monge_scal o ms Ho c c w z), chi_scal by exact Ho.
  generalize (fft o (monge_ampere_from_fft o ms z (chi_state o ms z)) m) (fft o (monge_ampere_from_fft o ms w z) m) (chi_state o ms z m) (w m).
  intros [a b] [c' d] [e f] [g h]. cbn. ring.
Qed.

Theorem c104_refuted : exists o ms removed (w z : R -> field) r, oper_pos o /\ plate_modes removed ms
  /\ real_field ms (w 0) /\ real_field ms (z 0) /\ truncated removed ms (w 0) /\ truncated removed ms (z 0)
  /\ moves ms w 0 (fst (tendencies o ms removed (w 0, z 0))) /\ moves ms z 0 (snd (tendencies o ms removed (w 0, z 0)))
  /\ is_derive (fun s => written (plate2d_means o ms (fun _ => 0) (fun _ => 0) 0 None (w s, z s)) "E") 0 r /\ r <> 0
  /\ test_tendencies_nonlin o ms removed (w 0, z 0) = 0.
Proof.
  set (T := energy_tendency o55 ms55 (tendencies o55 ms55 (cut 2 3) (zfield zw, zfield zz)) (zfield zw) (zfield zz) (chi_state o55 ms55 (zfield zz))).
  set (N := total ms55 (fun m => Rabs (T m))).
  assert (N0 : 0 <= N) by (apply total_pos; intros; apply Rabs_pos).
  set (c := / (1 + 10 ^ 15 * N)).
  assert (P10 : 0 < 10 ^ 15) by (apply pow_lt; lra).
  assert (D : 1 <= 1 + 10 ^ 15 * N) by (pose proof (Rmult_le_pos _ _ (Rlt_le _ _ P10) N0); lra).
  assert (Pc : 0 < c) by (apply Rinv_0_lt_compat; lra).
  assert (C1 : c <= 1) by (unfold c; rewrite <- Rinv_1; apply Rinv_le_contravar; lra).
  set (F := tendencies o55 ms55 (cut 2 3) (scaled c (zfield zw), scaled c (zfield zz))).
  assert (TT : forall m, In m ms55 -> energy_tendency o55 ms55 F (scaled c (zfield zw)) (scaled c (zfield zz)) (chi_state o55 ms55 (scaled c (zfield zz))) m = c ^ 4 * T m).
  { intros m Im. apply T_scaled; [exact o55_pos | exact zw_trunc | exact Im]. }
  exists o55, ms55, (cut 2 3), (line 0 (scaled c (zfield zw)) (fst F)), (line 0 (scaled c (zfield zz)) (snd F)), (c ^ 4 * (44 / 25)).
  rewrite !line_at. split; [exact o55_pos|]. split; [apply modes55|]. split; [apply scaled_real, zw_real|]. split; [apply scaled_real, zz_real|].
  split; [apply scaled_trunc, zw_trunc|]. split; [apply scaled_trunc, zz_trunc|]. fold F. split; [apply line_moves|]. split; [apply line_moves|]. split; [|split].
  - pose proof (c104_rate o55 ms55 (cut 2 3) o55_pos (fun _ => 0) (fun _ => 0) 0 (line 0 (scaled c (zfield zw)) (fst F)) (line 0 (scaled c (zfield zz)) (snd F)) 0) as H.
    rewrite !line_at in H. fold F in H. eapply is_derive_eq; [apply H; [apply scaled_trunc, zw_trunc | apply line_moves | apply line_moves]|].
    rewrite (total_ext ms55 _ (fun m => c ^ 4 * T m)) by exact TT. rewrite total_scal. f_equal. unfold T.
    rewrite (total_ext ms55 _ (fun m => fst (Cconj (zfield zw m) * fft o55 (monge_ampere_from_fft o55 ms55 (zfield zz) (chi_state o55 ms55 (zfield zz))) m)%C
      + - fst (fft o55 (monge_ampere_from_fft o55 ms55 (zfield zw) (zfield zz)) m * Cconj (chi_state o55 ms55 (zfield zz) m))%C)).
    + rewrite total_plus, total_opp. rewrite <- rate55, conv_le. reflexivity.
    + intros m Im. rewrite T_value by (exact o55_pos || exact zw_trunc || exact Im). rewrite (Cmult_comm (Cconj (zfield zw m))). reflexivity.
  - pose proof (pow_lt c 4 Pc). lra.
  - unfold test_tendencies_nonlin, test_tendencies. cbn [fst snd]. fold F. unfold sum_wavenumbers. rewrite !rsum_total.
    destruct (Rlt_dec _ _) as [_|L]; [reflexivity|]. exfalso. apply L.
    rewrite (total_ext ms55 _ (fun m => c ^ 4 * Rabs (T m))).
    2:{ intros m Im. rewrite (TT m Im), Rabs_mult, (Rabs_pos_eq (c ^ 4)) by (apply Rlt_le, pow_lt, Pc). reflexivity. }
    rewrite total_scal. fold N. apply Rle_lt_trans with (c * N).
    + apply Rmult_le_compat_r; [exact N0|]. replace (c ^ 4) with (c * c ^ 3) by ring. rewrite <- (Rmult_1_r c) at 3. apply Rmult_le_compat_l; [lra|].
      rewrite <- (pow1 3). apply pow_incr. lra.
    + apply Rmult_lt_reg_l with (1 + 10 ^ 15 * N); [lra|]. rewrite <- Rmult_assoc. unfold c. rewrite Rinv_r, Rmult_1_l by lra.
      rewrite Rmult_plus_distr_r, Rmult_1_l. rewrite (Rmult_comm (10 ^ 15) N), Rmult_assoc, Rinv_r by lra. rewrite Rmult_1_r. pose proof (Rinv_0_lt_compat _ P10). lra.
Qed.

(** ** Examples: the truncation 1/2 *)

Definition zh : mode -> Z := one_of [(2, -1, 0); (-2, 1, 0); (1, 1, 0); (-1, -1, 0)]%Z.

Lemma half_seen : products_seen (cut 1 2) o55 ms55.
Proof.
  apply c101_quarter; [exact o55_pos | intros m Im; apply ms55_grid; exact Im|]. intros m Im E.
  unfold cut in E. apply orb_false_iff in E. rewrite !Z.ltb_ge in E. cbn [nx ny o55]. lia.
Qed.

Example c101_example : oper_pos o55 /\ plate_modes (cut 1 2) ms55 /\ products_seen (cut 1 2) o55 ms55 /\ truncated (cut 1 2) ms55 (zfield zh)
  /\ real_field ms55 (zfield zh) /\ stress o55 ms55 (zfield zh) (chi_state o55 ms55 (zfield zh)) /\ zmonge zh zh (3, 0, 0)%Z = 18%Z.
Proof.
  split; [exact o55_pos|]. split; [apply modes55|]. split; [exact half_seen|].
  assert (H : truncated (cut 1 2) ms55 (zfield zh)) by (apply zfield_trunc; vm_compute; reflexivity).
  split; [exact H|]. split; [apply zfield_real; vm_compute; reflexivity|]. split; [|vm_compute; reflexivity].
  apply (c101_stress o55 ms55 (cut 1 2) o55_pos (modes55 1 2) half_seen). exact H.
Qed.

Example c102_example : let w := zfield zh in let z := zfield zh in let F := Some (zfield zh) in
  moves ms55 (line 0 w (full_tendency o55 ms55 (cut 1 2) (fun _ => 1) (fun _ => 1) F w z)) 0 (full_tendency o55 ms55 (cut 1 2) (fun _ => 1) (fun _ => 1) F w z)
  /\ moves ms55 (line 0 z (snd (tendencies o55 ms55 (cut 1 2) (w, z)))) 0 (snd (tendencies o55 ms55 (cut 1 2) (w, z)))
  /\ means o55 ms55 (fun _ => 1) (fun _ => 1) 1 F (w, z) "epsK_tot" = 8.
Proof.
  cbv zeta. split; [apply line_moves|]. split; [apply line_moves|]. rewrite eps_rate.
  rewrite (total_lsum ms55 _ (zfield (fun m => 2 * (zh m * zh m))%Z)).
  - unfold zfield. rewrite (lsum_zsum ms55 _ (fun m => 2 * (zh m * zh m))%Z) by reflexivity.
    replace (zsum ms55 (fun m => 2 * (zh m * zh m))%Z) with 8%Z by (vm_compute; reflexivity). reflexivity.
  - intros m _. unfold zfield, norm2. rewrite !mult_IZR. cbn. ring.
Qed.

Print Assumptions c101_quarter.
Print Assumptions c101_stress.
Print Assumptions c101_tendencies.
Print Assumptions c101_default_refuted.
Print Assumptions c102_energy_partial.
Print Assumptions c102_dissipation.
Print Assumptions c102_default_refuted.
Print Assumptions c103_energies.
Print Assumptions c103_conversions.
Print Assumptions c103_kinetic_partial.
Print Assumptions c103_injection.
Print Assumptions c104_rate.
Print Assumptions c104_ratio_partial.
Print Assumptions c104_zero.
Print Assumptions c104_conserved.
Print Assumptions c104_refuted.
