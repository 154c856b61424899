(** * Theorems on the preprocessing (C138 - C141) *)

From Coq Require Import String.
From Coq Require Import Reals ZArith List Bool Lra Lia.
From Coquelicot Require Import Complex.
From Verif Require Import Prep_Model.
Import ListNotations.
Open Scope R_scope.

(** ** Specification *)

(** kinetic energy, enstrophy and potential energy of a state *)
Definition kinetic (ms : list pmode) (s : pstate) : R :=
  sum_wn ms (fun m => if Req_EM_T (pkx m ^ 2 + pky m ^ 2) 0 then 0
                      else cabs2 (rot_fft s m) / (2 * (pkx m ^ 2 + pky m ^ 2))).
Definition enstrophy (ms : list pmode) (s : pstate) : R := / 2 * sum_wn ms (fun m => cabs2 (rot_fft s m)).
Definition potential (N : R) (ms : list pmode) (s : pstate) : R :=
  if Req_EM_T N 0 then 0 else sum_wn ms (fun m => cabs2 (b_fft s m)) / (2 * N ^ 2).

(** ** Lemmas *)

Lemma some_inj (A : Type) (a b : A) : Some a = Some b -> a = b.
Proof. congruence. Qed.

Lemma sum_wn_ext ms f g : (forall m, f m = g m) -> sum_wn ms f = sum_wn ms g.
Proof. intros H. unfold sum_wn. induction ms as [|m ms IH]; cbn; [easy|]. now rewrite IH, H. Qed.
Lemma sum_wn_scal ms c f : sum_wn ms (fun m => c * f m) = c * sum_wn ms f.
Proof. unfold sum_wn. induction ms as [|m ms IH]; cbn; [ring|]. rewrite IH. ring. Qed.
Lemma sum_wn_plus ms f g : sum_wn ms (fun m => f m + g m) = sum_wn ms f + sum_wn ms g.
Proof. unfold sum_wn. induction ms as [|m ms IH]; cbn; [ring|]. rewrite IH. ring. Qed.
Lemma sum_wn_zero ms : sum_wn ms (fun _ => 0) = 0.
Proof. unfold sum_wn. induction ms as [|m ms IH]; cbn; [ring|]. rewrite IH. ring. Qed.

Lemma cabs2_scal (a : R) (z : C) : cabs2 (RtoC a * z)%C = a ^ 2 * cabs2 z.
Proof. destruct z. unfold cabs2. cbn. ring. Qed.
Lemma cabs2_Ci (a : R) (z : C) : cabs2 (Ci * RtoC a * z)%C = a ^ 2 * cabs2 z.
Proof. destruct z. unfold cabs2. cbn. ring. Qed.
Lemma cabs2_oppCi (a : R) (z : C) : cabs2 (- Ci * RtoC a * z)%C = a ^ 2 * cabs2 z.
Proof. destruct z. unfold cabs2. cbn. ring. Qed.

Lemma wavenumber_zero m : pkx m ^ 2 + pky m ^ 2 = 0 -> pkx m = 0 /\ pky m = 0.
Proof.
  intros H. pose proof (pow2_ge_0 (pkx m)). pose proof (pow2_ge_0 (pky m)).
  split; [destruct (Req_dec (pkx m) 0) as [|Hn]; [easy|]|destruct (Req_dec (pky m) 0) as [|Hn]; [easy|]];
    apply (pow_nonzero _ 2) in Hn; lra.
Qed.

Lemma energyK_spec m z :
  energyK_fft m z = if Req_EM_T (pkx m ^ 2 + pky m ^ 2) 0 then 0 else cabs2 z / (2 * (pkx m ^ 2 + pky m ^ 2)).
Proof.
  unfold energyK_fft, vecfft_from_rotfft, K2_not0. rewrite cabs2_Ci, cabs2_oppCi.
  destruct (Req_EM_T (pkx m ^ 2 + pky m ^ 2) 0) as [H|H].
  - destruct (wavenumber_zero m H) as [-> ->]. unfold Rdiv. rewrite !Rmult_0_l. ring.
  - set (k2 := pkx m ^ 2 + pky m ^ 2) in *. replace (cabs2 z / (2 * k2)) with (k2 / k2 ^ 2 * cabs2 z / 2) by (field; exact H).
    unfold k2 at 3. field. exact H.
Qed.

Lemma energy_spec strat N ms s :
  compute_energy strat N ms s = kinetic ms s + if strat then potential N ms s else 0.
Proof.
  unfold compute_energy. rewrite sum_wn_plus. f_equal.
  - unfold kinetic. apply sum_wn_ext. intros m. apply energyK_spec.
  - unfold potential. destruct strat; [|apply sum_wn_zero].
    destruct (Req_EM_T N 0); [apply sum_wn_zero|].
    unfold Rdiv. rewrite (Rmult_comm (sum_wn _ _)), <- sum_wn_scal. apply sum_wn_ext. intros m. ring.
Qed.
Lemma enstrophy_spec ms s : compute_enstrophy ms s = enstrophy ms s.
Proof.
  unfold compute_enstrophy, enstrophy. rewrite <- sum_wn_scal. apply sum_wn_ext. intros m. field.
Qed.

(** multiplication of the vorticity by a constant *)
Lemma kinetic_scal ms c rot :
  kinetic ms (init_from_rotfft (fun m => (RtoC c * rot m)%C)) = c ^ 2 * kinetic ms (init_from_rotfft rot).
Proof.
  unfold kinetic. rewrite <- sum_wn_scal. apply sum_wn_ext. intros m. cbn [rot_fft init_from_rotfft].
  destruct (Req_EM_T _ 0) as [_|H]; [ring|]. rewrite cabs2_scal. field. exact H.
Qed.
Lemma enstrophy_scal ms c rot :
  enstrophy ms (init_from_rotfft (fun m => (RtoC c * rot m)%C)) = c ^ 2 * enstrophy ms (init_from_rotfft rot).
Proof.
  unfold enstrophy. cbn [rot_fft init_from_rotfft].
  rewrite (sum_wn_ext ms _ (fun m => c ^ 2 * cabs2 (rot m))) by (intros; apply cabs2_scal).
  rewrite sum_wn_scal. ring.
Qed.
Lemma kinetic_rot ms s : kinetic ms (init_from_rotfft (rot_fft s)) = kinetic ms s.
Proof. reflexivity. Qed.
Lemma enstrophy_rot ms s : enstrophy ms (init_from_rotfft (rot_fft s)) = enstrophy ms s.
Proof. reflexivity. Qed.

Lemma potential_init N ms rot : potential N ms (init_from_rotfft rot) = 0.
Proof.
  unfold potential. destruct (Req_EM_T N 0); [easy|]. cbn [b_fft init_from_rotfft].
  rewrite (sum_wn_ext ms _ (fun _ => 0)) by (intros; unfold cabs2; cbn; ring). rewrite sum_wn_zero.
  unfold Rdiv. ring.
Qed.

(** the vorticity of the velocity of a vorticity *)
Lemma rot_of_vec m c z :
  let '(ux, uy) := vecfft_from_rotfft m z in
  rotfft_from_vecfft m (RtoC c * ux)%C (RtoC c * uy)%C
  = if Req_EM_T (pkx m ^ 2 + pky m ^ 2) 0 then RtoC 0 else (RtoC c * z)%C.
Proof.
  unfold vecfft_from_rotfft, rotfft_from_vecfft, K2_not0.
  destruct (Req_EM_T (pkx m ^ 2 + pky m ^ 2) 0) as [H|H].
  - destruct (wavenumber_zero m H) as [-> ->]. ring.
  - set (k2 := pkx m ^ 2 + pky m ^ 2) in *.
    transitivity (RtoC ((pkx m ^ 2 + pky m ^ 2) / k2 * c) * z)%C.
    + destruct z as [a b]. clearbody k2. apply injective_projections; cbn; field; exact H.
    + fold k2. replace (k2 / k2 * c) with c by (field; exact H). reflexivity.
Qed.

(** ** C138: scaling of the initial fields *)

Definition square_sqrt x : 0 <= x -> sqrt x ^ 2 = x.
Proof. intros H. rewrite <- Rsqr_pow2. now apply Rsqr_sqrt. Qed.

(** After the normalisation "energy" the energy of ns2d is the constant given. *)
Theorem c138_energy_partial : forall N ms C0 P kf s s',
  0 <= C0 -> 0 < kinetic ms s ->
  normalize_init_fields false N ms "energy" C0 P kf s = Some s' ->
  compute_energy false N ms s' = C0.
Proof.
  intros N ms C0 P kf s s' HC HE H. unfold normalize_init_fields in H.
  change (String.eqb "energy" "energy") with true in H. cbv beta iota zeta in H.
  injection H as <-. rewrite !energy_spec, !Rplus_0_r.
  destruct (Req_EM_T (kinetic ms s) 0) as [E|_]; [lra|].
  set (c := sqrt (C0 / kinetic ms s)).
  transitivity (kinetic ms (init_from_rotfft (fun m => (RtoC c * rot_fft s m)%C))).
  - unfold kinetic. apply sum_wn_ext. intros m. cbn [rot_fft init_from_rotfft].
    pose proof (rot_of_vec m c (rot_fft s m)) as E. unfold vecfft_from_rotfft in E. cbv beta iota in E.
    rewrite E. destruct (Req_EM_T _ 0); reflexivity.
  - rewrite kinetic_scal, kinetic_rot. unfold c. rewrite square_sqrt.
    + field. lra.
    + apply Rmult_le_pos; [exact HC|apply Rlt_le, Rinv_0_lt_compat, HE].
Qed.

(** For ns2d.strat the potential energy is lost: the energy is the constant times the part of the
    kinetic energy. *)
Theorem c138_energy_strat : forall N ms C0 P kf s s',
  0 <= C0 -> 0 < kinetic ms s -> 0 <= potential N ms s ->
  normalize_init_fields true N ms "energy" C0 P kf s = Some s' ->
  compute_energy true N ms s' = C0 * (kinetic ms s / (kinetic ms s + potential N ms s))
  /\ potential N ms s' = 0.
Proof.
  intros N ms C0 P kf s s' HC HE HA H. unfold normalize_init_fields in H.
  change (String.eqb "energy" "energy") with true in H. cbv beta iota zeta in H.
  injection H as <-. rewrite !energy_spec, !potential_init, Rplus_0_r. split; [|reflexivity].
  destruct (Req_EM_T (kinetic ms s + potential N ms s) 0) as [E|_]; [lra|].
  set (c := sqrt (C0 / (kinetic ms s + potential N ms s))).
  transitivity (kinetic ms (init_from_rotfft (fun m => (RtoC c * rot_fft s m)%C))).
  - unfold kinetic. apply sum_wn_ext. intros m. cbn [rot_fft init_from_rotfft].
    pose proof (rot_of_vec m c (rot_fft s m)) as E. unfold vecfft_from_rotfft in E. cbv beta iota in E.
    rewrite E. destruct (Req_EM_T _ 0); reflexivity.
  - rewrite kinetic_scal, kinetic_rot. unfold c. rewrite square_sqrt.
    + field. lra.
    + apply Rmult_le_pos; [exact HC|apply Rlt_le, Rinv_0_lt_compat; lra].
Qed.

(** The enstrophy after the normalisations "enstrophy" and "enstrophy_forcing" (both solvers). *)
Theorem c138_enstrophy : forall strat N ms C0 P kf s s',
  0 <= C0 -> 0 < enstrophy ms s ->
  (normalize_init_fields strat N ms "enstrophy" C0 P kf s = Some s' ->
   compute_enstrophy ms s' = C0 /\ forall m, exists c, 0 <= c /\ rot_fft s' m = (RtoC c * rot_fft s m)%C)
  /\ (normalize_init_fields strat N ms "enstrophy_forcing" C0 P kf s = Some s' ->
      compute_enstrophy ms s' = C0 * (Rpower P (2 / 3) * Rpower kf (4 / 3))).
Proof.
  intros strat N ms C0 P kf s s' HC HO. unfold normalize_init_fields. rewrite enstrophy_spec. split; intros H.
  - change (String.eqb "enstrophy" "energy") with false in H.
    change (String.eqb "enstrophy" "enstrophy") with true in H. cbv beta iota zeta in H.
    destruct (Req_EM_T (enstrophy ms s) 0) as [E|_]; [lra|].
    injection H as <-. rewrite enstrophy_spec, enstrophy_scal, enstrophy_rot, square_sqrt.
    + split; [field; lra|]. intros m. exists (sqrt (C0 / enstrophy ms s)). split; [apply sqrt_pos|reflexivity].
    + apply Rmult_le_pos; [exact HC|apply Rlt_le, Rinv_0_lt_compat, HO].
  - change (String.eqb "enstrophy_forcing" "energy") with false in H.
    change (String.eqb "enstrophy_forcing" "enstrophy") with false in H.
    change (String.eqb "enstrophy_forcing" "enstrophy_forcing") with true in H. cbv beta iota zeta in H.
    destruct (Req_EM_T (enstrophy ms s) 0) as [E|_]; [lra|].
    injection H as <-. rewrite enstrophy_spec, enstrophy_scal, enstrophy_rot.
    assert (HP : 0 < Rpower P (2 / 3) * Rpower kf (4 / 3)) by (apply Rmult_lt_0_compat; apply exp_pos).
    rewrite square_sqrt.
    + field. split; [|split]; try lra; apply Rgt_not_eq, exp_pos.
    + apply Rmult_le_pos; [exact HC|]. apply Rlt_le, Rinv_0_lt_compat, Rmult_lt_0_compat; [exact HO|].
      apply Rinv_0_lt_compat, HP.
Qed.

(** With a zero energy or enstrophy and for "unity" the state is kept; other names are refused. *)
Theorem c138_others : forall strat N ms C0 P kf s,
  normalize_init_fields strat N ms "unity" C0 P kf s = Some s
  /\ (enstrophy ms s = 0 ->
      normalize_init_fields strat N ms "enstrophy" C0 P kf s = Some s
      /\ normalize_init_fields strat N ms "enstrophy_forcing" C0 P kf s = Some s)
  /\ (forall scale, ~ In scale ["energy"; "enstrophy"; "enstrophy_forcing"; "unity"]%string ->
      normalize_init_fields strat N ms scale C0 P kf s = None).
Proof.
  intros strat N ms C0 P kf s. split; [reflexivity|]. split.
  - intros E. unfold normalize_init_fields. rewrite enstrophy_spec.
    change (String.eqb "enstrophy" "energy") with false. change (String.eqb "enstrophy" "enstrophy") with true.
    change (String.eqb "enstrophy_forcing" "energy") with false.
    change (String.eqb "enstrophy_forcing" "enstrophy") with false.
    change (String.eqb "enstrophy_forcing" "enstrophy_forcing") with true. cbv beta iota zeta.
    destruct (Req_EM_T (enstrophy ms s) 0); [split; reflexivity|easy].
  - intros scale H. unfold normalize_init_fields.
    destruct (String.eqb_spec scale "energy"); [subst; exfalso; apply H; cbn; tauto|].
    destruct (String.eqb_spec scale "enstrophy"); [subst; exfalso; apply H; cbn; tauto|].
    destruct (String.eqb_spec scale "enstrophy_forcing"); [subst; exfalso; apply H; cbn; tauto|].
    destruct (String.eqb_spec scale "unity"); [subst; exfalso; apply H; cbn; tauto|]. reflexivity.
Qed.

(** ns2d.strat, N = 1, one mode with as much potential as kinetic energy: half of the energy. *)
Theorem c138_energy_refuted : exists N ms C0 P kf s s',
  0 <= C0 /\ 0 < compute_energy true N ms s
  /\ normalize_init_fields true N ms "energy" C0 P kf s = Some s'
  /\ C0 = 1 /\ compute_energy true N ms s' = / 2.
Proof.
  set (m := mkPmode 1 1 0). set (s := mkPstate (fun _ => RtoC 1) (fun _ => RtoC 1)).
  destruct (normalize_init_fields true 1 [m] "energy" 1 1 1 s) as [s'|] eqn:E; [|discriminate E].
  assert (HK : kinetic [m] s = / 2).
  { unfold kinetic, sum_wn. cbn. destruct (Req_EM_T _ 0) as [H|_]; [lra|]. unfold cabs2. cbn. field. }
  assert (HP : potential 1 [m] s = / 2).
  { unfold potential, sum_wn. destruct (Req_EM_T 1 0); [lra|]. cbn. unfold cabs2. cbn. field. }
  exists 1, [m], 1, 1, 1, s, s'. split; [lra|]. split; [rewrite energy_spec, HK, HP; lra|]. split; [exact E|].
  split; [reflexivity|].
  destruct (c138_energy_strat 1 [m] 1 1 1 s s') as [H _]; try lra; [exact E|].
  rewrite H, HK, HP. field.
Qed.

Example c138_example : forall s',
  normalize_init_fields false 0 [mkPmode 1 1 0] "energy" 3 1 1 (mkPstate (fun _ => RtoC 1) (fun _ => RtoC 0)) = Some s' ->
  compute_energy false 0 [mkPmode 1 1 0] s' = 3.
Proof.
  intros s'. apply c138_energy_partial; [lra|].
  unfold kinetic, sum_wn. cbn. destruct (Req_EM_T _ 0) as [H|_]; [lra|]. unfold cabs2. cbn. lra.
Qed.

(** ** C139: the viscosities *)

(** the frequency of dissipation at the wavenumber k of a viscosity of this order *)
Definition dissip_freq (nu : R) (order : Z) (k : R) : R := nu * powerRZ k order.

(** For each kind of dissipation named in viscosity_type, the frequency of dissipation at the
    smallest scale 1/k = length_scale is the inverse of the time scale; the others are zero. *)
Theorem c139_frequencies : forall C0 viscosity_scale viscosity_type args deltax deltak coef nk_f visc,
  0 < C0 -> 0 < deltax -> 0 < coef ->
  calcul_viscosity C0 viscosity_scale viscosity_type args deltax deltak coef nk_f = Some visc ->
  length_scale C0 deltax coef = C0 * deltax / coef
  /\ exists time, time_scale viscosity_scale args (C0 * deltax / coef) (PI / (deltak * IZR nk_f)) = Some time
  /\ map (fun v => let '(attr, order, nu) := v in (attr, order, dissip_freq nu order (/ (C0 * deltax / coef)))) visc
     = [("nu_2", 2%Z, if contains "laplacian" viscosity_type then / time else 0);
        ("nu_4", 4%Z, if contains "hyper4" viscosity_type then / time else 0);
        ("nu_8", 8%Z, if contains "hyper8" viscosity_type then / time else 0);
        ("nu_m4", (-4)%Z, if contains "hypo" viscosity_type then / time else 0)]%string.
Proof.
  intros C0 vscale vtype args deltax deltak coef nk_f visc HC Hx Hd H. pose proof PI_RGT_0.
  assert (EL : length_scale C0 deltax coef = C0 * deltax / coef)
    by (unfold length_scale, k_max; field; lra).
  split; [exact EL|]. unfold calcul_viscosity in H. rewrite EL in H.
  set (L := C0 * deltax / coef) in *.
  assert (HL : 0 < L) by (unfold L; apply Rmult_lt_0_compat; [now apply Rmult_lt_0_compat|now apply Rinv_0_lt_compat]).
  destruct (time_scale vscale args L (PI / (deltak * IZR nk_f))) as [time|]; [|discriminate H].
  exists time. split; [reflexivity|].
  destruct (existsb _ dict_visc); [|discriminate H]. apply some_inj in H. subst visc.
  assert (E : forall order, dissip_freq (powerRZ L order / time) order (/ L) = / time).
  { intros order. unfold dissip_freq.
    assert (Hp : powerRZ L order * powerRZ (/ L) order = 1).
    { rewrite <- powerRZ_mult, Rinv_r by lra. apply powerRZ_R1. }
    transitivity (powerRZ L order * powerRZ (/ L) order * / time); [unfold Rdiv; ring|]. rewrite Hp. ring. }
  assert (E0 : forall order, dissip_freq 0 order (/ L) = 0) by (intros; unfold dissip_freq; ring).
  cbn [map dict_visc fst snd].
  destruct (contains "laplacian" vtype), (contains "hyper4" vtype), (contains "hyper8" vtype), (contains "hypo" vtype);
    rewrite ?E, ?E0; reflexivity.
Qed.

Example c139_example : exists visc,
  calcul_viscosity 1 "forcing" "laplacian_hyper8" [1] 1 1 1 1 = Some visc
  /\ nth 1 (map snd visc) 1 = 0.
Proof. eexists. split; reflexivity. Qed.

(** ** C140: change of the units *)

(** A simulation described with other units: lengths multiplied by a and times by b.  The
    enstrophy is an inverse squared time, the energy a squared velocity, the forcing rate an energy
    by unit of time. *)
Definition enstrophy_units (a b : R) (x : R) : R := x / b ^ 2.
Definition energy_units (a b : R) (x : R) : R := x * a ^ 2 / b ^ 2.
Definition rate_units (a b : R) (x : R) : R := x * a ^ 2 / b ^ 3.

Lemma ln_scal x y : 0 < x -> 0 < y -> ln (x * y) = ln x + ln y.
Proof. intros. now apply ln_mult. Qed.
Lemma ln_quot x y : 0 < x -> 0 < y -> ln (x / y) = ln x - ln y.
Proof.
  intros Hx Hy. unfold Rdiv. rewrite ln_mult by (try assumption; now apply Rinv_0_lt_compat).
  rewrite ln_Rinv by assumption. ring.
Qed.
Lemma ln_pow2 x : 0 < x -> ln (x ^ 2) = 2 * ln x.
Proof. intros H. rewrite ln_pow by exact H. cbn. ring. Qed.
Lemma ln_pow3 x : 0 < x -> ln (x ^ 3) = 3 * ln x.
Proof. intros H. rewrite ln_pow by exact H. cbn. ring. Qed.

Lemma t_enstrophy_units a b x : 0 < a -> 0 < b -> 0 < x ->
  Rpower (Rpower (enstrophy_units a b x) (3 / 2)) (- 1 / 3) = b * Rpower (Rpower x (3 / 2)) (- 1 / 3).
Proof.
  intros Ha Hb Hx. rewrite !Rpower_mult. unfold Rpower, enstrophy_units.
  rewrite <- (exp_ln b Hb) at 2. rewrite <- exp_plus. f_equal.
  rewrite ln_quot, ln_pow2 by (assumption || now apply pow_lt). field.
Qed.

Lemma t_epsilon_units a b x L : 0 < a -> 0 < b -> 0 < x -> 0 < L ->
  Rpower (rate_units a b x) (- 1 / 3) * Rpower (a * L) (2 / 3) = b * (Rpower x (- 1 / 3) * Rpower L (2 / 3)).
Proof.
  intros Ha Hb Hx HL. unfold Rpower, rate_units.
  rewrite <- (exp_ln b Hb) at 2. rewrite <- !exp_plus. f_equal.
  assert (0 < a ^ 2) by now apply pow_lt. assert (0 < b ^ 3) by now apply pow_lt.
  rewrite ln_quot by (assumption || now apply Rmult_lt_0_compat).
  rewrite !ln_scal, ln_pow2, ln_pow3 by assumption. field.
Qed.

Definition visc_units (a b : R) (v : string * Z * R) : string * Z * R :=
  let '(attr, order, nu) := v in (attr, order, powerRZ a order / b * nu).

Lemma calcul_visc_units a b vscale args args' C0 vtype deltax deltak coef nk_f :
  0 < a -> 0 < b -> 0 < C0 -> 0 < deltax -> 0 < coef ->
  time_scale vscale args' (a * (C0 * deltax / coef)) (a * (PI / (deltak * IZR nk_f)))
  = option_map (fun t => b * t) (time_scale vscale args (C0 * deltax / coef) (PI / (deltak * IZR nk_f))) ->
  calcul_viscosity C0 vscale vtype args' (a * deltax) (deltak / a) coef nk_f
  = option_map (map (visc_units a b)) (calcul_viscosity C0 vscale vtype args deltax deltak coef nk_f).
Proof.
  intros Ha Hb HC Hx Hd H. pose proof PI_RGT_0. unfold calcul_viscosity.
  replace (length_scale C0 (a * deltax) coef) with (a * (C0 * deltax / coef)) by (unfold length_scale, k_max; field; lra).
  replace (length_scale C0 deltax coef) with (C0 * deltax / coef) by (unfold length_scale, k_max; field; lra).
  replace (PI / (deltak / a * IZR nk_f)) with (a * (PI / (deltak * IZR nk_f))).
  2:{ unfold Rdiv. rewrite !Rinv_mult, Rinv_inv. ring. }
  rewrite H. set (L := C0 * deltax / coef).
  destruct (time_scale vscale args L (PI / (deltak * IZR nk_f))) as [t|]; cbn [option_map]; [|reflexivity].
  destruct (existsb _ dict_visc); [|reflexivity]. cbn [option_map]. f_equal. rewrite map_map. apply map_ext.
  intros [k [attr order]]. cbn [fst snd visc_units]. f_equal. rewrite powerRZ_mult.
  destruct (contains k vtype); [|ring]. unfold Rdiv. rewrite Rinv_mult. ring.
Qed.

(** With the scales "enstrophy", "forcing" and "enstrophy_forcing" the viscosities do not depend on
    the units. *)
Theorem c140_units_partial : forall a b C0 vtype deltax deltak coef nk_f omega_0 epsilon,
  0 < a -> 0 < b -> 0 < C0 -> 0 < deltax -> 0 < coef -> 0 < omega_0 -> 0 < epsilon ->
  calcul_viscosity C0 "enstrophy" vtype [enstrophy_units a b omega_0] (a * deltax) (deltak / a) coef nk_f
  = option_map (map (visc_units a b)) (calcul_viscosity C0 "enstrophy" vtype [omega_0] deltax deltak coef nk_f)
  /\ calcul_viscosity C0 "forcing" vtype [rate_units a b epsilon] (a * deltax) (deltak / a) coef nk_f
  = option_map (map (visc_units a b)) (calcul_viscosity C0 "forcing" vtype [epsilon] deltax deltak coef nk_f)
  /\ calcul_viscosity C0 "enstrophy_forcing" vtype [enstrophy_units a b omega_0; rate_units a b epsilon]
       (a * deltax) (deltak / a) coef nk_f
  = option_map (map (visc_units a b))
      (calcul_viscosity C0 "enstrophy_forcing" vtype [omega_0; epsilon] deltax deltak coef nk_f).
Proof.
  intros a b C0 vtype deltax deltak coef nk_f o e Ha Hb HC Hx Hd Ho He.
  assert (HL : 0 < C0 * deltax / coef) by (apply Rmult_lt_0_compat; [now apply Rmult_lt_0_compat|now apply Rinv_0_lt_compat]).
  split; [|split]; apply calcul_visc_units; try assumption; unfold time_scale; cbn [String.eqb Ascii.eqb Bool.eqb option_map].
  - now rewrite t_enstrophy_units.
  - now rewrite t_epsilon_units.
  - rewrite t_enstrophy_units, t_epsilon_units by assumption.
    f_equal. unfold Rmin. destruct (Rle_dec _ _) as [H|H], (Rle_dec _ _) as [H'|H']; try reflexivity; exfalso.
    + apply H'. now apply Rmult_le_reg_l in H.
    + apply H. apply Rmult_le_compat_l; lra.
Qed.

(** With the scale "energy" the exact factor of the time scale is a^(1/3) b^(2/3) instead of b: the
    dissipation rate is estimated by 1.5 E / L instead of E ** 1.5 / L. *)
Theorem c140_energy : forall a b C0 vtype deltax deltak coef nk_f energy_0,
  0 < a -> 0 < b -> 0 < C0 -> 0 < deltax -> 0 < coef -> 0 < energy_0 -> 0 < deltak -> (0 < nk_f)%Z ->
  calcul_viscosity C0 "energy" vtype [energy_units a b energy_0] (a * deltax) (deltak / a) coef nk_f
  = option_map (map (visc_units a (Rpower a (1 / 3) * Rpower b (2 / 3))))
      (calcul_viscosity C0 "energy" vtype [energy_0] deltax deltak coef nk_f).
Proof.
  intros a b C0 vtype deltax deltak coef nk_f e Ha Hb HC Hx Hd He Hk Hn.
  assert (HL : 0 < C0 * deltax / coef) by (apply Rmult_lt_0_compat; [now apply Rmult_lt_0_compat|now apply Rinv_0_lt_compat]).
  assert (HG : 0 < PI / (deltak * IZR nk_f)).
  { apply Rmult_lt_0_compat; [apply PI_RGT_0|]. apply Rinv_0_lt_compat, Rmult_lt_0_compat; [exact Hk|]. now apply IZR_lt. }
  apply calcul_visc_units; try assumption; [apply Rmult_lt_0_compat; apply exp_pos|].
  unfold time_scale. cbn [String.eqb Ascii.eqb Bool.eqb option_map].
  set (L := C0 * deltax / coef) in *. set (G := PI / (deltak * IZR nk_f)) in *. f_equal.
  unfold energy_units, Rpower. rewrite <- !exp_plus. f_equal.
  assert (0 < a ^ 2) by now apply pow_lt. assert (0 < b ^ 2) by now apply pow_lt.
  assert (0 < e * a ^ 2) by now apply Rmult_lt_0_compat.
  assert (0 < e * a ^ 2 / b ^ 2) by (apply Rmult_lt_0_compat; [assumption|now apply Rinv_0_lt_compat]).
  rewrite !ln_quot by (first [assumption|apply Rmult_lt_0_compat; assumption || lra]).
  rewrite (ln_scal (e * a ^ 2 / b ^ 2)), (ln_scal e (3 / 2)) by (assumption || lra).
  rewrite ln_quot by assumption. rewrite (ln_scal e (a ^ 2)), !(ln_scal a), !ln_pow2 by assumption. field.
Qed.

(** The unit of time divided by 8: the viscosity is divided by 4 instead of 8. *)
Theorem c140_energy_refuted : exists a b C0 vtype deltax deltak coef nk_f energy_0 nu nu' visc visc',
  0 < a /\ 0 < b /\ 0 < energy_0
  /\ calcul_viscosity C0 "energy" vtype [energy_0] deltax deltak coef nk_f = Some (("nu_2"%string, 2%Z, nu) :: visc)
  /\ calcul_viscosity C0 "energy" vtype [energy_units a b energy_0] (a * deltax) (deltak / a) coef nk_f
     = Some (("nu_2"%string, 2%Z, nu') :: visc')
  /\ a ^ 2 / b * nu = nu / 8 /\ nu' = nu / 4 /\ 0 < nu.
Proof.
  set (r := calcul_viscosity 1 "energy" "laplacian" [1] 1 1 1 1).
  assert (Hr : exists nu visc, r = Some (("nu_2"%string, 2%Z, nu) :: visc) /\ 0 < nu).
  { exists (powerRZ (length_scale 1 1 1) 2
            / (Rpower (1 * (3 / 2) / (PI / (1 * IZR 1))) (- 1 / 3) * Rpower (length_scale 1 1 1) (2 / 3))).
    eexists. split; [reflexivity|]. assert (Hl : 0 < length_scale 1 1 1).
    { unfold length_scale, k_max. pose proof PI_RGT_0. apply Rmult_lt_0_compat; [lra|]. apply Rinv_0_lt_compat.
      replace (PI / 1 * 1) with PI by field. lra. }
    apply Rmult_lt_0_compat; [now apply powerRZ_lt|]. apply Rinv_0_lt_compat, Rmult_lt_0_compat; apply exp_pos. }
  destruct Hr as (nu & visc & Hr & Hnu).
  exists 1, 8, 1, "laplacian"%string, 1, 1, 1, 1%Z, 1, nu, (nu / 4), visc, (map (visc_units 1 (Rpower 1 (1 / 3) * Rpower 8 (2 / 3))) visc).
  split; [lra|]. split; [lra|]. split; [lra|]. split; [exact Hr|]. split.
  - rewrite c140_energy by (lra || lia). fold r. rewrite Hr. cbn [option_map map visc_units]. do 3 f_equal.
    assert (E1 : Rpower 1 (1 / 3) = 1) by (unfold Rpower; rewrite ln_1, Rmult_0_r; apply exp_0).
    assert (E8 : Rpower 8 (2 / 3) = 4).
    { replace 8 with (Rpower 2 3); [|replace 3 with (INR 3) by (cbn; ring); rewrite Rpower_pow by lra; cbn; ring].
      rewrite Rpower_mult. replace (3 * (2 / 3)) with (INR 2) by (cbn; field). rewrite Rpower_pow by lra. cbn. ring. }
    rewrite E1, E8, powerRZ_R1. field.
  - split; [field|]. split; [reflexivity|exact Hnu].
Qed.

Example c140_example :
  calcul_viscosity 1 "forcing" "laplacian" [rate_units 2 3 1] (2 * 1) (1 / 2) 1 1
  = option_map (map (visc_units 2 3)) (calcul_viscosity 1 "forcing" "laplacian" [1] 1 1 1 1).
Proof. refine (proj1 (proj2 (c140_units_partial 2 3 1 "laplacian" 1 1 1 1 1 1 _ _ _ _ _ _ _))); lra. Qed.

(** ** C141: the forcing rate *)

(** the rate given by the scale and the state *)
Definition rate_of (scale : string) (C0 kf energy omega : R) : R -> Prop := fun rate =>
  (scale = "unity"%string /\ rate = C0)
  \/ (scale = "energy"%string /\ rate = C0 * Rpower energy (3 / 2) * kf)
  \/ (scale = "enstrophy"%string /\ rate = C0 * Rpower omega (3 / 2) / kf ^ 2).

Lemma set_rate_spec strat N ms scale C0 kf s rate :
  set_forcing_rate strat N ms scale C0 kf s = Some rate <->
  rate_of scale C0 kf (compute_energy strat N ms s) (compute_enstrophy ms s) rate.
Proof.
  unfold set_forcing_rate, rate_of.
  destruct (String.eqb_spec scale "unity") as [->|H1].
  - split; [intros [= <-]; left; split; reflexivity|]. intros [[_ ->]|[[E _]|[E _]]]; [reflexivity|discriminate E|discriminate E].
  - destruct (String.eqb_spec scale "energy") as [->|H2].
    + split; [intros [= <-]; right; left; split; reflexivity|].
      intros [[E _]|[[_ ->]|[E _]]]; [discriminate E|reflexivity|discriminate E].
    + destruct (String.eqb_spec scale "enstrophy") as [->|H3].
      * split; [intros [= <-]; right; right; split; reflexivity|].
        intros [[E _]|[[E _]|[_ ->]]]; [discriminate E|discriminate E|reflexivity].
      * split; [discriminate|]. intros [[E _]|[[E _]|[E _]]]; easy.
Qed.

(** When "forcing" is not in init_field_scale, the forcing rate is the one of the initial state of
    the simulation. *)
Theorem c141_rate_partial : forall strat N ms deltax deltak coef p rate0 s s' rate visc,
  forcing_enable p = true -> contains "forcing" (init_field_scale p) = false ->
  preprocess strat N ms deltax deltak coef p rate0 s = Some (s', rate, visc) ->
  rate_of (forcing_scale p) (forcing_const p) (deltak * IZR ((nkmax_forcing p + nkmin_forcing p) / 2))
    (compute_energy strat N ms s') (compute_enstrophy ms s') rate.
Proof.
  intros strat N ms deltax deltak coef p rate0 s s' rate visc Hf Hc H. unfold preprocess in H.
  rewrite Hf, Hc in H. unfold obind at 1 in H.
  destruct (normalize_init_fields _ _ _ _ _ _ _ s) as [s1|]; [|discriminate H]. cbn [obind] in H.
  destruct (set_forcing_rate _ _ _ _ _ _ s1) as [r1|] eqn:E; [|discriminate H]. cbn [obind] in H.
  destruct (args_viscosity _ _ _ _) as [args|]; [|discriminate H]. cbn [obind] in H.
  destruct (calcul_viscosity _ _ _ _ _ _ _ _) as [v|]; [|discriminate H]. cbn [obind] in H.
  injection H as <- <- <-. apply set_rate_spec in E. exact E.
Qed.

(** The viscosities are computed from the final state and forcing rate. *)
Theorem c141_viscosity : forall strat N ms deltax deltak coef p rate0 s s' rate visc,
  preprocess strat N ms deltax deltak coef p rate0 s = Some (s', rate, visc) ->
  exists args,
    ((viscosity_scale p = "enstrophy"%string /\ args = [compute_enstrophy ms s'])
     \/ (viscosity_scale p = "energy"%string /\ args = [compute_energy strat N ms s'])
     \/ (viscosity_scale p = "enstrophy_forcing"%string /\ args = [compute_enstrophy ms s'; rate])
     \/ (viscosity_scale p = "forcing"%string /\ args = [rate]))
    /\ calcul_viscosity (viscosity_const p) (viscosity_scale p) (viscosity_type p) args deltax deltak coef
         ((nkmax_forcing p + nkmin_forcing p) / 2) = Some visc
    /\ (forcing_enable p = false -> rate = rate0).
Proof.
  intros strat N ms deltax deltak coef p rate0 s s' rate visc H. unfold preprocess in H.
  match type of H with obind ?x _ = _ => destruct x as [[s1 r1]|] eqn:E end; [|discriminate H].
  cbn [obind] in H. destruct (args_viscosity _ _ _ _) as [args|] eqn:Ea; [|discriminate H]. cbn [obind] in H.
  destruct (calcul_viscosity _ _ _ _ _ _ _ _) as [v|] eqn:Ev; [|discriminate H]. cbn [obind] in H.
  injection H as <- <- <-. exists args. split; [|split; [exact Ev|]].
  { unfold args_viscosity in Ea.
    destruct (String.eqb_spec (viscosity_scale p) "enstrophy") as [E1|_]; [left; split; congruence|].
    destruct (String.eqb_spec (viscosity_scale p) "energy") as [E1|_]; [right; left; split; congruence|].
    destruct (String.eqb_spec (viscosity_scale p) "enstrophy_forcing") as [E1|_]; [right; right; left; split; congruence|].
    destruct (String.eqb_spec (viscosity_scale p) "forcing") as [E1|_]; [right; right; right; split; congruence|discriminate]. }
  intros Hf. rewrite Hf in E. destruct (normalize_init_fields _ _ _ _ _ _ _ s); [|discriminate E].
  cbn [obind] in E. now injection E as _ <-.
Qed.

(** init_field_scale = "enstrophy_forcing" and forcing_scale = "enstrophy": the rate is the one of
    the fields before their normalisation; here the initial enstrophy is 4, its rate 8 and not 1. *)
Theorem c141_rate_refuted : exists N ms deltax deltak coef p rate0 s s' rate visc,
  forcing_enable p = true
  /\ preprocess false N ms deltax deltak coef p rate0 s = Some (s', rate, visc)
  /\ rate = 1 /\ compute_enstrophy ms s' = 4
  /\ ~ rate_of (forcing_scale p) (forcing_const p) (deltak * IZR ((nkmax_forcing p + nkmin_forcing p) / 2))
        (compute_energy false N ms s') (compute_enstrophy ms s') rate.
Proof.
  set (p := mkPparams true "enstrophy_forcing" 4 "laplacian" "forcing" 1 "enstrophy" 1 1 1).
  set (s := mkPstate (fun _ => RtoC (sqrt 2)) (fun _ => RtoC 0)). set (ms := [mkPmode 1 1 0]).
  assert (P1 : forall y, Rpower 1 y = 1) by (intros; unfold Rpower; rewrite ln_1, Rmult_0_r; apply exp_0).
  assert (Hs : enstrophy ms s = 1).
  { unfold enstrophy, sum_wn, ms, s. cbn [fold_right wgt rot_fft]. unfold cabs2. cbn [fst snd RtoC].
    rewrite square_sqrt by lra. field. }
  assert (Hkf : k_f 1 1 1 = 1) by (unfold k_f; cbn; ring).
  assert (Hrate : set_forcing_rate false 0 ms "enstrophy" 1 (k_f 1 1 1) s = Some 1).
  { unfold set_forcing_rate. cbn [String.eqb Ascii.eqb Bool.eqb]. rewrite enstrophy_spec, Hs, P1, Hkf. f_equal. field. }
  destruct (normalize_init_fields false 0 ms "enstrophy_forcing" 4 1 (k_f 1 1 1) s) as [s'|] eqn:En.
  2:{ unfold normalize_init_fields in En. cbn [String.eqb Ascii.eqb Bool.eqb] in En.
      destruct (Req_EM_T _ 0) in En; discriminate En. }
  assert (Hs' : compute_enstrophy ms s' = 4).
  { rewrite (proj2 (c138_enstrophy false 0 ms 4 1 (k_f 1 1 1) s s' ltac:(lra) ltac:(lra)) En), Hkf, !P1. ring. }
  destruct (preprocess false 0 ms 1 1 1 p 1 s) as [[[s1 r1] visc]|] eqn:E.
  - exists 0, ms, 1, 1, 1, p, 1, s, s1, r1, visc.
    assert (Eq : s1 = s' /\ r1 = 1).
    { unfold preprocess in E. cbn [forcing_enable init_field_scale init_field_const viscosity_type viscosity_scale
        viscosity_const forcing_scale forcing_const nkmax_forcing nkmin_forcing p] in E.
      change (contains "forcing" "enstrophy_forcing") with true in E. rewrite Hrate in E. cbn [obind] in E.
      rewrite En in E. cbn [obind] in E. destruct (args_viscosity _ _ _ _); [|discriminate E]. cbn [obind] in E.
      destruct (calcul_viscosity _ _ _ _ _ _ _ _); [|discriminate E]. cbn [obind] in E. now injection E as -> -> _. }
    destruct Eq as [-> ->]. split; [reflexivity|]. split; [exact E|]. split; [reflexivity|]. split; [exact Hs'|].
    unfold rate_of, p. cbn [forcing_scale forcing_const nkmax_forcing nkmin_forcing]. rewrite Hs'.
    intros [[H _]|[[H _]|[_ H]]]; [discriminate H|discriminate H|].
    assert (E4 : Rpower 4 (3 / 2) = 8).
    { replace 4 with (Rpower 2 2); [|replace 2 with (INR 2) at 2 by (cbn; ring); rewrite Rpower_pow by lra; cbn; ring].
      rewrite Rpower_mult. replace (2 * (3 / 2)) with (INR 3) by (cbn; field). rewrite Rpower_pow by lra. cbn. ring. }
    rewrite E4 in H. cbn in H. lra.
  - exfalso. unfold preprocess in E. cbn [forcing_enable init_field_scale init_field_const viscosity_type viscosity_scale
        viscosity_const forcing_scale forcing_const nkmax_forcing nkmin_forcing p] in E.
    change (contains "forcing" "enstrophy_forcing") with true in E. rewrite Hrate in E. cbn [obind] in E.
    rewrite En in E. discriminate E.
Qed.

Print Assumptions c138_energy_partial.
Print Assumptions c138_energy_strat.
Print Assumptions c138_enstrophy.
Print Assumptions c138_others.
Print Assumptions c138_energy_refuted.
Print Assumptions c139_frequencies.
Print Assumptions c140_units_partial.
Print Assumptions c140_energy.
Print Assumptions c140_energy_refuted.
Print Assumptions c141_rate_partial.
Print Assumptions c141_viscosity.
Print Assumptions c141_rate_refuted.
