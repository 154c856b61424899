(** C280: the figures of the energies of ns2d.strat. *)
From Coq Require Import Ascii String List ZArith Reals Lra Lia.
From Verif Require Import Dimless_Model StratEnergy_Model.
Import ListNotations.
Local Open Scope R_scope.

(** ** Specification *)

(** the forced length: the larger wave number of the first modes, times the mean of the limits of the forcing *)
Definition length_forced (n1 n2 Lx Ly : R) : R := 2 * PI / ((n2 + n1) / 2 * (2 * PI / Rmin Lx Ly)).

(** a change of the units: lengths times l, times times s *)
Definition in_units (l s : R) (a b : Z) (x : R) : R := powerRZ l a * powerRZ s b * x.

Lemma length_min : forall f Lx Ly, 0 < Lx -> 0 < Ly ->
  2 * PI / k_f f Lx Ly = length_forced (nkmin f) (nkmax f) Lx Ly.
Proof.
  intros f Lx Ly X Y; unfold length_forced, k_f.
  assert (K := PI_RGT_0).
  assert (E : Rmax (2 * PI / Lx) (2 * PI / Ly) = 2 * PI / Rmin Lx Ly); [| rewrite E; reflexivity].
  assert (I : forall a b, 0 < a -> 0 < b -> a <= b -> 2 * PI / b <= 2 * PI / a).
  { intros a b A B H; unfold Rdiv; apply Rmult_le_compat_l; [lra |]; apply Rinv_le_contravar; auto. }
  unfold Rmin; destruct (Rle_dec Lx Ly) as [G | G].
  - apply Rmax_left; apply I; auto.
  - apply Rmax_right; apply I; auto; lra.
Qed.

Lemma length_value : forall n1 n2 Lx Ly, 0 < n2 + n1 -> 0 < Lx -> 0 < Ly -> length_forced n1 n2 Lx Ly = Rmin Lx Ly / ((n2 + n1) / 2).
Proof.
  intros n1 n2 Lx Ly N X Y; unfold length_forced; assert (K := PI_RGT_0).
  assert (0 < Rmin Lx Ly) by (apply Rmin_glb_lt; auto).
  field; repeat split; lra.
Qed.

Lemma length_pos : forall n1 n2 Lx Ly, 0 < n2 + n1 -> 0 < Lx -> 0 < Ly -> 0 < length_forced n1 n2 Lx Ly.
Proof.
  intros n1 n2 Lx Ly N X Y; rewrite length_value by auto; apply Rdiv_lt_0_compat; [apply Rmin_glb_lt; auto | lra].
Qed.

(** the energy E_f: for a rate of ap_fft squared, E_f^7 = P^2 l^10; otherwise E_f^3 = P^2 l^6 *)
Theorem c280_value : forall f Lx Ly, 0 < forcing_rate f -> 0 < nkmax f + nkmin f -> 0 < Lx -> 0 < Ly ->
  let l := Rmin Lx Ly / ((nkmax f + nkmin f) / 2) in
  0 < E_f f Lx Ly /\ 0 < l
  /\ (key_forced f = Some "ap_fft"%string -> E_f f Lx Ly ^ 7 = forcing_rate f ^ 2 * l ^ 10)
  /\ (key_forced f <> Some "ap_fft"%string -> E_f f Lx Ly ^ 3 = forcing_rate f ^ 2 * l ^ 6).
Proof.
  intros f Lx Ly P N X Y l.
  assert (El : 2 * PI / k_f f Lx Ly = l) by (rewrite length_min, length_value by auto; reflexivity).
  assert (L : 0 < l) by (rewrite <- El, length_min by auto; apply length_pos; auto).
  unfold E_f; rewrite El.
  assert (A : forall x y n, 0 < x -> Rpower x y ^ n = Rpower x (y * INR n)).
  { intros x y n H; rewrite <- Rpower_pow by (unfold Rpower; apply exp_pos); rewrite Rpower_mult; reflexivity. }
  assert (B : forall x n, 0 < x -> Rpower x (INR n) = x ^ n) by (intros x n H; apply Rpower_pow; auto).
  split; [| split; auto].
  - destruct (match key_forced f with Some k => String.eqb k "ap_fft" | None => false end);
      (apply Rmult_lt_0_compat; [unfold Rpower; apply exp_pos |]); [unfold Rpower; apply exp_pos | apply pow_lt; auto].
  - split.
    + intros ->; rewrite String.eqb_refl, Rpow_mult_distr, !A by auto.
      replace (2 / 7 * INR 7) with (INR 2) by (cbn; lra).
      replace (10 / 7 * INR 7) with (INR 10) by (cbn; lra).
      rewrite !B by auto; reflexivity.
    + intros Hk.
      assert (Ek : (match key_forced f with Some k => String.eqb k "ap_fft" | None => false end) = false).
      { destruct (key_forced f) as [k |]; auto; apply String.eqb_neq; intros ->; auto. }
      rewrite Ek, Rpow_mult_distr, !A by auto.
      replace (2 / 3 * INR 3) with (INR 2) by (cbn; lra).
      rewrite B by auto; ring.
Qed.

(** E_f is the square of the velocity of the forced length at the frequency of the forcing used for gamma (C234),
    if the rate is not a constant rate of energy *)
Theorem c280_frequency_partial : forall f Lx Ly w, 0 < forcing_rate f -> 0 < nkmax f + nkmin f -> 0 < Lx -> 0 < Ly ->
  constant_rate_of f = None -> omega_af f Lx Ly = Some w ->
  E_f f Lx Ly = (w * (Rmin Lx Ly / ((nkmax f + nkmin f) / 2))) ^ 2.
Proof.
  intros f Lx Ly w P N X Y C W.
  assert (El : 2 * PI / k_f f Lx Ly = Rmin Lx Ly / ((nkmax f + nkmin f) / 2)) by (rewrite length_min, length_value by auto; reflexivity).
  unfold omega_af in W; rewrite C in W; fold (k_f f Lx Ly) in W; rewrite El in W; unfold E_f; rewrite El.
  assert (L : 0 < Rmin Lx Ly / ((nkmax f + nkmin f) / 2)) by (apply Rdiv_lt_0_compat; [apply Rmin_glb_lt; auto | lra]).
  set (l := Rmin Lx Ly / ((nkmax f + nkmin f) / 2)) in *.
  assert (T : forall x a b, a = b + b -> Rpower x a = Rpower x b ^ 2).
  { intros x a b ->; rewrite Rpower_plus; ring. }
  assert (R3 : Rpower (forcing_rate f) (2 / 3) = Rpower (forcing_rate f) (1 / 3) ^ 2) by (apply T; lra).
  destruct (key_forced f) as [k |].
  - destruct (String.eqb k "rot_fft") eqn:Er.
    + apply String.eqb_eq in Er; subst k; change (String.eqb "rot_fft" "ap_fft") with false; cbv iota.
      injection W as <-; rewrite R3; ring.
    + destruct (String.eqb k "ap_fft"); [| discriminate]; injection W as <-.
      rewrite (T (forcing_rate f) (2 / 7) (1 / 7)) by lra.
      assert (Hl : Rpower l (10 / 7) = (Rpower l (- (2 / 7)) * l) ^ 2).
      { rewrite (T l (10 / 7) (5 / 7)) by lra; f_equal.
        rewrite <- (Rpower_1 l) at 3 by auto; rewrite <- Rpower_plus; f_equal; lra. }
      rewrite Hl; ring.
  - injection W as <-; rewrite R3; ring.
Qed.

(** the units: [E_f] has the dimension of an energy for a rate of enstrophy (T^-3) and of ap_fft squared (L^2 T^-7) *)
Theorem c280_units_partial : forall l s f Lx Ly, 0 < l -> 0 < s -> 0 < forcing_rate f -> 0 < nkmax f + nkmin f -> 0 < Lx -> 0 < Ly ->
  let g P := mkForcing P (nkmin f) (nkmax f) (key_forced f) (constant_rate_of f) in
  (key_forced f = Some "ap_fft"%string ->
     E_f (g (in_units l s 2 (-7) (forcing_rate f))) (l * Lx) (l * Ly) = in_units l s 2 (-2) (E_f f Lx Ly))
  /\ (key_forced f <> Some "ap_fft"%string ->
     E_f (g (in_units l s 0 (-3) (forcing_rate f))) (l * Lx) (l * Ly) = in_units l s 2 (-2) (E_f f Lx Ly)).
Proof.
  intros l s f Lx Ly L S P N X Y g.
  assert (Ul : forall a b x, 0 < x -> 0 < in_units l s a b x).
  { intros a b x H; unfold in_units; repeat apply Rmult_lt_0_compat; try apply powerRZ_lt; auto. }
  assert (Hm : Rmin (l * Lx) (l * Ly) = l * Rmin Lx Ly).
  { unfold Rmin; destruct (Rle_dec (l * Lx) (l * Ly)) as [H | H], (Rle_dec Lx Ly) as [G | G]; auto; exfalso.
    - apply G; apply Rmult_le_reg_l with l; auto.
    - apply H; apply Rmult_le_compat_l; auto; lra. }
  assert (I : forall n x y, (0 < n)%nat -> 0 < x -> 0 < y -> x ^ n = y ^ n -> x = y).
  { intros n x y Hn Hx Hy E.
    assert (Rpower x (INR n) = Rpower y (INR n)) as F by (rewrite !Rpower_pow by auto; auto).
    apply ln_inv; auto; apply Rmult_eq_reg_l with (INR n); [| apply not_0_INR; lia].
    apply exp_inv; exact F. }
  split; intros K.
  - pose proof (c280_value f Lx Ly P N X Y) as (V1 & V2 & V3 & _).
    assert (X' : 0 < l * Lx) by (apply Rmult_lt_0_compat; auto).
    assert (Y' : 0 < l * Ly) by (apply Rmult_lt_0_compat; auto).
    pose proof (c280_value (g (in_units l s 2 (-7) (forcing_rate f))) (l * Lx) (l * Ly) (Ul _ _ _ P) N X' Y') as (W1 & _ & W3 & _).
    apply (I 7%nat); auto; [lia |].
    rewrite (W3 K); unfold g; cbn [nkmin nkmax forcing_rate]; rewrite Hm; unfold in_units.
    rewrite (Rpow_mult_distr _ (E_f f Lx Ly)), (V3 K).
    set (m := Rmin Lx Ly); set (a := nkmax f + nkmin f) in *; set (P0 := forcing_rate f) in *.
    replace (l * m / (a / 2)) with (l * (m / (a / 2))) by (field; lra).
    set (r := m / (a / 2)).
    replace (powerRZ l 2) with (l ^ 2) by reflexivity; replace (powerRZ s (-2)) with (/ s ^ 2) by reflexivity.
    replace (powerRZ s (-7)) with (/ s ^ 7) by reflexivity; field; lra.
  - pose proof (c280_value f Lx Ly P N X Y) as (V1 & V2 & _ & V3).
    assert (X' : 0 < l * Lx) by (apply Rmult_lt_0_compat; auto).
    assert (Y' : 0 < l * Ly) by (apply Rmult_lt_0_compat; auto).
    pose proof (c280_value (g (in_units l s 0 (-3) (forcing_rate f))) (l * Lx) (l * Ly) (Ul _ _ _ P) N X' Y') as (W1 & _ & _ & W3).
    apply (I 3%nat); auto.
    rewrite (W3 K); unfold g; cbn [nkmin nkmax forcing_rate]; rewrite Hm; unfold in_units.
    rewrite (Rpow_mult_distr _ (E_f f Lx Ly)), (V3 K).
    set (m := Rmin Lx Ly); set (a := nkmax f + nkmin f) in *; set (P0 := forcing_rate f) in *.
    replace (l * m / (a / 2)) with (l * (m / (a / 2))) by (field; lra).
    set (r := m / (a / 2)).
    replace (powerRZ l 2) with (l ^ 2) by reflexivity; replace (powerRZ s (-2)) with (/ s ^ 2) by reflexivity.
    replace (powerRZ s (-3)) with (/ s ^ 3) by reflexivity; replace (powerRZ l 0) with 1 by reflexivity; field; lra.
Qed.

(** the curves: all the records but the first, at their times, with the values divided by E_f *)
Theorem c280_curves_partial : forall f Lx Ly t E EK EA, length E = length t -> length EK = length t -> length EA = length t ->
  map fst (curves (plot_energy f Lx Ly t E EK EA)) = ["E"; "EK"; "EA"]%string
  /\ forall name q, In (name, q) [("E"%string, E); ("EK"%string, EK); ("EA"%string, EA)] ->
     exists c, In (name, c) (curves (plot_energy f Lx Ly t E EK EA)) /\ length c = (length t - 1)%nat
       /\ forall i, (S i < length t)%nat -> nth i c (0, 0) = (nth (S i) t 0, nth (S i) q 0 / E_f f Lx Ly).
Proof.
  intros f Lx Ly t E EK EA HE HK HA; split; [reflexivity |].
  assert (G : forall q e, length q = length t -> length (curve t q e) = (length t - 1)%nat
    /\ forall i, (S i < length t)%nat -> nth i (curve t q e) (0, 0) = (nth (S i) t 0, nth (S i) q 0 / e)).
  { intros q e Hq; unfold curve; destruct t as [| t0 t], q as [| q0 q]; try discriminate; cbn [tl length] in *.
    - split; auto; intros i Hi; lia.
    - injection Hq as Hq; split.
      + rewrite combine_length, map_length; lia.
      + intros i Hi; rewrite combine_nth by (rewrite map_length; auto); cbn [nth]; f_equal.
        rewrite (nth_indep _ 0 (0 / e)) by (rewrite map_length; lia).
        exact (map_nth (fun x => x / e) q 0 i). }
  intros name q I; exists (curve t q (E_f f Lx Ly)); split; [| apply G].
  - cbn in I |- *; destruct I as [I | [I | [I | []]]]; injection I as <- <-; auto.
  - cbn in I; destruct I as [I | [I | [I | []]]]; injection I as <- <-; auto.
Qed.

(** the modes of shear: the last curve is the difference of the two first *)
Theorem c280_shear : forall t E Eshear i, length E = length t -> length Eshear = length t -> (i < length t)%nat ->
  exists a b c, map snd (plot_energy_shear_modes t E Eshear) = [a; b; c]
  /\ nth i a (0, 0) = (nth i t 0, nth i E 0) /\ nth i b (0, 0) = (nth i t 0, nth i Eshear 0)
  /\ nth i c (0, 0) = (nth i t 0, nth i E 0 - nth i Eshear 0).
Proof.
  intros t E Es i HE HS Hi.
  exists (combine t E), (combine t Es), (combine t (map (fun p => fst p - snd p) (combine E Es))); split; [reflexivity |].
  rewrite !combine_nth by (try rewrite map_length, combine_length; lia).
  split; auto; split; auto; f_equal.
  rewrite (nth_indep _ 0 ((fun p : R * R => fst p - snd p) (0, 0))) by (rewrite map_length, combine_length; lia).
  rewrite (map_nth (fun p : R * R => fst p - snd p)), combine_nth by lia; reflexivity.
Qed.

(** the axis is labelled t/t_f but the times are not divided by a time of the forcing: with other units of time the
    same simulation gives other abscissas; and the energy of a constant rate of energy is divided by a number which is
    not an energy *)
Theorem c280_refuted :
  (exists f Lx Ly t E EK EA s, 0 < s /\ 0 < forcing_rate f /\ 0 < Lx /\ 0 < Ly /\ 0 < nkmax f + nkmin f
     /\ let g := mkForcing (in_units 1 s 0 (-3) (forcing_rate f)) (nkmin f) (nkmax f) (key_forced f) (constant_rate_of f) in
        let u := in_units 1 s 2 (-2) in
        xlabel (plot_energy f Lx Ly t E EK EA) = "$t/t_f$"%string
        /\ plot_energy g Lx Ly (map (Rmult s) t) (map u E) (map u EK) (map u EA) <> plot_energy f Lx Ly t E EK EA)
  /\ (exists f Lx Ly l, 0 < l /\ 0 < forcing_rate f /\ 0 < Lx /\ 0 < Ly /\ 0 < nkmax f + nkmin f
     /\ constant_rate_of f = Some "energy"%string
     /\ E_f (mkForcing (in_units l 1 2 (-3) (forcing_rate f)) (nkmin f) (nkmax f) (key_forced f) (constant_rate_of f)) (l * Lx) (l * Ly)
        <> in_units l 1 2 (-2) (E_f f Lx Ly)).
Proof.
  split.
  - exists (mkForcing 1 1 1 None None), 1, 1, [0; 1], [1; 1], [1; 1], [0; 0], 2.
    split; [lra |]; split; [cbn; lra |]; split; [lra |]; split; [lra |]; split; [cbn; lra |].
    intros g u; split; [reflexivity |]; intros H.
    assert (F : map (fun c => map fst (snd c)) (curves (plot_energy g 1 1 (map (Rmult 2) [0; 1]) (map u [1; 1]) (map u [1; 1]) (map u [0; 0])))
      = map (fun c => map fst (snd c)) (curves (plot_energy (mkForcing 1 1 1 None None) 1 1 [0; 1] [1; 1] [1; 1] [0; 0]))) by (rewrite H; reflexivity).
    cbn in F; injection F as F _ _; lra.
  - set (f := mkForcing 1 1 1 None (Some "energy"%string)).
    exists f, 1, 1, 2; cbn [f forcing_rate nkmin nkmax]; split; [lra |]; split; [lra |]; split; [lra |]; split; [lra |]; split; [lra |].
    split; [reflexivity |]; intros H.
    assert (P1 : 0 < forcing_rate f) by (cbn; lra).
    assert (N1 : 0 < nkmax f + nkmin f) by (cbn; lra).
    pose proof (c280_value f 1 1 P1 N1 Rlt_0_1 Rlt_0_1) as (_ & _ & _ & V).
    set (g := mkForcing (in_units 2 1 2 (-3) 1) 1 1 None (Some "energy"%string)) in *.
    assert (P2 : 0 < forcing_rate g) by (cbn [g forcing_rate]; unfold in_units; repeat apply Rmult_lt_0_compat; try apply powerRZ_lt; lra).
    assert (H2 : 0 < 2 * 1) by lra.
    pose proof (c280_value g (2 * 1) (2 * 1) P2 N1 H2 H2) as (_ & _ & _ & W).
    assert (K : (None : option string) <> Some "ap_fft"%string) by discriminate.
    specialize (V K); specialize (W K).
    change (E_f g (2 * 1) (2 * 1) = in_units 2 1 2 (-2) (E_f f 1 1)) in H; rewrite H in W.
    unfold in_units at 1 in W; rewrite (Rpow_mult_distr _ (E_f f 1 1)), V in W.
    unfold Rmin in W; destruct (Rle_dec 1 1) as [_ | Q], (Rle_dec (2 * 1) (2 * 1)) as [_ | Q']; try lra.
    cbn [g f forcing_rate nkmin nkmax] in W; unfold in_units in W.
    change (powerRZ 2 2) with (2 ^ 2) in W.
    change (powerRZ 1 (-2)) with (/ 1 ^ 2) in W.
    change (powerRZ 1 (-3)) with (/ 1 ^ 3) in W.
    field_simplify in W; lra.
Qed.

(** the hypotheses are met *)
Example ex_c280 : let f := mkForcing 8 3 5 (Some "rot_fft"%string) None in
  0 < forcing_rate f /\ 0 < nkmax f + nkmin f /\ omega_af f 4 12 = Some (Rpower 8 (1 / 3))
  /\ length_forced 3 5 4 12 = 1 /\ key_forced f <> Some "ap_fft"%string /\ constant_rate_of f = None.
Proof.
  cbn [forcing_rate nkmax nkmin key_forced constant_rate_of]; split; [lra |]; split; [lra |]; split; [reflexivity |].
  split; [| split; [discriminate | reflexivity]].
  rewrite length_value by lra; unfold Rmin; destruct (Rle_dec 4 12); lra.
Qed.
Example ex_c280_curves : length (curve [0; 1; 2] [1; 4; 9] 2) = 2%nat /\ curve [0; 1; 2] [1; 4; 9] 2 = [(1, 4 / 2); (2, 9 / 2)]
  /\ map snd (plot_energy_shear_modes [0; 1] [3; 4] [1; 1]) = [[(0, 3); (1, 4)]; [(0, 1); (1, 1)]; [(0, 3 - 1); (1, 4 - 1)]].
Proof. split; [| split]; reflexivity. Qed.

Print Assumptions c280_value.
Print Assumptions c280_frequency_partial.
Print Assumptions c280_units_partial.
Print Assumptions c280_curves_partial.
Print Assumptions c280_shear.
Print Assumptions c280_refuted.
