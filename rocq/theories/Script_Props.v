(** C170: the domain and the viscosities of the script; C171: its forcing region; C172: its time scales; C173: the plates. *)
From Coq Require Import String Reals List ZArith Lra Lia Psatz.
From Verif Require Import Script_Model.
Import ListNotations.
Local Open Scope R_scope.

(** ** Roundings *)

Lemma round_even_near x : Rabs (IZR (round_even x) - x) <= 1 / 2.
Proof.
  unfold round_even. pose proof (base_fp x) as [B1 B2]. assert (E : x = IZR (Int_part x) + frac_part x) by (unfold frac_part; ring).
  destruct (Rlt_dec (frac_part x) (1 / 2)); [|destruct (Rlt_dec (1 / 2) (frac_part x)); [|destruct (Z.even (Int_part x))]]; rewrite ?plus_IZR; apply Rabs_le; lra.
Qed.
Lemma abs_le a b : Rabs a <= b -> - b <= a <= b.
Proof. intros H. pose proof (Rle_abs a). pose proof (Rle_abs (- a)) as K. rewrite Rabs_Ropp in K. lra. Qed.
Lemma round_even_mono x y : x <= y -> (round_even x <= round_even y)%Z.
Proof.
  intros H. pose proof (abs_le _ _ (round_even_near x)) as A. pose proof (abs_le _ _ (round_even_near y)) as B.
  destruct (Z_le_gt_dec (round_even x) (round_even y)) as [G|G]; [exact G|exfalso].
  assert (K : (round_even y + 1 <= round_even x)%Z) by lia. apply IZR_le in K. rewrite plus_IZR in K.
  assert (x = y) by lra. subst. lra.
Qed.
Lemma round3_near x : Rabs (round3 x - x) <= 5 / 10000.
Proof. unfold round3. pose proof (abs_le _ _ (round_even_near (x * 1000))) as A. apply Rabs_le. split; apply Rmult_le_reg_r with 1000; lra. Qed.
Lemma round3_mono x y : x <= y -> round3 x <= round3 y.
Proof. intros H. unfold round3. pose proof (IZR_le _ _ (round_even_mono (x * 1000) (y * 1000) ltac:(lra))). lra. Qed.
Lemma round_even_IZR n : round_even (IZR n) = n.
Proof.
  pose proof (abs_le _ _ (round_even_near (IZR n))) as A.
  assert (B1 : IZR (round_even (IZR n)) < IZR (n + 1)) by (rewrite plus_IZR; lra). assert (B2 : IZR (n - 1) < IZR (round_even (IZR n))) by (rewrite minus_IZR; lra).
  apply lt_IZR in B1, B2. lia.
Qed.
Lemma round3_IZR n : round3 (IZR n) = IZR n.
Proof. unfold round3. rewrite <- mult_IZR, round_even_IZR, mult_IZR. field. Qed.

(** ** Errors *)

Lemma div_inl a b c : div a b = inl c <-> b <> 0 /\ c = a / b.
Proof. unfold div. destruct (Req_EM_T b 0); split; [discriminate|tauto|intros H; injection H as <-; auto|intros [_ ->]; reflexivity]. Qed.
Lemma div_ok a b : b <> 0 -> div a b = inl (a / b).
Proof. intros H. now apply div_inl. Qed.
Lemma bind_inl {A B} (x : A + error) (f : A -> B + error) b : bind x f = inl b <-> exists a, x = inl a /\ f a = inl b.
Proof. destruct x; cbn; split; [eauto|intros (a' & H & K); injection H as <-; exact K|discriminate|intros (a' & H & _); discriminate]. Qed.
Lemma asin_inl x y : math_asin x = inl y <-> Rabs x <= 1 /\ y = asin x.
Proof. unfold math_asin. destruct (Rlt_dec 1 (Rabs x)); split; [discriminate|intros [H _]; lra|intros H; injection H as <-; split; [lra|reflexivity]|intros [_ ->]; reflexivity]. Qed.
Lemma sin_math_asin x : Rabs x <= 1 -> sin (asin x) = x.
Proof. intros H. apply sin_asin. now apply abs_le. Qed.

Lemma create_inl a p : create_params a = inl p <->
  (1 <= ratio_nh_nz a)%Z /\ nh_forcing a <> 0%Z /\ a_N a <> 0 /\ Rabs (a_F a) <= 1 /\ a_F a <> 0 /\ Rabs (delta_F a) <= 1 /\
  let lz := IZR (nh_forcing a) / IZR (ratio_nh_nz a) in let delta_kz := 2 * PI / lz in let kf := 2 * PI / a_F a in
  exists nu nu4 key, viscosity a = inl nu /\ hyper_viscosity a nu delta_kz = inl nu4 /\ keys_versus_kind (forced_field a) = Some key /\
  p = mkParams (Z.of_nat (a_nz a) * ratio_nh_nz a) (Z.of_nat (a_nz a) * ratio_nh_nz a) (a_nz a) (IZR (nh_forcing a)) (IZR (nh_forcing a)) lz (a_N a) nu nu4 key (lz / 2)
        (Rmax 0 (round3 (kf * ratio_kfmin_kf a / delta_kz))) (Rmin (INR (a_nz a / 2)) (round3 (kf * ratio_kfmax_kf a / delta_kz)))
        (Rmin (1 / 10) (2 * PI / a_N a / 16)) (2 * PI / (a_N a * a_F a)) (round3 (asin (a_F a))) (round3 (asin (delta_F a)))
        (if spatiotemporal_spectra a then Some (2 * PI / a_N a / 8) else None) ((16 * ratio_nh_nz a)%Z, (16 * ratio_nh_nz a)%Z, 16%Z).
Proof.
  unfold create_params. destruct (Z.ltb_spec (ratio_nh_nz a) 1) as [R1|R1].
  { split; [discriminate|]. intros (H & _). lia. }
  assert (RR : IZR (ratio_nh_nz a) <> 0) by (intros H; apply eq_IZR_R0 in H; lia).
  assert (LZ : IZR (nh_forcing a) / IZR (ratio_nh_nz a) <> 0 <-> nh_forcing a <> 0%Z).
  { split; [intros H K; apply H; rewrite K; unfold Rdiv; ring|]. intros H K. apply H. apply eq_IZR_R0. apply Rmult_integral in K as [K|K]; [exact K|]. exfalso. now apply Rinv_neq_0_compat in K. }
  split.
  - intros H. apply bind_inl in H as (dk & D1 & H). apply div_inl in D1 as [D1 ->]. apply bind_inl in H as (fh & D2 & H). apply div_inl in D2 as [D2 _].
    apply bind_inl in H as (nu & V & H). apply bind_inl in H as (nu4 & V4 & H). destruct (keys_versus_kind (forced_field a)) as [key|] eqn:K; [|discriminate].
    apply bind_inl in H as (an & A1 & H). apply asin_inl in A1 as [A1 ->]. apply bind_inl in H as (da & A2 & H). apply asin_inl in A2 as [A2 ->].
    apply bind_inl in H as (kf & A3 & H). apply div_inl in A3 as [A3 ->]. rewrite sin_math_asin in * by exact A1. apply bind_inl in H as (tc & A4 & H). apply div_inl in A4 as [_ ->].
    injection H as <-. split; [lia|]. split; [now apply LZ|]. split; [exact D2|]. split; [exact A1|]. split; [exact A3|]. split; [exact A2|].
    exists nu, nu4, key. split; [exact V|]. split; [exact V4|]. split; [reflexivity|]. replace (2 * PI / 1) with (2 * PI) by field. reflexivity.
  - intros (_ & H1 & H2 & H3 & H4 & H5 & nu & nu4 & key & V & V4 & K & ->).
    cbn zeta. rewrite div_ok by (now apply LZ). cbn [bind]. rewrite div_ok by exact H2. cbn [bind]. rewrite V. cbn [bind]. rewrite V4. cbn [bind]. rewrite K.
    rewrite (proj2 (asin_inl (a_F a) _) (conj H3 eq_refl)). cbn [bind]. rewrite (proj2 (asin_inl (delta_F a) _) (conj H5 eq_refl)). cbn [bind].
    rewrite sin_math_asin by exact H3. rewrite div_ok by exact H4. cbn [bind]. rewrite div_ok by (apply Rmult_integral_contrapositive_currified; assumption). cbn [bind].
    replace (2 * PI / 1) with (2 * PI) by field. reflexivity.
Qed.

(** ** C170 *)

(** the grid has the same step in the three directions; Lx is nh_forcing times the forced length, 1 *)
Theorem c170_domain : forall a p, create_params a = inl p ->
  nx p = ny p /\ nx p = (Z.of_nat (nz p) * ratio_nh_nz a)%Z /\ nz p = a_nz a /\ (nz p <= Z.to_nat (nx p))%nat
  /\ Lx p = IZR (nh_forcing a) /\ Ly p = Lx p /\ N p = a_N a /\ noise_length p = Lz p / 2
  /\ ((0 < nz p)%nat -> Lx p / IZR (nx p) = Lz p / INR (nz p)) /\ Lz p * IZR (ratio_nh_nz a) = Lx p.
Proof.
  intros a p H. apply create_inl in H as (R1 & H1 & _ & _ & _ & _ & nu & nu4 & key & _ & _ & _ & ->). cbn [nx ny nz Lx Ly Lz N noise_length].
  assert (RR : IZR (ratio_nh_nz a) <> 0) by (intros H; apply eq_IZR_R0 in H; lia).
  split; [reflexivity|]. split; [reflexivity|]. split; [reflexivity|]. split; [nia|]. split; [reflexivity|]. split; [reflexivity|]. split; [reflexivity|]. split; [reflexivity|]. split.
  - intros P. rewrite mult_IZR, <- INR_IZR_INZ. assert (INR (a_nz a) <> 0) by (apply not_0_INR; lia). field. split; assumption.
  - field. exact RR.
Qed.

(** the viscosity: the given one, or the one of the given buoyancy Reynolds number, 5 by default; not both *)
Theorem c170_viscosity : forall a, (forall p, create_params a = inl p ->
    match a_nu a, a_Rb a with
    | Some nu, None => nu_2 p = nu
    | None, Some Rb => 1 / (nu_2 p * N p ^ 2) = Rb
    | None, None => 1 / (nu_2 p * N p ^ 2) = 5
    | Some _, Some _ => False
    end
    /\ match a_nu4 a, a_Rb4 a with
    | Some nu4, None => nu_4 p = nu4
    | None, Some Rb4 => 1 / (nu_4 p * N p ^ 4) = Rb4
    | None, None => let k_max := coef_dealiasing a * (PI / Lz p) * INR (nz p) in
        (0 < nu_2 p -> 1 < Rpower (nu_2 p) (3 / 4) * k_max -> nu_4 p = 0)
        /\ (0 < nu_2 p -> 0 < k_max -> Rpower (nu_2 p) (3 / 4) * k_max <= 1 -> nu_4 p * Rpower k_max (10 / 3) = coef_nu4 a)
        /\ (nu_2 p = 0 -> 0 < k_max -> nu_4 p * Rpower k_max (10 / 3) = coef_nu4 a)
    | Some _, Some _ => False
    end)
  /\ ((ratio_nh_nz a < 1)%Z -> create_params a = inr ValueError)
  /\ (forall nu Rb, a_nu a = Some nu -> a_Rb a = Some Rb -> forall p, create_params a <> inl p)
  /\ (forall nu4 Rb4, a_nu4 a = Some nu4 -> a_Rb4 a = Some Rb4 -> forall p, create_params a <> inl p).
Proof.
  intros a. split; [|split; [|split]].
  - intros p H. apply create_inl in H as (R1 & H1 & HN & _ & _ & _ & nu & nu4 & key & V & V4 & _ & ->). cbn [nu_2 nu_4 N Lz nz]. split.
    + unfold viscosity in V. destruct (a_nu a) as [n|], (a_Rb a) as [r|]; [discriminate| | |].
      * destruct (Req_EM_T n 0); [injection V as <-; reflexivity|]. apply bind_inl in V as (x & _ & V). now injection V.
      * apply div_inl in V as [V ->]. assert (r <> 0) by (intros ->; apply V; ring). field. split; assumption.
      * apply div_inl in V as [V ->]. field. exact HN.
    + unfold hyper_viscosity in V4. destruct (a_nu4 a) as [n|], (a_Rb4 a) as [r|]; [discriminate| | |].
      * now injection V4.
      * apply div_inl in V4 as [V4 ->]. assert (r <> 0) by (intros ->; apply V4; ring). field. split; assumption.
      * assert (RR : IZR (ratio_nh_nz a) <> 0) by (intros H; apply eq_IZR_R0 in H; lia). assert (NH : IZR (nh_forcing a) <> 0) by (intros H; apply eq_IZR_R0 in H; lia).
        set (lz := IZR (nh_forcing a) / IZR (ratio_nh_nz a)) in *. assert (LZ : lz <> 0) by (unfold lz; apply Rmult_integral_contrapositive_currified; [exact NH|now apply Rinv_neq_0_compat]).
        set (k_max := coef_dealiasing a * (PI / lz) * INR (a_nz a)).
        assert (EK : coef_dealiasing a * (2 * PI / lz) * INR (a_nz a) / 2 = k_max) by (unfold k_max; field; exact LZ).
        rewrite EK in V4. apply bind_inl in V4 as (eta & E & V4). unfold power in E. replace (nu ^ 3 / 1) with (nu ^ 3) in E by field.
        assert (EP : 0 < nu -> eta = Rpower nu (3 / 4)).
        { intros P. assert (P3 : 0 < nu ^ 3) by now apply pow_lt. destruct (Rlt_dec (nu ^ 3) 0); [lra|]. destruct (Req_EM_T (nu ^ 3) 0); [lra|]. assert (E' : eta = Rpower (nu ^ 3) (1 / 4)) by congruence. rewrite E'.
          rewrite <- (Rpower_pow 3 nu P). rewrite Rpower_mult. f_equal. cbn [INR]. field. }
        assert (E0 : nu = 0 -> eta = 0).
        { intros ->. replace (0 ^ 3) with 0 in E by ring. destruct (Rlt_dec 0 0); [lra|]. destruct (Req_EM_T 0 0); [|congruence]. now injection E. }
        assert (S : 0 < k_max -> eta * k_max <= 1 -> nu4 * Rpower k_max (10 / 3) = coef_nu4 a).
        { intros PK L. destruct (Rlt_dec 1 (eta * k_max)); [lra|]. apply bind_inl in V4 as (kp & K & V4). unfold power in K. destruct (Rlt_dec k_max 0); [lra|]. destruct (Req_EM_T k_max 0); [lra|]. injection K as <-.
          apply bind_inl in V4 as (n4 & D & V4). apply bind_inl in V4 as (z & _ & V4). injection V4 as <-. apply div_inl in D as [D ->]. field. exact D. }
        split; [|split].
        -- intros P L. rewrite EP in V4 by exact P. destruct (Rlt_dec 1 (Rpower nu (3 / 4) * k_max)); [now injection V4|contradiction].
        -- intros P PK L. rewrite EP in S by exact P. now apply S.
        -- intros Z PK. apply S; [exact PK|]. rewrite (E0 Z). lra.
  - intros H. unfold create_params. apply Z.ltb_lt in H. now rewrite H.
  - intros n r E1 E2 p H. apply create_inl in H as (_ & _ & _ & _ & _ & _ & nu & nu4 & key & V & _). unfold viscosity in V. rewrite E1, E2 in V. discriminate.
  - intros n r E1 E2 p H. apply create_inl in H as (_ & _ & _ & _ & _ & _ & nu & nu4 & key & _ & V4 & _). unfold hyper_viscosity in V4. rewrite E1, E2 in V4. discriminate.
Qed.

(** when the script accepts its arguments *)
Theorem c170_accepted_partial : forall a, (1 <= ratio_nh_nz a)%Z -> (1 <= nh_forcing a)%Z -> (1 <= a_nz a)%nat -> 0 < a_N a -> 0 < Rabs (a_F a) <= 1 -> Rabs (delta_F a) <= 1 ->
  0 < coef_dealiasing a -> coef_nu4 a <> 0 ->
  (a_nu a = None \/ a_Rb a = None) -> (a_nu4 a = None \/ a_Rb4 a = None) ->
  (forall nu, a_nu a = Some nu -> 0 <= nu) -> (forall r, a_Rb a = Some r -> 0 < r) -> (forall r, a_Rb4 a = Some r -> r <> 0) ->
  keys_versus_kind (forced_field a) <> None -> exists p, create_params a = inl p.
Proof.
  intros a R1 NH NZ HN HF HD CD C4 O1 O2 Pnu PRb PRb4 HK.
  destruct (keys_versus_kind (forced_field a)) as [key|] eqn:K; [|congruence].
  assert (V : exists nu, viscosity a = inl nu /\ 0 <= nu).
  { unfold viscosity. assert (N2 : 0 < a_N a ^ 2) by now apply pow_lt. destruct (a_nu a) as [n|], (a_Rb a) as [r|].
    - destruct O1; discriminate.
    - specialize (Pnu n eq_refl). destruct (Req_EM_T n 0); [exists n; auto|]. rewrite div_ok by nra. exists n. auto.
    - specialize (PRb r eq_refl). rewrite div_ok by nra. eexists. split; [reflexivity|]. apply Rlt_le, Rdiv_lt_0_compat; [lra|]. now apply Rmult_lt_0_compat.
    - rewrite div_ok by nra. eexists. split; [reflexivity|]. apply Rlt_le, Rdiv_lt_0_compat; [lra|]. apply Rmult_lt_0_compat; [lra|exact N2]. }
  destruct V as (nu & V & Pn).
  set (lz := IZR (nh_forcing a) / IZR (ratio_nh_nz a)).
  assert (LZ : 0 < lz) by (apply Rdiv_lt_0_compat; apply IZR_lt; lia).
  assert (V4 : exists nu4, hyper_viscosity a nu (2 * PI / lz) = inl nu4).
  { unfold hyper_viscosity. assert (N4 : 0 < a_N a ^ 4) by now apply pow_lt. destruct (a_nu4 a) as [n|], (a_Rb4 a) as [r|].
    - destruct O2; discriminate.
    - eauto.
    - specialize (PRb4 r eq_refl). rewrite div_ok; [eauto|]. apply Rmult_integral_contrapositive_currified; [exact PRb4|lra].
    - assert (E : exists eta, power (nu ^ 3 / 1) (1 / 4) = inl eta). { unfold power. assert (0 <= nu ^ 3) by now apply pow_le. destruct (Rlt_dec (nu ^ 3 / 1) 0); [lra|]. destruct (Req_EM_T (nu ^ 3 / 1) 0); eauto. }
      destruct E as (eta & ->). cbn [bind]. cbn zeta. set (k_max := coef_dealiasing a * (2 * PI / lz) * INR (a_nz a) / 2).
      assert (PK : 0 < k_max). { unfold k_max. assert (0 < INR (a_nz a)) by (apply lt_0_INR; lia). pose proof PI_RGT_0. assert (0 < 2 * PI / lz) by (apply Rdiv_lt_0_compat; lra). assert (0 < coef_dealiasing a * (2 * PI / lz) * INR (a_nz a)) by (apply Rmult_lt_0_compat; [now apply Rmult_lt_0_compat|assumption]). lra. }
      destruct (Rlt_dec 1 (eta * k_max)); [eauto|]. unfold power at 1. destruct (Rlt_dec k_max 0); [lra|]. destruct (Req_EM_T k_max 0); [lra|]. cbn [bind].
      assert (PP : 0 < Rpower k_max (10 / 3)) by apply exp_pos. rewrite div_ok by lra. cbn [bind]. rewrite div_ok; [cbn [bind]; eauto|].
      apply Rmult_integral_contrapositive_currified; [|lra]. apply Rmult_integral_contrapositive_currified; [lra|]. apply Rinv_neq_0_compat. lra. }
  destruct V4 as (nu4 & V4). eexists. apply create_inl. split; [exact R1|]. split; [lia|]. split; [lra|]. split; [lra|]. split; [intros E; rewrite E, Rabs_R0 in HF; lra|]. split; [exact HD|].
  cbn zeta. exists nu, nu4, key. split; [exact V|]. split; [exact V4|]. split; [exact K|reflexivity].
Qed.
Example c170_default : exists p, create_params default_args = inl p.
Proof. apply c170_accepted_partial; cbn; try lra; try lia; try (now left); try discriminate; rewrite Rabs_pos_eq; lra. Qed.

(** --coef-nu4 0, no hyper viscosity: a division by zero, for the printed Reynolds number *)
Theorem c170_coef_refuted : exists a, coef_nu4 a = 0 /\ (exists p, create_params (mkArgs (a_nz a) (ratio_nh_nz a) (a_N a) (a_nu a) (Some 0) (a_Rb a) (a_Rb4 a) (coef_nu4 a) (forced_field a) (nh_forcing a)
    (ratio_kfmin_kf a) (ratio_kfmax_kf a) (a_F a) (delta_F a) (coef_dealiasing a) (spatiotemporal_spectra a)) = inl p) /\ create_params a = inr ZeroDivisionError.
Proof.
  exists (mkArgs 32 4 10 (Some 0) None None None 0 "polo" 3 (1 / 2) 2 (3 / 10) (1 / 10) (8 / 10) false). split; [reflexivity|]. split.
  - eexists. apply create_inl. cbn [a_nz ratio_nh_nz a_N a_nu a_nu4 a_Rb a_Rb4 coef_nu4 forced_field nh_forcing ratio_kfmin_kf ratio_kfmax_kf a_F delta_F coef_dealiasing spatiotemporal_spectra].
    split; [lia|]. split; [lia|]. split; [lra|]. split; [rewrite Rabs_pos_eq; lra|]. split; [lra|]. split; [rewrite Rabs_pos_eq; lra|]. cbn zeta. exists 0, 0, "vp_fft"%string.
    split; [|split; [|split; reflexivity]]; cbn; destruct (Req_EM_T 0 0); try congruence; reflexivity.
  - unfold create_params. cbn [a_nz ratio_nh_nz nh_forcing a_N]. change (4 <? 1)%Z with false. cbn iota zeta. pose proof PI_RGT_0 as P.
    rewrite div_ok by lra. cbn [bind]. rewrite div_ok by lra. cbn [bind]. unfold viscosity. cbn [a_nu a_Rb]. destruct (Req_EM_T 0 0); [|congruence]. cbn [bind].
    unfold hyper_viscosity. cbn [a_nu4 a_Rb4 coef_nu4 coef_dealiasing a_nz a_N]. unfold power at 1. replace (0 ^ 3 / 1) with 0 by field. destruct (Rlt_dec 0 0); [lra|]. destruct (Req_EM_T 0 0); [|congruence]. cbn [bind].
    destruct (Rlt_dec 1 _); [exfalso; lra|]. unfold power. set (k := 8 / 10 * _ * _ / 2). assert (0 < k).
    { unfold k. assert (0 < INR 32) by (apply lt_0_INR; lia). assert (0 < 2 * PI / (3 / 4)) by (apply Rdiv_lt_0_compat; lra). assert (0 < 8 / 10 * (2 * PI / (3 / 4)) * INR 32) by (apply Rmult_lt_0_compat; [lra|assumption]). lra. }
    destruct (Rlt_dec k 0); [lra|]. destruct (Req_EM_T k 0); [lra|]. cbn [bind]. assert (0 < Rpower k (10 / 3)) by apply exp_pos. rewrite div_ok by lra. cbn [bind].
    unfold div. destruct (Req_EM_T _ 0) as [|NE]; [reflexivity|]. exfalso. apply NE. unfold Rdiv. ring.
Qed.

(** ** C171 *)

(** the limits of the forced wavenumbers, before and after the rounding; the horizontal wavenumber of the centre is 2 pi *)
Theorem c171_region : forall a p, create_params a = inl p ->
  let delta_kz := 2 * PI / Lz p in let kf := 2 * PI / a_F a in
  kf * sin (asin (a_F a)) = 2 * PI /\ 2 * PI / (2 * PI / Lx p) = IZR (nh_forcing a)
  /\ (0 <= kf * ratio_kfmin_kf a / delta_kz -> Rabs (nkmin_forcing p - kf * ratio_kfmin_kf a / delta_kz) <= 5 / 10000)
  /\ (kf * ratio_kfmax_kf a / delta_kz <= INR (nz p / 2) -> Rabs (nkmax_forcing p - kf * ratio_kfmax_kf a / delta_kz) <= 5 / 10000)
  /\ 0 <= nkmin_forcing p /\ nkmax_forcing p <= INR (nz p / 2)
  /\ (nkmin_forcing p <= Rmax 0 (kf * ratio_kfmin_kf a / delta_kz) + 5 / 10000).
Proof.
  intros a p H. apply create_inl in H as (R1 & H1 & HN & F1 & F2 & _ & nu & nu4 & key & _ & _ & _ & ->). cbn [Lz Lx nkmin_forcing nkmax_forcing nz]. cbn zeta.
  set (delta := 2 * PI / (IZR (nh_forcing a) / IZR (ratio_nh_nz a))). set (kf := 2 * PI / a_F a).
  pose proof PI_RGT_0 as P. assert (NH : IZR (nh_forcing a) <> 0) by (intros H; apply eq_IZR_R0 in H; lia).
  split; [rewrite sin_math_asin by exact F1; unfold kf; field; exact F2|]. split; [field; split; [exact NH|lra]|]. split; [|split; [|split; [|split]]].
  - intros Q. set (x := kf * ratio_kfmin_kf a / delta) in *. pose proof (abs_le _ _ (round3_near x)) as A.
    assert (R0 : 0 <= round3 x) by (rewrite <- (round3_IZR 0); now apply round3_mono). rewrite Rmax_right by exact R0. apply round3_near.
  - intros Q. set (x := kf * ratio_kfmax_kf a / delta) in *.
    assert (R0 : round3 x <= INR (a_nz a / 2)) by (rewrite INR_IZR_INZ, <- (round3_IZR (Z.of_nat (a_nz a / 2))), <- INR_IZR_INZ; now apply round3_mono). rewrite Rmin_right by exact R0. apply round3_near.
  - apply Rmax_l.
  - apply Rmin_l.
  - set (x := kf * ratio_kfmin_kf a / delta). pose proof (abs_le _ _ (round3_near x)) as A. pose proof (Rmax_l 0 x). pose proof (Rmax_r 0 x). apply Rmax_lub; lra.
Qed.

(** accepted by the forcing if the smallest forced wavenumber is resolved *)
Theorem c171_order_partial : forall a p, create_params a = inl p -> 0 < a_F a -> (1 <= nh_forcing a)%Z -> 0 <= ratio_kfmin_kf a <= ratio_kfmax_kf a ->
  2 * PI / a_F a * ratio_kfmin_kf a <= 2 * PI / Lz p * INR (nz p / 2) -> forcing_accepts p.
Proof.
  intros a p H FP NH1 RR RES. apply create_inl in H as (R1 & H1 & HN & F1 & F2 & _ & nu & nu4 & key & _ & _ & _ & ->). unfold forcing_accepts. cbn [Lz nkmin_forcing nkmax_forcing nz] in *.
  assert (LZ : 0 < IZR (nh_forcing a) / IZR (ratio_nh_nz a)) by (apply Rdiv_lt_0_compat; apply IZR_lt; lia).
  pose proof PI_RGT_0 as P. assert (D : 0 < 2 * PI / (IZR (nh_forcing a) / IZR (ratio_nh_nz a))) by (apply Rdiv_lt_0_compat; lra).
  set (delta := 2 * PI / (IZR (nh_forcing a) / IZR (ratio_nh_nz a))) in *. assert (KF : 0 < 2 * PI / a_F a) by (apply Rdiv_lt_0_compat; lra). set (kf := 2 * PI / a_F a) in *.
  apply Rle_not_lt.
  assert (X : kf * ratio_kfmin_kf a / delta <= INR (a_nz a / 2)) by (apply Rmult_le_reg_r with delta; [exact D|]; replace (kf * ratio_kfmin_kf a / delta * delta) with (kf * ratio_kfmin_kf a) by (field; lra); lra).
  assert (Y : kf * ratio_kfmin_kf a / delta <= kf * ratio_kfmax_kf a / delta) by (apply Rmult_le_compat_r; [apply Rlt_le, Rinv_0_lt_compat, D|]; apply Rmult_le_compat_l; lra).
  assert (Z0 : 0 <= kf * ratio_kfmin_kf a / delta) by (apply Rmult_le_pos; [apply Rmult_le_pos; lra|apply Rlt_le, Rinv_0_lt_compat, D]).
  apply Rmin_glb; apply Rmax_lub.
  - apply pos_INR.
  - rewrite INR_IZR_INZ, <- (round3_IZR (Z.of_nat (a_nz a / 2))), <- INR_IZR_INZ. now apply round3_mono.
  - rewrite <- (round3_IZR 0). apply round3_mono. cbn. lra.
  - now apply round3_mono.
Qed.

(** otherwise the parameters are not refused by the script but are by the forcing: F = 0.01, the other arguments by default *)
Theorem c171_order_refuted : exists a p, 0 < a_F a <= 1 /\ ratio_kfmin_kf a <= ratio_kfmax_kf a /\ create_params a = inl p /\ ~ forcing_accepts p.
Proof.
  set (a := mkArgs 32 4 10 None None None None 1 "polo" 3 (1 / 2) 2 (1 / 100) (1 / 10) (8 / 10) false). exists a.
  assert (E : exists p, create_params a = inl p) by (apply c170_accepted_partial; cbn; try lra; try lia; try (now left); try discriminate; rewrite Rabs_pos_eq; lra).
  destruct E as (p & E). exists p. split; [cbn; lra|]. split; [cbn; lra|]. split; [exact E|]. unfold forcing_accepts. intros H. apply H. clear H.
  destruct (c171_region a p E) as (_ & _ & A & _ & _ & B & _). cbn zeta in *.
  assert (L : Lz p = 3 / 4 /\ nz p = 32%nat) by (apply create_inl in E as (_ & _ & _ & _ & _ & _ & nu & nu4 & key & _ & _ & _ & ->); split; reflexivity).
  destruct L as [L1 L2]. rewrite L1 in A. rewrite L2 in B. change (a_F a) with (1 / 100) in A. change (ratio_kfmin_kf a) with (1 / 2) in A. pose proof PI_RGT_0 as P.
  assert (V : 2 * PI / (1 / 100) * (1 / 2) / (2 * PI / (3 / 4)) = 75 / 2) by (field; lra). rewrite V in A. specialize (A ltac:(lra)). apply abs_le in A.
  change (32 / 2)%nat with 16%nat in B. rewrite (INR_IZR_INZ 16) in B. change (Z.of_nat 16) with 16%Z in B. lra.
Qed.
Example c171_example : exists p, create_params default_args = inl p /\ forcing_accepts p.
Proof.
  destruct c170_default as (p & H). exists p. split; [exact H|]. apply (c171_order_partial default_args); [exact H| | | |]; try (cbn; lra); try (cbn; lia).
  apply create_inl in H as (_ & _ & _ & _ & _ & _ & nu & nu4 & key & _ & _ & _ & ->). cbn [Lz nz a_F ratio_kfmin_kf default_args nh_forcing ratio_nh_nz a_nz]. change (32 / 2)%nat with 16%nat. rewrite (INR_IZR_INZ 16). change (Z.of_nat 16) with 16%Z. pose proof PI_RGT_0 as P.
  replace (2 * PI / (3 / 10) * (1 / 2)) with (10 / 3 * PI) by field. replace (2 * PI / (3 / 4) * 16) with (128 / 3 * PI) by field. lra.
Qed.

(** ** C172 *)

Lemma sin_lipschitz x y : Rabs (sin x - sin y) <= Rabs (x - y).
Proof.
  destruct (Req_EM_T x y) as [->|NE]; [unfold Rminus; rewrite !Rplus_opp_r; lra|].
  assert (G : forall u v, u < v -> Rabs (sin v - sin u) <= v - u).
  { intros u v L. destruct (MVT_cor2 sin cos u v L) as (c & E & _); [intros; apply derivable_pt_lim_sin|]. rewrite E, Rabs_mult, (Rabs_pos_eq (v - u)) by lra. pose proof (COS_bound c) as CB. assert (Rabs (cos c) <= 1) by (apply Rabs_le; lra). nra. }
  destruct (Rtotal_order x y) as [L|[L|L]]; [|contradiction|].
  - rewrite Rabs_minus_sym, (Rabs_minus_sym x), (Rabs_pos_eq (y - x)) by lra. now apply G.
  - rewrite (Rabs_pos_eq (x - y)) by lra. now apply G.
Qed.

Theorem c172_times : forall a p, create_params a = inl p -> 0 < a_N a ->
  let period_N := 2 * PI / N p in
  0 < deltat_max p <= 1 / 10 /\ 16 * deltat_max p <= period_N
  /\ time_correlation p * (N p * a_F a) = 2 * PI
  /\ Rabs (angle p - asin (a_F a)) <= 5 / 10000 /\ Rabs (N p * sin (angle p) - N p * a_F a) <= N p * (5 / 10000)
  /\ Rabs (delta_angle p - asin (delta_F a)) <= 5 / 10000
  /\ (spatiotemporal_spectra a = true -> period_spatiotemporal p = Some (period_N / 8)) /\ (spatiotemporal_spectra a = false -> period_spatiotemporal p = None).
Proof.
  intros a p H NP. apply create_inl in H as (R1 & H1 & HN & F1 & F2 & _ & nu & nu4 & key & _ & _ & _ & ->). cbn [deltat_max N time_correlation angle delta_angle period_spatiotemporal]. cbn zeta.
  pose proof PI_RGT_0 as P. assert (PN : 0 < 2 * PI / a_N a) by (apply Rdiv_lt_0_compat; lra).
  split; [split; [apply Rmin_glb_lt; lra|apply Rmin_l]|]. split; [pose proof (Rmin_r (1 / 10) (2 * PI / a_N a / 16)); lra|].
  split; [field; split; [exact F2|exact HN]|]. split; [apply round3_near|]. split.
  - replace (a_N a * sin (round3 (asin (a_F a))) - a_N a * a_F a) with (a_N a * (sin (round3 (asin (a_F a))) - sin (asin (a_F a)))) by (rewrite sin_math_asin by exact F1; ring).
    rewrite Rabs_mult, (Rabs_pos_eq (a_N a)) by lra. apply Rmult_le_compat_l; [lra|]. eapply Rle_trans; [apply sin_lipschitz|apply round3_near].
  - split; [apply round3_near|]. split; intros ->; reflexivity.
Qed.

(** ** C173 *)

Lemma converter_pos C h L sigma : 0 < C -> 0 < h -> 0 < L -> sigma < 1 -> let c := make_converter C h L sigma in 0 < tilde_T c /\ 0 < tilde_Z c /\ 0 < tilde_nu4 c.
Proof.
  intros HC Hh HL Hs. cbn. assert (0 < sqrt C) by now apply sqrt_lt_R0. assert (0 < sqrt (6 * (1 - sigma))) by (apply sqrt_lt_R0; lra). assert (0 < L * (L * 1)) by nra.
  assert (T : 0 < L * (L * 1) / sqrt C) by now apply Rdiv_lt_0_compat. split; [exact T|]. split; [now apply Rdiv_lt_0_compat|]. apply Rdiv_lt_0_compat; [|exact T]. nra.
Qed.

Theorem c173_inverse : forall C h L sigma, 0 < C -> 0 < h -> 0 < L -> sigma < 1 -> let c := make_converter C h L sigma in
  forall x, compute_time_dim c (compute_time_adim c x) = x /\ compute_time_adim c (compute_time_dim c x) = x
  /\ compute_z_dim c (compute_z_adim c x) = x /\ compute_z_adim c (compute_z_dim c x) = x
  /\ compute_w_dim c (compute_w_adim c x) = x /\ compute_w_adim c (compute_w_dim c x) = x
  /\ compute_nu4_dim c (compute_nu4_adim c x) = x /\ compute_nu4_adim c (compute_nu4_dim c x) = x
  /\ forall z t, t <> 0 -> compute_w_adim c (z / t) = compute_z_adim c z / compute_time_adim c t.
Proof.
  intros C h L sigma HC Hh HL Hs c x. destruct (converter_pos C h L sigma HC Hh HL Hs) as (T & Z & V). fold c in T, Z, V.
  unfold compute_time_dim, compute_time_adim, compute_z_dim, compute_z_adim, compute_w_dim, compute_w_adim, compute_nu4_dim, compute_nu4_adim.
  split; [field; lra|]. split; [field; lra|]. split; [field; lra|]. split; [field; lra|]. split; [field; split; lra|]. split; [field; split; lra|]. split; [field; lra|]. split; [field; lra|].
  intros z t Ht. field. repeat split; lra.
Qed.

(** the equations of a plate: at a point, the second derivatives of the displacement z and of the stress function chi *)
Record jet := mkJet { z_tt : R; bilap_z : R; z_xx : R; z_yy : R; z_xy : R; c_xx : R; c_yy : R; c_xy : R; bilap_c : R }.
Definition bracket (axx ayy axy bxx byy bxy : R) : R := axx * byy + ayy * bxx - 2 * axy * bxy.
(** rho h z_tt = - E h^3 / (12 (1 - sigma^2)) bilap z + h {z, chi},  bilap chi = - E / 2 {z, z} *)
Definition plate (rho E h sigma : R) (j : jet) : Prop :=
  rho * z_tt j = - (E * h ^ 2 / (12 * (1 - sigma ^ 2))) * bilap_z j + bracket (z_xx j) (z_yy j) (z_xy j) (c_xx j) (c_yy j) (c_xy j)
  /\ bilap_c j = - (E / 2) * bracket (z_xx j) (z_yy j) (z_xy j) (z_xx j) (z_yy j) (z_xy j).
(** the equations solved by plate2d *)
Definition plate_adim (j : jet) : Prop :=
  z_tt j = - bilap_z j + bracket (z_xx j) (z_yy j) (z_xy j) (c_xx j) (c_yy j) (c_xy j) /\ bilap_c j = - bracket (z_xx j) (z_yy j) (z_xy j) (z_xx j) (z_yy j) (z_xy j).
(** z = Z z', x = L x', t = T t', chi = X chi' *)
Definition scale (T Z L X : R) (j : jet) : jet :=
  mkJet (Z / T ^ 2 * z_tt j) (Z / L ^ 4 * bilap_z j) (Z / L ^ 2 * z_xx j) (Z / L ^ 2 * z_yy j) (Z / L ^ 2 * z_xy j) (X / L ^ 2 * c_xx j) (X / L ^ 2 * c_yy j) (X / L ^ 2 * c_xy j) (X / L ^ 4 * bilap_c j).

(** without Poisson modulus, the conversion of the solutions of plate2d gives those of the plate; omega = sqrt C k^2 *)
Theorem c173_equations_partial : forall rho E h L, 0 < rho -> 0 < E -> 0 < h -> 0 < L ->
  let C := E * h ^ 2 / (12 * rho) in let c := make_converter C h L 0 in
  forall j, plate_adim j -> plate rho E h 0 (scale (tilde_T c) (tilde_Z c) (tilde_L c) (rho * C) j).
Proof.
  intros rho E h L Hr HE Hh HL C c j [J1 J2].
  assert (HC : 0 < C) by (unfold C; apply Rdiv_lt_0_compat; [apply Rmult_lt_0_compat; [lra|now apply pow_lt]|lra]).
  assert (SC : sqrt C * sqrt C = C) by (apply sqrt_sqrt; lra). assert (PC : 0 < sqrt C) by now apply sqrt_lt_R0.
  assert (S6 : sqrt 6 * sqrt 6 = 6) by (apply sqrt_sqrt; lra). assert (P6 : 0 < sqrt 6) by (apply sqrt_lt_R0; lra).
  assert (ZZ : h = tilde_Z c * sqrt 6) by (unfold c; cbn [tilde_Z make_converter]; replace (6 * (1 - 0)) with 6 by ring; field; lra).
  assert (T2 : tilde_T c ^ 2 = L ^ 4 / C).
  { unfold c. cbn [tilde_T make_converter]. rewrite <- SC at 2. field. lra. }
  assert (TP : 0 < tilde_T c) by (destruct (converter_pos C h L 0 HC Hh HL ltac:(lra)) as (K & _); exact K).
  unfold plate, scale. cbn [z_tt bilap_z z_xx z_yy z_xy c_xx c_yy c_xy bilap_c]. rewrite T2, J1, J2. change (tilde_L c) with L. clearbody c. set (Z := tilde_Z c) in *. clearbody Z. unfold bracket. assert (0 < Z) by (apply Rmult_lt_reg_r with (sqrt 6); [exact P6|]; lra). split.
  - unfold C. assert (0 < Z) by (apply Rmult_lt_reg_r with (sqrt 6); [exact P6|]; lra). field. repeat split; lra.
  - unfold C. rewrite ZZ. replace (E * (Z * sqrt 6) ^ 2) with (E * Z ^ 2 * (sqrt 6 * sqrt 6)) by ring. rewrite S6. field. split; lra.
Qed.

Theorem c173_dispersion_partial : forall C h L sigma k, 0 < C -> 0 < L -> let c := make_converter C h L sigma in sqrt C * k ^ 2 * tilde_T c = (k * tilde_L c) ^ 2.
Proof. intros C h L sigma k HC HL. cbn. assert (0 < sqrt C) by now apply sqrt_lt_R0. field. lra. Qed.
(** the rate of the dissipation, nu4 k^4, is converted as the inverse of a time *)
Theorem c173_damping : forall C h L sigma k nu4, 0 < C -> 0 < L -> let c := make_converter C h L sigma in
  compute_time_adim c 1 <> 0 /\ compute_nu4_adim c nu4 * (k * tilde_L c) ^ 4 = nu4 * k ^ 4 / compute_time_adim c 1.
Proof.
  intros C h L sigma k nu4 HC HL. assert (0 < sqrt C) by now apply sqrt_lt_R0. cbn. unfold compute_time_adim, compute_nu4_adim. cbn [tilde_T tilde_nu4 make_converter].
  assert (0 < L ^ 2 / sqrt C) by (apply Rdiv_lt_0_compat; [now apply pow_lt|assumption]). split; [unfold Rdiv; apply Rmult_integral_contrapositive_currified; [lra|apply Rinv_neq_0_compat; lra]|]. field. repeat split; lra.
Qed.
(** the documented relation omega = C k^2 is not the one of the conversion *)
Theorem c173_dispersion_refuted : exists C h L sigma k, 0 < C /\ 0 < h /\ 0 < L /\ 0 <= sigma < 1 /\ let c := make_converter C h L sigma in C * k ^ 2 * tilde_T c <> (k * tilde_L c) ^ 2.
Proof. exists 4, 1, 1, 0, 1. repeat (split; [lra|]). cbn. replace 4 with (2 * 2) by ring. rewrite sqrt_square by lra. lra. Qed.
(** with a Poisson modulus, 1 - sigma instead of 1 - sigma^2: the conversion does not give solutions, whatever the scale of the stress *)
Theorem c173_poisson_refuted : exists rho E h L sigma, 0 < rho /\ 0 < E /\ 0 < h /\ 0 < L /\ 0 < sigma < 1 /\
  let C := E * h ^ 2 / (12 * rho * (1 - sigma ^ 2)) in let c := make_converter C h L sigma in
  exists j j', plate_adim j /\ plate_adim j' /\ forall X, ~ (plate rho E h sigma (scale (tilde_T c) (tilde_Z c) (tilde_L c) X j) /\ plate rho E h sigma (scale (tilde_T c) (tilde_Z c) (tilde_L c) X j')).
Proof.
  exists 1, 9, 1, 1, (1 / 2). repeat (split; [lra|]). cbn zeta. assert (EC : 9 * 1 ^ 2 / (12 * 1 * (1 - (1 / 2) ^ 2)) = 1) by field. rewrite EC.
  exists (mkJet 0 0 1 1 0 0 0 0 (-2)), (mkJet 2 0 1 1 0 1 1 0 (-2)). split; [unfold plate_adim, bracket; cbn; lra|]. split; [unfold plate_adim, bracket; cbn; lra|].
  intros X [[_ A] [B _]]. unfold plate, scale, bracket in *. cbn [z_tt bilap_z z_xx z_yy z_xy c_xx c_yy c_xy bilap_c tilde_T tilde_Z tilde_L make_converter] in *.
  rewrite sqrt_1 in *. replace (6 * (1 - 1 / 2)) with 3 in * by field.
  assert (S3 : sqrt 3 * sqrt 3 = 3) by (apply sqrt_sqrt; lra). assert (P3 : 0 < sqrt 3) by (apply sqrt_lt_R0; lra).
  set (s := sqrt 3) in *. assert (I : 1 / s * (1 / s) = 1 / 3) by (rewrite <- S3; field; lra). assert (IP : 0 < 1 / s) by (apply Rdiv_lt_0_compat; lra). set (i := 1 / s) in *.
  assert (XE : X = 1) by nra. subst X. nra.
Qed.
Example c173_example : plate_adim (mkJet 2 0 1 1 0 1 1 0 (-2)). Proof. unfold plate_adim, bracket. cbn. lra. Qed.

Print Assumptions c170_domain.
Print Assumptions c170_viscosity.
Print Assumptions c170_accepted_partial.
Print Assumptions c170_coef_refuted.
Print Assumptions c171_region.
Print Assumptions c171_order_partial.
Print Assumptions c171_order_refuted.
Print Assumptions c172_times.
Print Assumptions c173_inverse.
Print Assumptions c173_equations_partial.
Print Assumptions c173_dispersion_partial.
Print Assumptions c173_damping.
Print Assumptions c173_dispersion_refuted.
Print Assumptions c173_poisson_refuted.
