(** The dimensionless numbers of ns3d and ns3d.strat and the ratio of the frequencies of ns2d.strat: they do not depend on
    the units (C232, C234), and the averages (C233). *)
From Coq Require Import String Reals List Bool Arith Lra Lia.
From Verif Require Import Dimless_Model.
From Verif Require StratDt_Model.
Import ListNotations.
Local Open Scope R_scope.

(** ** Specification: dimensions *)

(** the unit of length becomes [1 / l] and the one of time [1 / s]: a quantity L^a T^b is multiplied by this *)
Definition unit_of (l s : R) (a b : Z) : R := powerRZ l a * powerRZ s b.

(** the dimensions of the saved quantities: a time, the energies, the rates of dissipation *)
Definition dim_of_key (key : string) : Z * Z :=
  if String.eqb key "t" then (0, 1)%Z
  else if existsb (String.eqb key) ["epsK"; "epsK4"; "epsK8"; "epsA"]%string then (2, -3)%Z
  else if String.eqb key "eta" then (1, 0)%Z
  else (2, -2)%Z.
Definition scale_of_key (l s : R) (key : string) : R := unit_of l s (fst (dim_of_key key)) (snd (dim_of_key key)).

Definition change_data (l s : R) (d : data) : data := fun key => option_map (map (Rmult (scale_of_key l s key))) (d key).
Definition change_params (l s : R) (p : params) : params :=
  mkParams (unit_of l s 2 (-1) * nu_2 p) (unit_of l s 4 (-1) * nu_4 p) (unit_of l s 8 (-1) * nu_8 p) (unit_of l s 0 (-1) * p_N p)
    (unit_of l s 1 0 * Lz p) (nz p) (coef_dealiasing p).
Definition change_dimensional (l s : R) (q : list (string * list R)) : list (string * list R) :=
  map (fun kv => (fst kv, map (Rmult (scale_of_key l s (fst kv))) (snd kv))) q.

(** ** Lemmas *)

Lemma zip_scale : forall f a b c u v, (forall x y, f (a * x) (b * y) = c * f x y) ->
  zip f (map (Rmult a) u) (map (Rmult b) v) = map (Rmult c) (zip f u v).
Proof.
  intros f a b c u v H; unfold zip.
  revert v; induction u as [| x u IH]; intros [| y v]; simpl; auto.
  f_equal; auto.
Qed.

Lemma add_scale : forall a u v, add (map (Rmult a) u) (map (Rmult a) v) = map (Rmult a) (add u v).
Proof. intros; apply zip_scale; intros; ring. Qed.
Lemma sub_scale : forall a u v, sub (map (Rmult a) u) (map (Rmult a) v) = map (Rmult a) (sub u v).
Proof. intros; apply zip_scale; intros; ring. Qed.
Lemma mul_scale : forall a b u v, mul (map (Rmult a) u) (map (Rmult b) v) = map (Rmult (a * b)) (mul u v).
Proof. intros; apply zip_scale; intros; ring. Qed.
Lemma div_scale : forall a b u v, div (map (Rmult a) u) (map (Rmult b) v) = map (Rmult (a / b)) (div u v).
Proof. intros; apply zip_scale; intros; unfold Rdiv; rewrite Rinv_mult; ring. Qed.
Lemma map_one : forall u, map (Rmult 1) u = u.
Proof. intros u; rewrite <- (map_id u) at 2; apply map_ext; intros; ring. Qed.

Lemma unit_pos : forall l s a b, 0 < l -> 0 < s -> 0 < unit_of l s a b.
Proof. intros; unfold unit_of; apply Rmult_lt_0_compat; apply powerRZ_lt; auto. Qed.

Lemma truth_scale : forall a x, a <> 0 -> truth (a * x) = truth x.
Proof.
  intros a x A; unfold truth.
  destruct (Req_EM_T x 0) as [-> | X], (Req_EM_T (a * _) 0) as [Y | Y]; auto.
  - exfalso; apply Y; ring.
  - exfalso; apply Rmult_integral in Y; tauto.
Qed.

Lemma power_scale : forall l x, 0 < l -> power (l ^ 4 * x) (1 / 4) = l * power x (1 / 4).
Proof.
  intros l x Hl; unfold power.
  assert (L : 0 < l ^ 4) by (apply pow_lt; auto).
  destruct (Rlt_dec 0 x) as [X | X], (Rlt_dec 0 (l ^ 4 * x)) as [Y | Y].
  - rewrite <- Rpower_mult_distr by auto.
    rewrite <- (Rpower_pow 4 l Hl) at 1; rewrite Rpower_mult.
    replace (INR 4 * (1 / 4)) with 1 by (simpl; field).
    rewrite Rpower_1 by auto; reflexivity.
  - exfalso; apply Y; apply Rmult_lt_0_compat; auto.
  - exfalso; apply X; apply Rmult_lt_reg_l with (l ^ 4); auto; rewrite Rmult_0_r; auto.
  - ring.
Qed.

Lemma unit_mul : forall l s a b c d, 0 < l -> 0 < s -> unit_of l s a b * unit_of l s c d = unit_of l s (a + c) (b + d).
Proof. intros; unfold unit_of; rewrite !powerRZ_add by lra; ring. Qed.

Lemma unit_inv : forall l s a b, 0 < l -> 0 < s -> / unit_of l s a b = unit_of l s (- a) (- b).
Proof.
  intros l s a b L S.
  apply Rmult_eq_reg_l with (unit_of l s a b); [| apply Rgt_not_eq, unit_pos; auto].
  rewrite Rinv_r by (apply Rgt_not_eq, unit_pos; auto).
  rewrite unit_mul, !Z.add_opp_diag_r by auto.
  unfold unit_of; simpl; ring.
Qed.

Lemma unit_div : forall l s a b c d, 0 < l -> 0 < s -> unit_of l s a b / unit_of l s c d = unit_of l s (a - c) (b - d).
Proof. intros; unfold Rdiv, Z.sub; rewrite unit_inv, unit_mul; auto. Qed.

Lemma unit_pow : forall l s a b n, 0 < l -> 0 < s -> unit_of l s a b ^ n = unit_of l s (Z.of_nat n * a) (Z.of_nat n * b).
Proof.
  intros l s a b n L S; induction n as [| n IH].
  - unfold unit_of; simpl; ring.
  - rewrite <- tech_pow_Rmult, IH, unit_mul by auto; f_equal; lia.
Qed.

Lemma unit_0 : forall l s, unit_of l s 0 0 = 1.
Proof. intros; unfold unit_of; simpl; ring. Qed.

Section Units.
Variables l s : R.
Hypothesis Hl : 0 < l.
Hypothesis Hs : 0 < s.

Ltac units := repeat first [rewrite unit_pow by auto | rewrite unit_inv by auto | rewrite unit_mul by auto]; simpl Z.mul; simpl Z.add; simpl Z.opp.

Lemma energies_change : forall d,
  energies (change_data l s d) = option_map (fun e => (map (Rmult (unit_of l s 2 (-2))) (fst e), map (Rmult (unit_of l s 2 (-2))) (snd e))) (energies d).
Proof.
  intros d; unfold energies, change_data.
  change (scale_of_key l s "Ex") with (unit_of l s 2 (-2)).
  change (scale_of_key l s "Ey") with (unit_of l s 2 (-2)).
  change (scale_of_key l s "Ez") with (unit_of l s 2 (-2)).
  change (scale_of_key l s "EKhr") with (unit_of l s 2 (-2)).
  change (scale_of_key l s "EKhd") with (unit_of l s 2 (-2)).
  change (scale_of_key l s "EKhs") with (unit_of l s 2 (-2)).
  change (scale_of_key l s "EKz") with (unit_of l s 2 (-2)).
  destruct (d "Ex"%string), (d "Ey"%string), (d "Ez"%string); simpl; rewrite ?add_scale; auto;
    destruct (d "EKhr"%string), (d "EKhd"%string), (d "EKhs"%string), (d "EKz"%string); simpl; rewrite ?add_scale; auto.
Qed.

Lemma add_if_change : forall nu d key u acc, u <> 0 -> scale_of_key l s key = unit_of l s 2 (-3) ->
  add_if (u * nu) (change_data l s d) key (map (Rmult (unit_of l s 2 (-3))) acc) = option_map (map (Rmult (unit_of l s 2 (-3)))) (add_if nu d key acc).
Proof.
  intros nu d key u acc U K; unfold add_if, change_data; rewrite truth_scale, K by auto.
  destruct (truth nu); auto.
  destruct (d key); simpl; auto.
  rewrite add_scale; auto.
Qed.

Lemma eta_change : forall p epsK, eta (change_params l s p) (map (Rmult (unit_of l s 2 (-3))) epsK) = map (Rmult (unit_of l s 1 0)) (eta p epsK).
Proof.
  intros p epsK; unfold eta; rewrite !map_map; apply map_ext; intros e.
  unfold change_params, nu_2 at 1.
  replace ((unit_of l s 2 (-1) * nu_2 p) ^ 3 / (unit_of l s 2 (-3) * e)) with (l ^ 4 * (nu_2 p ^ 3 / e)).
  - rewrite power_scale by auto; f_equal; unfold unit_of; simpl; ring.
  - unfold Rdiv; rewrite Rinv_mult, Rpow_mult_distr.
    replace (l ^ 4) with (unit_of l s 2 (-1) ^ 3 * / unit_of l s 2 (-3)); [ring |].
    units; unfold unit_of; simpl; ring.
Qed.

Lemma k_max_change : forall p, k_max (change_params l s p) = unit_of l s (-1) 0 * k_max p.
Proof.
  intros p; unfold k_max, change_params; simpl Lz; simpl coef_dealiasing; simpl nz.
  unfold Rdiv; rewrite Rinv_mult, unit_inv by auto; simpl Z.opp; ring.
Qed.

Lemma zeros_change : forall a (u : list R), map (fun _ => 0) (map (Rmult a) u) = map (Rmult a) (map (fun _ => 0) u).
Proof. intros a u; rewrite !map_map; apply map_ext; intros; ring. Qed.

Definition change_numbers (r : numbers) : numbers :=
  mkNumbers (map (Rmult (unit_of l s 0 1)) (times r)) (dimless r) (change_dimensional l s (dimensional r)).

Lemma versus_time_change : forall p d,
  versus_time (change_params l s p) (change_data l s d) = option_map change_numbers (versus_time p d).
Proof.
  intros p d; unfold versus_time.
  rewrite energies_change; unfold change_data at 1 2.
  change (scale_of_key l s "t") with (unit_of l s 0 1).
  change (scale_of_key l s "epsK") with (unit_of l s 2 (-3)).
  destruct (d "t"%string) as [t |]; cbn [bind option_map fst]; auto.
  destruct (energies d) as [[EKh EKz] |]; cbn [bind option_map fst]; auto.
  destruct (d "epsK"%string) as [epsK |]; cbn [bind option_map fst]; auto.
  rewrite zeros_change.
  change (nu_4 (change_params l s p)) with (unit_of l s 4 (-1) * nu_4 p).
  change (nu_8 (change_params l s p)) with (unit_of l s 8 (-1) * nu_8 p).
  change (nu_2 (change_params l s p)) with (unit_of l s 2 (-1) * nu_2 p).
  assert (U2 : unit_of l s 2 (-1) <> 0) by (apply Rgt_not_eq, unit_pos; auto).
  assert (U4 : unit_of l s 4 (-1) <> 0) by (apply Rgt_not_eq, unit_pos; auto).
  assert (U8 : unit_of l s 8 (-1) <> 0) by (apply Rgt_not_eq, unit_pos; auto).
  rewrite add_if_change by auto.
  destruct (add_if (nu_4 p) d "epsK4" _) as [h4 |]; cbn [bind option_map fst]; auto.
  rewrite add_if_change by auto.
  destruct (add_if (nu_8 p) d "epsK8" h4) as [h |]; cbn [bind option_map fst]; auto.
  rewrite !truth_scale by auto.
  cbn [option_map]; unfold change_numbers; cbn [times dimless dimensional].
  rewrite sub_scale, div_scale, unit_div by auto; simpl Z.sub; rewrite unit_0, map_one.
  rewrite eta_change, k_max_change.
  rewrite (map_map (Rmult (unit_of l s 1 0))).
  assert (E : map (fun x => unit_of l s (-1) 0 * k_max p * (unit_of l s 1 0 * x)) (eta p epsK) = map (Rmult (k_max p)) (eta p epsK)).
  { apply map_ext; intros x.
    replace (unit_of l s (-1) 0 * k_max p * (unit_of l s 1 0 * x)) with (unit_of l s (-1) 0 * unit_of l s 1 0 * (k_max p * x)) by ring.
    rewrite unit_mul by auto; simpl Z.add; rewrite unit_0; ring. }
  rewrite E, (map_map (Rmult (unit_of l s 2 (-3)))).
  f_equal; f_equal.
  destruct (truth (nu_2 p)); reflexivity.
Qed.

Lemma scaled_map : forall u (f g : R -> R) (a : list R), (forall x, f (u * x) = g x) -> map f (map (Rmult u) a) = map g a.
Proof. intros; rewrite map_map; apply map_ext; auto. Qed.

Lemma versus_time_strat_change : forall p d,
  versus_time_strat (change_params l s p) (change_data l s d) = option_map change_numbers (versus_time_strat p d).
Proof.
  intros p d; unfold versus_time_strat.
  rewrite versus_time_change, energies_change.
  destruct (versus_time p d) as [r |]; cbn [bind option_map fst]; auto.
  unfold change_data.
  change (scale_of_key l s "epsA") with (unit_of l s 2 (-3)).
  change (scale_of_key l s "EA") with (unit_of l s 2 (-2)).
  change (scale_of_key l s "epsK") with (unit_of l s 2 (-3)).
  destruct (d "epsA"%string) as [epsA |]; cbn [bind option_map fst]; auto.
  destruct (d "EA"%string) as [EA |]; cbn [bind option_map fst]; auto.
  destruct (d "epsK"%string) as [epsK |]; cbn [bind option_map fst]; auto.
  destruct (energies d) as [[Uh2 EKz] |]; cbn [bind option_map fst]; auto.
  change (nu_4 (change_params l s p)) with (unit_of l s 4 (-1) * nu_4 p).
  change (nu_8 (change_params l s p)) with (unit_of l s 8 (-1) * nu_8 p).
  change (nu_2 (change_params l s p)) with (unit_of l s 2 (-1) * nu_2 p).
  change (p_N (change_params l s p)) with (unit_of l s 0 (-1) * p_N p).
  rewrite !truth_scale by (apply Rgt_not_eq, unit_pos; auto).
  cbn [fst].
  assert (Fh : div (map (Rmult (unit_of l s 2 (-3))) epsK) (map (fun u => u * (unit_of l s 0 (-1) * p_N p)) (map (Rmult (unit_of l s 2 (-2))) Uh2))
               = div epsK (map (fun u => u * p_N p) Uh2)).
  { rewrite (scaled_map _ _ (fun x => unit_of l s 2 (-3) * (x * p_N p))).
    - rewrite <- (map_map (fun u => u * p_N p) (Rmult (unit_of l s 2 (-3)))), div_scale, unit_div by auto; simpl Z.sub; rewrite unit_0, map_one; auto.
    - intros x; replace (unit_of l s 2 (-3)) with (unit_of l s 2 (-2) * unit_of l s 0 (-1)) by (units; auto); ring. }
  assert (R2 : map (fun e => e / (unit_of l s 2 (-1) * nu_2 p * (unit_of l s 0 (-1) * p_N p) ^ 2)) (map (Rmult (unit_of l s 2 (-3))) epsK)
               = map (fun e => e / (nu_2 p * p_N p ^ 2)) epsK).
  { apply scaled_map; intros x; unfold Rdiv; rewrite Rpow_mult_distr, !Rinv_mult.
    transitivity (unit_of l s 2 (-3) * / unit_of l s 2 (-1) * / unit_of l s 0 (-1) ^ 2 * (x * (/ nu_2 p * / p_N p ^ 2))); [ring |].
    units; rewrite unit_0; ring. }
  assert (R4 : map (fun x => x / (unit_of l s 4 (-1) * nu_4 p * (unit_of l s 0 (-1) * p_N p) ^ 4))
                 (mul (map (Rmult (unit_of l s 2 (-3))) epsK) (map (Rmult (unit_of l s 2 (-2))) Uh2))
               = map (fun x => x / (nu_4 p * p_N p ^ 4)) (mul epsK Uh2)).
  { rewrite mul_scale; apply scaled_map; intros x; unfold Rdiv; rewrite Rpow_mult_distr, !Rinv_mult.
    transitivity (unit_of l s 2 (-3) * unit_of l s 2 (-2) * / unit_of l s 4 (-1) * / unit_of l s 0 (-1) ^ 4 * (x * (/ nu_4 p * / p_N p ^ 4))); [ring |].
    units; rewrite unit_0; ring. }
  assert (R8 : map (fun x => x / (unit_of l s 8 (-1) * nu_8 p * (unit_of l s 0 (-1) * p_N p) ^ 8))
                 (mul (map (Rmult (unit_of l s 2 (-3))) epsK) (map (fun u => u ^ 3) (map (Rmult (unit_of l s 2 (-2))) Uh2)))
               = map (fun x => x / (nu_8 p * p_N p ^ 8)) (mul epsK (map (fun u => u ^ 3) Uh2))).
  { rewrite (scaled_map _ (fun u => u ^ 3) (fun u => unit_of l s 2 (-2) ^ 3 * u ^ 3)) by (intros; apply Rpow_mult_distr).
    rewrite <- (map_map (fun u => u ^ 3) (Rmult (unit_of l s 2 (-2) ^ 3))), mul_scale.
    apply scaled_map; intros x; unfold Rdiv; rewrite (Rpow_mult_distr (unit_of l s 0 (-1))), !Rinv_mult.
    transitivity (unit_of l s 2 (-3) * unit_of l s 2 (-2) ^ 3 * / unit_of l s 8 (-1) * / unit_of l s 0 (-1) ^ 8 * (x * (/ nu_8 p * / p_N p ^ 8))); [ring |].
    units; rewrite unit_0; ring. }
  assert (Ga : div (map (Rmult (unit_of l s 2 (-3))) epsA) (map (Rmult (unit_of l s 2 (-3))) epsK) = div epsA epsK)
    by (rewrite div_scale, unit_div by auto; simpl Z.sub; rewrite unit_0, map_one; auto).
  rewrite Fh, R2, R4, R8, Ga; clear Fh R2 R4 R8 Ga.
  cbn [option_map]; unfold change_numbers; cbn [times dimless dimensional].
  unfold change_dimensional at 2; rewrite map_app; reflexivity.
Qed.
End Units.

(** ** C232: the numbers do not depend on the units *)

(** for other units of length and of time, the dimensionless numbers are the same and each dimensional quantity is
    multiplied by the factor of its dimension *)
Theorem c232_units : forall l s p d r, 0 < l -> 0 < s -> versus_time_strat p d = Some r ->
  exists r', versus_time_strat (change_params l s p) (change_data l s d) = Some r' /\ dimless r' = dimless r
    /\ dimensional r' = change_dimensional l s (dimensional r).
Proof.
  intros l s p d r L S H; exists (change_numbers l s r); rewrite versus_time_strat_change, H; auto.
Qed.

Theorem c232_units_ns3d : forall l s p d r, 0 < l -> 0 < s -> versus_time p d = Some r ->
  exists r', versus_time (change_params l s p) (change_data l s d) = Some r' /\ dimless r' = dimless r
    /\ dimensional r' = change_dimensional l s (dimensional r).
Proof.
  intros l s p d r L S H; exists (change_numbers l s r); rewrite versus_time_change, H; auto.
Qed.

(** Specification: from the velocity u = Uh2^(1/2) and the length u^3 / epsK, the Froude number, the Reynolds numbers of
    order n and the buoyancy Reynolds numbers of order n *)
Definition froude_spec (u epsK N : R) : R := u / ((u ^ 3 / epsK) * N).
Definition reynolds_spec (n : nat) (u epsK nu : R) : R := u * (u ^ 3 / epsK) ^ (n - 1) / nu.
Definition buoyancy_reynolds_spec (n : nat) (u epsK nu N : R) : R := reynolds_spec n u epsK nu * froude_spec u epsK N ^ n.

Definition all_pos (a : list R) : Prop := Forall (fun x => 0 < x) a.

Lemma zip_ext : forall f g u v, all_pos u -> all_pos v -> (forall x y, 0 < x -> 0 < y -> f x y = g x y) -> zip f u v = zip g u v.
Proof.
  intros f g u; unfold zip; induction u as [| x u IH]; intros [| y v] U V H; simpl; auto.
  inversion U; inversion V; subst; f_equal; auto.
Qed.

Lemma zip_map_r : forall f g u v, zip f u (map g v) = zip (fun x y => f x (g y)) u v.
Proof. intros f g u; unfold zip; induction u as [| x u IH]; intros [| y v]; simpl; auto; f_equal; auto. Qed.

Lemma map_zip : forall g f u v, map g (zip f u v) = zip (fun x y => g (f x y)) u v.
Proof. intros g f u; unfold zip; induction u as [| x u IH]; intros [| y v]; simpl; auto; f_equal; auto. Qed.

Lemma map_zip_l : forall g u v, length u = length v -> map g u = zip (fun x _ => g x) u v.
Proof. intros g u; unfold zip; induction u as [| x u IH]; intros [| y v] H; simpl in *; try discriminate; auto; f_equal; auto. Qed.

Lemma lookup_app : forall A key (a b : list (string * A)), lookup key (a ++ b) = match lookup key a with Some x => Some x | None => lookup key b end.
Proof.
  intros A key a b; unfold lookup; induction a as [| [k x] a IH]; simpl; auto.
  destruct (String.eqb k key); simpl; auto.
Qed.

Lemma lookup_when : forall A key b (x : list (string * A)), lookup key (when b x) = if b then lookup key x else None.
Proof. intros A key []; auto. Qed.

Lemma truth_true : forall x, x <> 0 -> truth x = true.
Proof. intros x H; unfold truth; destruct (Req_EM_T x 0); tauto. Qed.

Lemma truth_nz : forall x, truth x = true -> x <> 0.
Proof. intros x; unfold truth; destruct (Req_EM_T x 0); auto; discriminate. Qed.

Lemma versus_time_keys : forall p d r key, versus_time p d = Some r ->
  String.eqb "k_max*eta" key = false -> String.eqb "epsK2/epsK" key = false -> lookup key (dimless r) = None.
Proof.
  intros p d r key H K1 K2; unfold versus_time in H.
  destruct (d "t"%string); [cbn [bind] in H | discriminate].
  destruct (energies d) as [[? ?] |]; [cbn [bind] in H | discriminate].
  destruct (d "epsK"%string); [cbn [bind] in H | discriminate].
  destruct (add_if (nu_4 p) d "epsK4" _); [cbn [bind] in H | discriminate].
  destruct (add_if (nu_8 p) d "epsK8" _); [cbn [bind] in H | discriminate].
  assert (E : exists a b, dimless r = if truth (nu_2 p) then [("k_max*eta"%string, a); ("epsK2/epsK"%string, b)] else []).
  { inversion H; subst r; cbn [dimless]; do 2 eexists; reflexivity. }
  destruct E as (a & b & ->); destruct (truth (nu_2 p)); auto.
  unfold lookup; cbn [find fst]; rewrite K1, K2; auto.
Qed.

Section Strat.
Variables (p : params) (d : data) (r : numbers) (Uh2 EKz epsK epsA : list R).
Hypothesis Hr : versus_time_strat p d = Some r.
Hypothesis He : energies d = Some (Uh2, EKz).
Hypothesis Hk : d "epsK"%string = Some epsK.
Hypothesis Ha : d "epsA"%string = Some epsA.

Lemma strat_dimless : exists r0, versus_time p d = Some r0 /\ dimless r = dimless r0
       ++ [("Fh"%string, div epsK (map (fun u => u * p_N p) Uh2))]
       ++ when (truth (nu_2 p)) [("R2"%string, map (fun e => e / (nu_2 p * p_N p ^ 2)) epsK)]
       ++ when (truth (nu_4 p)) [("R4"%string, map (fun x => x / (nu_4 p * p_N p ^ 4)) (mul epsK Uh2))]
       ++ when (truth (nu_8 p)) [("R8"%string, map (fun x => x / (nu_8 p * p_N p ^ 8)) (mul epsK (map (fun u => u ^ 3) Uh2)))]
       ++ [("Gamma"%string, div epsA epsK)].
Proof.
  revert Hr; unfold versus_time_strat; rewrite He, Hk, Ha.
  destruct (versus_time p d) as [r0 |]; cbn [bind]; [| discriminate].
  destruct (d "EA"%string); cbn [bind]; [| discriminate].
  cbn [fst]; intros H; exists r0; split; auto.
  inversion H; subst r; reflexivity.
Qed.

Lemma strat_lookup : forall key, String.eqb "k_max*eta" key = false -> String.eqb "epsK2/epsK" key = false ->
  lookup key (dimless r) = lookup key
       ([("Fh"%string, div epsK (map (fun u => u * p_N p) Uh2))]
       ++ when (truth (nu_2 p)) [("R2"%string, map (fun e => e / (nu_2 p * p_N p ^ 2)) epsK)]
       ++ when (truth (nu_4 p)) [("R4"%string, map (fun x => x / (nu_4 p * p_N p ^ 4)) (mul epsK Uh2))]
       ++ when (truth (nu_8 p)) [("R8"%string, map (fun x => x / (nu_8 p * p_N p ^ 8)) (mul epsK (map (fun u => u ^ 3) Uh2)))]
       ++ [("Gamma"%string, div epsA epsK)]).
Proof.
  intros key K1 K2; destruct strat_dimless as (r0 & H0 & ->).
  rewrite lookup_app, (versus_time_keys _ _ _ _ H0 K1 K2); auto.
Qed.
End Strat.

Lemma sqrt_2 : forall x, 0 < x -> exists u, 0 < u /\ sqrt x = u /\ x = u * u.
Proof. intros x H; exists (sqrt x); repeat split; [apply sqrt_lt_R0; auto | rewrite sqrt_sqrt; lra]. Qed.

(** Fh, R2, R4, R8 and Gamma are these numbers, at each time; the numbers of a zero viscosity are not given *)
Theorem c232_numbers : forall p d r Uh2 EKz epsK epsA, versus_time_strat p d = Some r -> energies d = Some (Uh2, EKz) ->
  d "epsK"%string = Some epsK -> d "epsA"%string = Some epsA -> length epsK = length Uh2 -> all_pos Uh2 -> all_pos epsK -> p_N p <> 0 ->
  lookup "Fh" (dimless r) = Some (zip (fun e u2 => froude_spec (sqrt u2) e (p_N p)) epsK Uh2)
  /\ lookup "R2" (dimless r) = (if truth (nu_2 p) then Some (zip (fun e u2 => buoyancy_reynolds_spec 2 (sqrt u2) e (nu_2 p) (p_N p)) epsK Uh2) else None)
  /\ lookup "R4" (dimless r) = (if truth (nu_4 p) then Some (zip (fun e u2 => buoyancy_reynolds_spec 4 (sqrt u2) e (nu_4 p) (p_N p)) epsK Uh2) else None)
  /\ lookup "R8" (dimless r) = (if truth (nu_8 p) then Some (zip (fun e u2 => buoyancy_reynolds_spec 8 (sqrt u2) e (nu_8 p) (p_N p)) epsK Uh2) else None)
  /\ lookup "Gamma" (dimless r) = Some (zip Rdiv epsA epsK).
Proof.
  intros p d r Uh2 EKz epsK epsA Hr He Hk Ha L PU PE N.
  assert (K : forall key, String.eqb "k_max*eta" key = false -> String.eqb "epsK2/epsK" key = false -> _) by exact (strat_lookup p d r Uh2 EKz epsK epsA Hr He Hk Ha).
  rewrite !K by reflexivity; clear K.
  rewrite !lookup_app, !lookup_when.
  split; [| split; [| split; [| split]]].
  - cbn; f_equal; unfold div; rewrite zip_map_r; apply zip_ext; auto.
    intros x y X Y; destruct (sqrt_2 y Y) as (u & U & -> & ->); unfold froude_spec; field; repeat split; try lra; auto.
  - destruct (truth (nu_2 p)) eqn:T; [apply truth_nz in T | destruct (truth (nu_4 p)), (truth (nu_8 p)); reflexivity].
    transitivity (Some (map (fun e => e / (nu_2 p * p_N p ^ 2)) epsK)); [reflexivity |].
    f_equal; rewrite (map_zip_l _ _ Uh2 L); apply zip_ext; auto.
    intros x y X Y; destruct (sqrt_2 y Y) as (u & U & -> & ->); unfold buoyancy_reynolds_spec, reynolds_spec, froude_spec; simpl Nat.sub; field; repeat split; try lra; auto.
  - destruct (truth (nu_4 p)) eqn:T; [apply truth_nz in T | destruct (truth (nu_2 p)), (truth (nu_8 p)); reflexivity].
    transitivity (Some (map (fun x => x / (nu_4 p * p_N p ^ 4)) (mul epsK Uh2))); [destruct (truth (nu_2 p)); reflexivity |].
    f_equal; unfold mul; rewrite map_zip; apply zip_ext; auto.
    intros x y X Y; destruct (sqrt_2 y Y) as (u & U & -> & ->); unfold buoyancy_reynolds_spec, reynolds_spec, froude_spec; simpl Nat.sub; field; repeat split; try lra; auto.
  - destruct (truth (nu_8 p)) eqn:T; [apply truth_nz in T | destruct (truth (nu_2 p)), (truth (nu_4 p)); reflexivity].
    transitivity (Some (map (fun x => x / (nu_8 p * p_N p ^ 8)) (mul epsK (map (fun u => u ^ 3) Uh2)))); [destruct (truth (nu_2 p)), (truth (nu_4 p)); reflexivity |].
    f_equal; unfold mul; rewrite zip_map_r, map_zip; apply zip_ext; auto.
    intros x y X Y; destruct (sqrt_2 y Y) as (u & U & -> & ->); unfold buoyancy_reynolds_spec, reynolds_spec, froude_spec; simpl Nat.sub; field; repeat split; try lra; auto.
  - destruct (truth (nu_2 p)), (truth (nu_4 p)), (truth (nu_8 p)); reflexivity.
Qed.

(** Specification: the rate of dissipation of order n of a spectrum, a list of wave numbers and energies *)
Definition diss (nu : R) (n : nat) (spectrum : list (R * R)) : R := sum (map (fun ke => nu * fst ke ^ n * 2 * snd ke) spectrum).
Definition diss_all (p : params) (spectrum : list (R * R)) : R :=
  sum (map (fun ke => (nu_2 p * fst ke ^ 2 + nu_4 p * fst ke ^ 4 + nu_8 p * fst ke ^ 8) * 2 * snd ke) spectrum).

Lemma diss_split : forall p spectrum, diss_all p spectrum = diss (nu_2 p) 2 spectrum + diss (nu_4 p) 4 spectrum + diss (nu_8 p) 8 spectrum.
Proof.
  intros p; unfold diss_all, diss; induction spectrum as [| ke sp IH]; cbn [map sum]; [ring |].
  rewrite IH; ring.
Qed.

Lemma diss_0 : forall nu n spectrum, truth nu = false -> diss nu n spectrum = 0.
Proof.
  intros nu n spectrum T; unfold truth in T; destruct (Req_EM_T nu 0) as [-> |]; [| discriminate].
  unfold diss; induction spectrum as [| ke sp IH]; cbn [map sum]; [auto | rewrite IH; ring].
Qed.

Lemma zip_maps : forall A f (g h : A -> R) (l : list A), zip f (map g l) (map h l) = map (fun x => f (g x) (h x)) l.
Proof. intros A f g h l; unfold zip; induction l; simpl; auto; f_equal; auto. Qed.

(** epsK2/epsK is the share of the dissipation due to nu_2, and k_max*eta is the product of the Kolmogorov length and of the
    largest vertical wave number of the modes kept *)
Theorem c232_share : forall p d r hist epsK, versus_time p d = Some r -> nu_2 p <> 0 ->
  d "epsK"%string = Some epsK -> epsK = map (diss_all p) hist -> all_pos epsK ->
  (nu_4 p <> 0 -> d "epsK4"%string = Some (map (diss (nu_4 p) 4) hist)) ->
  (nu_8 p <> 0 -> d "epsK8"%string = Some (map (diss (nu_8 p) 8) hist)) ->
  lookup "epsK2/epsK" (dimless r) = Some (map (fun sp => diss (nu_2 p) 2 sp / diss_all p sp) hist).
Proof.
  intros p d r hist epsK H N Hk E P H4 H8; unfold versus_time in H.
  destruct (d "t"%string); [cbn [bind] in H | discriminate].
  destruct (energies d) as [[? ?] |]; [cbn [bind] in H | discriminate].
  rewrite Hk in H; cbn [bind] in H.
  assert (A4 : add_if (nu_4 p) d "epsK4" (map (fun _ => 0) epsK) = Some (map (diss (nu_4 p) 4) hist)).
  { unfold add_if; destruct (truth (nu_4 p)) eqn:T.
    - rewrite H4 by (apply truth_nz; auto); cbn [bind]; f_equal.
      rewrite E, map_map; unfold add; rewrite zip_maps; apply map_ext; intros; ring.
    - rewrite E, map_map; f_equal; apply map_ext; intros; rewrite diss_0; auto. }
  rewrite A4 in H; cbn [bind] in H.
  assert (A8 : add_if (nu_8 p) d "epsK8" (map (diss (nu_4 p) 4) hist) = Some (map (fun sp => diss (nu_4 p) 4 sp + diss (nu_8 p) 8 sp) hist)).
  { unfold add_if; destruct (truth (nu_8 p)) eqn:T.
    - rewrite H8 by (apply truth_nz; auto); cbn [bind]; f_equal; unfold add; rewrite zip_maps; auto.
    - f_equal; apply map_ext; intros; rewrite (diss_0 (nu_8 p)) by auto; ring. }
  rewrite A8 in H; cbn [bind] in H.
  rewrite (truth_true _ N) in H.
  assert (L : forall b : bool, exists a, (if b then div (sub epsK (map (fun sp => diss (nu_4 p) 4 sp + diss (nu_8 p) 8 sp) hist)) epsK else map (fun _ => 1) epsK) = a) by (intros; eexists; reflexivity).
  destruct (L (truth (nu_4 p) || truth (nu_8 p))) as (a & La); rewrite La in H.
  replace (lookup "epsK2/epsK" (dimless r)) with (Some a) by (inversion H; reflexivity).
  f_equal; rewrite <- La; clear - P E.
  destruct (truth (nu_4 p) || truth (nu_8 p)) eqn:B.
  - rewrite E; unfold sub, div; rewrite !zip_maps; apply map_ext; intros sp; rewrite (diss_split p sp) at 1; f_equal; ring.
  - apply orb_false_iff in B; destruct B as [B4 B8].
    rewrite E in *; rewrite map_map; apply map_ext_in; intros sp I.
    assert (0 < diss_all p sp) by (unfold all_pos in P; rewrite Forall_forall in P; apply P, in_map; auto).
    rewrite diss_split in *; rewrite (diss_0 _ 4), (diss_0 _ 8) in * by auto; field; lra.
Qed.

Lemma power_4 : forall x, 0 < x -> 0 < power x (1 / 4) /\ power x (1 / 4) ^ 4 = x.
Proof.
  intros x H; unfold power; destruct (Rlt_dec 0 x); [| lra].
  split; [apply exp_pos |].
  rewrite <- Rpower_pow by apply exp_pos.
  rewrite Rpower_mult; replace (1 / 4 * INR 4) with 1 by (simpl; field); apply Rpower_1; auto.
Qed.

Theorem c232_eta : forall p d r epsK, versus_time p d = Some r -> 0 < nu_2 p -> d "epsK"%string = Some epsK -> all_pos epsK ->
  exists etas, lookup "eta" (dimensional r) = Some etas
    /\ Forall2 (fun x e => 0 < x /\ x ^ 4 * e = nu_2 p ^ 3) etas epsK
    /\ lookup "k_max*eta" (dimless r) = Some (map (fun x => coef_dealiasing p * (PI * INR (nz p) / Lz p) * x) etas).
Proof.
  intros p d r epsK H N Hk P; unfold versus_time in H.
  destruct (d "t"%string); [cbn [bind] in H | discriminate].
  destruct (energies d) as [[? ?] |]; [cbn [bind] in H | discriminate].
  rewrite Hk in H; cbn [bind] in H.
  destruct (add_if (nu_4 p) d "epsK4" _); [cbn [bind] in H | discriminate].
  destruct (add_if (nu_8 p) d "epsK8" _); [cbn [bind] in H | discriminate].
  rewrite truth_true in H by lra.
  exists (eta p epsK); split; [| split].
  - inversion H; reflexivity.
  - clear H Hk; unfold eta; induction epsK as [| e es IH]; constructor.
    + inversion P; subst.
      assert (X : 0 < nu_2 p ^ 3 / e) by (apply Rdiv_lt_0_compat; auto; apply pow_lt; auto).
      destruct (power_4 _ X) as [A B]; split; auto.
      rewrite B; field; lra.
    + apply IH; inversion P; auto.
  - replace (lookup "k_max*eta" (dimless r)) with (Some (map (Rmult (k_max p)) (eta p epsK))) by (inversion H; reflexivity).
    f_equal; apply map_ext; intros x; unfold k_max, Rdiv.
    rewrite <- !Rmult_assoc.
    transitivity (coef_dealiasing p * PI * / Lz p * INR (nz p) * (2 * / 2) * x); [ring | rewrite Rinv_r by lra; ring].
Qed.

(** data of ns3d.strat with two times, in other units too *)
Definition data_ex : data := fun key =>
  if String.eqb key "Ex" || String.eqb key "Ey" || String.eqb key "Ez" || String.eqb key "epsK4" || String.eqb key "epsK8" then None
  else if String.eqb key "t" then Some [0; 1] else if String.eqb key "epsK" then Some [4; 6] else Some [1; 2].
Definition params_ex : params := mkParams 1 0 0 10 1 8 (2 / 3).
Example c232_example : exists r, versus_time_strat params_ex data_ex = Some r /\ exists Uh2, energies data_ex = Some (Uh2, [1; 2]) /\ all_pos Uh2 /\ length Uh2 = 2%nat.
Proof.
  unfold versus_time_strat, versus_time, add_if; cbn [nu_4 nu_8 params_ex].
  replace (truth 0) with false by (unfold truth; destruct (Req_EM_T 0 0); tauto).
  eexists; split; [reflexivity |].
  eexists; split; [reflexivity |].
  split; [repeat constructor; cbn; lra | reflexivity].
Qed.
(** one time, one mode *)
Example c232_share_example : exists d p r hist, versus_time p d = Some r /\ nu_2 p = 1 /\ nu_4 p = 1 /\ hist = [[(1, 1)]]
  /\ d "epsK"%string = Some (map (diss_all p) hist) /\ all_pos (map (diss_all p) hist) /\ d "epsK4"%string = Some (map (diss (nu_4 p) 4) hist).
Proof.
  set (p := mkParams 1 1 0 10 1 8 (2 / 3)).
  set (hist := [[(1, 1)]] : list (list (R * R))).
  exists (fun key => if String.eqb key "epsK" then Some (map (diss_all p) hist) else if String.eqb key "epsK4" then Some (map (diss (nu_4 p) 4) hist) else Some [1]).
  exists p; unfold versus_time, add_if; cbn [nu_4 nu_8 p].
  replace (truth 0) with false by (unfold truth; destruct (Req_EM_T 0 0); tauto).
  rewrite truth_true by lra.
  eexists; exists hist; split; [reflexivity |].
  do 3 (split; [reflexivity |]).
  split; [reflexivity |].
  split; [| reflexivity].
  constructor; [cbn; lra | constructor].
Qed.

(** ** C233: the averages *)

(** the mean of the values at the times of [tmin, tmax] *)
Definition keep (tmin : R) (tmax : option R) (t : R) : bool :=
  (if Rle_dec tmin t then true else false) && match tmax with None => true | Some m => if Rle_dec t m then true else false end.
Definition within (tmin : R) (tmax : option R) (ts q : list R) : list R :=
  map snd (filter (fun tv => keep tmin tmax (fst tv)) (combine ts q)).

Fixpoint increasing (ts : list R) : Prop := match ts with [] => True | t :: r => Forall (Rlt t) r /\ increasing r end.

Lemma argmin_from_bounds : forall l best ib i, (ib < i)%nat -> (argmin_from best ib i l < i + length l)%nat.
Proof.
  induction l as [| x l IH]; intros best ib i H; cbn [argmin_from length]; [lia |].
  destruct (Rlt_dec x best); eapply Nat.lt_le_trans; [apply IH; lia | lia | apply IH; lia | lia].
Qed.

Lemma argmin_from_zero : forall l best ib i j, 0 < best -> (forall n, (n < j)%nat -> 0 < nth n l 0) -> (forall n, (j < n < length l)%nat -> 0 < nth n l 0) ->
  (j < length l)%nat -> nth j l 0 = 0 -> argmin_from best ib i l = (i + j)%nat.
Proof.
  induction l as [| x l IH]; intros best ib i j B A A' J Z; [cbn in J; lia |].
  cbn [argmin_from]; destruct j as [| j].
  - cbn in Z; subst x; destruct (Rlt_dec 0 best); [| lra].
    assert (G : forall l' k, (forall n, (n < length l')%nat -> 0 < nth n l' 0) -> argmin_from 0 i k l' = i).
    { induction l' as [| y l' IH']; intros k P; cbn [argmin_from]; auto.
      specialize (P 0%nat ltac:(cbn; lia)) as P0; cbn in P0.
      destruct (Rlt_dec y 0); [lra |]; apply IH'; intros m M; apply (P (S m)); cbn; lia. }
    rewrite G; [lia |]; intros n N; apply (A' (S n)); cbn; lia.
  - specialize (A 0%nat ltac:(lia)) as A0; cbn in A0.
    destruct (Rlt_dec x best); rewrite (IH _ _ _ j); auto; try lia.
    all: try (intros m M; apply (A (S m)); lia); try (intros m M; apply (A' (S m)); cbn; lia); cbn in J; lia.
Qed.

Lemma increasing_lt : forall ts i j, increasing ts -> (i < j < length ts)%nat -> nth i ts 0 < nth j ts 0.
Proof.
  induction ts as [| t r IH]; intros i j I0 H; [cbn in H; lia |]; destruct I0 as [F I].
  destruct j as [| j]; [lia |]; destruct i as [| i]; cbn [nth].
  - rewrite Forall_forall in F; apply F, nth_In; cbn in H; lia.
  - apply IH; auto; cbn in H; lia.
Qed.

Lemma nearest_saved : forall ts i, increasing ts -> (i < length ts)%nat -> nearest ts (nth i ts 0) = i.
Proof.
  intros ts i I H; unfold nearest.
  set (t := nth i ts 0).
  assert (V : forall n, (n < length ts)%nat -> nth n (map (fun x => Rabs (x - t)) ts) 0 = Rabs (nth n ts 0 - t)).
  { intros n N; rewrite nth_indep with (d' := Rabs (0 - t)) by (rewrite map_length; auto).
    apply (map_nth (fun x => Rabs (x - t))). }
  assert (P : forall n, (n < length ts)%nat -> n <> i -> 0 < nth n (map (fun x => Rabs (x - t)) ts) 0).
  { intros n N NI; rewrite V by auto; apply Rabs_pos_lt; unfold t.
    destruct (Nat.lt_total n i) as [L | [E | L]]; [| tauto |].
    - assert (K := increasing_lt ts n i I ltac:(lia)); lra.
    - assert (K := increasing_lt ts i n I ltac:(lia)); lra. }
  assert (Z : nth i (map (fun x => Rabs (x - t)) ts) 0 = 0).
  { rewrite V by auto; unfold t; rewrite Rminus_diag_eq, Rabs_R0; auto. }
  assert (L : length (map (fun x => Rabs (x - t)) ts) = length ts) by apply map_length.
  destruct (map (fun x => Rabs (x - t)) ts) as [| x l]; [cbn in L; lia |].
  cbn in L; cbn [argmin]; destruct i as [| i].
  - cbn in Z; subst x.
    assert (G : forall l' k, (forall n, (n < length l')%nat -> 0 < nth n l' 0) -> argmin_from 0 0 k l' = 0%nat).
    { induction l' as [| y l' IH']; intros k Q; cbn [argmin_from]; auto.
      specialize (Q 0%nat ltac:(cbn; lia)) as Q0; cbn in Q0.
      destruct (Rlt_dec y 0); [lra |]; apply IH'; intros m M; apply (Q (S m)); cbn; lia. }
    apply G; intros n N; apply (P (S n)); lia.
  - rewrite (argmin_from_zero l x 0 1 i); auto; try lia.
    + apply (P 0%nat); lia.
    + intros n N; apply (P (S n)); lia.
    + intros n N; apply (P (S n)); lia.
Qed.

Lemma within_slice : forall (P : R -> bool) ts q a stop, length q = length ts ->
  (forall i, (i < length ts)%nat -> P (nth i ts 0) = (a <=? i)%nat && (i <? stop)%nat) ->
  map snd (filter (fun tv => P (fst tv)) (combine ts q)) = slice a stop q.
Proof.
  intros P; induction ts as [| t ts IH]; intros [| x q] a stop L H; try (cbn in L; discriminate).
  - unfold slice; rewrite skipn_nil, firstn_nil; reflexivity.
  - assert (T : map snd (filter (fun tv => P (fst tv)) (combine ts q)) = slice (a - 1) (stop - 1) q).
    { apply IH; [cbn in L; lia |].
      intros i I; specialize (H (S i) ltac:(cbn; lia)); cbn [nth] in H; rewrite H.
      f_equal; [destruct (Nat.leb_spec a (S i)), (Nat.leb_spec (a - 1) i) | destruct (Nat.ltb_spec (S i) stop), (Nat.ltb_spec i (stop - 1))]; auto; lia. }
    specialize (H 0%nat ltac:(cbn; lia)); cbn [nth] in H.
    cbn [combine filter fst]; rewrite H.
    destruct a as [| a]; cbn [Nat.leb andb].
    + destruct stop as [| stop]; cbn [Nat.ltb Nat.leb andb].
      * rewrite T; reflexivity.
      * cbn [map snd]; rewrite T; unfold slice; cbn [skipn]; rewrite !Nat.sub_0_r.
        replace (S stop - 1)%nat with stop by lia; reflexivity.
    + rewrite T; unfold slice; cbn [skipn].
      replace (stop - 1 - (S a - 1))%nat with (stop - S a)%nat by lia; replace (S a - 1)%nat with a by lia; reflexivity.
Qed.

Lemma lookup_map : forall (f : list R -> option R) key q l, lookup key l = Some q ->
  lookup key (map (fun kq : string * list R => (fst kq, f (snd kq))) l) = Some (f q).
Proof.
  intros f key q l; unfold lookup; induction l as [| [k x] l IH]; cbn [find map fst snd option_map]; [discriminate |].
  destruct (String.eqb k key); auto.
  cbn; intros E; injection E as ->; auto.
Qed.

Lemma averaged_lookup : forall p r tmin tmax key q, lookup key (dimless r) = Some q ->
  lookup key (fst (averaged p r tmin tmax))
  = Some (mean (slice (fst (indices (times r) tmin tmax)) (S (snd (indices (times r) tmin tmax))) q)).
Proof.
  intros p r tmin tmax key q H; unfold averaged.
  destruct (indices (times r) tmin tmax) as [a b]; cbn [fst snd].
  apply (lookup_map (fun l => mean (slice a (S b) l))); auto.
Qed.

Lemma averaged_lookup_dim : forall p r tmin tmax key q, lookup key (dimensional r) = Some q ->
  lookup key (snd (averaged p r tmin tmax))
  = Some (mean (slice (fst (indices (times r) tmin tmax)) (S (snd (indices (times r) tmin tmax))) q)).
Proof.
  intros p r tmin tmax key q H; unfold averaged.
  destruct (indices (times r) tmin tmax) as [a b]; cbn [fst snd].
  rewrite lookup_app, (lookup_map (fun l => mean (slice a (S b) l)) _ q); auto.
Qed.

(** the index of a saved time *)
Definition saved (ts : list R) (t : R) : Prop := exists i, (i < length ts)%nat /\ nth i ts 0 = t.

Lemma keep_index : forall ts i j tmax b, increasing ts -> (i < length ts)%nat -> (j < length ts)%nat ->
  match tmax with None => b = (length ts - 1)%nat | Some m => (b < length ts)%nat /\ nth b ts 0 = m end ->
  keep (nth i ts 0) tmax (nth j ts 0) = (i <=? j)%nat && (j <? S b)%nat.
Proof.
  intros ts i j tmax b I Hi Hj B; unfold keep; f_equal.
  - destruct (Rle_dec (nth i ts 0) (nth j ts 0)), (Nat.leb_spec i j); auto.
    + assert (K := increasing_lt ts j i I ltac:(lia)); lra.
    + exfalso; destruct (Nat.eq_dec i j) as [-> | D]; [lra | assert (K := increasing_lt ts i j I ltac:(lia)); lra].
  - destruct tmax as [m |].
    + destruct B as [Hb <-].
      destruct (Rle_dec (nth j ts 0) (nth b ts 0)), (Nat.ltb_spec j (S b)); auto.
      * assert (K := increasing_lt ts b j I ltac:(lia)); lra.
      * exfalso; destruct (Nat.eq_dec b j) as [-> | D]; [lra | assert (K := increasing_lt ts j b I ltac:(lia)); lra].
    + subst b; symmetry; apply Nat.ltb_lt; lia.
Qed.

Lemma slice_within : forall ts q tmin tmax, increasing ts -> length q = length ts -> saved ts tmin ->
  match tmax with None => True | Some m => saved ts m end ->
  slice (fst (indices ts tmin tmax)) (S (snd (indices ts tmin tmax))) q = within tmin tmax ts q.
Proof.
  intros ts q tmin tmax I L (i & Hi & <-) M; symmetry; unfold within, indices; cbn [fst snd].
  rewrite nearest_saved by auto.
  destruct tmax as [m |].
  - destruct M as (b & Hb & <-); rewrite nearest_saved by auto.
    apply within_slice; auto; intros j J; apply keep_index; auto.
  - apply within_slice; auto; intros j J; apply keep_index; auto.
Qed.

(** if tmin and tmax are times of the file, the averages are the means over the times of [tmin, tmax] *)
Theorem c233_average_partial : forall p r tmin tmax key q, increasing (times r) -> length q = length (times r) -> saved (times r) tmin ->
  match tmax with None => True | Some m => saved (times r) m end ->
  (lookup key (dimless r) = Some q -> lookup key (fst (averaged p r tmin tmax)) = Some (mean (within tmin tmax (times r) q)))
  /\ (lookup key (dimensional r) = Some q -> lookup key (snd (averaged p r tmin tmax)) = Some (mean (within tmin tmax (times r) q))).
Proof.
  intros p r tmin tmax key q I L S M; split; intros H.
  - rewrite (averaged_lookup _ _ _ _ _ _ H), slice_within; auto.
  - rewrite (averaged_lookup_dim _ _ _ _ _ _ H), slice_within; auto.
Qed.

(** otherwise they are means over the times between the nearest ones *)
Lemma argmin_from_spec : forall l best ib i all, all = firstn i all ++ l -> length (firstn i all) = i -> (ib < i)%nat -> nth ib all 0 = best ->
  (forall n, (n < i)%nat -> best <= nth n all 0) ->
  (argmin_from best ib i l < length all)%nat /\ forall n, (n < length all)%nat -> nth (argmin_from best ib i l) all 0 <= nth n all 0.
Proof.
  induction l as [| x l IH]; intros best ib i all A Li B N M; cbn [argmin_from].
  - assert (length all = i) by (rewrite A, app_nil_r, Li; auto).
    split; [lia |]; rewrite N; intros; apply M; lia.
  - assert (X : nth i all 0 = x) by (rewrite A, app_nth2, Li, Nat.sub_diag by lia; auto).
    assert (A' : all = firstn (S i) all ++ l).
    { rewrite A at 2; rewrite firstn_app, Li.
      replace (S i - i)%nat with 1%nat by lia; change (firstn 1 (x :: l)) with [x].
      rewrite firstn_firstn, Nat.min_r by lia; rewrite <- app_assoc; exact A. }
    assert (L' : length (firstn (S i) all) = S i).
    { rewrite firstn_length; assert (length all = (i + S (length l))%nat) by (rewrite A, app_length, Li; auto); lia. }
    destruct (Rlt_dec x best); apply IH; auto; try lia.
    + intros n Hn; destruct (Nat.eq_dec n i) as [-> |]; [lra |]; assert (K := M n ltac:(lia)); lra.
    + intros n' Hn; destruct (Nat.eq_dec n' i) as [-> |]; [lra |]; apply M; lia.
Qed.

Lemma nearest_spec : forall ts t, ts <> [] -> (nearest ts t < length ts)%nat /\ forall n, (n < length ts)%nat -> Rabs (nth (nearest ts t) ts 0 - t) <= Rabs (nth n ts 0 - t).
Proof.
  intros ts t NE; unfold nearest.
  assert (V : forall n, (n < length ts)%nat -> nth n (map (fun x => Rabs (x - t)) ts) 0 = Rabs (nth n ts 0 - t)).
  { intros n N; rewrite nth_indep with (d' := Rabs (0 - t)) by (rewrite map_length; auto).
    apply (map_nth (fun x => Rabs (x - t))). }
  assert (L : length (map (fun x => Rabs (x - t)) ts) = length ts) by apply map_length.
  destruct (map (fun x => Rabs (x - t)) ts) as [| x l] eqn:E.
  - destruct ts; [tauto | discriminate].
  - cbn [argmin].
    destruct (argmin_from_spec l x 0 1 (x :: l)) as [A B]; auto.
    + intros n N; destruct n; [cbn; lra | lia].
    + rewrite L in *; split; auto.
      intros n N; rewrite <- !V by auto; apply B; auto.
Qed.

Theorem c233_nearest : forall ts t, ts <> [] -> (nearest ts t < length ts)%nat /\ Forall (fun x => Rabs (nth (nearest ts t) ts 0 - t) <= Rabs (x - t)) ts.
Proof.
  intros ts t NE; destruct (nearest_spec ts t NE) as [A B]; split; auto.
  rewrite Forall_forall; intros x I; apply In_nth with (d := 0) in I; destruct I as (n & N & <-); auto.
Qed.

(** a time out of [tmin, tmax] can be taken into account *)
Theorem c233_interval_refuted : exists p r tmin tmax key q, increasing (times r) /\ length q = length (times r) /\ tmin <= tmax /\
  (exists t, In t (times r) /\ tmin <= t <= tmax) /\
  lookup key (dimless r) = Some q /\ lookup key (fst (averaged p r tmin (Some tmax))) <> Some (mean (within tmin (Some tmax) (times r) q)).
Proof.
  exists params_ex, (mkNumbers [0; 1; 2] [("Fh"%string, [4; 1; 1])] []), (1 / 4), 2, "Fh"%string, [4; 1; 1].
  split; [cbn; repeat constructor; lra |].
  split; [reflexivity |].
  split; [lra |].
  split; [exists 1; split; [cbn; auto | lra] |].
  split; [reflexivity |].
  rewrite (averaged_lookup _ _ _ _ "Fh" [4; 1; 1]) by reflexivity.
  assert (I : indices [0; 1; 2] (1 / 4) (Some 2) = (0, 2)%nat).
  { unfold indices, nearest; cbn [map].
    replace (Rabs (0 - 1 / 4)) with (1 / 4) by (rewrite Rabs_left; lra).
    replace (Rabs (1 - 1 / 4)) with (3 / 4) by (rewrite Rabs_right; lra).
    replace (Rabs (2 - 1 / 4)) with (7 / 4) by (rewrite Rabs_right; lra).
    replace (Rabs (0 - 2)) with 2 by (rewrite Rabs_left; lra).
    replace (Rabs (1 - 2)) with 1 by (rewrite Rabs_left; lra).
    replace (Rabs (2 - 2)) with 0 by (rewrite Rabs_right; lra).
    cbn [argmin argmin_from].
    destruct (Rlt_dec (3 / 4) (1 / 4)); [lra |].
    destruct (Rlt_dec (7 / 4) (1 / 4)); [lra |].
    destruct (Rlt_dec 1 2); [| lra].
    destruct (Rlt_dec 0 1); [reflexivity | lra]. }
  cbn [times]; rewrite I; cbn [fst snd slice skipn firstn Nat.sub].
  unfold within, keep; cbn [combine filter fst].
  destruct (Rle_dec (1 / 4) 0); [lra |].
  destruct (Rle_dec (1 / 4) 1); [| lra].
  destruct (Rle_dec (1 / 4) 2); [| lra].
  destruct (Rle_dec 1 2); [| lra].
  destruct (Rle_dec 2 2); [| lra].
  cbn; intros E; injection E as E; lra.
Qed.

(** the average of a number which is linear in the saved quantities is the number of the averages, not the one of a ratio *)
Lemma sum_map_scale : forall c l, sum (map (fun e => e / c) l) = sum l / c.
Proof. intros c l; induction l as [| x l IH]; cbn [map sum]; [unfold Rdiv; ring | rewrite IH; unfold Rdiv; ring]. Qed.

Lemma slice_map : forall f a b l, slice a b (map f l) = map f (slice a b l).
Proof. intros; unfold slice; rewrite skipn_map, firstn_map; auto. Qed.

Theorem c233_linear : forall p d r Uh2 EKz epsK epsA tmin tmax m, versus_time_strat p d = Some r -> energies d = Some (Uh2, EKz) ->
  d "epsK"%string = Some epsK -> d "epsA"%string = Some epsA -> nu_2 p <> 0 ->
  lookup "epsK" (snd (averaged p r tmin tmax)) = Some (Some m) ->
  lookup "R2" (fst (averaged p r tmin tmax)) = Some (Some (m / (nu_2 p * p_N p ^ 2))).
Proof.
  intros p d r Uh2 EKz epsK epsA tmin tmax m Hr He Hk Ha N M.
  assert (R2 : lookup "R2" (dimless r) = Some (map (fun e => e / (nu_2 p * p_N p ^ 2)) epsK)).
  { rewrite (strat_lookup p d r Uh2 EKz epsK epsA Hr He Hk Ha) by reflexivity.
    rewrite truth_true by auto; reflexivity. }
  assert (K : lookup "epsK" (dimensional r) = Some epsK).
  { clear R2 M; revert Hr; unfold versus_time_strat, versus_time.
    destruct (d "t"%string); [cbn [bind] | discriminate].
    rewrite He; cbn [bind]; rewrite Hk; cbn [bind].
    destruct (add_if (nu_4 p) d "epsK4" _); [cbn [bind] | discriminate].
    destruct (add_if (nu_8 p) d "epsK8" _); [cbn [bind] | discriminate].
    rewrite Ha; cbn [bind].
    destruct (d "EA"%string); [cbn [bind] | discriminate].
    intros H; inversion H; reflexivity. }
  rewrite (averaged_lookup_dim _ _ _ _ _ _ K) in M.
  rewrite (averaged_lookup _ _ _ _ _ _ R2), slice_map.
  assert (M' : mean (slice (fst (indices (times r) tmin tmax)) (S (snd (indices (times r) tmin tmax))) epsK) = Some m) by congruence.
  clear M; destruct (slice _ _ epsK) as [| x l]; [discriminate |].
  unfold mean in *; cbn [map]; f_equal; f_equal.
  change (x / (nu_2 p * p_N p ^ 2) :: map (fun e => e / (nu_2 p * p_N p ^ 2)) l) with (map (fun e => e / (nu_2 p * p_N p ^ 2)) (x :: l)).
  rewrite sum_map_scale, map_length.
  assert (E : sum (x :: l) / INR (length (x :: l)) = m) by congruence.
  rewrite <- E; unfold Rdiv; ring.
Qed.

Example c233_example : increasing [0; 1; 2] /\ saved [0; 1; 2] 1.
Proof. split; [cbn; repeat constructor; lra | exists 1%nat; cbn; auto]. Qed.

(** ** C234: the ratio of the frequencies of ns2d.strat *)

(** Specification: the dimension of the rate: of enstrophy, of ap_fft squared (ap = N^2 uy + ..., L T^-3) or of energy *)
Definition dim_rate (f : forcing) : Z * Z :=
  match constant_rate_of f with
  | Some _ => (2, -3)%Z
  | None => match key_forced f with None => (0, -3)%Z | Some k => if String.eqb k "ap_fft" then (2, -7)%Z else (0, -3)%Z end
  end.
Definition change_forcing (l s : R) (f : forcing) : forcing :=
  mkForcing (unit_of l s (fst (dim_rate f)) (snd (dim_rate f)) * forcing_rate f) (nkmin f) (nkmax f) (key_forced f) (constant_rate_of f).

Lemma Rpower_unit : forall l s a b x y, 0 < l -> 0 < s -> 0 < x ->
  Rpower (unit_of l s a b * x) y = Rpower l (IZR a * y) * Rpower s (IZR b * y) * Rpower x y.
Proof.
  intros l s a b x y L S X.
  rewrite <- Rpower_mult_distr by (auto using unit_pos); unfold unit_of.
  rewrite <- Rpower_mult_distr by (apply powerRZ_lt; auto).
  rewrite !powerRZ_Rpower, !Rpower_mult by auto; reflexivity.
Qed.

Lemma Rmax_scale : forall a x y, 0 < a -> Rmax (a * x) (a * y) = a * Rmax x y.
Proof. intros; apply RmaxRmult; lra. Qed.

Section Ratio.
Variables (l s N F Lx Ly : R) (f : forcing).
Hypotheses (Hl : 0 < l) (Hs : 0 < s) (HP : 0 < forcing_rate f) (HLx : 0 < Lx) (HLy : 0 < Ly) (Hk : 0 < nkmax f + nkmin f).

Let deltak (Lx Ly : R) := Rmax (2 * PI / Lx) (2 * PI / Ly).
Let l_f Lx Ly := 2 * PI / ((nkmax f + nkmin f) / 2 * deltak Lx Ly).

Lemma deltak_pos : 0 < deltak Lx Ly.
Proof.
  unfold deltak; apply Rlt_le_trans with (2 * PI / Lx); [| apply Rmax_l].
  apply Rdiv_lt_0_compat; auto; assert (K := PI_RGT_0); lra.
Qed.

Lemma l_f_pos : 0 < l_f Lx Ly.
Proof.
  unfold l_f; assert (K := PI_RGT_0); assert (D := deltak_pos).
  apply Rdiv_lt_0_compat; [lra |]; apply Rmult_lt_0_compat; lra.
Qed.

Lemma l_f_change : l_f (l * Lx) (l * Ly) = l * l_f Lx Ly.
Proof.
  unfold l_f.
  assert (D : deltak (l * Lx) (l * Ly) = / l * deltak Lx Ly).
  { unfold deltak.
    replace (2 * PI / (l * Lx)) with (/ l * (2 * PI / Lx)) by (field; lra).
    replace (2 * PI / (l * Ly)) with (/ l * (2 * PI / Ly)) by (field; lra).
    apply Rmax_scale, Rinv_0_lt_compat; auto. }
  rewrite D; assert (K := deltak_pos); field; repeat split; lra.
Qed.

Lemma Rpower_0 : forall x, Rpower x 0 = 1.
Proof. intros x; unfold Rpower; rewrite Rmult_0_l; apply exp_0. Qed.
Lemma Rpower_cancel : forall x y z, y + z = 0 -> Rpower x y * Rpower x z = 1.
Proof. intros x y z E; rewrite <- Rpower_plus, E; apply Rpower_0. Qed.
Lemma Rpower_m1 : forall x y, 0 < x -> y = -1 -> Rpower x y = / x.
Proof. intros x y X ->; replace (-1) with (- (1)) by lra; rewrite Rpower_Ropp, Rpower_1; auto. Qed.

Lemma omega_af_change : omega_af (change_forcing l s f) (l * Lx) (l * Ly) = option_map (Rmult (/ s)) (omega_af f Lx Ly).
Proof.
  unfold omega_af; cbn [nkmin nkmax key_forced constant_rate_of forcing_rate change_forcing].
  fold (deltak Lx Ly) (deltak (l * Lx) (l * Ly)).
  change (2 * PI / ((nkmax f + nkmin f) / 2 * deltak Lx Ly)) with (l_f Lx Ly).
  change (2 * PI / ((nkmax f + nkmin f) / 2 * deltak (l * Lx) (l * Ly))) with (l_f (l * Lx) (l * Ly)).
  rewrite l_f_change; assert (Lf := l_f_pos).
  unfold dim_rate; destruct (constant_rate_of f) as [c |].
  - destruct (String.eqb c "energy" || String.eqb c "energyK"); auto; cbn [option_map fst snd]; f_equal.
    rewrite Rpower_unit by auto; rewrite <- (Rpower_mult_distr l) by auto.
    rewrite (Rpower_m1 s) by (auto; lra).
    transitivity (Rpower l (2 * (1 / 3)) * Rpower l (- (2 / 3)) * (/ s * (Rpower (forcing_rate f) (1 / 3) * Rpower (l_f Lx Ly) (- (2 / 3))))); [ring |].
    rewrite Rpower_cancel by lra; ring.
  - destruct (key_forced f) as [k |].
    + destruct (String.eqb k "rot_fft") eqn:Er.
      * apply String.eqb_eq in Er; subst k; cbn [option_map fst snd String.eqb Ascii.eqb Bool.eqb].
        f_equal; rewrite Rpower_unit by auto.
        rewrite (Rpower_m1 s) by (auto; lra).
        replace (IZR 0 * (1 / 3)) with 0 by lra; rewrite Rpower_0; ring.
      * destruct (String.eqb k "ap_fft"); auto; cbn [option_map fst snd]; f_equal.
        rewrite Rpower_unit by auto; rewrite <- (Rpower_mult_distr l) by auto.
        rewrite (Rpower_m1 s) by (auto; lra).
        transitivity (Rpower l (2 * (1 / 7)) * Rpower l (- (2 / 7)) * (/ s * (Rpower (forcing_rate f) (1 / 7) * Rpower (l_f Lx Ly) (- (2 / 7))))); [ring |].
        rewrite Rpower_cancel by lra; ring.
    + cbn [option_map fst snd]; f_equal; rewrite Rpower_unit by auto.
      rewrite (Rpower_m1 s) by (auto; lra).
      replace (IZR 0 * (1 / 3)) with 0 by lra; rewrite Rpower_0; ring.
Qed.

(** the ratio does not depend on the units *)
Theorem c234_units : ratio_omegas (/ s * N) F (change_forcing l s f) (l * Lx) (l * Ly) = ratio_omegas N F f Lx Ly.
Proof.
  unfold ratio_omegas; rewrite omega_af_change.
  destruct (omega_af f Lx Ly) as [w |]; cbn [option_map]; auto; f_equal.
  unfold Rdiv; rewrite (Rinv_mult (/ s) w), Rinv_inv.
  transitivity (/ s * s * (N * F * / (2 * PI) * / w)); [ring | rewrite Rinv_l by lra; ring].
Qed.
End Ratio.

(** an angle in degrees is converted, other strings are refused, and 2 pi omega_l is the frequency of the waves of the angle *)
Theorem c234_angle : forall x N k, 0 < k ->
  froude_number (Degrees x) = froude_number (Radians (x / 180 * PI)) /\ froude_number OtherString = None
  /\ froude_number (Radians x) = Some (sin x)
  /\ StratDt_Model.dispersion_relation N (k * sin x, k * cos x) = N * sin x.
Proof.
  intros x N k K; split; [| split; [| split]]; auto.
  - unfold froude_number; do 2 f_equal; field.
  - unfold StratDt_Model.dispersion_relation, StratDt_Model.K_not0; cbn [fst snd].
    assert (E : (k * sin x) ^ 2 + (k * cos x) ^ 2 = k * k).
    { assert (S := sin2_cos2 x); unfold Rsqr in S; transitivity (k * k * (sin x * sin x + cos x * cos x)); [ring | rewrite S; ring]. }
    rewrite E; destruct (Req_EM_T (k * k) 0) as [Z | Z]; [exfalso; apply Rmult_integral in Z; lra |].
    rewrite sqrt_square by lra; field; lra.
Qed.

(** which forcings have a ratio *)
Theorem c234_keys : forall N F f Lx Ly, ratio_omegas N F f Lx Ly = None <->
  ~ (match constant_rate_of f with
     | None => key_forced f = None \/ key_forced f = Some "rot_fft"%string \/ key_forced f = Some "ap_fft"%string
     | Some c => c = "energy"%string \/ c = "energyK"%string
     end).
Proof.
  intros N F f Lx Ly; unfold ratio_omegas, omega_af.
  destruct (constant_rate_of f) as [c |].
  - destruct (String.eqb_spec c "energy"), (String.eqb_spec c "energyK"); cbn [orb]; split; try discriminate; try tauto; intros; exfalso; tauto.
  - destruct (key_forced f) as [k |].
    + destruct (String.eqb_spec k "rot_fft") as [-> | A]; [split; [discriminate | intros H; exfalso; apply H; auto] |].
      destruct (String.eqb_spec k "ap_fft") as [-> | B]; [split; [discriminate | intros H; exfalso; apply H; auto] |].
      split; auto; intros _ [H | [H | H]]; [discriminate | |]; injection H; auto.
    + split; [discriminate | intros H; exfalso; apply H; auto].
Qed.

(** the limit of the time step due to the forcing: a time for a rate of enstrophy ... *)
Theorem c234_deltat_f_partial : forall l s P, 0 < l -> 0 < s -> 0 < P ->
  exists d, StratDt_Model.deltat_f P = inl d /\ StratDt_Model.deltat_f (unit_of l s 0 (-3) * P) = inl (s * d).
Proof.
  intros l s P L S HP; unfold StratDt_Model.deltat_f.
  assert (U := unit_pos l s 0 (-3) L S).
  assert (UP : 0 < unit_of l s 0 (-3) * P) by (apply Rmult_lt_0_compat; auto).
  destruct (Req_EM_T P 0); [lra |]; destruct (Rlt_dec P 0); [lra |].
  destruct (Req_EM_T _ 0); [lra |]; destruct (Rlt_dec _ 0); [lra |].
  eexists; split; [reflexivity |]; f_equal.
  rewrite Rpower_unit by auto; rewrite (Rpower_m1 s) by (auto; lra).
  replace (IZR 0 * (1 / 3)) with 0 by lra; rewrite Rpower_0.
  assert (Q := exp_pos (1 / 3 * ln P)); fold (Rpower P (1 / 3)) in Q; field; lra.
Qed.

(** ... but not for a rate of energy: the same simulation in other units is limited otherwise *)
Theorem c234_deltat_f_refuted : exists l s P d, 0 < l /\ 0 < s /\ 0 < P /\ StratDt_Model.deltat_f P = inl d
  /\ StratDt_Model.deltat_f (unit_of l s 2 (-3) * P) <> inl (s * d).
Proof.
  exists (2 * 2 * 2), 1, 1, 1; split; [lra |]; split; [lra |]; split; [lra |].
  assert (O : forall y, Rpower 1 y = 1) by (intros y; unfold Rpower; rewrite ln_1, Rmult_0_r; apply exp_0).
  split; unfold StratDt_Model.deltat_f.
  - destruct (Req_EM_T 1 0); [lra |]; destruct (Rlt_dec 1 0); [lra |]; f_equal; rewrite O; field.
  - assert (U := unit_pos (2 * 2 * 2) 1 2 (-3) ltac:(lra) ltac:(lra)).
    destruct (Req_EM_T _ 0); [lra |]; destruct (Rlt_dec _ 0); [lra |].
    rewrite Rpower_unit by lra; rewrite !O.
    replace (2 * 2 * 2) with (2 ^ 3) by ring; rewrite <- (Rpower_pow 3 2) by lra; rewrite Rpower_mult.
    replace (INR 3 * (2 * (1 / 3))) with (INR 2) by (simpl; field); rewrite Rpower_pow by lra.
    intros E; injection E as E; lra.
Qed.

Example c234_example : exists f, 0 < forcing_rate f /\ 0 < nkmax f + nkmin f /\ dim_rate f = (2, -3)%Z /\ ratio_omegas 10 (sin 1) f 1 1 <> None.
Proof.
  exists (mkForcing 1 4 5 (Some "rot_fft"%string) (Some "energy"%string)); cbn; repeat split; try lra; discriminate.
Qed.

(** ** The values *)

(** C232: Uh2 and EKh are the sums of the horizontal energies, time by time: those of ux and uy, or the rotational, divergent
    and shear ones *)
Theorem c232_energies : forall d (hist : list (R * R * R * R)),
  (d "Ex"%string = Some (map (fun h => fst (fst (fst h))) hist) -> d "Ey"%string = Some (map (fun h => snd (fst (fst h))) hist) ->
   d "Ez"%string = Some (map (fun h => snd (fst h)) hist) ->
   energies d = Some (map (fun h => fst (fst (fst h)) + snd (fst (fst h))) hist, map (fun h => snd (fst h)) hist))
  /\ (d "Ex"%string = None -> d "EKhr"%string = Some (map (fun h => fst (fst (fst h))) hist) ->
   d "EKhd"%string = Some (map (fun h => snd (fst (fst h))) hist) -> d "EKhs"%string = Some (map (fun h => snd (fst h)) hist) ->
   d "EKz"%string = Some (map snd hist) ->
   energies d = Some (map (fun h => fst (fst (fst h)) + snd (fst (fst h)) + snd (fst h)) hist, map snd hist)).
Proof.
  intros d hist; unfold energies; split.
  - intros -> -> ->; unfold add; rewrite zip_maps; auto.
  - intros -> -> -> -> ->; cbn [bind]; unfold add; rewrite !zip_maps; auto.
Qed.

(** C233: the mean of numbers, none for no number *)
Theorem c233_mean : forall l, match mean l with None => l = [] | Some m => l <> [] /\ fold_right (fun x acc => (x - m) + acc) 0 l = 0 end.
Proof.
  intros [| x l]; cbn [mean]; auto; split; [discriminate |].
  assert (G : forall m l', fold_right (fun x acc => (x - m) + acc) 0 l' = sum l' - INR (length l') * m).
  { intros m; induction l' as [| y l' IH]; cbn [fold_right sum length]; [simpl; ring | rewrite IH, S_INR; ring]. }
  rewrite G; field; apply not_0_INR; cbn; lia.
Qed.

(** the wave number k_max is given with the averages *)
Theorem c233_k_max : forall p r tmin tmax, lookup "k_max" (dimensional r) = None ->
  lookup "k_max" (snd (averaged p r tmin tmax)) = Some (Some (coef_dealiasing p * (PI * INR (nz p) / Lz p))).
Proof.
  intros p r tmin tmax H; unfold averaged; destruct (indices (times r) tmin tmax) as [a b]; cbn [snd].
  rewrite lookup_app.
  assert (N : forall f l, lookup "k_max" l = None -> lookup "k_max" (map (fun kq : string * list R => (fst kq, f (snd kq) : option R)) l) = None).
  { intros f l; unfold lookup; induction l as [| [k x] l IH]; cbn [find map fst snd option_map]; auto.
    destruct (String.eqb k "k_max"); auto; discriminate. }
  rewrite (N (fun q => mean (slice a (S b) q))) by auto.
  cbn; do 2 f_equal; unfold k_max.
  unfold Rdiv; transitivity (coef_dealiasing p * PI * / Lz p * INR (nz p) * (2 * / 2)); [ring | rewrite Rinv_r by lra; ring].
Qed.

(** C234: the forcing frequency is the one of the rate and of the forced length *)
Definition forced_length (f : forcing) (Lx Ly : R) : R := Rmin Lx Ly / ((nkmin f + nkmax f) / 2).

Lemma Rpower_third : forall x, 0 < x -> 0 < Rpower x (1 / 3) /\ Rpower x (1 / 3) ^ 3 = x.
Proof.
  intros x H; split; [apply exp_pos |].
  rewrite <- Rpower_pow by apply exp_pos.
  rewrite Rpower_mult; replace (1 / 3 * INR 3) with 1 by (simpl; field); apply Rpower_1; auto.
Qed.

Lemma l_f_spec : forall f Lx Ly, 0 < Lx -> 0 < Ly -> 0 < nkmax f + nkmin f ->
  2 * PI / ((nkmax f + nkmin f) / 2 * Rmax (2 * PI / Lx) (2 * PI / Ly)) = forced_length f Lx Ly.
Proof.
  intros f Lx Ly X Y K; unfold forced_length; assert (P := PI_RGT_0).
  assert (E : Rmax (2 * PI / Lx) (2 * PI / Ly) = 2 * PI / Rmin Lx Ly).
  { unfold Rmin; destruct (Rle_dec Lx Ly) as [L | L].
    - apply Rmax_left; unfold Rdiv; apply Rmult_le_compat_l; [lra | apply Rinv_le_contravar; auto].
    - apply Rmax_right; unfold Rdiv; apply Rmult_le_compat_l; [lra | apply Rinv_le_contravar; lra]. }
  rewrite E; assert (0 < Rmin Lx Ly) by (apply Rmin_glb_lt; auto).
  field; repeat split; lra.
Qed.

Theorem c234_value : forall N F f Lx Ly g, 0 < Lx -> 0 < Ly -> 0 < nkmax f + nkmin f -> 0 < forcing_rate f ->
  ratio_omegas N F f Lx Ly = Some g ->
  exists w, 0 < w /\ g * w = N * F / (2 * PI)
    /\ match constant_rate_of f with
       | Some _ => w ^ 3 * forced_length f Lx Ly ^ 2 = forcing_rate f
       | None => if match key_forced f with Some k => String.eqb k "ap_fft" | None => false end
                 then w ^ 7 * forced_length f Lx Ly ^ 2 = forcing_rate f else w ^ 3 = forcing_rate f
       end.
Proof.
  intros N F f Lx Ly g X Y K P H; unfold ratio_omegas, omega_af in H.
  rewrite l_f_spec in H by auto.
  assert (L : 0 < forced_length f Lx Ly) by (unfold forced_length; apply Rdiv_lt_0_compat; [apply Rmin_glb_lt; auto | lra]).
  set (lf := forced_length f Lx Ly) in *.
  assert (Q : forall w, 0 < w -> Some (N * F / (2 * PI) / w) = Some g -> g * w = N * F / (2 * PI)).
  { intros w W E; assert (g = N * F / (2 * PI) / w) as -> by congruence; unfold Rdiv at 1; rewrite Rmult_assoc, Rinv_l by lra; ring. }
  assert (B : forall n y z, (0 < n)%nat -> y = 1 / INR n -> z = - (2 / INR n) -> (Rpower (forcing_rate f) y * Rpower lf z) ^ n * lf ^ 2 = forcing_rate f).
  { intros n y z Hn -> ->; assert (INR n <> 0) by (apply not_0_INR; lia).
    rewrite Rpow_mult_distr, <- !Rpower_pow by (auto; apply exp_pos).
    rewrite !Rpower_mult, Rmult_assoc, <- Rpower_plus.
    replace (1 / INR n * INR n) with 1 by (field; auto).
    replace (- (2 / INR n) * INR n + INR 2) with 0 by (simpl INR; field; auto).
    rewrite Rpower_1, Rpower_0 by auto; ring. }
  destruct (constant_rate_of f) as [c |].
  - destruct (String.eqb c "energy" || String.eqb c "energyK"); [| discriminate].
    exists (Rpower (forcing_rate f) (1 / 3) * Rpower lf (- (2 / 3))).
    assert (W : 0 < Rpower (forcing_rate f) (1 / 3) * Rpower lf (- (2 / 3))) by (apply Rmult_lt_0_compat; apply exp_pos).
    split; auto; split; [apply Q; auto | apply B; [lia | simpl; field | simpl; field]].
  - destruct (key_forced f) as [k |].
    + destruct (String.eqb k "rot_fft") eqn:ER.
      * assert (EA : String.eqb k "ap_fft" = false) by (apply String.eqb_eq in ER; subst k; reflexivity).
        rewrite EA; exists (Rpower (forcing_rate f) (1 / 3)); destruct (Rpower_third _ P) as [W W3].
        split; [exact W |]; split; [apply Q; [exact W | exact H] | exact W3].
      * destruct (String.eqb k "ap_fft"); [| discriminate].
        exists (Rpower (forcing_rate f) (1 / 7) * Rpower lf (- (2 / 7))).
        assert (W : 0 < Rpower (forcing_rate f) (1 / 7) * Rpower lf (- (2 / 7))) by (apply Rmult_lt_0_compat; apply exp_pos).
        split; auto; split; [apply Q; auto | apply B; [lia | simpl; field | simpl; field]].
    + exists (Rpower (forcing_rate f) (1 / 3)); destruct (Rpower_third _ P) as [W W3].
      split; [exact W |]; split; [apply Q; [exact W | exact H] | exact W3].
Qed.

Print Assumptions c232_energies.
Print Assumptions c233_mean.
Print Assumptions c233_k_max.
Print Assumptions c234_value.
Print Assumptions c232_units.
Print Assumptions c232_units_ns3d.
Print Assumptions c232_numbers.
Print Assumptions c232_share.
Print Assumptions c232_eta.
Print Assumptions c233_average_partial.
Print Assumptions c233_nearest.
Print Assumptions c233_interval_refuted.
Print Assumptions c233_linear.
Print Assumptions c234_units.
Print Assumptions c234_angle.
Print Assumptions c234_keys.
Print Assumptions c234_deltat_f_partial.
Print Assumptions c234_deltat_f_refuted.
