(** * plate2d: C101, C102, C103, C104 *)

From Coq Require Import Reals Lra ZArith Lia String List Bool FunctionalExtensionality.
From Coquelicot Require Import Coquelicot.
From Verif Require Import CExp DFT Alias_Model Alias_Proofs Oper_Model Budget_Model Budget_Spec Budget_Proofs Budget2D_Proofs
  Means_Model Means_Spec Means_Proofs Means_Props Means3D_Props MeansInj_Props Plate_Model Plate_Spec Plate_Proofs.
Import ListNotations.
Local Open Scope R_scope.

(** ** When the products are seen as they are: less than a quarter of the modes of each direction *)

Theorem c101_quarter removed o ms : oper_pos o ->
  (forall m, In m ms -> (2 * Z.abs (mx m) <= Z.of_nat (nx o) /\ 2 * Z.abs (my m) <= Z.of_nat (ny o) /\ mz m = 0)%Z) ->
  (forall m, In m ms -> removed m = false -> (4 * Z.abs (mx m) < Z.of_nat (nx o) /\ 4 * Z.abs (my m) < Z.of_nat (ny o))%Z) ->
  products_seen removed o ms.
Proof.
  intros Ho Hg Hk p q k Hp Hq Hin Rp Rq [l [(E1 & E2 & E3) N]]. apply N.
  destruct (Hk p Hp Rp) as [P1 P2], (Hk q Hq Rq) as [Q1 Q2], (Hg k Hin) as (G1 & G2 & G3), (Hg p Hp) as (_ & _ & P3), (Hg q Hq) as (_ & _ & Q3).
  destruct Ho as (N1 & N2 & N3 & _). destruct l as [[a b] c]. unfold mx, my, mz in *. cbn [fst snd] in *.
  assert (a = 0 /\ b = 0 /\ c = 0)%Z as (-> & -> & ->); [|reflexivity]. repeat split; nia.
Qed.

Section Plate.
Variable o : oper.
Variable ms : list mode.
Variable removed : mode -> bool.
Hypothesis Ho : oper_pos o.
Hypothesis Hm : plate_modes removed ms.

Lemma first_zero m : In m ms -> (first_mode m = true <-> m = (0, 0, 0)%Z).
Proof.
  intros Hin. destruct Hm as (_ & H2 & _). specialize (H2 m Hin). destruct m as [[a b] c]. unfold first_mode, mx, my, mz in *. cbn [fst snd] in *. subst c.
  rewrite andb_true_iff, !Z.eqb_eq. split; [intros [-> ->]; reflexivity | intros E; injection E; auto].
Qed.

Lemma k4_pos m : In m ms -> m <> (0, 0, 0)%Z -> 0 < k4 o m.
Proof.
  intros Hin N. rewrite <- K4_k4 by exact Ho. unfold K4. apply pow_lt. rewrite <- K2_first.
  - apply K2_not0_pos. exact Ho.
  - apply not_true_iff_false. rewrite first_zero by exact Hin. exact N.
Qed.

(** the brackets which are computed are exact *)
Lemma monge_bracket a b k : (forall p q, In p ms -> In q ms -> aliased o p q k -> (a p * b q)%C = RtoC 0) ->
  fft o (monge_ampere_from_fft o ms a b) k = bracket o ms a b k.
Proof.
  intros H. rewrite (monge_fft o ms Ho). unfold bracket. apply lsum_ext. intros p Hp. apply lsum_ext. intros q Hq. rewrite (jac_cross o Ho).
  destruct (mode_eqb (madd p q) k) eqn:E.
  - assert (E2 : congruent (grid_of o) (msubt (madd p q) k) = true).
    { apply congruent_folds; [exact Ho|]. exists zero_mode. apply mode_eqb_eq in E. subst k. unfold folds, zero_mode, madd, mx, my, mz. cbn [fst snd]. lia. }
    rewrite E2. reflexivity.
  - destruct (congruent _ _) eqn:E2; [|reflexivity]. apply congruent_folds in E2; [|exact Ho]. destruct E2 as [l Hl].
    rewrite H; [ring | exact Hp | exact Hq |]. exists l. split; [exact Hl|]. intros ->. apply not_true_iff_false in E. apply E. apply mode_eqb_eq.
    destruct Hl as (L1 & L2 & L3). destruct p as [[p1 p2] p3], q as [[q1 q2] q3], k as [[k1 k2] k3]. unfold madd, mx, my, mz in *. cbn [fst snd] in *.
    f_equal; [f_equal|]; lia.
Qed.

Lemma kept_or_zero a p : truncated removed ms a -> In p ms -> removed p = false \/ a p = RtoC 0.
Proof. intros H Hp. destruct (removed p) eqn:E; [right; apply H; assumption | left; reflexivity]. Qed.

Section Seen.
Hypothesis Hp : products_seen removed o ms.

(** ** C101: the stress function and the tendencies *)

Theorem c101_stress z : truncated removed ms z -> stress o ms z (chi_state o ms z) /\ stress o ms z (chi_solver o ms z).
Proof.
  intros Hz. assert (G : stress o ms z (chi_state o ms z)).
  - intros m Hin. split.
    + intros E. apply first_zero in E; [|exact Hin]. rewrite chi_value by exact Ho. rewrite E. reflexivity.
    + intros N. rewrite <- K4_k4 by exact Ho. rewrite K4_chi by exact Ho. rewrite <- first_zero in N by exact Hin. apply not_true_iff_false in N. rewrite N. f_equal.
      apply monge_bracket. intros p q Ip Iq Al. destruct (kept_or_zero z p Hz Ip) as [K1|E]; [|rewrite E; ring].
      destruct (kept_or_zero z q Hz Iq) as [K2|E]; [|rewrite E; ring]. destruct (Hp p q m Ip Iq Hin K1 K2 Al).
  - split; [exact G|]. intros m Hin. rewrite chi_eq. exact (G m Hin).
Qed.

Lemma stress_unique z chi chi' m : stress o ms z chi -> stress o ms z chi' -> In m ms -> chi m = chi' m.
Proof.
  intros H H' Hin. destruct (H m Hin) as [A B], (H' m Hin) as [A' B']. destruct (mode_eq_dec m (0, 0, 0)%Z) as [E|N].
  - rewrite A, A' by exact E. reflexivity.
  - specialize (B N). specialize (B' N). rewrite <- B' in B. pose proof (k4_pos m Hin N) as P.
    assert (P' : RtoC (k4 o m) <> RtoC 0) by (intros E; apply RtoC_inj in E; lra).
    transitivity (/ RtoC (k4 o m) * (RtoC (k4 o m) * chi m))%C; [field; exact P'|]. rewrite B. field. exact P'.
Qed.

Lemma aliased_turn p q k : aliased o p q k -> aliased o p (mopp k) (mopp q).
Proof. intros [l [H N]]. exists l. split; [|exact N]. unfold folds, mopp, mx, my, mz in *. cbn [fst snd] in *. lia. Qed.

Theorem c101_tendencies w z chi k : truncated removed ms z -> stress o ms z chi -> In k ms ->
  let F := tendencies o ms removed (w, z) in
  (removed k = false -> fst F k = (- (RtoC (k4 o k) * z k) + bracket o ms z chi k)%C /\ snd F k = w k)
  /\ (removed k = true -> fst F k = RtoC 0 /\ snd F k = RtoC 0).
Proof.
  intros Hz Hc Hin F. unfold F, tendencies, dealiasing. cbn [fst snd]. split; intros E; rewrite E; split; try reflexivity. f_equal.
  - rewrite <- K4_k4 by exact Ho. unfold laplacian_fft, laplacian, sign_of, K4. generalize (z k) (K2_2d o k). intros x r. apply C_eq; cbn; ring.
  - rewrite (monge_ext o ms Ho z z _ chi); [|reflexivity|].
    2:{ intros m Im. apply (stress_unique z); [|exact Hc | exact Im]. apply c101_stress. exact Hz. }
    apply monge_bracket. intros p q Ip Iq Al. destruct (kept_or_zero z p Hz Ip) as [K1|E0]; [|rewrite E0; ring]. exfalso.
    apply aliased_turn in Al. destruct Hm as ((_ & S) & _ & S2). refine (Hp p (mopp k) (mopp q) Ip (S k Hin) (S q Iq) K1 _ Al).
    rewrite S2 by exact Hin. exact E.
Qed.
End Seen.

(** ** Rates *)

Lemma lap4 a m : laplacian_fft o false a m = (RtoC (K4 o m) * a m)%C.
Proof. unfold laplacian_fft, laplacian, sign_of, K4. generalize (a m) (K2_2d o m). intros x r. apply C_eq; cbn; ring. Qed.

Lemma K4_ge0 m : 0 <= K4 o m.
Proof. unfold K4. apply pow2_ge_0. Qed.
Lemma norm2_ge0 x : 0 <= norm2 x.
Proof. unfold norm2. pose proof (pow2_ge_0 (fst x)). pose proof (pow2_ge_0 (snd x)). lra. Qed.

Lemma Ek_value w m : Ek_fft w m = norm2 (w m) / 2.
Proof. unfold Ek_fft. rewrite abs2_norm2. field. Qed.
Lemma El_value z m : El_fft o z m = k4 o m * norm2 (z m) / 2.
Proof.
  unfold El_fft. rewrite abs2_norm2, K4_k4 by exact Ho. pose proof (norm2_ge0 (z m)). pose proof (K4_ge0 m) as K. rewrite K4_k4 in K by exact Ho.
  rewrite Rabs_pos_eq; [field|]. apply Rmult_le_pos; [lra | assumption].
Qed.
Lemma lap_abs c a m : 0 <= c -> Cmod (RtoC c * laplacian_fft o false (fun m => RtoC (abs2 (a m))) m)%C = c * (k4 o m * norm2 (a m)).
Proof.
  intros Hc. rewrite lap4, abs2_norm2, <- !RtoC_mult, Cmod_R, K4_k4 by exact Ho. pose proof (norm2_ge0 (a m)). pose proof (K4_ge0 m) as K. rewrite K4_k4 in K by exact Ho.
  apply Rabs_pos_eq. apply Rmult_le_pos; [exact Hc | apply Rmult_le_pos; assumption].
Qed.
Lemma Ee_value a m : Ee_fft o a m = k4 o m * norm2 (a m) / 4.
Proof. unfold Ee_fft. rewrite lap_abs by lra. field. Qed.
Lemma El'_value z m : El_fft' o z m = k4 o m * norm2 (z m) / 2.
Proof. unfold El_fft'. rewrite lap_abs by lra. field. Qed.

Variable f_d f_h : mode -> R.
Variable dt : R.

Definition means (F : option field) (s : field * field) := written (plate2d_means o ms f_d f_h dt F s).

(** ** C103: the energies saved *)

Theorem c103_energies F w z :
  means F (w, z) "E_k" = square ms w /\ means F (w, z) "E_l" = bending o ms z
  /\ means F (w, z) "E_e" = stretching o ms (chi_state o ms z)
  /\ means F (w, z) "E" = square ms w + bending o ms z + stretching o ms (chi_state o ms z)
  /\ compute_energy o ms (w, z) = means F (w, z) "E".
Proof.
  assert (A : sum_wavenumbers ms (Ek_fft w) = square ms w).
  { unfold sum_wavenumbers. rewrite rsum_total. apply total_ext. intros m _. apply Ek_value. }
  assert (B : sum_wavenumbers ms (El_fft o z) = bending o ms z).
  { unfold sum_wavenumbers. rewrite rsum_total. apply total_ext. intros m _. apply El_value. }
  assert (D : sum_wavenumbers ms (Ee_fft o (chi_state o ms z)) = stretching o ms (chi_state o ms z)).
  { unfold sum_wavenumbers. rewrite rsum_total. apply total_ext. intros m _. apply Ee_value. }
  split; [exact A|]. split; [exact B|]. split; [exact D|].
  assert (E : means F (w, z) "E" = square ms w + bending o ms z + stretching o ms (chi_state o ms z)) by (rewrite <- A, <- B, <- D; reflexivity).
  split; [exact E|]. rewrite E. unfold compute_energy, sum_wavenumbers. rewrite rsum_total. unfold square, bending, stretching. rewrite <- !total_plus.
  apply total_ext. intros m _. rewrite Ek_value, El'_value, Ee_value. reflexivity.
Qed.

Lemma conv_kl F w z : means F (w, z) "conv_k_to_l" = rate ms (k4 o) z w.
Proof.
  transitivity (sum_wavenumbers ms (conversion_k_to_l_fft o w z)); [reflexivity|]. unfold sum_wavenumbers. rewrite rsum_total. apply total_ext. intros m _.
  unfold conversion_k_to_l_fft. rewrite K4_k4 by exact Ho. cbn. ring.
Qed.

Lemma conv_le F w z : means F (w, z) "conv_l_to_e"
  = - total ms (fun m => fst (fft o (monge_ampere_from_fft o ms w z) m * Cconj (chi_state o ms z m))%C).
Proof.
  transitivity (sum_wavenumbers ms (conversion_l_to_e_fft o ms w z (chi_state o ms z))); [reflexivity|]. unfold sum_wavenumbers. rewrite rsum_total, <- total_opp. reflexivity.
Qed.

Lemma stretching_rate z t w : moves ms z t w ->
  is_derive (fun s => stretching o ms (chi_state o ms (z s))) t (- total ms (fun m => fst (fft o (monge_ampere_from_fft o ms w (z t)) m * Cconj (chi_state o ms (z t) m))%C)).
Proof.
  intros H. set (chi' := fun m => if first_mode m then RtoC 0 else (RtoC (- 2 * / K2_not0 o m ^ 2) * fft o (monge_ampere_from_fft o ms w (z t)) m)%C).
  assert (M : moves ms (fun s => chi_state o ms (z s)) t chi') by (intros m _; exact (chi_derive o ms Ho z t w m H)).
  pose proof (derive_rate (k4 o) ms _ t chi' M) as D.
  pose proof (is_derive_scal _ t (1 / 2) _ D) as D2. cbv beta in D2.
  eapply is_derive_ext; [|eapply is_derive_eq; [exact D2|]].
  - intros s. unfold stretching. rewrite <- total_scal. apply total_ext. intros m _. field.
  - unfold rate. rewrite <- total_scal, <- total_opp. apply total_ext. intros m Im. unfold chi'. rewrite <- K4_k4 by exact Ho.
    destruct (first_mode m) eqn:E.
    + rewrite chi_value by exact Ho. rewrite E. cbn. ring.
    + rewrite (K2_first o m E). pose proof (K2_not0_pos o m Ho) as P. rewrite (K2_first o m E) in P. unfold K4.
      generalize (chi_state o ms (z t) m) (fft o (monge_ampere_from_fft o ms w (z t)) m). intros [x y] [u v].
      generalize dependent (K2_2d o m). intros r P. cbn. field. lra.
Qed.

(** whatever the truncation, the conversions which are saved are the rates of change of the two potential energies *)
Theorem c103_conversions F (w z : R -> field) t : moves ms z t (w t) ->
  is_derive (fun s => means F (w s, z s) "E_l") t (means F (w t, z t) "conv_k_to_l")
  /\ is_derive (fun s => means F (w s, z s) "E_e") t (means F (w t, z t) "conv_l_to_e").
Proof.
  intros H. split.
  - apply (is_derive_ext (fun s => bending o ms (z s))); [intros s; symmetry; apply c103_energies|]. rewrite conv_kl. exact (derive_rate (k4 o) ms z t (w t) H).
  - apply (is_derive_ext (fun s => stretching o ms (chi_state o ms (z s)))); [intros s; symmetry; apply c103_energies|]. rewrite conv_le. apply stretching_rate. exact H.
Qed.

(** ** the rate of change of the kinetic energy *)

Definition forcing_w (F : option field) : field := match F with Some f => f | None => fun _ => RtoC 0 end.

(** the tendencies with the forcing and the dissipation of w *)
Definition full_tendency (F : option field) (w z : field) : field :=
  plus_f (damped (fun m => f_d m + f_h m) (fst (tendencies o ms removed (w, z))) w) (forcing_w F).

Definition work (w z : field) : R := total ms (fun m => fst (Cconj (w m) * fft o (monge_ampere_from_fft o ms z (chi_state o ms z)) m)%C).

Lemma tendency_rate w z : truncated removed ms w -> rate ms one w (fst (tendencies o ms removed (w, z))) = - rate ms (k4 o) z w + work w z.
Proof.
  intros Hw. unfold rate, work, one. rewrite <- total_opp, <- total_plus. apply total_ext. intros m Im. unfold tendencies, dealiasing. cbn [fst].
  rewrite (monge_ext o ms Ho z z (chi_solver o ms z) (chi_state o ms z)) by (intros; reflexivity || apply chi_eq).
  rewrite lap4, K4_k4 by exact Ho. destruct (removed m) eqn:E.
  - rewrite (Hw m Im E). cbn. ring.
  - generalize (fft o (monge_ampere_from_fft o ms z (chi_state o ms z)) m). intros [u v]. cbn. ring.
Qed.

Lemma P1_rate F w z : (match F with None => 0 | Some _ => means F (w, z) "P1" end) = rate ms one w (forcing_w F).
Proof.
  destruct F as [f|].
  - transitivity (sum_wavenumbers ms (fun m => fst (Cconj (w m) * f m)%C)); [reflexivity|]. apply PZ1_rate.
  - unfold forcing_w. symmetry. apply rate_zero.
Qed.

Lemma eps_rate F w z : means F (w, z) "epsK_tot" = total ms (fun m => (f_d m + f_h m) * (1 * norm2 (w m))).
Proof.
  transitivity (eps ms f_d (Ek_fft w) + eps_hypo ms f_h (Ek_fft w)); [reflexivity|]. unfold eps, eps_hypo, sum_wavenumbers. rewrite !rsum_total, <- total_plus.
  apply total_ext. intros m _. rewrite Ek_value. field.
Qed.

Lemma kinetic_rate F (w z : R -> field) t : truncated removed ms (w t) -> moves ms w t (full_tendency F (w t) (z t)) ->
  is_derive (fun s => means F (w s, z s) "E_k") t
    (- means F (w t, z t) "conv_k_to_l" + work (w t) (z t) + (match F with None => 0 | Some _ => means F (w t, z t) "P1" end) - means F (w t, z t) "epsK_tot").
Proof.
  intros Hw H. apply (is_derive_ext (fun s => total ms (fun m => 1 * norm2 (w s m) / 2))).
  { intros s. rewrite <- square_1. symmetry. apply c103_energies. }
  eapply is_derive_eq; [exact (derive_rate one ms w t _ H)|]. unfold full_tendency.
  rewrite rate_plus, rate_damped, tendency_rate by exact Hw. rewrite conv_kl, eps_rate, P1_rate. unfold one. ring.
Qed.

Lemma work_triads w z : real_field ms w -> work w z = fst (ctriads o ms (fun p q s => RtoC (jac o p q ^ 2) * (z p * chi_state o ms z q * w s))%C).
Proof.
  intros Hw. unfold work. rewrite (total_lsum ms _ (fun m => Cconj (w m) * fft o (monge_ampere_from_fft o ms z (chi_state o ms z)) m)%C) by reflexivity.
  rewrite (conj_opp ms w) by exact Hw. rewrite monge_triads by (exact Ho || apply Hm). reflexivity.
Qed.

Lemma conv_le_triads F w z : real_field ms z ->
  means F (w, z) "conv_l_to_e" = - fst (ctriads o ms (fun p q s => RtoC (jac o p q ^ 2) * (w p * z q * chi_state o ms z s))%C).
Proof.
  intros Hz. rewrite conv_le. f_equal.
  rewrite (total_lsum ms _ (fun m => Cconj (chi_state o ms z m) * fft o (monge_ampere_from_fft o ms w z) m)%C) by (intros; rewrite Cmult_comm; reflexivity).
  rewrite (conj_opp ms (chi_state o ms z)) by (apply chi_real; [exact Ho | apply Hm | exact Hz]). rewrite monge_triads by (exact Ho || apply Hm). reflexivity.
Qed.

Lemma work_conv F w z : products_seen removed o ms -> real_field ms w -> real_field ms z -> truncated removed ms w -> truncated removed ms z ->
  work w z = - means F (w, z) "conv_l_to_e".
Proof.
  intros Hp Rw Rz Hw Hz. rewrite work_triads, conv_le_triads, Ropp_involutive by assumption. destruct Hm as ((_ & S) & _ & S2). f_equal.
  rewrite !ctriads_exact.
  - rewrite triads_swap13, triads_swap23. apply triads_ext. intros p q s _ _ _ E.
    replace (jac o q s ^ 2) with (jac o p q ^ 2); [ring|].
    assert (E2 : jac o s q = - jac o p q) by (apply jac_sum0; exact E). replace (jac o q s) with (- jac o s q) by (unfold jac; ring). rewrite E2. ring.
  - exact Ho.
  - intros p q s Ip Iq Is Al. destruct (kept_or_zero w p Hw Ip) as [K1|E0]; [|rewrite E0; ring].
    destruct (kept_or_zero z q Hz Iq) as [K2|E0]; [|rewrite E0; ring]. destruct (Hp p q (mopp s) Ip Iq (S s Is) K1 K2 Al).
  - exact Ho.
  - intros p q s Ip Iq Is Al. destruct (kept_or_zero z p Hz Ip) as [K1|E0]; [|rewrite E0; ring].
    destruct (kept_or_zero w s Hw Is) as [K2|E0]; [|rewrite E0; ring]. exfalso. apply aliased_turn in Al. rewrite mopp_mopp in Al.
    exact (Hp p s (mopp q) Ip Is (S q Iq) K1 K2 Al).
Qed.

Theorem c103_kinetic_partial F (w z : R -> field) t : products_seen removed o ms ->
  real_field ms (w t) -> real_field ms (z t) -> truncated removed ms (w t) -> truncated removed ms (z t) ->
  moves ms w t (full_tendency F (w t) (z t)) ->
  is_derive (fun s => means F (w s, z s) "E_k") t
    (- means F (w t, z t) "conv_k_to_l" - means F (w t, z t) "conv_l_to_e"
     + (match F with None => 0 | Some _ => means F (w t, z t) "P1" end) - means F (w t, z t) "epsK_tot").
Proof.
  intros Hp Rw Rz Hw Hz H. eapply is_derive_eq; [exact (kinetic_rate F w z t Hw H)|]. rewrite (work_conv F) by assumption. ring.
Qed.

(** ** C102: the energy *)

Lemma z_tendency w z m : truncated removed ms w -> In m ms -> snd (tendencies o ms removed (w, z)) m = w m.
Proof. intros Hw Im. unfold tendencies, dealiasing. cbn [snd]. destruct (removed m) eqn:E; [rewrite (Hw m Im E); reflexivity | reflexivity]. Qed.

(** the exact rate, whatever the truncation *)
Lemma energy_rate F (w z : R -> field) t : truncated removed ms (w t) ->
  moves ms w t (full_tendency F (w t) (z t)) -> moves ms z t (snd (tendencies o ms removed (w t, z t))) ->
  is_derive (fun s => means F (w s, z s) "E") t
    (work (w t) (z t) + means F (w t, z t) "conv_l_to_e" + (match F with None => 0 | Some _ => means F (w t, z t) "P1" end) - means F (w t, z t) "epsK_tot").
Proof.
  intros Hw H1 H2.
  assert (H3 : moves ms z t (w t)). { intros m Im. rewrite <- (z_tendency (w t) (z t) m Hw Im). exact (H2 m Im). }
  destruct (c103_conversions F w z t H3) as [D2 D3]. pose proof (kinetic_rate F w z t Hw H1) as D1.
  apply (is_derive_ext (fun s => means F (w s, z s) "E_k" + means F (w s, z s) "E_l" + means F (w s, z s) "E_e")); [reflexivity|].
  eapply is_derive_eq; [apply @is_derive_plus; [apply @is_derive_plus; [exact D1 | exact D2] | exact D3]|]. unfold plus. cbn [AbelianGroup.plus]. cbn. ring.
Qed.

Theorem c102_energy_partial F (w z : R -> field) t : products_seen removed o ms ->
  real_field ms (w t) -> real_field ms (z t) -> truncated removed ms (w t) -> truncated removed ms (z t) ->
  moves ms w t (full_tendency F (w t) (z t)) -> moves ms z t (snd (tendencies o ms removed (w t, z t))) ->
  is_derive (fun s => means F (w s, z s) "E") t
    ((match F with None => 0 | Some _ => means F (w t, z t) "P1" end) - means F (w t, z t) "epsK_tot").
Proof.
  intros Hp Rw Rz Hw Hz H1 H2. eapply is_derive_eq; [exact (energy_rate F w z t Hw H1 H2)|]. rewrite (work_conv F) by assumption. ring.
Qed.

(** the dissipation takes energy *)
Theorem c102_dissipation F w z : (forall m, In m ms -> 0 <= f_d m) -> (forall m, In m ms -> 0 <= f_h m) ->
  0 <= means F (w, z) "epsK" /\ 0 <= means F (w, z) "epsK_hypo"
  /\ means F (w, z) "epsK_tot" = means F (w, z) "epsK" + means F (w, z) "epsK_hypo".
Proof.
  intros H1 H2. split; [|split; [|reflexivity]].
  - change (0 <= sum_wavenumbers ms (fun m => f_d m * 2 * Ek_fft w m)). unfold sum_wavenumbers. rewrite rsum_total. apply total_pos.
    intros m Im. rewrite Ek_value. pose proof (H1 m Im). pose proof (norm2_ge0 (w m)). apply Rmult_le_pos; lra.
  - change (0 <= sum_wavenumbers ms (fun m => f_h m * 2 * Ek_fft w m)). unfold sum_wavenumbers. rewrite rsum_total. apply total_pos.
    intros m Im. rewrite Ek_value. pose proof (H2 m Im). pose proof (norm2_ge0 (w m)). apply Rmult_le_pos; lra.
Qed.

(** ** C103: the injection over a step *)

Theorem c103_injection F w z : let v := means (Some F) (w, z) in
  square ms (after dt F w) - square ms w = dt * (v "P1"%string + v "P2"%string) /\ v "P_tot"%string = v "P1"%string + v "P2"%string.
Proof.
  intros v. split; [|reflexivity]. rewrite after_square. unfold v. f_equal. f_equal.
  - symmetry. exact (P1_rate (Some F) w z).
  - transitivity (sum_wavenumbers ms (fun m => abs2 (F m) * dt / 2)); [|reflexivity]. unfold sum_wavenumbers. rewrite rsum_total, <- total_scal.
    apply total_ext. intros m _. rewrite abs2_norm2. field.
Qed.

(** ** C104: test_tendencies_nonlin *)

Lemma total_tendency F w z : total ms (energy_tendency o ms (tendencies o ms removed (w, z)) w z (chi_state o ms z))
  = rate ms one w (fst (tendencies o ms removed (w, z))) + rate ms (k4 o) z (snd (tendencies o ms removed (w, z)))
    + means F (snd (tendencies o ms removed (w, z)), z) "conv_l_to_e".
Proof.
  rewrite conv_le. unfold rate, one. rewrite <- total_opp, <- !total_plus. apply total_ext. intros m _. unfold energy_tendency. rewrite K4_k4 by exact Ho.
  generalize (fst (tendencies o ms removed (w, z)) m) (snd (tendencies o ms removed (w, z)) m) (w m) (z m). intros [a b] [c d] [e f] [g h]. cbn. ring.
Qed.

(** the sum of the array is the rate of change of the energy *)
Theorem c104_rate (w z : R -> field) t : truncated removed ms (w t) ->
  moves ms w t (fst (tendencies o ms removed (w t, z t))) -> moves ms z t (snd (tendencies o ms removed (w t, z t))) ->
  is_derive (fun s => means None (w s, z s) "E") t (total ms (energy_tendency o ms (tendencies o ms removed (w t, z t)) (w t) (z t) (chi_state o ms (z t)))).
Proof.
  intros Hw H1 H2. rewrite (total_tendency None).
  apply (is_derive_ext (fun s => total ms (fun m => 1 * norm2 (w s m) / 2) + bending o ms (z s) + stretching o ms (chi_state o ms (z s)))).
  { intros s. rewrite <- square_1. symmetry. apply c103_energies. }
  rewrite conv_le. eapply is_derive_eq; [apply @is_derive_plus; [apply @is_derive_plus; [exact (derive_rate one ms w t _ H1) | exact (derive_rate (k4 o) ms z t _ H2)] |
    exact (stretching_rate z t _ H2)]|]. reflexivity.
Qed.

Lemma norm_pos T : 0 <= sum_wavenumbers ms (fun m => Rabs (T m)).
Proof. unfold sum_wavenumbers. rewrite rsum_total. apply total_pos. intros m _. apply Rabs_pos. Qed.

(** when the sum of the absolute values is not small, the result is the ratio of the rate to this sum *)
Theorem c104_ratio_partial w z : let T := energy_tendency o ms (tendencies o ms removed (w, z)) w z (chi_state o ms z) in
  / 10 ^ 15 <= total ms (fun m => Rabs (T m)) ->
  test_tendencies_nonlin o ms removed (w, z) = total ms T / total ms (fun m => Rabs (T m)).
Proof.
  intros T H. unfold test_tendencies_nonlin, test_tendencies. cbn [fst snd]. fold T. unfold sum_wavenumbers. rewrite !rsum_total.
  destruct (Rlt_dec _ _) as [L|_]; [lra|]. unfold Rdiv. rewrite Rmult_comm, <- total_scal. apply total_ext. intros m _. apply Rmult_comm.
Qed.

(** it is zero if the energy is conserved *)
Theorem c104_zero w z : let T := energy_tendency o ms (tendencies o ms removed (w, z)) w z (chi_state o ms z) in
  total ms T = 0 -> test_tendencies_nonlin o ms removed (w, z) = 0.
Proof.
  intros T H. destruct (Rlt_dec (total ms (fun m => Rabs (T m))) (/ 10 ^ 15)) as [L|L].
  - unfold test_tendencies_nonlin, test_tendencies. cbn [fst snd]. fold T. unfold sum_wavenumbers. rewrite !rsum_total. destruct (Rlt_dec _ _); [reflexivity | contradiction].
  - rewrite c104_ratio_partial; fold T; [rewrite H; unfold Rdiv; ring | lra].
Qed.

Theorem c104_conserved w z : products_seen removed o ms -> real_field ms w -> real_field ms z -> truncated removed ms w -> truncated removed ms z ->
  test_tendencies_nonlin o ms removed (w, z) = 0.
Proof.
  intros Hp Rw Rz Hw Hz. apply c104_zero. rewrite (total_tendency None). rewrite tendency_rate by exact Hw. rewrite (work_conv None) by assumption.
  rewrite (rate_ext ms (k4 o) z (snd (tendencies o ms removed (w, z))) w) by (intros m Im; apply z_tendency; assumption).
  replace (means None (snd (tendencies o ms removed (w, z)), z) "conv_l_to_e") with (means None (w, z) "conv_l_to_e"); [ring|].
  rewrite !conv_le. f_equal. apply total_ext. intros m Im. rewrite (monge_ext o ms Ho w (snd (tendencies o ms removed (w, z))) z z); [reflexivity | |reflexivity].
  intros k Ik. symmetry. apply z_tendency; assumption.
Qed.
End Plate.

Print Assumptions c101_quarter.
Print Assumptions c101_stress.
Print Assumptions c101_tendencies.
Print Assumptions c102_energy_partial.
Print Assumptions c102_dissipation.
Print Assumptions c103_energies.
Print Assumptions c103_conversions.
Print Assumptions c103_injection.
Print Assumptions c103_kinetic_partial.
Print Assumptions c104_rate.
Print Assumptions c104_ratio_partial.
Print Assumptions c104_zero.
Print Assumptions c104_conserved.
