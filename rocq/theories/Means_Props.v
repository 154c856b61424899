(** * Dissipation frequencies and spatial means: C54, C97, C98, C99, C100 *)

From Coq Require Import Reals Lra ZArith Lia String List Bool.
From Coquelicot Require Import Coquelicot.
From Verif Require Import CExp DFT Alias_Model Alias_Proofs Oper_Model Oper_Proofs Budget_Model Budget_Spec Budget_Proofs Budget2D_Proofs
  Budget2D_Props Budget3D_Proofs Budget3D_Props Means_Model Means_Spec Means_Proofs.
Import ListNotations.
Local Open Scope R_scope.

(** ** C54: the dissipation frequency *)

Lemma K2_dim_k2 dim o m : oper_pos o -> K2_dim dim o m = k2 dim o m.
Proof.
  intros (_ & _ & _ & A & B & D). unfold K2_dim, k2, K2_2d, K2_3d, Kx, Ky, Kz, deltakx, deltaky, deltakz, wx, wy, wz.
  destruct dim as [|[|[|dim]]]; field; lra.
Qed.

Lemma pow22 x : (x ^ 2) ^ 2 = x ^ 4.
Proof. ring. Qed.

Lemma f_d_value dim tiny o next nu fs : oper_pos o -> compute_freq_diss dim tiny o next nu = Some fs ->
  forall m, fst fs m = enabled (nu_2 nu) * k2 dim o m + enabled (nu_4 nu) * k2 dim o m ^ 2 + enabled (nu_8 nu) * k2 dim o m ^ 4.
Proof.
  intros Ho E m. assert (G : fst fs = (let K2 := K2_dim dim o in
  let f_d := if Rlt_dec 0 (nu_2 nu) then fun m => nu_2 nu * K2 m else fun _ => 0 in
  let f_d := if Rlt_dec 0 (nu_4 nu) then fun m => f_d m + nu_4 nu * K2 m ^ 2 else f_d in
  if Rlt_dec 0 (nu_8 nu) then fun m => f_d m + nu_8 nu * (K2 m ^ 2) ^ 2 else f_d)).
  { unfold compute_freq_diss in E. destruct (Req_EM_T (nu_m4 nu) 0); [injection E as <-; reflexivity|].
    destruct (K2_not0_dim dim tiny o); [injection E as <-; reflexivity | discriminate]. }
  rewrite G. clear E G. cbv zeta. rewrite <- (K2_dim_k2 dim o m Ho). unfold enabled, Rmax.
  destruct (Rlt_dec 0 (nu_2 nu)), (Rlt_dec 0 (nu_4 nu)), (Rlt_dec 0 (nu_8 nu)), (Rle_dec 0 (nu_2 nu)), (Rle_dec 0 (nu_4 nu)), (Rle_dec 0 (nu_8 nu));
    try lra; rewrite ?pow22; try (replace (nu_2 nu) with 0 by lra); try (replace (nu_4 nu) with 0 by lra); try (replace (nu_8 nu) with 0 by lra); ring.
Qed.

(** in two and three dimensions, or without hypoviscosity, the frequency of the mode k is the sum of the enabled terms *)
Theorem c54_sum_partial dim tiny o next nu : oper_pos o -> dim <> 1%nat \/ nu_m4 nu = 0 ->
  exists fs, compute_freq_diss dim tiny o next nu = Some fs
  /\ (forall m, m <> (0, 0, 0)%Z ->
       freq_lin fs m = enabled (nu_2 nu) * k2 dim o m + enabled (nu_4 nu) * k2 dim o m ^ 2 + enabled (nu_8 nu) * k2 dim o m ^ 4
                       + (if Req_EM_T (nu_m4 nu) 0 then 0 else nu_m4 nu / k2 dim o m ^ 2))
  /\ (next <> (0, 0, 0)%Z -> freq_lin fs (0, 0, 0)%Z = (if Req_EM_T (nu_m4 nu) 0 then 0 else nu_m4 nu / k2 dim o next ^ 2)).
Proof.
  intros Ho Hd.
  assert (NZ : forall m, m <> (0, 0, 0)%Z -> is_mode0 m = false).
  { intros m N. unfold is_mode0. destruct m as [[a b] c]. unfold mx, my, mz. cbn [fst snd].
    destruct (a =? 0)%Z eqn:A, (b =? 0)%Z eqn:B, (c =? 0)%Z eqn:D; try reflexivity.
    apply Z.eqb_eq in A, B, D. subst. contradiction. }
  assert (Z0 : k2 dim o (0, 0, 0)%Z = 0).
  { unfold k2, wx, wy, wz, mx, my, mz. cbn [fst snd]. destruct dim as [|[|[|dim]]]; unfold Rdiv; ring. }
  assert (EX : exists fs, compute_freq_diss dim tiny o next nu = Some fs).
  { unfold compute_freq_diss. destruct (Req_EM_T (nu_m4 nu) 0); [eexists; reflexivity|].
    destruct Hd as [Hd|Hd]; [|contradiction]. destruct dim as [|[|dim]]; [eexists; reflexivity | contradiction | eexists; reflexivity]. }
  destruct EX as [fs E]. exists fs. split; [exact E|]. pose proof (f_d_value dim tiny o next nu fs Ho E) as D.
  assert (S : snd fs = if Req_EM_T (nu_m4 nu) 0 then fun _ => 0 else
    (let hypo := fun m => nu_m4 nu / (if is_mode0 m then tiny else K2_dim dim o m) ^ 2 in fun m => if is_mode0 m then hypo next else hypo m)).
  { unfold compute_freq_diss in E. destruct (Req_EM_T (nu_m4 nu) 0) as [e|n]; [injection E as <-; reflexivity|].
    destruct Hd as [Hd|Hd]; [|contradiction]. destruct dim as [|[|dim]]; [injection E as <-; reflexivity | contradiction | injection E as <-; reflexivity]. }
  unfold freq_lin. split.
  - intros m N. rewrite D, S. destruct (Req_EM_T (nu_m4 nu) 0); [ring|]. cbv beta zeta. rewrite (NZ m N), (K2_dim_k2 dim o m Ho). reflexivity.
  - intros N. rewrite D, S, Z0. destruct (Req_EM_T (nu_m4 nu) 0); [ring|]. cbv beta zeta.
    replace (is_mode0 (0, 0, 0)%Z) with true by reflexivity. rewrite (NZ next N), (K2_dim_k2 dim o next Ho). ring.
Qed.

(** it is not negative when the coefficient of hypoviscosity is not negative: the linear part never amplifies *)
Theorem c54_nonnegative dim tiny o next nu fs : oper_pos o -> 0 <= nu_m4 nu -> compute_freq_diss dim tiny o next nu = Some fs ->
  forall m, 0 <= fst fs m /\ 0 <= snd fs m /\ 0 <= freq_lin fs m.
Proof.
  intros Ho H E m. assert (P : 0 <= fst fs m).
  { rewrite (f_d_value dim tiny o next nu fs Ho E). assert (K : 0 <= k2 dim o m).
    { unfold k2. pose proof (pow2_ge_0 (wx o m)). pose proof (pow2_ge_0 (wy o m)). pose proof (pow2_ge_0 (wz o m)). destruct dim as [|[|[|dim]]]; lra. }
    assert (En : forall x, 0 <= enabled x) by (intros; apply Rmax_l). pose proof (pow_le _ 2 K). pose proof (pow_le _ 4 K).
    pose proof (Rmult_le_pos _ _ (En (nu_2 nu)) K). pose proof (Rmult_le_pos _ _ (En (nu_4 nu)) H0). pose proof (Rmult_le_pos _ _ (En (nu_8 nu)) H1). lra. }
  assert (Q : 0 <= snd fs m).
  { unfold compute_freq_diss in E. destruct (Req_EM_T (nu_m4 nu) 0); [injection E as <-; cbn; lra|].
    assert (DIV : forall x, 0 <= nu_m4 nu / x ^ 2).
    { intros x. destruct (Req_dec x 0) as [->|N]; [unfold Rdiv; replace (0 ^ 2) with 0 by ring; rewrite Rinv_0; lra|].
      apply Rdiv_le_0_compat; [exact H | apply pow2_gt_0; exact N]. }
    destruct (K2_not0_dim dim tiny o); [|discriminate]. injection E as <-. cbn [snd]. destruct (is_mode0 m); apply DIV. }
  split; [exact P|]. split; [exact Q|]. unfold freq_lin. lra.
Qed.

(** in one dimension a hypoviscosity is an error, so that there is no frequency *)
Theorem c54_refuted : exists tiny o next nu, oper_pos o /\ 0 <= nu_2 nu /\ 0 <= nu_4 nu /\ 0 <= nu_8 nu /\ 0 < nu_m4 nu
  /\ compute_freq_diss 1 tiny o next nu = None.
Proof.
  exists 1, {| nx := 4; ny := 1; nz := 1; Lx := 1; Ly := 1; Lz := 1 |}, (1, 0, 0)%Z, {| nu_2 := 0; nu_4 := 0; nu_8 := 0; nu_m4 := 1 |}.
  split; [repeat split; simpl; lia || lra|]. cbn [nu_2 nu_4 nu_8 nu_m4]. split; [lra|]. split; [lra|]. split; [lra|]. split; [lra|].
  unfold compute_freq_diss. cbn [nu_m4]. destruct (Req_EM_T 1 0); [lra | reflexivity].
Qed.

Example c54_example : exists fs, compute_freq_diss 2 1 {| nx := 4; ny := 4; nz := 1; Lx := 2 * PI; Ly := 2 * PI; Lz := 1 |} (1, 0, 0)%Z
    {| nu_2 := 2; nu_4 := 0; nu_8 := 0; nu_m4 := 3 |} = Some fs
  /\ freq_lin fs (1, 0, 0)%Z = 5 /\ freq_lin fs (0, 0, 0)%Z = 3.
Proof.
  pose proof PI_RGT_0 as HP.
  set (o := {| nx := 4; ny := 4; nz := 1; Lx := 2 * PI; Ly := 2 * PI; Lz := 1 |}).
  destruct (c54_sum_partial 2 1 o (1, 0, 0)%Z {| nu_2 := 2; nu_4 := 0; nu_8 := 0; nu_m4 := 3 |}) as (fs & E & S & S0).
  - repeat split; simpl; lia || lra.
  - left. discriminate.
  - exists fs. split; [exact E|].
    assert (K : k2 2 o (1, 0, 0)%Z = 1) by (unfold k2, wx, wy, mx, my, o; cbn [fst snd Lx Ly]; field; lra).
    rewrite S by discriminate. rewrite S0 by discriminate. rewrite K. cbn [nu_2 nu_4 nu_8 nu_m4]. unfold enabled, Rmax.
    destruct (Req_EM_T 3 0); [lra|]. destruct (Rle_dec 0 2), (Rle_dec 0 0); try lra; split; lra.
Qed.

(** ** C97: the budgets: the rates written are those of the evolution of the energies *)

Definition forcing_of (F : option (mode -> C)) : mode -> C := match F with None => fun _ => RtoC 0 | Some f => f end.

Section Written2.
Variable o : oper.
Variable ms : list mode.
Hypothesis Ho : oper_pos o.
Variable f_d f_h : mode -> R.
Variable dt : R.

Lemma rate_zero c a : rate ms c a (fun _ => RtoC 0) = 0.
Proof.
  unfold rate. rewrite (total_ext ms _ (fun _ => 0 * 0)) by (intros; cbn; ring). rewrite total_scal. ring.
Qed.

Lemma PK1_rate rot F : sum_wavenumbers ms (fun m => fst (Cconj (ux_from_rot o rot m) * ux_from_rot o F m + Cconj (uy_from_rot o rot m) * uy_from_rot o F m)%C)
  = rate ms (cK o) rot F.
Proof. unfold sum_wavenumbers. rewrite rsum_total. apply total_ext. intros m _. apply vel_prod. exact Ho. Qed.

Lemma PZ1_rate a F : sum_wavenumbers ms (fun m => fst (Cconj (a m) * F m)%C) = rate ms (fun _ => 1) a F.
Proof. unfold sum_wavenumbers. rewrite rsum_total. apply total_ext. intros m _. cbn. ring. Qed.

Lemma written_PK1 F rot : written (ns2d_means o ms f_d f_h dt F rot) "PK1" = rate ms (cK o) rot (forcing_of F).
Proof.
  destruct F as [F|]; [|symmetry; apply rate_zero]. cbn [forcing_of]. rewrite <- PK1_rate.
  transitivity (sum_wavenumbers ms (fun m => fst (Cconj (ux_from_rot o rot m) * ux_from_rot o F m + ux_from_rot o rot m * Cconj (ux_from_rot o F m)
     + Cconj (uy_from_rot o rot m) * uy_from_rot o F m + uy_from_rot o rot m * Cconj (uy_from_rot o F m))%C / 2)); [reflexivity|].
  unfold sum_wavenumbers. rewrite !rsum_total. apply total_ext. intros m _.
  generalize (ux_from_rot o rot m) (uy_from_rot o rot m) (ux_from_rot o F m) (uy_from_rot o F m). intros [a a'] [b b'] [d d'] [e e']. cbn. field.
Qed.

Lemma written_PZ1 F rot : written (ns2d_means o ms f_d f_h dt F rot) "PZ1" = rate ms (fun _ => 1) rot (forcing_of F).
Proof. destruct F as [F|]; [|symmetry; apply rate_zero]. cbn [forcing_of]. rewrite <- PZ1_rate. reflexivity. Qed.

Lemma epsK_tot rot : eps ms f_d (energy_fft_2d o rot) + eps_hypo ms f_h (energy_fft_2d o rot)
  = total ms (fun m => freq_lin (f_d, f_h) m * (cK o m * norm2 (rot m))).
Proof.
  unfold eps, eps_hypo, freq_lin. cbn [fst snd]. rewrite <- eps_add, <- !eps_total. unfold sum_wavenumbers. rewrite !rsum_total.
  f_equal; apply total_ext; intros m _; rewrite energy_fft_norm2 by exact Ho; reflexivity.
Qed.

Lemma epsZ_tot rot : eps ms f_d (enstrophy_fft rot) + eps_hypo ms f_h (enstrophy_fft rot)
  = total ms (fun m => freq_lin (f_d, f_h) m * (1 * norm2 (rot m))).
Proof.
  unfold eps, eps_hypo, freq_lin. cbn [fst snd]. rewrite <- eps_add, <- !eps_total. unfold sum_wavenumbers. rewrite !rsum_total.
  f_equal; apply total_ext; intros m _; unfold enstrophy_fft; rewrite abs2_norm2; field.
Qed.

Lemma derive_cK rot t b : moves ms rot t b -> is_derive (fun s => energy_2d o ms (rot s)) t (rate ms (cK o) (rot t) b).
Proof.
  intros H. apply (is_derive_ext (fun s => total ms (fun m => cK o m * norm2 (rot s m) / 2))).
  - intros s. symmetry. apply energy_2d_cK. exact Ho.
  - exact (derive_rate (cK o) ms rot t b H).
Qed.
Lemma derive_1 a t b : moves ms a t b -> is_derive (fun s => square ms (a s)) t (rate ms (fun _ => 1) (a t) b).
Proof.
  intros H. apply (is_derive_ext (fun s => total ms (fun m => 1 * norm2 (a s m) / 2))).
  - intros s. symmetry. apply square_1.
  - exact (derive_rate (fun _ => 1) ms a t b H).
Qed.

(** the rate of change of a straight path *)
Lemma rate_cK rot b r : (forall t, is_derive (fun s => energy_2d o ms (line t rot b s)) t r) -> rate ms (cK o) rot b = r.
Proof.
  intros H. pose proof (derive_cK (line 0 rot b) 0 b (line_moves ms 0 rot b)) as D. rewrite line_at in D.
  exact (derive_unique _ 0 _ _ D (H 0)).
Qed.
Lemma rate_1 a b r : (forall t, is_derive (fun s => square ms (line t a b s)) t r) -> rate ms (fun _ => 1) a b = r.
Proof.
  intros H. pose proof (derive_1 (line 0 a b) 0 b (line_moves ms 0 a b)) as D. rewrite line_at in D.
  exact (derive_unique _ 0 _ _ D (H 0)).
Qed.

(** ns2d.strat *)
Definition forcings_of (F : option (field * field)) : field * field := match F with None => (fun _ => RtoC 0, fun _ => RtoC 0) | Some f => f end.

Lemma written_strat_PK1 N F s : written (ns2d_strat_means o ms f_d f_h dt N F s) "PK1" = rate ms (cK o) (fst s) (fst (forcings_of F)).
Proof.
  destruct s as [rot b]. destruct F as [[Fr Fb]|]; [|symmetry; apply rate_zero]. cbn [forcings_of fst]. rewrite <- PK1_rate. reflexivity.
Qed.
Lemma written_strat_PZ1 N F s : written (ns2d_strat_means o ms f_d f_h dt N F s) "PZ1" = rate ms (fun _ => 1) (fst s) (fst (forcings_of F)).
Proof.
  destruct s as [rot b]. destruct F as [[Fr Fb]|]; [|symmetry; apply rate_zero]. cbn [forcings_of fst]. rewrite <- PZ1_rate. reflexivity.
Qed.
Lemma written_strat_PA1 N F s : N <> 0 -> written (ns2d_strat_means o ms f_d f_h dt N F s) "PA1" = rate ms (fun _ => 1) (snd s) (snd (forcings_of F)) / N ^ 2.
Proof.
  intros HN. destruct s as [rot b]. destruct F as [[Fr Fb]|].
  - cbn [forcings_of snd]. rewrite <- PZ1_rate. reflexivity.
  - cbn [forcings_of snd]. rewrite rate_zero. unfold Rdiv. rewrite Rmult_0_l. reflexivity.
Qed.

Lemma energyA_norm2 N b m : N <> 0 -> energyA_fft N b m = norm2 (b m) / 2 / N ^ 2.
Proof.
  intros HN. unfold energyA_fft. destruct (Req_EM_T N 0); [contradiction|]. rewrite <- abs2_norm2. unfold abs2. field. exact HN.
Qed.

Lemma epsA_tot N b : N <> 0 -> eps ms f_d (energyA_fft N b) + eps_hypo ms f_h (energyA_fft N b)
  = total ms (fun m => freq_lin (f_d, f_h) m * (1 * norm2 (b m))) / N ^ 2.
Proof.
  intros HN. unfold eps, eps_hypo, sum_wavenumbers. rewrite !rsum_total, <- total_plus. unfold Rdiv. rewrite Rmult_comm, <- total_scal.
  apply total_ext. intros m _. rewrite energyA_norm2 by exact HN. unfold freq_lin. cbn [fst snd]. field. exact HN.
Qed.

Lemma derive_div (f : R -> R) t x N : is_derive f t x -> is_derive (fun s => f s / N ^ 2) t (x / N ^ 2).
Proof.
  intros H. apply (is_derive_ext (fun s => / N ^ 2 * f s)); [intros s; unfold Rdiv; apply Rmult_comm|].
  eapply is_derive_eq; [exact (is_derive_scal f t (/ N ^ 2) x H)|]. unfold Rdiv. ring.
Qed.

Lemma derive_add (f g : R -> R) t x y : is_derive f t x -> is_derive g t y -> is_derive (fun s => f s + g s) t (x + y).
Proof. intros A B. exact (is_derive_plus f g t x y A B). Qed.

End Written2.

Section Budget2.
Variable o : oper.
Variable ms : list mode.
Variable dea : mode -> bool.
Hypothesis Hg : good_modes o ms.
Hypothesis Hd : forall m, In m ms -> dea m = false.
Variable f_d f_h : mode -> R.
Variable dt : R.

Let Ho : oper_pos o := proj1 Hg.

(** ns2d: dE/dt = PK1 - epsK_tot and dZ/dt = PZ1 - epsZ_tot *)
Theorem c97_ns2d beta F rot t : real_field ms (rot t) ->
  moves ms rot t (damped (freq_lin (f_d, f_h)) (plus_f (ns2d o ms dea beta (rot t)) (forcing_of F)) (rot t)) ->
  let w := written (ns2d_means o ms f_d f_h dt F (rot t)) in
  is_derive (fun s => energy_2d o ms (rot s)) t (w "PK1"%string - w "epsK_tot"%string)
  /\ is_derive (fun s => square ms (rot s)) t (w "PZ1"%string - w "epsZ_tot"%string)
  /\ w "epsK_tot"%string = w "epsK"%string + w "epsK_hypo"%string /\ w "epsZ_tot"%string = w "epsZ"%string + w "epsZ_hypo"%string.
Proof.
  intros Hr Hm w. unfold w. rewrite (written_PK1 o ms Ho), (written_PZ1 o ms). split; [|split; [|split; reflexivity]].
  - eapply is_derive_eq; [exact (derive_cK o ms Ho rot t _ Hm)|]. rewrite rate_damped, rate_plus.
    rewrite (rate_cK o ms Ho (rot t) (ns2d o ms dea beta (rot t)) 0).
    2:{ intros s. apply (c52_energy o ms dea Hg Hd beta (line s (rot t) (ns2d o ms dea beta (rot t)))); rewrite line_at; [exact Hr | apply line_moves]. }
    replace (written (ns2d_means o ms f_d f_h dt F (rot t)) "epsK_tot") with (eps ms f_d (energy_fft_2d o (rot t)) + eps_hypo ms f_h (energy_fft_2d o (rot t))) by reflexivity.
    rewrite (epsK_tot o ms Ho). ring.
  - eapply is_derive_eq; [exact (derive_1 ms rot t _ Hm)|]. rewrite rate_damped, rate_plus.
    rewrite (rate_1 ms (rot t) (ns2d o ms dea beta (rot t)) 0).
    2:{ intros s. apply (c52_enstrophy o ms dea Hg Hd beta (line s (rot t) (ns2d o ms dea beta (rot t)))); rewrite line_at; [exact Hr | apply line_moves]. }
    replace (written (ns2d_means o ms f_d f_h dt F (rot t)) "epsZ_tot") with (eps ms f_d (enstrophy_fft (rot t)) + eps_hypo ms f_h (enstrophy_fft (rot t))) by reflexivity.
    rewrite epsZ_tot. ring.
Qed.

(** ns2d.strat: dE/dt = PK1 + PA1 - epsK_tot - epsA_tot, and the exchange between the two energies *)
Theorem c97_ns2d_strat N beta F rot b t : N <> 0 -> real_field ms (rot t) -> real_field ms (b t) ->
  moves ms rot t (damped (freq_lin (f_d, f_h)) (plus_f (fst (ns2d_strat o ms dea N beta (rot t, b t))) (fst (forcings_of F))) (rot t)) ->
  moves ms b t (damped (freq_lin (f_d, f_h)) (plus_f (snd (ns2d_strat o ms dea N beta (rot t, b t))) (snd (forcings_of F))) (b t)) ->
  let w := written (ns2d_strat_means o ms f_d f_h dt N F (rot t, b t)) in
  let exchange := product ms (vertical_velocity o (rot t)) (b t) in
  is_derive (fun s => energy_2d o ms (rot s)) t (w "PK1"%string + exchange - w "epsK_tot"%string)
  /\ is_derive (fun s => square ms (b s) / N ^ 2) t (w "PA1"%string - exchange - w "epsA_tot"%string)
  /\ is_derive (fun s => energy_2d o ms (rot s) + square ms (b s) / N ^ 2) t
       (w "PK1"%string + w "PA1"%string - w "epsK_tot"%string - w "epsA_tot"%string).
Proof.
  intros HN Rr Rb Mr Mb w exchange. unfold w. rewrite (written_strat_PK1 o ms Ho), (written_strat_PA1 o ms) by exact HN. cbn [fst snd].
  set (Tr := fst (ns2d_strat o ms dea N beta (rot t, b t))) in *. set (Tb := snd (ns2d_strat o ms dea N beta (rot t, b t))) in *.
  assert (K : is_derive (fun s => energy_2d o ms (rot s)) t (rate ms (cK o) (rot t) (fst (forcings_of F)) + exchange
     - written (ns2d_strat_means o ms f_d f_h dt N F (rot t, b t)) "epsK_tot")).
  { eapply is_derive_eq; [exact (derive_cK o ms Ho rot t _ Mr)|]. rewrite rate_damped, rate_plus.
    rewrite (rate_cK o ms Ho (rot t) Tr exchange).
    2:{ intros s. pose proof (c82_kinetic o ms dea Hg Hd N beta s (line s (rot t) Tr) (line s (b t) Tb)) as H. rewrite !line_at in H.
        unfold exchange. apply H; try assumption. apply line_moves. }
    replace (written (ns2d_strat_means o ms f_d f_h dt N F (rot t, b t)) "epsK_tot") with (eps ms f_d (energy_fft_2d o (rot t)) + eps_hypo ms f_h (energy_fft_2d o (rot t))) by reflexivity.
    rewrite (epsK_tot o ms Ho). ring. }
  assert (A : is_derive (fun s => square ms (b s) / N ^ 2) t (rate ms (fun _ => 1) (b t) (snd (forcings_of F)) / N ^ 2 - exchange
     - written (ns2d_strat_means o ms f_d f_h dt N F (rot t, b t)) "epsA_tot")).
  { eapply is_derive_eq; [exact (derive_div _ t _ N (derive_1 ms b t _ Mb))|]. rewrite rate_damped, rate_plus.
    assert (E : rate ms (fun _ => 1) (b t) Tb / N ^ 2 = - exchange).
    { pose proof (derive_div _ 0 _ N (derive_1 ms (line 0 (b t) Tb) 0 Tb (line_moves ms 0 (b t) Tb))) as D. rewrite line_at in D.
      pose proof (c82_potential o ms dea Hg Hd N beta 0 (line 0 (rot t) Tr) (line 0 (b t) Tb)) as H. rewrite !line_at in H.
      refine (derive_unique _ 0 _ _ D _). unfold exchange. apply H; try assumption. apply line_moves. }
    replace (written (ns2d_strat_means o ms f_d f_h dt N F (rot t, b t)) "epsA_tot") with (eps ms f_d (energyA_fft N (b t)) + eps_hypo ms f_h (energyA_fft N (b t))) by reflexivity.
    rewrite epsA_tot by exact HN. clearbody exchange. generalize dependent (rate ms (fun _ => 1) (b t) Tb). intros x E.
    assert (Ex : x = - exchange * N ^ 2) by (rewrite <- E; field; exact HN). rewrite Ex. field. exact HN. }
  split; [exact K|]. split; [exact A|]. eapply is_derive_eq; [exact (derive_add _ _ t _ _ K A)|]. ring.
Qed.

End Budget2.

(** ** Examples: the hypotheses are met *)

(** the vorticity 1 on each mode, forced by 1 and damped with the frequency 2 + 1 *)
Example c97_example : exists ms rot b, good_modes o8 ms /\ In (1, 0, 0)%Z ms /\ real_field ms (rot 0) /\ real_field ms (b 0) /\ rot 0 (1, 0, 0)%Z = RtoC 1
  /\ moves ms rot 0 (damped (freq_lin (fun _ => 2, fun _ => 1)) (plus_f (fst (ns2d_strat o8 ms (fun _ => false) 1 0 (rot 0, b 0))) (fun _ => RtoC 1)) (rot 0))
  /\ moves ms b 0 (damped (freq_lin (fun _ => 2, fun _ => 1)) (plus_f (snd (ns2d_strat o8 ms (fun _ => false) 1 0 (rot 0, b 0))) (fun _ => RtoC 1)) (b 0)).
Proof.
  destruct o8_modes as (ms & Hg & Hin). set (i := fun _ : mode => RtoC 1).
  exists ms, (line 0 i (damped (freq_lin (fun _ => 2, fun _ => 1)) (plus_f (fst (ns2d_strat o8 ms (fun _ => false) 1 0 (i, i))) (fun _ => RtoC 1)) i)),
    (line 0 i (damped (freq_lin (fun _ => 2, fun _ => 1)) (plus_f (snd (ns2d_strat o8 ms (fun _ => false) 1 0 (i, i))) (fun _ => RtoC 1)) i)).
  rewrite !line_at. split; [exact Hg|]. split; [exact Hin|]. split; [intros m _; apply C_eq; cbn; lra|]. split; [intros m _; apply C_eq; cbn; lra|].
  split; [reflexivity|]. split; apply line_moves.
Qed.

Print Assumptions c54_sum_partial.
Print Assumptions c54_nonnegative.
Print Assumptions c54_refuted.
Print Assumptions c97_ns2d.
Print Assumptions c97_ns2d_strat.
