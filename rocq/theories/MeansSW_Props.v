(** * Spatial means of sw1l: C97, C98, C100 *)

From Coq Require Import Reals Lra ZArith Lia String List Bool FunctionalExtensionality.
From Coquelicot Require Import Coquelicot.
From Verif Require Import CExp DFT Alias_Model Alias_Proofs Oper_Model Oper_Proofs Budget_Model Budget_Spec Budget_Proofs Budget2D_Proofs
  Budget2D_Props Budget1D_Props Means_Model Means_Spec Means_Proofs Means_Props Means3D_Props MeansInj_Props.
Import ListNotations.
Local Open Scope R_scope.

Section Grid.
Variable o : oper.
Variable ms : list mode.
Hypothesis Hs : symmetric_modes ms.

Lemma ifft_value a jx jy jz : real_field ms a -> ifft o ms a jx jy jz = RtoC (value o ms a jx jy jz).
Proof.
  intros Hr. pose proof (ifft_real o ms Hs a jx jy jz Hr) as I. apply C_eq; [|exact I]. change (fst (ifft o ms a jx jy jz) = value o ms a jx jy jz).
  unfold ifft, idft, value. symmetry. apply total_lsum. intros m _. unfold chi3, chi. cbn [gx gy gz grid_of].
  rewrite <- !cis_plus. unfold cis, cexp. cbn. rewrite exp_0.
  replace (2 * PI * IZR (mx m) * INR jx / INR (nx o) + 2 * PI * IZR (my m) * INR jy / INR (ny o) + 2 * PI * IZR (mz m) * INR jz / INR (nz o))
    with (2 * PI * (IZR (mx m) * INR jx / INR (nx o) + IZR (my m) * INR jy / INR (ny o) + IZR (mz m) * INR jz / INR (nz o))) by (unfold Rdiv; ring).
  ring.
Qed.

Lemma nsum_R n f : nsum n (fun j => RtoC (f j)) = RtoC (rsum_to n f).
Proof.
  unfold rsum_to. induction n as [|n IH]; [reflexivity|]. cbn [nsum]. rewrite IH, seq_S, fold_right_app. cbn [fold_right]. change (0 + n)%nat with n.
  assert (G : forall l x, fold_right (fun j s => f j + s) x l = fold_right (fun j s => f j + s) 0 l + x).
  { induction l as [|j l IHl]; intros x; cbn [fold_right]; [ring|]. rewrite IHl. ring. }
  rewrite (G (seq 0 n) (f n + 0)). apply C_eq; cbn; ring.
Qed.

Lemma gmean_R f : gmean o (fun jx jy jz => RtoC (f jx jy jz)) = RtoC (mean o f).
Proof.
  unfold gmean, mean. rewrite (nsum_ext (nx o) _ (fun jx => RtoC (rsum_to (ny o) (fun jy => rsum_to (nz o) (fun jz => f jx jy jz))))).
  - rewrite nsum_R. rewrite <- RtoC_mult. f_equal. unfold Rdiv. ring.
  - intros jx _. rewrite (nsum_ext (ny o) _ (fun jy => RtoC (rsum_to (nz o) (fun jz => f jx jy jz)))); [apply nsum_R|]. intros jy _. apply nsum_R.
Qed.

Lemma rsum_to_ext n f g : (forall j, f j = g j) -> rsum_to n f = rsum_to n g.
Proof. intros H. unfold rsum_to. induction (seq 0 n) as [|j l IH]; cbn [fold_right]; [reflexivity|]. rewrite IH, H. reflexivity. Qed.
Lemma mean_ext f g : (forall jx jy jz, f jx jy jz = g jx jy jz) -> mean o f = mean o g.
Proof.
  intros H. unfold mean. f_equal. apply rsum_to_ext. intros jx. apply rsum_to_ext. intros jy. apply rsum_to_ext. intros jz. apply H.
Qed.
Lemma mean_plus f g : mean o (fun jx jy jz => f jx jy jz + g jx jy jz) = mean o f + mean o g.
Proof.
  apply RtoC_inj. rewrite RtoC_plus, <- !gmean_R, <- gmean_plus. apply gmean_ext. intros. apply RtoC_plus.
Qed.
Lemma mean_scal c f : mean o (fun jx jy jz => c * f jx jy jz) = c * mean o f.
Proof.
  apply RtoC_inj. rewrite RtoC_mult, <- !gmean_R, <- gmean_scal. apply gmean_ext. intros. apply RtoC_mult.
Qed.

(** Parseval *)
Lemma inner_grid a u f : real_field ms a -> (forall jx jy jz, u jx jy jz = RtoC (f jx jy jz)) ->
  sum_wavenumbers ms (fun m => inner_prod (a m) (fft o u m)) = mean o (fun jx jy jz => f jx jy jz * value o ms a jx jy jz).
Proof.
  intros Hr Hu. unfold sum_wavenumbers. rewrite rsum_total.
  rewrite (total_lsum ms _ (fun m => Cconj (a m) * fft o u m)%C) by (intros; reflexivity).
  rewrite (conj_opp ms a (fft o u) Hr), parseval by exact Hs.
  rewrite (gmean_ext o _ (fun jx jy jz => RtoC (f jx jy jz * value o ms a jx jy jz))).
  - rewrite gmean_R. reflexivity.
  - intros. rewrite Hu, (ifft_value a) by exact Hr. rewrite RtoC_mult. reflexivity.
Qed.
Lemma inner_sym a b : inner_prod a b = inner_prod b a.
Proof. unfold inner_prod. cbn. ring. Qed.
Lemma inner_grid' a u f : real_field ms a -> (forall jx jy jz, u jx jy jz = RtoC (f jx jy jz)) ->
  sum_wavenumbers ms (fun m => inner_prod (fft o u m) (a m)) = mean o (fun jx jy jz => f jx jy jz * value o ms a jx jy jz).
Proof.
  intros Hr Hu. rewrite <- (inner_grid a u f Hr Hu). unfold sum_wavenumbers. rewrite !rsum_total. apply total_ext. intros. apply inner_sym.
Qed.

Lemma sum_plus f g : sum_wavenumbers ms (fun m => f m + g m) = sum_wavenumbers ms f + sum_wavenumbers ms g.
Proof. unfold sum_wavenumbers. rewrite !rsum_total. apply total_plus. Qed.
Lemma sum_scal c f : sum_wavenumbers ms (fun m => c * f m) = c * sum_wavenumbers ms f.
Proof. unfold sum_wavenumbers. rewrite !rsum_total. apply total_scal. Qed.
Lemma sum_ext f g : (forall m, In m ms -> f m = g m) -> sum_wavenumbers ms f = sum_wavenumbers ms g.
Proof. intros H. unfold sum_wavenumbers. rewrite !rsum_total. apply total_ext. exact H. Qed.

(** a field multiplied by a real function of the wavenumber which is even *)
Definition filt (f : mode -> R) (a : mode -> C) : mode -> C := fun m => (RtoC (f m) * a m)%C.
Lemma filt_real f a : (forall m, In m ms -> f (mopp m) = f m) -> real_field ms a -> real_field ms (filt f a).
Proof. intros He Hr m Hm. unfold filt. rewrite (He m Hm), (Hr m Hm). apply C_eq; cbn; ring. Qed.

Lemma value_plus a b jx jy jz : value o ms (plus_f a b) jx jy jz = value o ms a jx jy jz + value o ms b jx jy jz.
Proof. unfold value. rewrite <- total_plus. apply total_ext. intros m _. unfold plus_f. cbn. ring. Qed.
Lemma value_damped f g a jx jy jz : value o ms (damped f g a) jx jy jz = value o ms g jx jy jz - value o ms (filt f a) jx jy jz.
Proof. unfold value, Rminus. rewrite <- total_opp, <- total_plus. apply total_ext. intros m _. unfold damped, filt. cbn. ring. Qed.
Lemma value_after dt F a jx jy jz : value o ms (after dt F a) jx jy jz = value o ms a jx jy jz + dt * value o ms F jx jy jz.
Proof. unfold value. rewrite <- total_scal, <- total_plus. apply total_ext. intros m _. unfold after. cbn. ring. Qed.
Lemma value_zero jx jy jz : value o ms (fun _ => RtoC 0) jx jy jz = 0.
Proof. unfold value. rewrite (total_ext ms _ (fun _ => 0 * 0)) by (intros; cbn; ring). rewrite total_scal. ring. Qed.
End Grid.

Definition sw_zero : field * field * field := (fun _ => RtoC 0, fun _ => RtoC 0, fun _ => RtoC 0).
Definition sw_forcing_of (F : option (field * field * field)) : field * field * field := match F with None => sw_zero | Some f => f end.

Section SW.
Variable o : oper.
Variable ms : list mode.
Hypothesis Hs : symmetric_modes ms.
Variable f_d f_h : mode -> R.
Variables dt c2 : R.
Variables ux uy eta : field.
Hypothesis Ru : real_field ms ux.
Hypothesis Rv : real_field ms uy.
Hypothesis Re : real_field ms eta.

Notation V := (value o ms).

Lemma h_real jx jy jz : height o ms eta jx jy jz = RtoC (1 + V eta jx jy jz).
Proof. unfold height. rewrite (ifft_value o ms Hs eta) by exact Re. rewrite RtoC_plus. reflexivity. Qed.

Lemma hu_real u jx jy jz : real_field ms u -> gmul (height o ms eta) (ifft o ms u) jx jy jz = RtoC ((1 + V eta jx jy jz) * V u jx jy jz).
Proof. intros R. unfold gmul, lift2. rewrite h_real, (ifft_value o ms Hs u) by exact R. rewrite RtoC_mult. reflexivity. Qed.

(** what is written: means over the grid *)
Lemma inner_J a u : real_field ms a -> real_field ms u ->
  sum_wavenumbers ms (fun m => inner_prod (J_fft o ms u eta m) (a m)) = mean o (fun jx jy jz => (1 + V eta jx jy jz) * V u jx jy jz * V a jx jy jz).
Proof. intros Ra R. apply (inner_grid' o ms Hs a _ _ Ra). intros. apply hu_real. exact R. Qed.

Lemma energyK_inner m : energyK_sw1l o ms (ux, uy) eta m = 1 / 2 * (inner_prod (J_fft o ms ux eta m) (ux m) + inner_prod (J_fft o ms uy eta m) (uy m)).
Proof. unfold energyK_sw1l, inner_prod. cbn [fst snd]. generalize (J_fft o ms ux eta m) (J_fft o ms uy eta m). intros [a a'] [b b']. cbn. field. Qed.

Theorem c100_sw1l F : let w := written (sw1l_means o ms f_d f_h dt c2 F (ux, uy, eta)) in
  w "EK"%string = EK_sw1l o ms (ux, uy, eta) /\ w "EA"%string = c2 * square ms eta /\ w "E"%string = w "EK"%string + w "EA"%string.
Proof.
  intros w. unfold w. split; [|split; [|reflexivity]].
  - transitivity (sum_wavenumbers ms (energyK_sw1l o ms (ux, uy) eta)); [reflexivity|].
    rewrite (sum_ext ms _ _ (fun m _ => energyK_inner m)), sum_scal, sum_plus, !inner_J by assumption. rewrite <- mean_plus, <- mean_scal.
    unfold EK_sw1l, cx, cy, cz. cbn [fst snd]. apply mean_ext. intros. field.
  - transitivity (sum_wavenumbers ms (energyA_sw1l c2 eta)); [reflexivity|]. unfold sum_wavenumbers, square. rewrite rsum_total, <- total_scal.
    apply total_ext. intros m _. unfold energyA_sw1l. rewrite abs2_norm2. field.
Qed.

(** dissipation *)
Lemma eps_freq f : (forall m, In m ms -> f (mopp m) = f m) ->
  sum_wavenumbers ms (fun m => f m * 2 * energyK_sw1l o ms (ux, uy) eta m)
  + sum_wavenumbers ms (fun m => f m * inner_prod (fft o (rsc (1 / 2) (gadd (gmul (ifft o ms ux) (ifft o ms ux)) (gmul (ifft o ms uy) (ifft o ms uy)))) m) (eta m))
  = EK_rate o ms (ux, uy, eta) (filt f ux, filt f uy, filt f eta).
Proof.
  intros He. set (EKq := rsc _ _).
  rewrite (sum_ext ms (fun m => f m * 2 * _) (fun m => inner_prod (J_fft o ms ux eta m) (filt f ux m) + inner_prod (J_fft o ms uy eta m) (filt f uy m))).
  2:{ intros m _. rewrite energyK_inner. unfold inner_prod, filt. generalize (J_fft o ms ux eta m) (J_fft o ms uy eta m). intros [a a'] [b b']. cbn. field. }
  rewrite (sum_ext ms (fun m => f m * inner_prod _ _) (fun m => inner_prod (fft o EKq m) (filt f eta m))).
  2:{ intros m _. unfold inner_prod, filt. generalize (fft o EKq m). intros [a a']. cbn. ring. }
  rewrite sum_plus, !inner_J by (assumption || (apply filt_real; assumption)).
  rewrite (inner_grid' o ms Hs (filt f eta) EKq (fun jx jy jz => 1 / 2 * (V ux jx jy jz * V ux jx jy jz + V uy jx jy jz * V uy jx jy jz))).
  - rewrite <- !mean_plus. unfold EK_rate, cx, cy, cz. cbn [fst snd]. apply mean_ext. intros. field.
  - apply filt_real; assumption.
  - intros. unfold EKq, rsc, gadd, gmul, lift2. rewrite !(ifft_value o ms Hs) by assumption. rewrite RtoC_mult, RtoC_plus, !RtoC_mult. reflexivity.
Qed.

Lemma sw_PK1 F : real_field ms (cx (sw_forcing_of F)) -> real_field ms (cy (sw_forcing_of F)) -> real_field ms (cz (sw_forcing_of F)) ->
  written (sw1l_means o ms f_d f_h dt c2 F (ux, uy, eta)) "PK1" = EK_rate o ms (ux, uy, eta) (sw_forcing_of F).
Proof.
  destruct F as [[[Fx Fy] Fe]|]; intros R1 R2 R3; cbn [sw_forcing_of] in *.
  - unfold cx, cy, cz in R1, R2, R3. cbn [fst snd] in R1, R2, R3.
    transitivity (sum_wavenumbers ms (fun m => 1 / 2 * (inner_prod (J_fft o ms ux eta m) (Fx m) + inner_prod (J_fft o ms uy eta m) (Fy m)
         + inner_prod (ux m) (fft o (gadd (gmul (height o ms eta) (ifft o ms Fx)) (gmul (ifft o ms Fe) (ifft o ms ux))) m)
         + inner_prod (uy m) (fft o (gadd (gmul (height o ms eta) (ifft o ms Fy)) (gmul (ifft o ms Fe) (ifft o ms uy))) m)))); [reflexivity|].
    rewrite sum_scal, !sum_plus, !inner_J by assumption.
    rewrite (inner_grid o ms Hs ux _ (fun jx jy jz => (1 + V eta jx jy jz) * V Fx jx jy jz + V Fe jx jy jz * V ux jx jy jz)).
    rewrite (inner_grid o ms Hs uy _ (fun jx jy jz => (1 + V eta jx jy jz) * V Fy jx jy jz + V Fe jx jy jz * V uy jx jy jz)).
    + rewrite <- !mean_plus, <- mean_scal. unfold EK_rate, cx, cy, cz. cbn [fst snd]. apply mean_ext. intros. field.
    + exact Rv.
    + intros. unfold gadd, lift2. rewrite hu_real by assumption. unfold gmul, lift2. rewrite !(ifft_value o ms Hs) by assumption. rewrite RtoC_plus, !RtoC_mult. reflexivity.
    + exact Ru.
    + intros. unfold gadd, lift2. rewrite hu_real by assumption. unfold gmul, lift2. rewrite !(ifft_value o ms Hs) by assumption. rewrite RtoC_plus, !RtoC_mult. reflexivity.
  - transitivity 0; [reflexivity|]. unfold EK_rate, sw_zero, cx, cy, cz. cbn [fst snd]. rewrite (mean_ext o _ (fun _ _ _ => 0 * 0)).
    + rewrite (mean_scal o 0 (fun _ _ _ => 0)). ring.
    + intros. rewrite !value_zero. field.
Qed.

Lemma sw_PK2 Fx Fy Fe : real_field ms Fx -> real_field ms Fy -> real_field ms Fe ->
  written (sw1l_means o ms f_d f_h dt c2 (Some (Fx, Fy, Fe)) (ux, uy, eta)) "PK2"
  = mean o (fun jx jy jz => dt * (1 / 4 * (1 + V eta jx jy jz) * (V Fx jx jy jz ^ 2 + V Fy jx jy jz ^ 2)
      + 3 / 4 * V Fe jx jy jz * (V ux jx jy jz * V Fx jx jy jz + V uy jx jy jz * V Fy jx jy jz))).
Proof.
  intros R1 R2 R3.
  transitivity (sum_wavenumbers ms (fun m => dt / 2 * (1 / 2 * (inner_prod (Fx m) (fft o (gadd (gmul (height o ms eta) (ifft o ms Fx)) (gmul (ifft o ms Fe) (ifft o ms ux))) m)
      + inner_prod (Fy m) (fft o (gadd (gmul (height o ms eta) (ifft o ms Fy)) (gmul (ifft o ms Fe) (ifft o ms uy))) m))
      + inner_prod (ux m) (fft o (gmul (ifft o ms Fe) (ifft o ms Fx)) m) + inner_prod (uy m) (fft o (gmul (ifft o ms Fe) (ifft o ms Fy)) m)))); [reflexivity|].
  rewrite sum_scal, !sum_plus, sum_scal, sum_plus.
  rewrite (inner_grid o ms Hs Fx _ (fun jx jy jz => (1 + V eta jx jy jz) * V Fx jx jy jz + V Fe jx jy jz * V ux jx jy jz)).
  rewrite (inner_grid o ms Hs Fy _ (fun jx jy jz => (1 + V eta jx jy jz) * V Fy jx jy jz + V Fe jx jy jz * V uy jx jy jz)).
  rewrite (inner_grid o ms Hs ux _ (fun jx jy jz => V Fe jx jy jz * V Fx jx jy jz)).
  rewrite (inner_grid o ms Hs uy _ (fun jx jy jz => V Fe jx jy jz * V Fy jx jy jz)).
  { rewrite <- !mean_plus, <- mean_scal, <- !mean_plus, <- mean_scal. apply mean_ext. intros. field. }
  all: try assumption.
  all: intros; unfold gadd, lift2; rewrite ?hu_real by assumption; unfold gmul, lift2; rewrite !(ifft_value o ms Hs) by assumption; rewrite ?RtoC_plus, !RtoC_mult; reflexivity.
Qed.
End SW.

(** ** C97 for sw1l: with the tendency G of the nonlinear terms, the forcing and the damping *)

Section SWrate.
Variable o : oper.
Variable ms : list mode.

Lemma derive_value a t g jx jy jz : moves ms a t g -> is_derive (fun s => value o ms (a s) jx jy jz) t (value o ms g jx jy jz).
Proof.
  intros M. unfold value. apply (is_derive_total ms (fun s m => fst (a s m) * _ - snd (a s m) * _)). intros m Hm. destruct (M m Hm) as [D1 D2].
  set (x := cos _). set (y := sin _).
  apply (is_derive_ext (fun s => x * fst (a s m) + - y * snd (a s m))); [intros s; change (x * fst (a s m) + - y * snd (a s m) = fst (a s m) * x - snd (a s m) * y); ring|].
  eapply is_derive_eq; [exact (derive_add _ _ t _ _ (is_derive_scal _ t x _ D1) (is_derive_scal _ t (- y) _ D2))|]. change (x * fst (g m) + - y * snd (g m) = fst (g m) * x - snd (g m) * y). ring.
Qed.

Lemma derive_rsum_to n (f : R -> nat -> R) t df : (forall j, is_derive (fun s => f s j) t (df j)) -> is_derive (fun s => rsum_to n (f s)) t (rsum_to n df).
Proof.
  intros H. unfold rsum_to. induction (seq 0 n) as [|j l IH]; cbn [fold_right].
  - apply (is_derive_ext (fun _ => 0)); [reflexivity | exact (is_derive_const 0 t)].
  - exact (derive_add _ _ t _ _ (H j) IH).
Qed.

Lemma derive_mean (f : R -> nat -> nat -> nat -> R) t df : (forall jx jy jz, is_derive (fun s => f s jx jy jz) t (df jx jy jz)) ->
  is_derive (fun s => mean o (f s)) t (mean o df).
Proof.
  intros H. unfold mean. set (c := INR _ * INR _ * INR _).
  assert (D : is_derive (fun s => rsum_to (nx o) (fun jx => rsum_to (ny o) (fun jy => rsum_to (nz o) (fun jz => f s jx jy jz)))) t
     (rsum_to (nx o) (fun jx => rsum_to (ny o) (fun jy => rsum_to (nz o) (fun jz => df jx jy jz))))).
  { apply (derive_rsum_to (nx o) (fun s jx => rsum_to (ny o) (fun jy => rsum_to (nz o) (fun jz => f s jx jy jz)))). intros jx.
    apply (derive_rsum_to (ny o) (fun s jy => rsum_to (nz o) (fun jz => f s jx jy jz))). intros jy.
    apply (derive_rsum_to (nz o) (fun s jz => f s jx jy jz)). intros jz. apply H. }
  eapply is_derive_eq.
  - apply (is_derive_ext (fun s => / c * rsum_to (nx o) (fun jx => rsum_to (ny o) (fun jy => rsum_to (nz o) (fun jz => f s jx jy jz)))));
      [intros s; unfold Rdiv; apply Rmult_comm|]. exact (is_derive_scal _ t (/ c) _ D).
  - unfold Rdiv. apply Rmult_comm.
Qed.

Lemma derive_hu2 (h u v : R -> R) t dh du dv : is_derive h t dh -> is_derive u t du -> is_derive v t dv ->
  is_derive (fun s => (1 + h s) * (u s ^ 2 + v s ^ 2) / 2) t ((1 + h t) * (u t * du + v t * dv) + dh * (u t ^ 2 + v t ^ 2) / 2).
Proof.
  intros Dh Du Dv. auto_derive.
  - repeat split; eexists; eassumption.
  - replace (Derive (fun x : R => h x) t) with dh by (symmetry; apply is_derive_unique; exact Dh).
    replace (Derive (fun x : R => u x) t) with du by (symmetry; apply is_derive_unique; exact Du).
    replace (Derive (fun x : R => v x) t) with dv by (symmetry; apply is_derive_unique; exact Dv). field.
Qed.

(** the rate of change of the kinetic energy is EK_rate *)
Theorem c97_EK_rate s t g : vmoves ms s t g -> is_derive (fun x => EK_sw1l o ms (s x)) t (EK_rate o ms (s t) g).
Proof.
  intros (Mx & My & Mz). unfold EK_sw1l, EK_rate.
  apply (derive_mean (fun x jx jy jz => (1 + value o ms (cz (s x)) jx jy jz) * (value o ms (cx (s x)) jx jy jz ^ 2 + value o ms (cy (s x)) jx jy jz ^ 2) / 2)).
  intros jx jy jz. apply (derive_hu2 (fun x => value o ms (cz (s x)) jx jy jz) (fun x => value o ms (cx (s x)) jx jy jz) (fun x => value o ms (cy (s x)) jx jy jz));
    apply derive_value; assumption.
Qed.

Theorem c97_sw1l f_d f_h dt c2 F G s t : symmetric_modes ms -> (forall m, In m ms -> f_d (mopp m) = f_d m) -> (forall m, In m ms -> f_h (mopp m) = f_h m) ->
  vreal ms (s t) -> vreal ms (sw_forcing_of F) -> vmoves ms s t (vdamped (freq_lin (f_d, f_h)) (plus_v G (sw_forcing_of F)) (s t)) ->
  let w := written (sw1l_means o ms f_d f_h dt c2 F (s t)) in
  is_derive (fun x => EK_sw1l o ms (s x)) t (EK_rate o ms (s t) G + w "PK1"%string - w "epsK_tot"%string)
  /\ is_derive (fun x => c2 * square ms (cz (s x))) t (c2 * product ms (cz (s t)) (cz G) + w "PA1"%string - w "epsA_tot"%string).
Proof.
  intros Hs Ed Eh Rs RF M w. unfold w. destruct (s t) as [[ux uy] eta] eqn:Est. destruct Rs as (R1 & R2 & R3). destruct RF as (Q1 & Q2 & Q3).
  unfold cx, cy, cz in R1, R2, R3. cbn [fst snd] in R1, R2, R3. split.
  - rewrite (sw_PK1 o ms Hs) by assumption.
    assert (E : written (sw1l_means o ms f_d f_h dt c2 F (ux, uy, eta)) "epsK_tot"
      = EK_rate o ms (ux, uy, eta) (filt f_d ux, filt f_d uy, filt f_d eta) + EK_rate o ms (ux, uy, eta) (filt f_h ux, filt f_h uy, filt f_h eta)).
    { rewrite <- !(eps_freq o ms Hs) by assumption. reflexivity. }
    rewrite E. eapply is_derive_eq; [exact (c97_EK_rate s t _ M)|]. rewrite Est.
    unfold EK_rate. unfold Rminus. 
    match goal with |- _ = ?a + ?b + - (?c + ?d) => transitivity (a + b + (-1 * c + -1 * d)); [|ring] end.
    rewrite <- !mean_scal, <- !mean_plus. apply mean_ext. intros jx jy jz. unfold vdamped, plus_v, cx, cy, cz. cbn [fst snd].
    rewrite !value_damped, !value_plus.
    assert (FL : forall a, value o ms (filt (freq_lin (f_d, f_h)) a) jx jy jz = value o ms (filt f_d a) jx jy jz + value o ms (filt f_h a) jx jy jz).
    { intros a. rewrite <- value_plus. unfold value. apply total_ext. intros m _. unfold filt, plus_f, freq_lin. cbn. ring. }
    rewrite !FL. field.
  - destruct M as (_ & _ & Mz). pose proof (derive_1 ms (fun x => cz (s x)) t _ Mz) as D. cbv beta in D. rewrite Est in D.
    eapply is_derive_eq; [exact (is_derive_scal _ t c2 _ D)|]. unfold vdamped, plus_v, cx, cy, cz. cbn [fst snd].
    rewrite (rate_damped ms one), (rate_plus ms one).
    replace (written (sw1l_means o ms f_d f_h dt c2 F (ux, uy, eta)) "PA1") with (c2 * rate ms one eta (snd (sw_forcing_of F))).
    2:{ destruct F as [[[Fx Fy] Fe]|]; cbn [sw_forcing_of snd].
        - transitivity (sum_wavenumbers ms (fun m => c2 * inner_prod (eta m) (Fe m))); [|reflexivity]. rewrite sum_scal, inner_rate. reflexivity.
        - unfold sw_zero. cbn [snd]. unfold one. rewrite rate_zero. transitivity 0; [ring | reflexivity]. }
    replace (written (sw1l_means o ms f_d f_h dt c2 F (ux, uy, eta)) "epsA_tot") with (c2 * total ms (fun m => freq_lin (f_d, f_h) m * (one m * norm2 (eta m)))).
    2:{ transitivity (eps ms f_d (energyA_sw1l c2 eta) + eps_hypo ms f_h (energyA_sw1l c2 eta)); [|reflexivity].
        unfold eps, eps_hypo. rewrite <- sum_plus. unfold sum_wavenumbers. rewrite rsum_total, <- total_scal. apply total_ext. intros m _.
        unfold energyA_sw1l, freq_lin, one. cbn [fst snd]. rewrite abs2_norm2. field. }
    replace (product ms eta (snd G)) with (rate ms one eta (snd G)); [change (scal c2 ?x) with (c2 * x); ring|].
    unfold rate, product, one. apply total_ext. intros. ring.
Qed.

(** ** C98 for the kinetic energy of sw1l: without forcing of eta the second part is half of what it should be *)
Theorem c98_sw1l_K_partial f_d f_h dt c2 Fx Fy Fe ux uy eta : symmetric_modes ms -> real_field ms ux -> real_field ms uy -> real_field ms eta ->
  real_field ms Fx -> real_field ms Fy -> real_field ms Fe ->
  let w := written (sw1l_means o ms f_d f_h dt c2 (Some (Fx, Fy, Fe)) (ux, uy, eta)) in
  w "PK1"%string = EK_rate o ms (ux, uy, eta) (Fx, Fy, Fe)
  /\ ((forall m, In m ms -> Fe m = RtoC 0) ->
      EK_sw1l o ms (vafter dt (Fx, Fy, Fe) (ux, uy, eta)) - EK_sw1l o ms (ux, uy, eta) = dt * (w "PK1"%string + 2 * w "PK2"%string)).
Proof.
  intros Hs R1 R2 R3 Q1 Q2 Q3 w. unfold w. split; [apply sw_PK1; assumption|]. intros Z.
  rewrite (sw_PK1 o ms Hs f_d f_h dt c2 ux uy eta R1 R2 R3 (Some (Fx, Fy, Fe))) by assumption. cbn [sw_forcing_of].
  rewrite (sw_PK2 o ms Hs f_d f_h dt c2 ux uy eta) by assumption. unfold EK_sw1l, EK_rate, vafter, cx, cy, cz. cbn [fst snd].
  match goal with |- ?a - ?b = _ => transitivity (a + -1 * b); [ring|] end.
  rewrite <- !mean_scal, <- !mean_plus, <- mean_scal. apply mean_ext. intros jx jy jz. rewrite !value_after.
  assert (VZ : value o ms Fe jx jy jz = 0).
  { rewrite <- (value_zero o ms jx jy jz). unfold value. apply total_ext. intros m Hm. rewrite (Z m Hm). reflexivity. }
  rewrite VZ. field.
Qed.
End SWrate.

Theorem c98_sw1l_K_refuted : exists o ms f_d f_h dt c2 Fx Fy Fe ux uy eta, oper_pos o /\ symmetric_modes ms /\ real_field ms ux /\ real_field ms uy
  /\ real_field ms eta /\ real_field ms Fx /\ real_field ms Fy /\ real_field ms Fe /\ 0 < dt /\
  let w := written (sw1l_means o ms f_d f_h dt c2 (Some (Fx, Fy, Fe)) (ux, uy, eta)) in
  EK_sw1l o ms (vafter dt (Fx, Fy, Fe) (ux, uy, eta)) - EK_sw1l o ms (ux, uy, eta) <> dt * (w "PK1"%string + w "PK2"%string).
Proof.
  set (o := {| nx := 1; ny := 1; nz := 1; Lx := 1; Ly := 1; Lz := 1 |}). set (z := fun _ : mode => RtoC 0). set (i := fun _ : mode => RtoC 1).
  assert (Hs : symmetric_modes [(0, 0, 0)%Z]) by (split; [repeat constructor; simpl; tauto | intros m [<-|[]]; left; reflexivity]).
  assert (Rz : real_field [(0, 0, 0)%Z] z) by (intros m _; apply C_eq; cbn; ring).
  assert (Ri : real_field [(0, 0, 0)%Z] i) by (intros m _; apply C_eq; cbn; ring).
  exists o, [(0, 0, 0)%Z], (fun _ => 0), (fun _ => 0), 1, 1, i, z, z, z, z, z.
  split; [repeat split; simpl; lia || lra|]. repeat (split; [assumption|]). split; [lra|]. intros w. unfold w.
  destruct (c98_sw1l_K_partial o [(0, 0, 0)%Z] (fun _ => 0) (fun _ => 0) 1 1 i z z z z z Hs Rz Rz Rz Ri Rz Rz) as [P1 P2].
  rewrite P2 by reflexivity. rewrite (sw_PK2 o [(0, 0, 0)%Z] Hs) by assumption.
  assert (Vz : forall jx jy jz, value o [(0, 0, 0)%Z] z jx jy jz = 0) by (intros; apply value_zero).
  assert (Vi : forall jx jy jz, value o [(0, 0, 0)%Z] i jx jy jz = 1).
  { intros. unfold value, total, i, mx, my, mz, o. cbn [fold_right fst snd nx ny nz RtoC].
    replace (2 * PI * (0 * INR jx / INR 1 + 0 * INR jy / INR 1 + 0 * INR jz / INR 1)) with 0 by (unfold Rdiv; ring). rewrite cos_0, sin_0. ring. }
  rewrite (mean_ext o _ (fun _ _ _ => 1 / 4)) by (intros; rewrite !Vz, Vi; field).
  assert (M : mean o (fun _ _ _ => 1 / 4) = 1 / 4) by (unfold mean, rsum_to, o; cbn; field). rewrite M. lra.
Qed.

(** sw1l.modified: quadratic energies *)
Theorem c97_sw1l_modified ms f_d f_h dt c2 F G s t :
  vmoves ms s t (vdamped (freq_lin (f_d, f_h)) (plus_v G (sw_forcing_of F)) (s t)) ->
  let w := written (sw1l_modified_means ms f_d f_h dt c2 F (s t)) in
  is_derive (fun x => square ms (cx (s x)) + square ms (cy (s x))) t
    (product ms (cx (s t)) (cx G) + product ms (cy (s t)) (cy G) + w "PK1"%string - w "epsK_tot"%string)
  /\ is_derive (fun x => c2 * square ms (cz (s x))) t (c2 * product ms (cz (s t)) (cz G) + w "PA1"%string - w "epsA_tot"%string).
Proof.
  intros (Mx & My & Mz) w. unfold w.
  pose proof (derive_1 ms (fun x => cx (s x)) t _ Mx) as Dx. pose proof (derive_1 ms (fun x => cy (s x)) t _ My) as Dy. pose proof (derive_1 ms (fun x => cz (s x)) t _ Mz) as Dz.
  cbv beta in Dx, Dy, Dz. destruct (s t) as [[ux uy] eta] eqn:Est.
  assert (PR : forall a b, product ms a b = rate ms one a b) by (intros; unfold rate, product, one; apply total_ext; intros; ring).
  split.
  - eapply is_derive_eq; [exact (derive_add _ _ t _ _ Dx Dy)|]. unfold vdamped, plus_v, cx, cy, cz. cbn [fst snd].
    rewrite !(rate_damped ms one), !(rate_plus ms one), !PR.
    replace (written (sw1l_modified_means ms f_d f_h dt c2 F (ux, uy, eta)) "PK1") with (rate ms one ux (fst (fst (sw_forcing_of F))) + rate ms one uy (snd (fst (sw_forcing_of F)))).
    2:{ destruct F as [[[Fx Fy] Fe]|]; cbn [sw_forcing_of fst snd].
        - transitivity (sum_wavenumbers ms (fun m => inner_prod (ux m) (Fx m) + inner_prod (uy m) (Fy m))); [|reflexivity]. rewrite sum_plus, !inner_rate. reflexivity.
        - unfold sw_zero, one. cbn [fst snd]. rewrite !rate_zero. transitivity 0; [ring | reflexivity]. }
    replace (written (sw1l_modified_means ms f_d f_h dt c2 F (ux, uy, eta)) "epsK_tot")
      with (total ms (fun m => freq_lin (f_d, f_h) m * (one m * norm2 (ux m))) + total ms (fun m => freq_lin (f_d, f_h) m * (one m * norm2 (uy m)))).
    2:{ transitivity (eps ms f_d (fun m => abs2 (ux m) / 2 + abs2 (uy m) / 2) + eps_hypo ms f_h (fun m => abs2 (ux m) / 2 + abs2 (uy m) / 2)); [|reflexivity].
        unfold eps, eps_hypo. rewrite <- sum_plus, <- total_plus. unfold sum_wavenumbers. rewrite rsum_total. apply total_ext. intros m _.
        unfold freq_lin, one. cbn [fst snd]. rewrite !abs2_norm2. field. }
    ring.
  - eapply is_derive_eq; [exact (is_derive_scal _ t c2 _ Dz)|]. unfold vdamped, plus_v, cx, cy, cz. cbn [fst snd].
    rewrite (rate_damped ms one), (rate_plus ms one), PR.
    replace (written (sw1l_modified_means ms f_d f_h dt c2 F (ux, uy, eta)) "PA1") with (c2 * rate ms one eta (snd (sw_forcing_of F))).
    2:{ destruct F as [[[Fx Fy] Fe]|]; cbn [sw_forcing_of snd].
        - transitivity (sum_wavenumbers ms (fun m => c2 * inner_prod (eta m) (Fe m))); [|reflexivity]. rewrite sum_scal, inner_rate. reflexivity.
        - unfold sw_zero, one. cbn [snd]. rewrite rate_zero. transitivity 0; [ring | reflexivity]. }
    replace (written (sw1l_modified_means ms f_d f_h dt c2 F (ux, uy, eta)) "epsA_tot") with (c2 * total ms (fun m => freq_lin (f_d, f_h) m * (one m * norm2 (eta m)))).
    2:{ transitivity (eps ms f_d (energyA_sw1l c2 eta) + eps_hypo ms f_h (energyA_sw1l c2 eta)); [|reflexivity].
        unfold eps, eps_hypo. rewrite <- sum_plus. unfold sum_wavenumbers. rewrite rsum_total, <- total_scal. apply total_ext. intros m _.
        unfold energyA_sw1l, freq_lin, one. cbn [fst snd]. rewrite abs2_norm2. field. }
    change (scal c2 ?x) with (c2 * x). ring.
Qed.

(** ** Example: the hypotheses are met *)
Example c97_sw1l_example : exists ms s, symmetric_modes ms /\ In (1, 0, 0)%Z ms /\ vreal ms (s 0) /\ vreal ms (sw_forcing_of (Some (s 0))) /\ cx (s 0) (1, 0, 0)%Z = RtoC 1
  /\ vmoves ms s 0 (vdamped (freq_lin (fun _ => 2, fun _ => 1)) (plus_v sw_zero (sw_forcing_of (Some (s 0)))) (s 0)).
Proof.
  destruct o8_modes as (ms & (_ & Hs & _) & Hin). set (i := fun _ : mode => RtoC 1). set (v := (i, i, i) : vfield).
  exists ms, (vline 0 v (vdamped (freq_lin (fun _ => 2, fun _ => 1)) (plus_v sw_zero (sw_forcing_of (Some v))) v)).
  rewrite vline_at. assert (Rv : vreal ms v) by (split; [|split]; intros m _; apply C_eq; cbn; lra).
  split; [exact Hs|]. split; [exact Hin|]. split; [exact Rv|]. split; [exact Rv|]. split; [reflexivity|]. apply vline_moves.
Qed.

Print Assumptions c100_sw1l.
Print Assumptions c97_EK_rate.
Print Assumptions c97_sw1l.
Print Assumptions c97_sw1l_modified.
Print Assumptions c98_sw1l_K_partial.
Print Assumptions c98_sw1l_K_refuted.
