(** * Shallow water: energy: C106 *)

From Coq Require Import Reals Lra ZArith Lia List Bool FunctionalExtensionality.
From Coquelicot Require Import Coquelicot.
From Verif Require Import CExp DFT Alias_Model Alias_Proofs Oper_Model Oper_Proofs Budget_Model Budget_Spec Budget_Proofs Budget2D_Proofs
  Budget2D_Props BudgetEq_Props Means_Model Means_Spec Means_Proofs Means_Props MeansSW_Props SW_Spec SW_Model SWNormal_Model SW_Proofs SWModes_Props SWEq_Props SWOnly_Props.
Import ListNotations.
Local Open Scope R_scope.

Section Coefs.
Variable o : oper.
Variable ms : list mode.

Lemma gmean_ri (a b : nat -> nat -> nat -> R) : gmean o (fun jx jy jz => (a jx jy jz, b jx jy jz)) = (mean o a, mean o b).
Proof.
  rewrite (gmean_ext o _ (fun jx jy jz => RtoC (a jx jy jz) + Ci * RtoC (b jx jy jz))%C) by (intros; apply C_eq; cbn; ring).
  rewrite gmean_plus, gmean_scal, !gmean_R. apply C_eq; cbn; ring.
Qed.

Lemma fft_coefs u g m : (forall jx jy jz, u jx jy jz = RtoC (g jx jy jz)) -> fft o u m = coefs o g m.
Proof.
  intros H. transitivity (gmean o (fun jx jy jz => u jx jy jz * chi3 (grid_of o) (- mx m, - my m, - mz m)%Z jx jy jz)%C); [reflexivity|].
  rewrite (gmean_ext o _ (fun jx jy jz => (g jx jy jz * cos (phase o m jx jy jz), -1 * (g jx jy jz * sin (phase o m jx jy jz))))).
  - rewrite gmean_ri, (mean_scal o (-1)). unfold coefs. apply C_eq; cbn [fst snd]; ring.
  - intros jx jy jz. rewrite H. unfold chi3, chi. cbn [gx gy gz grid_of]. rewrite <- !cis_plus. unfold cis, cexp. cbn. rewrite exp_0.
    replace (2 * PI * IZR (- mx m) * INR jx / INR (nx o) + 2 * PI * IZR (- my m) * INR jy / INR (ny o) + 2 * PI * IZR (- mz m) * INR jz / INR (nz o))
      with (- phase o m jx jy jz) by (unfold phase; rewrite !opp_IZR; unfold Rdiv; ring).
    rewrite cos_neg, sin_neg. apply C_eq; cbn; ring.
Qed.

Lemma coefs_real g : real_field ms (coefs o g).
Proof.
  intros m _. unfold coefs, Cconj. cbn [fst snd].
  assert (P : forall jx jy jz, phase o (mopp m) jx jy jz = - phase o m jx jy jz).
  { intros. unfold phase, mopp, mx, my, mz. cbn [fst snd]. rewrite !opp_IZR. unfold Rdiv. ring. }
  f_equal.
  - apply mean_ext. intros. rewrite P, cos_neg. reflexivity.
  - f_equal. rewrite (mean_ext o _ (fun jx jy jz => -1 * (g jx jy jz * sin (phase o m jx jy jz)))) by (intros; rewrite P, sin_neg; ring).
    rewrite mean_scal. ring.
Qed.
End Coefs.

Lemma derive_sq (h : R -> R) t dh : is_derive h t dh -> is_derive (fun s => h s ^ 2 / 2) t (h t * dh).
Proof.
  intros D. auto_derive; [eexists; exact D|]. replace (Derive (fun x : R => h x) t) with dh by (symmetry; apply is_derive_unique; exact D). field.
Qed.

Section Energy.
Variable o : oper.
Variable ms : list mode.
Variable dea : mode -> bool.
Variables f c2 : R.
Hypothesis Ho : oper_pos o.
Hypothesis Hs : symmetric_modes ms.
Hypothesis Hd : forall m, In m ms -> dea m = false.

Notation V := (value o ms).
Notation VR := (ifft_value o ms Hs).

Lemma real_rot ux uy : real_field ms ux -> real_field ms uy -> real_field ms (vort o ux uy).
Proof.
  intros R1 R2 m Hm. unfold vort. rewrite (R1 m Hm), (R2 m Hm).
  assert (W : wx o (mopp m) = - wx o m /\ wy o (mopp m) = - wy o m).
  { unfold wx, wy, mopp, mx, my. cbn [fst snd]. rewrite !opp_IZR. unfold Rdiv. split; ring. }
  destruct W as [-> ->]. apply C_eq; cbn; ring.
Qed.

Lemma real_grad (w : mode -> R) a : (forall m, w (mopp m) = - w m) -> real_field ms a -> real_field ms (fun m => Ci * RtoC (w m) * a m)%C.
Proof. intros W R1 m Hm. rewrite W, (R1 m Hm). apply C_eq; cbn; ring. Qed.
Lemma wx_odd m : wx o (mopp m) = - wx o m.
Proof. unfold wx, mopp, mx. cbn [fst snd]. rewrite opp_IZR. unfold Rdiv. ring. Qed.
Lemma wy_odd m : wy o (mopp m) = - wy o m.
Proof. unfold wy, mopp, my. cbn [fst snd]. rewrite opp_IZR. unfold Rdiv. ring. Qed.

(** the tendencies with functions given on the grid *)
Section State.
Variables ux uy eta : field.
Hypothesis R1 : real_field ms ux.
Hypothesis R2 : real_field ms uy.
Hypothesis R3 : real_field ms eta.
Notation rot := (vort o ux uy).
Definition Fx jx jy jz : R := (V rot jx jy jz + f) * V uy jx jy jz.
Definition Fy jx jy jz : R := - (V rot jx jy jz + f) * V ux jx jy jz.
Definition P jx jy jz : R := c2 * V eta jx jy jz + (V ux jx jy jz ^ 2 + V uy jx jy jz ^ 2) / 2.

Lemma rotabs_real jx jy jz : (if Req_EM_T f 0 then ifft o ms (rot_from_vec o ux uy) else gadd (ifft o ms (rot_from_vec o ux uy)) (gconst f)) jx jy jz
  = RtoC (V rot jx jy jz + f).
Proof.
  assert (E : ifft o ms (rot_from_vec o ux uy) jx jy jz = RtoC (V rot jx jy jz)).
  { rewrite <- VR by (apply real_rot; assumption). apply ifft_ext. intros m _. unfold rot_from_vec, vort. rewrite (sw_Kx o m Ho), (sw_Ky o m Ho). ring. }
  destruct (Req_EM_T f 0) as [->|_].
  - rewrite E, Rplus_0_r. reflexivity.
  - unfold gadd, gconst, lift2. rewrite E, RtoC_plus. reflexivity.
Qed.

Lemma tendency m : In m ms ->
  agree m (sw1l o ms dea f c2 (ux, uy, eta))
    (fun m => coefs o Fx m - Ci * RtoC (wx o m) * coefs o P m, fun m => coefs o Fy m - Ci * RtoC (wy o m) * coefs o P m,
     fun m => - (Ci * (RtoC (wx o m) * coefs o (flux o ms eta ux) m + RtoC (wy o m) * coefs o (flux o ms eta uy) m)))%C.
Proof.
  intros Hm. unfold sw1l, sw_compute_Frot, agree. rewrite !cx_mk, !cy_mk, !cz_mk. unfold dealiasing. rewrite !(Hd m Hm). unfold fsub, fopp, px_fft, py_fft, divfft_from_vecfft.
  rewrite (sw_Kx o m Ho), (sw_Ky o m Ho).
  rewrite (fft_coefs o (gmul (gadd _ (gconst 1)) (ifft o ms ux)) (flux o ms eta ux) m), (fft_coefs o (gmul (gadd _ (gconst 1)) (ifft o ms uy)) (flux o ms eta uy) m).
  rewrite (fft_coefs o (compute_pressure _ _ _ _) P m), (fft_coefs o (gmul _ (ifft o ms uy)) Fx m), (fft_coefs o (gmul (gopp _) (ifft o ms ux)) Fy m).
  - rewrite ?(Hd m Hm). repeat split; ring.
  - intros. unfold gmul, gopp, Fy, lift2. rewrite rotabs_real, VR by assumption. apply C_eq; cbn; ring.
  - intros. unfold gmul, Fx, lift2. rewrite rotabs_real, VR by assumption. apply C_eq; cbn; ring.
  - intros. unfold compute_pressure, gmul, gadd, rsc, P, lift2. rewrite !VR by assumption. apply C_eq; cbn; field.
  - intros. unfold gmul, gadd, gconst, flux, lift2. rewrite !VR by assumption. apply C_eq; cbn; ring.
  - intros. unfold gmul, gadd, gconst, flux, lift2. rewrite !VR by assumption. apply C_eq; cbn; ring.
Qed.

Lemma sum_inner a g : real_field ms a -> mean o (fun jx jy jz => g jx jy jz * V a jx jy jz) = sum_wavenumbers ms (fun m => inner_prod (coefs o g m) (a m)).
Proof.
  intros Ra. rewrite <- (inner_grid' o ms Hs a (fun jx jy jz => RtoC (g jx jy jz)) g Ra) by reflexivity. apply sum_ext. intros m _.
  rewrite (fft_coefs o _ g) by reflexivity. reflexivity.
Qed.

Lemma value_agree a b jx jy jz : (forall m, In m ms -> a m = b m) -> V a jx jy jz = V b jx jy jz.
Proof. intros H. unfold value. apply total_ext. intros m Hm. rewrite (H m Hm). reflexivity. Qed.

Lemma energy_rate_grid : let g := sw1l o ms dea f c2 (ux, uy, eta) in
  EK_rate o ms (ux, uy, eta) g + c2 * mean o (fun jx jy jz => V eta jx jy jz * V (cz g) jx jy jz)
  = mean o (fun jx jy jz => (V rot jx jy jz + f) * (V uy jx jy jz * flux_kept o ms eta ux jx jy jz - V ux jx jy jz * flux_kept o ms eta uy jx jy jz)).
Proof.
  intros g.
  set (gx := (fun m => coefs o Fx m - Ci * RtoC (wx o m) * coefs o P m)%C).
  set (gy := (fun m => coefs o Fy m - Ci * RtoC (wy o m) * coefs o P m)%C).
  set (gz := (fun m => - (Ci * (RtoC (wx o m) * coefs o (flux o ms eta ux) m + RtoC (wy o m) * coefs o (flux o ms eta uy) m)))%C).
  assert (Q1 : real_field ms gx).
  { intros m Hm. unfold gx. rewrite !(coefs_real o ms _ m Hm), wx_odd. apply C_eq; cbn; ring. }
  assert (Q2 : real_field ms gy).
  { intros m Hm. unfold gy. rewrite !(coefs_real o ms _ m Hm), wy_odd. apply C_eq; cbn; ring. }
  assert (Q3 : real_field ms gz).
  { intros m Hm. unfold gz. rewrite !(coefs_real o ms _ m Hm), wx_odd, wy_odd. apply C_eq; cbn; ring. }
  transitivity (mean o (fun jx jy jz => flux o ms eta ux jx jy jz * V gx jx jy jz) + mean o (fun jx jy jz => flux o ms eta uy jx jy jz * V gy jx jy jz)
     + mean o (fun jx jy jz => P jx jy jz * V gz jx jy jz)).
  - unfold EK_rate. rewrite <- mean_scal, <- !mean_plus. apply mean_ext. intros jx jy jz. rewrite !cx_mk, !cy_mk, !cz_mk.
    rewrite (value_agree (cx g) gx), (value_agree (cy g) gy), (value_agree (cz g) gz) by (intros m Hm; apply (tendency m Hm)).
    unfold flux, P. field.
  - rewrite !sum_inner by assumption. rewrite <- !sum_plus.
    rewrite (sum_ext ms _ (fun m => inner_prod (coefs o (flux o ms eta ux) m) (coefs o Fx m) + inner_prod (coefs o (flux o ms eta uy) m) (coefs o Fy m))).
    2:{ intros m _. unfold gx, gy, gz, inner_prod. generalize (coefs o (flux o ms eta ux) m) (coefs o (flux o ms eta uy) m) (coefs o P m) (coefs o Fx m) (coefs o Fy m).
        intros [a a'] [b b'] [p p'] [u u'] [v v']. cbn. ring. }
    rewrite sum_plus. rewrite (sum_ext ms _ _ (fun m _ => inner_sym (coefs o (flux o ms eta ux) m) (coefs o Fx m))).
    rewrite (sum_ext ms _ _ (fun m _ => inner_sym (coefs o (flux o ms eta uy) m) (coefs o Fy m))).
    rewrite <- !sum_inner by apply coefs_real. rewrite <- mean_plus. apply mean_ext. intros. unfold Fx, Fy, flux_kept. ring.
Qed.
End State.

Theorem c106_energy_partial s t : vreal ms (s t) -> vmoves ms s t (sw1l o ms dea f c2 (s t)) ->
  is_derive (fun x => energy_sw o ms c2 (s x)) t
    (mean o (fun jx jy jz => (V (vort o (cx (s t)) (cy (s t))) jx jy jz + f)
       * (V (cy (s t)) jx jy jz * flux_kept o ms (cz (s t)) (cx (s t)) jx jy jz - V (cx (s t)) jx jy jz * flux_kept o ms (cz (s t)) (cy (s t)) jx jy jz))).
Proof.
  intros (R1 & R2 & R3) M. rewrite <- (energy_rate_grid (cx (s t)) (cy (s t)) (cz (s t)) R1 R2 R3).
  assert (E : (cx (s t), cy (s t), cz (s t)) = s t) by (destruct (s t) as [[a b] c]; reflexivity). rewrite E.
  unfold energy_sw. apply (derive_add (fun x => EK_sw1l o ms (s x)) (fun x => c2 * mean o (fun jx jy jz => V (cz (s x)) jx jy jz ^ 2 / 2))).
  - apply c97_EK_rate. exact M.
  - apply (is_derive_scal (fun x => mean o (fun jx jy jz => V (cz (s x)) jx jy jz ^ 2 / 2)) t c2).
    apply (derive_mean o (fun x jx jy jz => V (cz (s x)) jx jy jz ^ 2 / 2)). intros jx jy jz. destruct M as (_ & _ & M3).
    pose proof (derive_value o ms (fun x => cz (s x)) t _ jx jy jz M3) as D. cbv beta in D.
    exact (derive_sq (fun x => V (cz (s x)) jx jy jz) t _ D).
Qed.

(** no change for a flow without absolute vorticity, or if the modes are enough to describe (1 + eta) u *)
Theorem c106_energy_rest_partial s t : vreal ms (s t) -> vmoves ms s t (sw1l o ms dea f c2 (s t)) ->
  (forall jx jy jz, V (vort o (cx (s t)) (cy (s t))) jx jy jz = - f)
  \/ (forall jx jy jz, flux_kept o ms (cz (s t)) (cx (s t)) jx jy jz = flux o ms (cz (s t)) (cx (s t)) jx jy jz
       /\ flux_kept o ms (cz (s t)) (cy (s t)) jx jy jz = flux o ms (cz (s t)) (cy (s t)) jx jy jz) ->
  is_derive (fun x => energy_sw o ms c2 (s x)) t 0.
Proof.
  intros R M C. eapply is_derive_eq; [exact (c106_energy_partial s t R M)|]. rewrite (mean_ext o _ (fun _ _ _ => 0 * 0)).
  - rewrite (mean_scal o 0 (fun _ _ _ => 0)). ring.
  - intros jx jy jz. destruct C as [C|C].
    + rewrite C. ring.
    + destruct (C jx jy jz) as [-> ->]. unfold flux. ring.
Qed.
End Energy.

(** the rotation does no work *)
Theorem c106_energy_rotation_partial o ms dea f c2 s t : good_modes o ms -> (forall m, In m ms -> dea m = false) ->
  vreal ms (s t) -> vmoves ms s t (sw1l o ms dea f c2 (s t)) ->
  is_derive (fun x => energy_sw o ms c2 (s x)) t
    (mean o (fun jx jy jz => value o ms (vort o (cx (s t)) (cy (s t))) jx jy jz
       * (value o ms (cy (s t)) jx jy jz * flux_kept o ms (cz (s t)) (cx (s t)) jx jy jz
          - value o ms (cx (s t)) jx jy jz * flux_kept o ms (cz (s t)) (cy (s t)) jx jy jz))).
Proof.
  intros Hg Hd R M. pose proof Hg as (Ho & Hs & _). eapply is_derive_eq; [exact (c106_energy_partial o ms dea f c2 Ho Hs Hd s t R M)|].
  destruct R as (R1 & R2 & R3). destruct (s t) as [[ux uy] eta]. unfold cx, cy, cz in *. cbn [fst snd] in *.
  assert (G : forall a b, real_field ms a -> real_field ms b ->
    mean o (fun jx jy jz => value o ms a jx jy jz * flux_kept o ms eta b jx jy jz) = mean o (fun jx jy jz => flux o ms eta b jx jy jz * value o ms a jx jy jz)).
  { intros a b Ra Rb. unfold flux_kept. rewrite !(sum_inner o ms Hs) by (assumption || apply coefs_real). apply sum_ext. intros m Hm.
    rewrite inner_sym. f_equal. rewrite <- (fft_coefs o (ifft o ms a)) by (intros; apply (ifft_value o ms Hs); assumption). apply (fft_id o ms Hg). exact Hm. }
  assert (Z : mean o (fun jx jy jz => value o ms uy jx jy jz * flux_kept o ms eta ux jx jy jz) = mean o (fun jx jy jz => value o ms ux jx jy jz * flux_kept o ms eta uy jx jy jz)).
  { rewrite !G by assumption. apply mean_ext. intros. unfold flux. ring. }
  match goal with |- ?l = ?r => transitivity (r + f * (mean o (fun jx jy jz => value o ms uy jx jy jz * flux_kept o ms eta ux jx jy jz) + -1 * mean o (fun jx jy jz => value o ms ux jx jy jz * flux_kept o ms eta uy jx jy jz))) end.
  - rewrite <- mean_scal, <- !mean_plus, <- mean_scal, <- mean_plus. apply mean_ext. intros. ring.
  - rewrite Z. ring.
Qed.

(** eta = ux = cos x, uy = cos x + sin x *)
Definition cos_x : field := fun m => if (mx m =? 0)%Z then RtoC 0 else RtoC (1 / 2).
Definition cos_sin_x : field := fun m => if (mx m =? 1)%Z then (1 / 2, - (1 / 2)) else if (mx m =? -1)%Z then (1 / 2, 1 / 2) else RtoC 0.
Definition flow1 : field * field * field := (cos_x, cos_sin_x, cos_x).

Lemma flow1_real : vreal ms3 flow1.
Proof.
  unfold flow1. split; [|split]; rewrite ?cx_mk, ?cy_mk, ?cz_mk; intros m H; cbn in H; destruct H as [<-|[<-|[<-|[]]]]; apply C_eq; cbn; lra.
Qed.

Lemma conv3m a b : convolution ms3 a b (-1, 0, 0)%Z = (a (0, 0, 0)%Z * b (-1, 0, 0)%Z + a (-1, 0, 0)%Z * b (0, 0, 0)%Z)%C.
Proof.
  unfold convolution, ms3. rewrite !lsum_cons. change (@lsum mode []) with (fun _ : mode -> C => RtoC 0). unfold mode_eqb, madd.
  cbn [mode_eqb madd mx my mz fst snd Z.eqb Z.add Z.pos_sub andb Pos.eqb Pos.add Pos.succ Pos.pred_double]. ring.
Qed.
Lemma conv30 a b : convolution ms3 a b (0, 0, 0)%Z = (a (-1, 0, 0)%Z * b (1, 0, 0)%Z + a (0, 0, 0)%Z * b (0, 0, 0)%Z + a (1, 0, 0)%Z * b (-1, 0, 0)%Z)%C.
Proof.
  unfold convolution, ms3. rewrite !lsum_cons. change (@lsum mode []) with (fun _ : mode -> C => RtoC 0). unfold mode_eqb, madd.
  cbn [mode_eqb madd mx my mz fst snd Z.eqb Z.add Z.pos_sub andb Pos.eqb Pos.add Pos.succ Pos.pred_double]. ring.
Qed.

Lemma coefs_product o ms a b m : good_modes o ms -> real_field ms a -> real_field ms b -> In m ms ->
  coefs o (fun jx jy jz => value o ms a jx jy jz * value o ms b jx jy jz) m = convolution ms a b m.
Proof.
  intros Hg Ra Rb Hm. pose proof Hg as (_ & Hs & _). rewrite <- (fft_conv o ms Hg) by exact Hm. symmetry. apply fft_coefs. intros. unfold gmul, lift2.
  rewrite !(ifft_value o ms Hs) by assumption. rewrite RtoC_mult. reflexivity.
Qed.
Lemma coefs_flux o ms eta a m : good_modes o ms -> real_field ms a -> real_field ms eta -> In m ms -> coefs o (flux o ms eta a) m = (a m + convolution ms eta a m)%C.
Proof.
  intros Hg Ra Rb Hm. pose proof Hg as (_ & Hs & _). rewrite <- (fft_conv o ms Hg) by exact Hm. rewrite <- (fft_id o ms Hg a m Hm) at 1. rewrite <- fft_add. symmetry. apply fft_coefs.
  intros. unfold gadd, gmul, flux, lift2. rewrite !(ifft_value o ms Hs) by assumption. apply C_eq; cbn; ring.
Qed.

Theorem c106_energy_refuted : exists o ms f c2 s t, good_modes o ms /\ 0 < c2 /\ vreal ms (s t) /\ vmoves ms s t (sw1l o ms (fun _ => false) f c2 (s t))
  /\ is_derive (fun x => energy_sw o ms c2 (s x)) t (- (1 / 4)).
Proof.
  set (s := fun x => vafter x (sw1l o8 ms3 (fun _ => false) 0 1 flow1) flow1).
  exists o8, ms3, 0, 1, s, 0. assert (S0 : s 0 = flow1).
  { unfold s, vafter, flow1. rewrite !cx_mk, !cy_mk, !cz_mk. f_equal; [f_equal|]; unfold after; extensionality m; generalize (cx (sw1l o8 ms3 (fun _ => false) 0 1 (cos_x, cos_sin_x, cos_x)) m) (cy (sw1l o8 ms3 (fun _ => false) 0 1 (cos_x, cos_sin_x, cos_x)) m) (cz (sw1l o8 ms3 (fun _ => false) 0 1 (cos_x, cos_sin_x, cos_x)) m); intros; ring. }
  split; [exact ms3_good|]. split; [lra|]. split; [rewrite S0; exact flow1_real|].
  assert (M : vmoves ms3 s 0 (sw1l o8 ms3 (fun _ => false) 0 1 (s 0))).
  { rewrite S0. unfold s, vafter. assert (G : forall F a, moves ms3 (fun x => after x F a) 0 F).
    { intros F a m _. unfold after. generalize (F m) (a m). intros z w. split; cbn; auto_derive; trivial; ring. }
    split; [|split]; rewrite ?cx_mk, ?cy_mk, ?cz_mk; apply G. }
  split; [exact M|].
  pose proof (c106_energy_rotation_partial o8 ms3 (fun _ => false) 0 1 s 0 ms3_good (fun _ _ => eq_refl)) as D. rewrite S0 in D. specialize (D flow1_real).
  rewrite S0 in M. specialize (D M). eapply is_derive_eq; [exact D|]. clear D M S0. clear s.
  destruct flow1_real as (R1 & R2 & R3). pose proof (real_rot o8 ms3 _ _ R1 R2) as R4. unfold flow1 in *. rewrite !cx_mk, !cy_mk, !cz_mk in *.
  pose proof ms3_good as (_ & Hs & _). set (rot := vort o8 cos_x cos_sin_x) in *.
  transitivity (mean o8 (fun jx jy jz => (value o8 ms3 rot jx jy jz * value o8 ms3 cos_sin_x jx jy jz) * value o8 ms3 (coefs o8 (flux o8 ms3 cos_x cos_x)) jx jy jz)
    + -1 * mean o8 (fun jx jy jz => (value o8 ms3 rot jx jy jz * value o8 ms3 cos_x jx jy jz) * value o8 ms3 (coefs o8 (flux o8 ms3 cos_x cos_sin_x)) jx jy jz)).
  { rewrite <- mean_scal, <- mean_plus. apply mean_ext. intros. unfold flux_kept. ring. }
  rewrite !(sum_inner o8 ms3 Hs) by apply coefs_real.
  rewrite (sum_ext ms3 _ (fun m => inner_prod (convolution ms3 rot cos_sin_x m) (cos_x m + convolution ms3 cos_x cos_x m)%C))
    by (intros m Hm; rewrite (coefs_product o8 ms3), (coefs_flux o8 ms3) by (assumption || exact ms3_good); reflexivity).
  rewrite (sum_ext ms3 (fun m => inner_prod _ (coefs o8 (flux o8 ms3 cos_x cos_sin_x) m)) (fun m => inner_prod (convolution ms3 rot cos_x m) (cos_sin_x m + convolution ms3 cos_x cos_sin_x m)%C))
    by (intros m Hm; rewrite (coefs_product o8 ms3), (coefs_flux o8 ms3) by (assumption || exact ms3_good); reflexivity).
  assert (V1 : rot (1, 0, 0)%Z = (1 / 2, 1 / 2)) by (unfold rot, vort; rewrite wx8, wy8; apply C_eq; cbn; lra).
  assert (V2 : rot (-1, 0, 0)%Z = (1 / 2, - (1 / 2))) by (unfold rot, vort; rewrite wx8, wy8; apply C_eq; cbn; lra).
  assert (V0 : rot (0, 0, 0)%Z = RtoC 0) by (unfold rot, vort; rewrite wx8, wy8; apply C_eq; cbn; lra).
  unfold sum_wavenumbers. rewrite !rsum_total. unfold ms3 at 1 4, total. cbn [fold_right]. rewrite !conv3, !conv3m, !conv30, V0, V1, V2.
  unfold inner_prod, cos_x, cos_sin_x, mx. cbn. lra.
Qed.

Print Assumptions c106_energy_partial.
Print Assumptions c106_energy_rest_partial.
Print Assumptions c106_energy_rotation_partial.
Print Assumptions c106_energy_refuted.
