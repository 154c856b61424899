(** * Shallow water: the solver onlywaves: C107; refutations *)

From Coq Require Import Reals Lra ZArith Lia List Bool FunctionalExtensionality.
From Coquelicot Require Import Coquelicot.
From Verif Require Import CExp DFT Alias_Model Alias_Proofs Oper_Model Oper_Proofs Budget_Model Budget_Spec Budget_Proofs Budget2D_Proofs
  Budget2D_Props BudgetEq_Props SW_Spec SW_Model SWNormal_Model SW_Proofs SWModes_Props SWEq_Props.
Import ListNotations.
Local Open Scope R_scope.

(** ** C107: onlywaves is exactlin without potential vorticity *)

Lemma gmul_zero_l o (u v : gfield) k : (forall jx jy jz, u jx jy jz = RtoC 0) -> fft o (gmul u v) k = RtoC 0.
Proof.
  intros H. rewrite (fft_ext o _ (fun jx jy jz => RtoC 0 * v jx jy jz + RtoC 0 * v jx jy jz)%C); [rewrite fft_lin; ring|]. intros. unfold gmul, lift2. rewrite H. ring.
Qed.

Lemma rot_onlywaves o f c2 ap am m : 0 < c2 -> oper_pos o ->
  rot_of_q f azero (cz (uxuyetafft_from_qapamfft o f c2 (azero, ap, am))) m = rotfft_from_afft o f c2 (fadd ap am) m.
Proof.
  intros Hc Ho. unfold rot_of_q, fadd at 1, fscal. destruct (first m) eqn:E.
  - destruct (uxuyeta_first o f c2 Hc (azero, ap, am) m E) as (_ & _ & ->). unfold rotfft_from_afft. destruct (Req_EM_T f 0); unfold azero; [ring|].
    unfold fscal, etafft_from_afft, invlaplacian_fft. rewrite E. ring.
  - destruct (uxuyeta_eq o f c2 Ho Hc (azero, ap, am) m E) as (_ & _ & ->). rewrite (rot_a o f c2 Ho Hc) by exact E. unfold eta_of, cx, cy, cz, azero, fadd. cbn [fst snd].
    unfold Rdiv at 2. rewrite RtoC_mult. ring.
Qed.

Theorem c107_onlywaves_partial o ms dea f c2 ap am k : oper_pos o -> 0 < c2 -> 0 <= f ->
  fst (onlywaves o ms dea f c2 (ap, am)) k = cy (exactlin o ms dea f c2 (azero, ap, am)) k
  /\ snd (onlywaves o ms dea f c2 (ap, am)) k = cz (exactlin o ms dea f c2 (azero, ap, am)) k.
Proof.
  intros Ho Hc Hf. pose proof (rot_onlywaves o f c2 ap am) as R. unfold onlywaves, exactlin. destruct (uxuyetafft_from_qapamfft o f c2 (azero, ap, am)) as [[ux uy] eta].
  unfold cz in R. cbn [snd] in R.
  rewrite <- (ifft_fun o ms (rot_of_q f azero eta) (rotfft_from_afft o f c2 (fadd ap am))) by (intros; apply R; assumption).
  set (u2 := fscal (1 / 2) _). set (rot := ifft o ms (rot_of_q f azero eta)). set (Neta := fopp (divfft_from_vecfft o _ _)).
  assert (A : agree k ((if Rlt_dec 0 f then fadd (fopp (px_fft o u2)) (fft o (gmul rot (ifft o ms uy))) else fopp (px_fft o u2)),
      (if Rlt_dec 0 f then fadd (fopp (py_fft o u2)) (fft o (gmul (gopp rot) (ifft o ms ux))) else fopp (py_fft o u2)), Neta)
      (fsub (fft o (gmul rot (ifft o ms uy))) (px_fft o u2), fsub (fft o (gmul (gopp rot) (ifft o ms ux))) (py_fft o u2), Neta)).
  { unfold agree. rewrite !cx_mk, !cy_mk, !cz_mk. destruct (Rlt_dec 0 f) as [_|N].
    - unfold fadd, fsub, fopp. repeat split; ring.
    - assert (f = 0) by lra. assert (Z : forall jx jy jz, rot jx jy jz = RtoC 0).
      { intros. unfold rot. unfold ifft, idft. apply lsum_zero. intros m _. unfold rot_of_q, fadd, fscal, azero. rewrite H. ring. }
      unfold fsub, fopp. rewrite !gmul_zero_l by (intros; unfold gopp; rewrite Z; ring). repeat split; ring. }
  apply (qapam_local o f c2) in A. destruct A as (_ & A2 & A3).
  destruct (qapamfft_from_uxuyetafft o f c2 (_, _, Neta)) as [[Nq Np] Nm]. destruct (qapamfft_from_uxuyetafft o f c2 _) as [[Nq' Np'] Nm'].
  unfold cy, cz in *. cbn [fst snd] in *. unfold dealiasing. rewrite A2, A3. split; reflexivity.
Qed.

(** for f < 0 onlywaves forgets the term of the rotation of the waves *)
Theorem c107_onlywaves_negative_partial o ms f c2 ap am k : oper_pos o -> 0 < c2 -> f < 0 ->
  let u := uxuyetafft_from_qapamfft o f c2 (azero, ap, am) in
  let rot := ifft o ms (rotfft_from_afft o f c2 (fadd ap am)) in
  let missing := qapamfft_from_uxuyetafft o f c2 (fft o (gmul rot (ifft o ms (cy u))), fft o (gmul (gopp rot) (ifft o ms (cx u))), azero) in
  cy (exactlin o ms (fun _ => false) f c2 (azero, ap, am)) k = (fst (onlywaves o ms (fun _ => false) f c2 (ap, am)) k + cy missing k)%C
  /\ cz (exactlin o ms (fun _ => false) f c2 (azero, ap, am)) k = (snd (onlywaves o ms (fun _ => false) f c2 (ap, am)) k + cz missing k)%C.
Proof.
  intros Ho Hc Hf. pose proof (rot_onlywaves o f c2 ap am) as R. unfold onlywaves, exactlin. destruct (uxuyetafft_from_qapamfft o f c2 (azero, ap, am)) as [[ux uy] eta].
  rewrite cx_mk, cy_mk. unfold cz in R. cbn [snd] in R. destruct (Rlt_dec 0 f) as [N|_]; [lra|].
  rewrite (ifft_fun o ms (rot_of_q f azero eta) (rotfft_from_afft o f c2 (fadd ap am))) by (intros; apply R; assumption). set (rot := ifft o ms (rotfft_from_afft o f c2 (fadd ap am))).
  set (missing := qapamfft_from_uxuyetafft o f c2 (_, _, azero)).
  set (u2 := fscal (1 / 2) _). set (Neta := fopp (divfft_from_vecfft o _ _)).
  assert (A : agree k (fsub (fft o (gmul rot (ifft o ms uy))) (px_fft o u2), fsub (fft o (gmul (gopp rot) (ifft o ms ux))) (py_fft o u2), Neta)
     (splus (fopp (px_fft o u2), fopp (py_fft o u2), Neta) (fft o (gmul rot (ifft o ms uy)), fft o (gmul (gopp rot) (ifft o ms ux)), azero))).
  { unfold agree, splus. rewrite !cx_mk, !cy_mk, !cz_mk. unfold fsub, fopp, azero. repeat split; ring. }
  apply (qapam_local o f c2) in A. pose proof (agree_trans _ _ _ _ A (qapam_plus o f c2 k _ _)) as (_ & A2 & A3). fold missing in A2, A3.
  destruct (qapamfft_from_uxuyetafft o f c2 (fsub _ _, _, Neta)) as [[Nq Np] Nm]. destruct (qapamfft_from_uxuyetafft o f c2 (fopp _, _, Neta)) as [[Nq' Np'] Nm'].
  unfold splus in A2, A3. rewrite !cy_mk in A2. rewrite !cz_mk in A3. split; [exact A2 | exact A3].
Qed.

(** ** Refutations and examples *)

Definition ms3 : list mode := [(-1, 0, 0)%Z; (0, 0, 0)%Z; (1, 0, 0)%Z].

Lemma ms3_good : good_modes o8 ms3.
Proof.
  split; [exact o8_pos|]. split; [|split].
  - split.
    + repeat constructor; cbn; intuition discriminate.
    + intros m H. cbn in H. destruct H as [<-|[<-|[<-|[]]]]; cbn; tauto.
  - cbn. tauto.
  - intros p q k Hp Hq Hk [[[l1 l2] l3] [F N]]. apply N. cbn in Hp, Hq, Hk. unfold folds in F.
    destruct Hp as [<-|[<-|[<-|[]]]]; destruct Hq as [<-|[<-|[<-|[]]]]; destruct Hk as [<-|[<-|[<-|[]]]];
      unfold mx, my, mz in F; cbn [fst snd o8 nx ny nz] in F; destruct F as (F1 & F2 & F3); assert (l1 = 0 /\ l2 = 0 /\ l3 = 0)%Z by lia; repeat f_equal; tauto.
Qed.

Definition waves1 : field * field * field := (azero, fun _ => RtoC 1, fun _ => RtoC 1).

(** with f < 0 the mean flow turns in the wrong direction *)
Theorem c107_mean_refuted : exists o ms f c2 s k, good_modes o ms /\ 0 < c2 /\ In k ms /\ no_mean_q ms s
  /\ cy (with_lin o f c2 (exactlin o ms (fun _ => false) f c2 s) s) k
     <> cy (qapamfft_from_uxuyetafft o f c2 (sw1l o ms (fun _ => false) f c2 (uxuyetafft_from_qapamfft o f c2 s))) k.
Proof.
  exists o8, ms3, (-1), 1, waves1, (0, 0, 0)%Z. split; [exact ms3_good|]. split; [lra|]. split; [cbn; tauto|].
  assert (Q : no_mean_q ms3 waves1) by (intros m _ _; reflexivity). split; [exact Q|].
  destruct (c107_exactlin_negative_partial o8 ms3 (fun _ => false) (-1) 1) with (s := waves1) (k := (0, 0, 0)%Z) as [E1 E2];
    try exact ms3_good; try lra; try (cbn; tauto); try assumption; try (split; reflexivity).
  rewrite E1, E2. intros H. unfold waves1 in H at 2 4. rewrite !cy_mk in H.
  revert H. generalize (cy (exactlin o8 ms3 (fun _ => false) (-1) 1 waves1) (0, 0, 0)%Z). intros z H.
  apply (f_equal snd) in H. cbn in H. lra.
Qed.

Lemma wx8 x y z : wx o8 (x, y, z) = IZR x.
Proof. unfold wx, mx. cbn [fst snd o8 Lx]. field. apply PI_neq0. Qed.
Lemma wy8 x y z : wy o8 (x, y, z) = IZR y.
Proof. unfold wy, my. cbn [fst snd o8 Ly]. field. apply PI_neq0. Qed.

Lemma conv3 a b : convolution ms3 a b (1, 0, 0)%Z = (a (0, 0, 0)%Z * b (1, 0, 0)%Z + a (1, 0, 0)%Z * b (0, 0, 0)%Z)%C.
Proof.
  unfold convolution, ms3. rewrite !lsum_cons. change (@lsum mode []) with (fun _ : mode -> C => RtoC 0). unfold mode_eqb, madd. cbn [mode_eqb madd mx my mz fst snd Z.eqb Z.add Z.pos_sub andb Pos.eqb Pos.add Pos.succ Pos.pred_double]. ring.
Qed.

(** with f < 0 a mean flow does not advect the waves in the same way for onlywaves and for exactlin *)
Theorem c107_onlywaves_refuted : exists o ms f c2 ap am k, good_modes o ms /\ 0 < c2 /\ In k ms
  /\ fst (onlywaves o ms (fun _ => false) f c2 (ap, am)) k <> cy (exactlin o ms (fun _ => false) f c2 (azero, ap, am)) k.
Proof.
  exists o8, ms3, (-1), 1, (fun _ => RtoC 1), (fun _ => RtoC 1), (1, 0, 0)%Z. split; [exact ms3_good|]. split; [lra|]. split; [cbn; tauto|].
  destruct (c107_onlywaves_negative_partial o8 ms3 (-1) 1 (fun _ => RtoC 1) (fun _ => RtoC 1) (1, 0, 0)%Z o8_pos ltac:(lra) ltac:(lra)) as [-> _].
  generalize (fst (onlywaves o8 ms3 (fun _ => false) (-1) 1 (fun _ : mode => RtoC 1, fun _ : mode => RtoC 1)) (1, 0, 0)%Z). intros z.
  assert (Hc : 0 < 1) by lra.
  rewrite (qapam_ap o8 (-1) 1 o8_pos Hc) by reflexivity. set (u := uxuyetafft_from_qapamfft o8 (-1) 1 _).
  destruct (uxuyeta_first o8 (-1) 1 Hc (azero, fun _ => RtoC 1, fun _ => RtoC 1) (0, 0, 0)%Z eq_refl) as (U1 & U2 & _). fold u in U1, U2.
  set (r := rotfft_from_afft o8 (-1) 1 (fadd (fun _ => RtoC 1) (fun _ => RtoC 1))).
  assert (R0 : r (0, 0, 0)%Z = RtoC 0).
  { unfold r, rotfft_from_afft, fscal, etafft_from_afft, invlaplacian_fft. destruct (Req_EM_T (-1) 0); [lra|]. cbn [first mx my fst snd Z.eqb andb]. ring. }
  assert (R1 : r (1, 0, 0)%Z = RtoC (-1)).
  { unfold r. rewrite (rot_a o8 (-1) 1 o8_pos Hc) by reflexivity. unfold kap, kd2, K2_2d, fadd. rewrite (sw_Kx o8 _ o8_pos), (sw_Ky o8 _ o8_pos), wx8, wy8. apply C_eq; cbn; field. }
  unfold ageo, vort, dvg. rewrite wx8, wy8.
  rewrite (fft_ext o8 (gmul (gopp (ifft o8 ms3 r)) (ifft o8 ms3 (cx u))) (gopp (gmul (ifft o8 ms3 r) (ifft o8 ms3 (cx u))))) by (intros; unfold gmul, gopp, lift2; ring).
  rewrite fft_opp, !(fft_conv o8 ms3 ms3_good) by (cbn; tauto). rewrite !conv3, R0, R1, U1, U2. rewrite !cy_mk, !cz_mk. unfold azero.
  generalize (Kappa_over_ic o8 (-1) 1 (1, 0, 0)%Z). intros kappa. generalize (cx u (1, 0, 0)%Z) (cy u (1, 0, 0)%Z). intros u1 v1 H.
  apply (f_equal (fun w => snd w - snd z)) in H. cbn in H. lra.
Qed.

Example c107_example : good_modes o8 ms3 /\ no_mean_q ms3 waves1 /\ In (1, 0, 0)%Z ms3 /\ ~ mean_mode (1, 0, 0)%Z /\ In (0, 0, 0)%Z ms3 /\ mean_mode (0, 0, 0)%Z.
Proof.
  split; [exact ms3_good|]. split; [intros m _ _; reflexivity|]. split; [cbn; tauto|]. split; [intros [H _]; discriminate H|]. split; [cbn; tauto | split; reflexivity].
Qed.

Example c109_example : good_modes o8 ms3 /\ In (1, 0, 0)%Z ms3 /\ ~ mean_mode (1, 0, 0)%Z.
Proof. split; [exact ms3_good|]. split; [cbn; tauto | intros [H _]; discriminate H]. Qed.

Print Assumptions c107_onlywaves_partial.
Print Assumptions c107_onlywaves_negative_partial.
Print Assumptions c107_mean_refuted.
Print Assumptions c107_onlywaves_refuted.
