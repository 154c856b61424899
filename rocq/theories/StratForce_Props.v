(** The forcing of ns2d.strat with constant_rate_of injects the asked rate (C219). *)
From Coq Require Import String List Reals Lra Lia.
From Coquelicot Require Import Complex.
From Verif Require Import StratForce_Model.
Import ListNotations.
Local Open Scope R_scope.

(** * Specification *)
(** the kinetic and the potential energies of the modes of the list *)
Definition energyK (l : list mode) (rot : field) : R :=
  sum_k l (fun m => (Cmod (rot m)) ^ 2 * (KX m ^ 2 + KY m ^ 2) / K_not0 m ^ 4 / 2).
Definition energyA (N : R) (l : list mode) (b : field) : R := sum_k l (fun m => (Cmod (b m)) ^ 2 / N ^ 2 / 2).
Definition energy (N : R) (l : list mode) (rot b : field) : R := energyK l rot + energyA N l b.
(** a time step with the forcing alone *)
Definition step (deltat : R) (v f : field) : field := fun m => Cplus (v m) (Cmult (RtoC deltat) (f m)).
(** modes other than the mean: K_not0 is the norm of the wave vector *)
Definition good_mode (m : mode) : Prop := 0 < K_not0 m /\ ((KX m = 0 /\ KY m = 0) \/ K_not0 m ^ 2 = KX m ^ 2 + KY m ^ 2).

(** * Proofs *)
Lemma sum_k_ext : forall l f g, (forall m, In m l -> f m = g m) -> sum_k l f = sum_k l g.
Proof. intros l f g H. unfold sum_k. f_equal. apply map_ext_in. intros m Hm. now rewrite H. Qed.
Lemma sum_k_plus : forall l f g, sum_k l (fun m => f m + g m) = sum_k l f + sum_k l g.
Proof. intros l f g. unfold sum_k. induction l as [|m l IH]; cbn; [lra|]. rewrite IH. ring. Qed.
Lemma sum_k_scal : forall l c f, sum_k l (fun m => c * f m) = c * sum_k l f.
Proof. intros l c f. unfold sum_k. induction l as [|m l IH]; cbn; [lra|]. rewrite IH. ring. Qed.
Lemma Cmod2 : forall z, Cmod z ^ 2 = fst z ^ 2 + snd z ^ 2.
Proof. intros z. unfold Cmod. rewrite <- Rsqr_pow2, Rsqr_sqrt; [reflexivity|]. pose proof (pow2_ge_0 (fst z)). pose proof (pow2_ge_0 (snd z)). lra. Qed.

(** the identity of one mode, with kx <> 0: d = ky / kx and io = 1 / omega *)
Lemma orthogonal : forall N d io v1 v2 b1 b2 f1 f2, N <> 0 -> io <> 0 -> io ^ 2 * N ^ 2 = 1 + d ^ 2 ->
  let p1 := (N ^ 2 * v1 - / io * b2) in let p2 := (N ^ 2 * v2 + / io * b1) in
  (1 + d ^ 2) * ((v1 * f1 + v2 * f2) / (2 * N ^ 2)) + (b1 * (io * f2 / 2) + b2 * (- io * f1 / 2)) / N ^ 2
  = (1 + d ^ 2) * ((p1 / (2 * N ^ 2) * f1 + p2 / (2 * N ^ 2) * f2) / (2 * N ^ 2)) + (io * p2 / 2 * (io * f2 / 2) + (- io * p1 / 2) * (- io * f1 / 2)) / N ^ 2.
Proof. intros N d io v1 v2 b1 b2 f1 f2 HN Hi H p1 p2. rewrite <- H. unfold p1, p2. field. now split. Qed.
Definition workK (l : list mode) (rot f : field) : R :=
  sum_k l (fun m => dotc (fst (vecfft_from_rotfft rot) m) (fst (vecfft_from_rotfft f) m) + dotc (snd (vecfft_from_rotfft rot) m) (snd (vecfft_from_rotfft f) m)).
Definition normK (l : list mode) (f : field) : R := sum_k l (fun m => abs2 (fst (vecfft_from_rotfft f) m) + abs2 (snd (vecfft_from_rotfft f) m)).
Lemma wk_eq : forall m rot f, 0 < K_not0 m ->
  dotc (fst (vecfft_from_rotfft rot) m) (fst (vecfft_from_rotfft f) m) + dotc (snd (vecfft_from_rotfft rot) m) (snd (vecfft_from_rotfft f) m)
  = (KX m ^ 2 + KY m ^ 2) / K_not0 m ^ 4 * (fst (rot m) * fst (f m) + snd (rot m) * snd (f m)).
Proof.
  intros m rot f H. unfold vecfft_from_rotfft, dotc. cbn [fst snd]. destruct (rot m) as [r1 r2], (f m) as [f1 f2]. unfold Cmult, Cconj, Ci, Copp, RtoC. cbn [fst snd]. field. lra.
Qed.
Lemma nk_eq : forall m f, 0 < K_not0 m -> abs2 (fst (vecfft_from_rotfft f) m) + abs2 (snd (vecfft_from_rotfft f) m) = (KX m ^ 2 + KY m ^ 2) / K_not0 m ^ 4 * (fst (f m) ^ 2 + snd (f m) ^ 2).
Proof.
  intros m f H. unfold vecfft_from_rotfft, abs2. cbn [fst snd]. destruct (f m) as [f1 f2]. unfold Cmult, Ci, Copp, RtoC. cbn [fst snd]. field. lra.
Qed.
Lemma step_K : forall l deltat rot f, Forall good_mode l -> energyK l (step deltat rot f) = energyK l rot + deltat * (workK l rot f + deltat / 2 * normK l f).
Proof.
  intros l dt rot f G. unfold energyK, workK, normK. rewrite <- sum_k_scal, <- sum_k_plus, <- sum_k_scal, <- sum_k_plus. apply sum_k_ext. intros m Hm. rewrite Forall_forall in G. destruct (G m Hm) as [H _].
  rewrite wk_eq, nk_eq by exact H. rewrite !Cmod2. unfold step. destruct (rot m) as [r1 r2], (f m) as [f1 f2]. unfold Cmult, Cplus, RtoC. cbn [fst snd]. field. lra.
Qed.
Lemma step_A : forall N l deltat b f, N <> 0 -> energyA N l (step deltat b f) = energyA N l b + deltat * (sum_k l (fun m => dotc (b m) (f m)) / N ^ 2 + deltat / 2 * sum_k l (fun m => abs2 (f m)) / N ^ 2).
Proof.
  intros N l dt b f HN. unfold energyA.
  replace (sum_k l (fun m => dotc (b m) (f m)) / N ^ 2 + dt / 2 * sum_k l (fun m => abs2 (f m)) / N ^ 2) with (/ N ^ 2 * sum_k l (fun m => dotc (b m) (f m)) + dt / 2 / N ^ 2 * sum_k l (fun m => abs2 (f m))) by (field; exact HN).
  rewrite <- !sum_k_scal, <- sum_k_plus, <- sum_k_scal, <- sum_k_plus. apply sum_k_ext. intros m _.
  rewrite !Cmod2. unfold step, dotc, abs2. destruct (b m) as [r1 r2], (f m) as [f1 f2]. unfold Cmult, Cplus, Cconj, RtoC. cbn [fst snd]. field. exact HN.
Qed.
Definition frot N f := fst (rotbfft_from_apfft N f).
Definition fb N f := snd (rotbfft_from_apfft N f).
Lemma frot_comp : forall N m f, N <> 0 -> KX m <> 0 -> K_not0 m ^ 2 = KX m ^ 2 + KY m ^ 2 ->
  frot N f m = (- (K_not0 m ^ 2 / KX m / (2 * N ^ 2)) * snd (f m), K_not0 m ^ 2 / KX m / (2 * N ^ 2) * fst (f m)).
Proof.
  intros N m f HN Hx HK. rewrite HK. unfold frot, rotbfft_from_apfft, rotfft_from_vecfft. cbn [fst]. destruct (Req_EM_T (KX m) 0) as [e|_]; [contradiction|].
  destruct (f m) as [f1 f2]. unfold Cmult, Cminus, Cplus, Copp, Ci, RtoC. cbn [fst snd]. apply injective_projections; cbn [fst snd]; field; split; assumption.
Qed.
Lemma fb_comp : forall N m f, N <> 0 -> KX m <> 0 -> 0 < K_not0 m ->
  fb N f m = (K_not0 m / (N * KX m) * snd (f m) / 2, - (K_not0 m / (N * KX m)) * fst (f m) / 2).
Proof.
  intros N m f HN Hx HK. unfold fb, rotbfft_from_apfft, omega. cbn [snd]. destruct (Req_EM_T (KX m) 0) as [e|_]; [contradiction|].
  destruct (f m) as [f1 f2]. unfold Cdiv, Cinv, Cmult, Cminus, Cplus, Copp, Ci, RtoC. cbn [fst snd].
  assert (HK' : K_not0 m <> 0) by lra. apply injective_projections; cbn [fst snd]; field; repeat split; try assumption; intros A; apply HN; nra.
Qed.
Lemma zero_comp : forall N m f, KX m = 0 -> frot N f m = RtoC 0 /\ fb N f m = RtoC 0.
Proof.
  intros N m f Hx. unfold frot, fb, rotbfft_from_apfft, rotfft_from_vecfft. cbn [fst snd]. rewrite Hx. destruct (Req_EM_T 0 0) as [_|n]; [|now elim n].
  split; [|reflexivity]. destruct (f m) as [f1 f2]. unfold Cmult, Cminus, Cplus, Copp, Ci, RtoC. cbn [fst snd]. apply injective_projections; cbn [fst snd]; ring.
Qed.
Lemma ap_comp : forall N rot b m, apfft N rot b m = (N ^ 2 * (KX m / K_not0 m ^ 2 * snd (rot m)) - omega N m * snd (b m), N ^ 2 * (- (KX m / K_not0 m ^ 2) * fst (rot m)) + omega N m * fst (b m)).
Proof.
  intros N rot b m. unfold apfft, vecfft_from_rotfft. cbn [snd]. destruct (rot m) as [r1 r2], (b m) as [b1 b2]. unfold Cmult, Cminus, Cplus, Copp, Ci, RtoC. cbn [fst snd]. apply injective_projections; cbn [fst snd]; ring.
Qed.
(** the waves ap and am do not exchange energy: the work on the state is the work on its part ap *)
Lemma work_ap : forall N l rot b f, N <> 0 -> Forall good_mode l ->
  workK l rot (frot N f) + sum_k l (fun m => dotc (b m) (fb N f m)) / N ^ 2
  = workK l (frot N (apfft N rot b)) (frot N f) + sum_k l (fun m => dotc (fb N (apfft N rot b) m) (fb N f m)) / N ^ 2.
Proof.
  intros N l rot b f HN G. unfold Rdiv. rewrite !(Rmult_comm (sum_k l _) (/ N ^ 2)). unfold workK. rewrite <- !sum_k_scal, <- !sum_k_plus. apply sum_k_ext. intros m Hm.
  rewrite Forall_forall in G. destruct (G m Hm) as [HK HG]. rewrite !wk_eq by exact HK.
  destruct (Req_EM_T (KX m) 0) as [e|ne].
  - destruct (zero_comp N m f e) as [A B]. destruct (zero_comp N m (apfft N rot b) e) as [A' B']. rewrite A, B, A', B'. destruct (rot m), (b m). unfold dotc, Cmult, Cconj, RtoC. cbn [fst snd]. ring.
  - destruct HG as [[e _]|HG]; [contradiction|]. rewrite !(frot_comp N m _ HN ne HG), !(fb_comp N m _ HN ne HK), ap_comp. rewrite <- HG. unfold dotc, omega.
    destruct (rot m) as [r1 r2], (b m) as [b1 b2], (f m) as [f1 f2]. unfold Cmult, Cconj. cbn [fst snd].
    assert (HK' : K_not0 m <> 0) by lra.
    pose proof (orthogonal N (KY m / KX m) (K_not0 m / (N * KX m)) (KX m / K_not0 m ^ 2 * r2) (- (KX m / K_not0 m ^ 2) * r1) b1 b2 f1 f2 HN) as O. cbn zeta in O.
    assert (I0 : K_not0 m / (N * KX m) <> 0) by (apply Rmult_integral_contrapositive_currified; [exact HK'|apply Rinv_neq_0_compat; now apply Rmult_integral_contrapositive_currified]).
    assert (I1 : 1 + (KY m / KX m) ^ 2 = K_not0 m ^ 2 / KX m ^ 2) by (rewrite HG; field; exact ne).
    specialize (O I0). rewrite I1 in O. assert (I2 : (K_not0 m / (N * KX m)) ^ 2 * N ^ 2 = K_not0 m ^ 2 / KX m ^ 2) by (field; split; assumption). specialize (O I2).
    match type of O with ?x = ?y => match goal with |- ?p = ?q => transitivity x; [|transitivity y; [exact O|]]; field; repeat split; assumption end end.
Qed.
Lemma scaled : forall N c f m, frot N (fun m => Cmult (RtoC c) (f m)) m = Cmult (RtoC c) (frot N f m) /\ fb N (fun m => Cmult (RtoC c) (f m)) m = Cmult (RtoC c) (fb N f m).
Proof.
  intros N c f m. unfold frot, fb, rotbfft_from_apfft, rotfft_from_vecfft. cbn [fst snd]. destruct (f m) as [f1 f2]. generalize (RtoC (1 / (2 * N ^ 2))). intros q.
  split; [|destruct (Req_EM_T (KX m) 0); [|generalize (RtoC 1 / (RtoC 2 * Ci * RtoC (omega N m)))%C; intros z; destruct z]; unfold Cmult, RtoC; apply injective_projections; cbn [fst snd]; ring].
  destruct q as [q1 q2]. generalize (- 1 * (if Req_EM_T (KX m) 0 then 0 else KY m / KX m))%R. intros d. unfold Cmult, Cminus, Cplus, Copp, Ci, RtoC. apply injective_projections; cbn [fst snd]; ring.
Qed.
Lemma workK_scal : forall l rot f g c, (forall m, g m = Cmult (RtoC c) (f m)) -> Forall good_mode l -> workK l rot g = c * workK l rot f /\ normK l g = c ^ 2 * normK l f.
Proof.
  intros l rot f g c H G. unfold workK, normK. rewrite <- !sum_k_scal. rewrite Forall_forall in G.
  split; apply sum_k_ext; intros m Hm; destruct (G m Hm) as [HK _]; [rewrite !wk_eq by exact HK|rewrite !nk_eq by exact HK]; rewrite H; destruct (f m) as [f1 f2]; unfold Cmult, RtoC; cbn [fst snd]; ring.
Qed.
Lemma workA_scal : forall l b (f g : field) c, (forall m, g m = Cmult (RtoC c) (f m)) -> sum_k l (fun m => dotc (b m) (g m)) = c * sum_k l (fun m => dotc (b m) (f m)) /\ sum_k l (fun m => abs2 (g m)) = c ^ 2 * sum_k l (fun m => abs2 (f m)).
Proof.
  intros l b f g c H. rewrite <- !sum_k_scal. split; apply sum_k_ext; intros m _; rewrite H; destruct (b m) as [b1 b2], (f m) as [f1 f2]; unfold dotc, abs2, Cmult, Cconj, RtoC; cbn [fst snd]; ring.
Qed.

(** * C219 *)
(** with "energy": the energy given by a step with the forcing is deltat times the polynomial of the normalisation *)
Theorem c219_energy : forall N l key rot b f deltat a c coef f_rot f_b, N <> 0 -> Forall good_mode l ->
  compute_coef_ab N l "energy" key f (forced_var N key rot b) deltat = Some (a, c) -> forcing_arrays N key coef f = Some (f_rot, f_b) ->
  energy N l (step deltat rot f_rot) (step deltat b f_b) = energy N l rot b + deltat * (a * coef ^ 2 + c * coef).
Proof.
  intros N l key rot b f dt a c coef f_rot f_b HN G. unfold compute_coef_ab, forcing_arrays, forced_var. cbn [String.eqb Ascii.eqb Bool.eqb orb].
  destruct (String.eqb key "rot_fft") eqn:E1.
  - intros H F. injection F as <- <-. unfold energy. rewrite step_K by exact G.
    assert (Ha : a = dt / 2 * normK l f) by (unfold vecfft_from_rotfft in H; unfold normK, vecfft_from_rotfft; cbn [fst snd]; congruence).
    assert (Hc : c = workK l rot f) by (unfold vecfft_from_rotfft in H; unfold workK, vecfft_from_rotfft; cbn [fst snd]; congruence).
    destruct (workK_scal l rot f (fun m => Cmult (RtoC coef) (f m)) coef (fun m => eq_refl) G) as [A B]. rewrite A, B.
    replace (energyA N l (step dt b (fun _ => RtoC 0))) with (energyA N l b).
    + rewrite Ha, Hc. field.
    + unfold energyA. apply sum_k_ext. intros m _. unfold step. replace (b m + RtoC dt * RtoC 0)%C with (b m) by ring. reflexivity.
  - destruct (String.eqb key "ap_fft") eqn:E2; [|discriminate]. intros H F.
    change (rotbfft_from_apfft N (apfft N rot b)) with (frot N (apfft N rot b), fb N (apfft N rot b)) in H. change (rotbfft_from_apfft N f) with (frot N f, fb N f) in H.
    change (rotbfft_from_apfft N (fun m => Cmult (RtoC coef) (f m))) with (frot N (fun m => Cmult (RtoC coef) (f m)), fb N (fun m => Cmult (RtoC coef) (f m))) in F.
    injection F as <- <-.
    assert (Ha : a = dt / 2 * normK l (frot N f) + dt / 2 * sum_k l (fun m => abs2 (fb N f m)) / N ^ 2) by (unfold vecfft_from_rotfft in H; unfold normK, vecfft_from_rotfft; cbn [fst snd]; congruence).
    assert (Hc : c = workK l (frot N (apfft N rot b)) (frot N f) + sum_k l (fun m => dotc (fb N (apfft N rot b) m) (fb N f m)) / N ^ 2) by (unfold vecfft_from_rotfft in H; unfold workK, vecfft_from_rotfft; cbn [fst snd]; congruence).
    unfold energy. rewrite step_K by exact G. rewrite step_A by exact HN.
    destruct (workK_scal l rot (frot N f) (frot N (fun m => Cmult (RtoC coef) (f m))) coef (fun m => proj1 (scaled N coef f m)) G) as [A B].
    destruct (workA_scal l b (fb N f) (fb N (fun m => Cmult (RtoC coef) (f m))) coef (fun m => proj2 (scaled N coef f m))) as [A' B'].
    rewrite A, B, A', B'. pose proof (work_ap N l rot b f HN G) as W. rewrite Ha, Hc, <- W. field. exact HN.
Qed.
(** the rate: coef is a root of the polynomial *)
Theorem c219_rate : forall N l key rot b f deltat a c coef P f_rot f_b, N <> 0 -> Forall good_mode l ->
  compute_coef_ab N l "energy" key f (forced_var N key rot b) deltat = Some (a, c) -> forcing_arrays N key coef f = Some (f_rot, f_b) ->
  a * coef ^ 2 + c * coef + - P = 0 ->
  energy N l (step deltat rot f_rot) (step deltat b f_b) = energy N l rot b + deltat * P.
Proof. intros N l key rot b f dt a c coef P f_rot f_b HN G H F E. rewrite (c219_energy N l key rot b f dt a c coef f_rot f_b HN G H F). f_equal. f_equal. lra. Qed.
(** with "energyK" and rot_fft, or ap_fft if the state has no wave am *)
Theorem c219_energyK_partial : forall N l key rot b f deltat a c coef f_rot f_b, N <> 0 -> Forall good_mode l ->
  (key = "rot_fft"%string \/ forall m, In m l -> frot N (apfft N rot b) m = rot m) ->
  compute_coef_ab N l "energyK" key f (forced_var N key rot b) deltat = Some (a, c) -> forcing_arrays N key coef f = Some (f_rot, f_b) ->
  energyK l (step deltat rot f_rot) = energyK l rot + deltat * (a * coef ^ 2 + c * coef).
Proof.
  intros N l key rot b f dt a c coef f_rot f_b HN G K. unfold compute_coef_ab, forcing_arrays, forced_var. cbn [String.eqb Ascii.eqb Bool.eqb orb].
  destruct (String.eqb key "rot_fft") eqn:E1.
  - intros H F. injection F as <- <-. rewrite step_K by exact G.
    assert (Ha : a = dt / 2 * normK l f) by (unfold vecfft_from_rotfft in H; unfold normK, vecfft_from_rotfft; cbn [fst snd]; congruence).
    assert (Hc : c = workK l rot f) by (unfold vecfft_from_rotfft in H; unfold workK, vecfft_from_rotfft; cbn [fst snd]; congruence).
    destruct (workK_scal l rot f (fun m => Cmult (RtoC coef) (f m)) coef (fun m => eq_refl) G) as [A B]. rewrite A, B, Ha, Hc. field.
  - destruct (String.eqb key "ap_fft") eqn:E2; [|discriminate]. intros H F. destruct K as [->|K]; [discriminate|].
    change (rotbfft_from_apfft N (apfft N rot b)) with (frot N (apfft N rot b), fb N (apfft N rot b)) in H. change (rotbfft_from_apfft N f) with (frot N f, fb N f) in H.
    change (rotbfft_from_apfft N (fun m => Cmult (RtoC coef) (f m))) with (frot N (fun m => Cmult (RtoC coef) (f m)), fb N (fun m => Cmult (RtoC coef) (f m))) in F.
    injection F as <- <-.
    assert (Ha : a = dt / 2 * normK l (frot N f)) by (unfold vecfft_from_rotfft in H; unfold normK, vecfft_from_rotfft; cbn [fst snd]; congruence).
    assert (Hc : c = workK l (frot N (apfft N rot b)) (frot N f)) by (unfold vecfft_from_rotfft in H; unfold workK, vecfft_from_rotfft; cbn [fst snd]; congruence).
    rewrite step_K by exact G.
    destruct (workK_scal l rot (frot N f) (frot N (fun m => Cmult (RtoC coef) (f m))) coef (fun m => proj1 (scaled N coef f m)) G) as [A B].
    replace (workK l (frot N (apfft N rot b)) (frot N f)) with (workK l rot (frot N f)) in Hc.
    + rewrite A, B, Ha, Hc. field.
    + unfold workK. apply sum_k_ext. intros m Hm. unfold vecfft_from_rotfft. cbn [fst snd]. now rewrite K.
Qed.
(** a wave am in the state: the kinetic energy given is not the asked one *)
Theorem c219_energyK_refuted : exists N l rot b f deltat a c coef P f_rot f_b, N <> 0 /\ Forall good_mode l
  /\ compute_coef_ab N l "energyK" "ap_fft" f (forced_var N "ap_fft" rot b) deltat = Some (a, c) /\ forcing_arrays N "ap_fft" coef f = Some (f_rot, f_b)
  /\ a * coef ^ 2 + c * coef + - P = 0 /\ energyK l (step deltat rot f_rot) <> energyK l rot + deltat * P.
Proof.
  pose (m := {| KX := 1; KY := 0; weight := 1; K_not0 := 1 |}).
  exists 1, [m], (fun _ => Ci), (fun _ => Ci), (fun _ => RtoC 1), 1.
  eexists. eexists. exists 2, (1 / 2). eexists. eexists. split; [lra|].
  assert (G : Forall good_mode [m]) by (constructor; [|constructor]; split; [cbn; lra|right; cbn; lra]). split; [exact G|]. split; [reflexivity|]. split; [reflexivity|].
  set (ap := apfft 1 (fun _ => Ci) (fun _ => Ci)). set (one := fun _ : mode => RtoC 1).
  assert (HK : 0 < K_not0 m) by (cbn; lra). assert (Hx : KX m <> 0) by (cbn; lra). assert (H2 : K_not0 m ^ 2 = KX m ^ 2 + KY m ^ 2) by (cbn; lra). assert (H1 : 1 <> 0) by lra.
  assert (A : ap m = RtoC 0) by (unfold ap; rewrite ap_comp; unfold omega, Ci, RtoC; cbn; apply injective_projections; cbn; field).
  split.
  - change (1 / 2 * normK [m] (frot 1 one) * 2 ^ 2 + workK [m] (frot 1 ap) (frot 1 one) * 2 + - (1 / 2) = 0).
    unfold normK, workK, sum_k. cbn [map fold_right]. rewrite wk_eq, nk_eq by exact HK. rewrite !(frot_comp 1 m _ H1 Hx H2), A. unfold one, RtoC. cbn. field.
  - change (energyK [m] (step 1 (fun _ => Ci) (frot 1 (fun x => Cmult (RtoC 2) (one x)))) <> energyK [m] (fun _ => Ci) + 1 * (1 / 2)).
    unfold energyK, sum_k. cbn [map fold_right]. rewrite !Cmod2. unfold step. rewrite (frot_comp 1 m _ H1 Hx H2). unfold one, RtoC, Ci, Cmult, Cplus. cbn. intros E. field_simplify in E. lra.
Qed.
(** the other cases are errors *)
Theorem c219_errors : forall N l rate key f v deltat, (compute_coef_ab N l rate key f v deltat = None <-> ~ ((rate = "energy" \/ rate = "energyK") /\ (key = "rot_fft" \/ key = "ap_fft"))%string).
Proof.
  intros N l rate key f v dt. unfold compute_coef_ab.
  destruct (String.eqb_spec rate "energy") as [->|n1]; [|destruct (String.eqb_spec rate "energyK") as [->|n2]]; cbn [orb]; [| |split; [intros _; tauto|reflexivity]];
   (destruct (String.eqb_spec key "rot_fft") as [->|n3]; [|destruct (String.eqb_spec key "ap_fft") as [->|n4]]);
   try (split; [intros _; tauto|reflexivity]); (split; [intros H; exfalso; revert H|intros H; exfalso; apply H; tauto]);
   unfold vecfft_from_rotfft, rotbfft_from_apfft; cbn [String.eqb Ascii.eqb Bool.eqb]; discriminate.
Qed.
Example c219_ex : Forall good_mode [ {| KX := 3; KY := 4; weight := 2; K_not0 := 5 |}; {| KX := 0; KY := 0; weight := 1; K_not0 := 1 |} ].
Proof. constructor; [split; [cbn; lra|right; cbn; lra]|]. constructor; [split; [cbn; lra|left; cbn; lra]|constructor]. Qed.
Print Assumptions c219_energy.
Print Assumptions c219_rate.
Print Assumptions c219_energyK_partial.
Print Assumptions c219_energyK_refuted.
Print Assumptions c219_errors.
