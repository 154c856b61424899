(** The linear modes of ns2d.strat are the internal waves (C241). *)
From Coq Require Import Reals Lra.
From Coquelicot Require Import Complex.
From Verif Require Import StratForce_Model StratModes_Model.
Local Open Scope R_scope.

(** * Specification *)
(** a wavevector of the grid and its norm *)
Definition wavevector (m : mode) : Prop := 0 < K_not0 m /\ ((KX m = 0 /\ KY m = 0) \/ K_not0 m ^ 2 = KX m ^ 2 + KY m ^ 2).
(** frequency of the internal waves, N times the cosine of the angle between the wavevector and the horizontal *)
Definition frequency (N : R) (m : mode) : R := N * (KX m / K_not0 m).
(** energy of a mode: u^2 / 2 + b^2 / (2 N^2), with ux = i ky rot / k^2 and uy = - i kx rot / k^2 *)
Definition energy_mode (N : R) (rot b : field) (m : mode) : R :=
  (KX m ^ 2 + KY m ^ 2) * Cmod (rot m) ^ 2 / K_not0 m ^ 4 / 2 + Cmod (b m) ^ 2 / N ^ 2 / 2.
Definition same (s t : field * field) (m : mode) : Prop := fst s m = fst t m /\ snd s m = snd t m.
Definition sum2 (s t : field * field) : field * field :=
  (fun m => Cplus (fst s m) (fst t m), fun m => Cplus (snd s m) (snd t m)).

(** * Proofs *)
Lemma Cmod_sq : forall z, Cmod z ^ 2 = fst z ^ 2 + snd z ^ 2.
Proof. intros z. unfold Cmod. rewrite <- Rsqr_pow2, Rsqr_sqrt; [reflexivity|]. pose proof (pow2_ge_0 (fst z)). pose proof (pow2_ge_0 (snd z)). lra. Qed.

Lemma ap_c : forall N rot b m, apfft N rot b m =
  (N ^ 2 * (KX m / K_not0 m ^ 2 * snd (rot m)) - omega N m * snd (b m), N ^ 2 * (- (KX m / K_not0 m ^ 2) * fst (rot m)) + omega N m * fst (b m)).
Proof.
  intros N rot b m. unfold apfft, vecfft_from_rotfft. cbn [snd]. destruct (rot m) as [r1 r2], (b m) as [b1 b2].
  unfold Cmult, Cminus, Cplus, Copp, Ci, RtoC. cbn [fst snd]. apply injective_projections; cbn [fst snd]; ring.
Qed.
Lemma am_c : forall N rot b m, amfft N rot b m =
  (N ^ 2 * (KX m / K_not0 m ^ 2 * snd (rot m)) + omega N m * snd (b m), N ^ 2 * (- (KX m / K_not0 m ^ 2) * fst (rot m)) - omega N m * fst (b m)).
Proof.
  intros N rot b m. unfold amfft, vecfft_from_rotfft. cbn [snd]. destruct (rot m) as [r1 r2], (b m) as [b1 b2].
  unfold Cmult, Cminus, Cplus, Copp, Ci, RtoC. cbn [fst snd]. apply injective_projections; cbn [fst snd]; ring.
Qed.
Lemma prot_c : forall N m f, N <> 0 -> KX m <> 0 -> K_not0 m ^ 2 = KX m ^ 2 + KY m ^ 2 ->
  fst (rotbfft_from_apfft N f) m = (- (K_not0 m ^ 2 / KX m / (2 * N ^ 2)) * snd (f m), K_not0 m ^ 2 / KX m / (2 * N ^ 2) * fst (f m)).
Proof.
  intros N m f HN Hx HK. rewrite HK. unfold rotbfft_from_apfft, rotfft_from_vecfft. cbn [fst]. destruct (Req_EM_T (KX m) 0) as [e|_]; [contradiction|].
  destruct (f m) as [f1 f2]. unfold Cmult, Cminus, Cplus, Copp, Ci, RtoC. cbn [fst snd]. apply injective_projections; cbn [fst snd]; field; split; assumption.
Qed.
Lemma mrot_same : forall N f, fst (rotbfft_from_amfft N f) = fst (rotbfft_from_apfft N f).
Proof. reflexivity. Qed.
Lemma pb_c : forall N m f, N <> 0 -> KX m <> 0 -> 0 < K_not0 m ->
  snd (rotbfft_from_apfft N f) m = (K_not0 m / (N * KX m) * snd (f m) / 2, - (K_not0 m / (N * KX m)) * fst (f m) / 2).
Proof.
  intros N m f HN Hx HK. unfold rotbfft_from_apfft, omega. cbn [snd]. destruct (Req_EM_T (KX m) 0) as [e|_]; [contradiction|].
  destruct (f m) as [f1 f2]. unfold Cdiv, Cinv, Cmult, Cminus, Cplus, Copp, Ci, RtoC. cbn [fst snd].
  assert (HK' : K_not0 m <> 0) by lra. apply injective_projections; cbn [fst snd]; field; repeat split; try assumption; intros A; apply HN; nra.
Qed.
Lemma mb_c : forall N m f, N <> 0 -> KX m <> 0 -> 0 < K_not0 m ->
  snd (rotbfft_from_amfft N f) m = (- (K_not0 m / (N * KX m)) * snd (f m) / 2, K_not0 m / (N * KX m) * fst (f m) / 2).
Proof.
  intros N m f HN Hx HK. unfold rotbfft_from_amfft, omega. cbn [snd]. destruct (Req_EM_T (KX m) 0) as [e|_]; [contradiction|].
  destruct (f m) as [f1 f2]. unfold Cdiv, Cinv, Cmult, Cminus, Cplus, Copp, Ci, RtoC. cbn [fst snd].
  assert (HK' : K_not0 m <> 0) by lra. apply injective_projections; cbn [fst snd]; field; repeat split; try assumption; intros A; apply HN; nra.
Qed.
Lemma zero_c : forall N m f, KX m = 0 ->
  (fst (rotbfft_from_apfft N f) m = RtoC 0 /\ snd (rotbfft_from_apfft N f) m = RtoC 0) /\ (fst (rotbfft_from_amfft N f) m = RtoC 0 /\ snd (rotbfft_from_amfft N f) m = RtoC 0).
Proof.
  intros N m f Hx. rewrite mrot_same. unfold rotbfft_from_apfft, rotbfft_from_amfft, rotfft_from_vecfft. cbn [fst snd]. rewrite Hx. destruct (Req_EM_T 0 0) as [_|n]; [|now elim n].
  split; (split; [|reflexivity]); destruct (f m) as [f1 f2]; unfold Cmult, Cminus, Cplus, Copp, Ci, RtoC; cbn [fst snd]; apply injective_projections; cbn [fst snd]; ring.
Qed.

Ltac modes m HK := let HK' := fresh in assert (HK' : K_not0 m <> 0) by lra; apply injective_projections; cbn [fst snd]; field; repeat split; assumption.

(** ** C241 *)
(** a state initialised with ap_fft (am_fft) has these modes and not the others *)
Theorem c241_init : forall N m f, N <> 0 -> wavevector m -> KX m <> 0 ->
  let (rp, bp) := rotbfft_from_apfft N f in let (rm, bm) := rotbfft_from_amfft N f in
  apfft N rp bp m = f m /\ amfft N rp bp m = RtoC 0 /\ amfft N rm bm m = f m /\ apfft N rm bm m = RtoC 0.
Proof.
  intros N m f HN [HK HG] Hx. destruct HG as [[e _]|HG]; [contradiction|].
  pose proof (prot_c N m f HN Hx HG) as A. pose proof (pb_c N m f HN Hx HK) as B. pose proof (mb_c N m f HN Hx HK) as D.
  pose proof (mrot_same N f) as S.
  destruct (rotbfft_from_apfft N f) as [rp bp], (rotbfft_from_amfft N f) as [rm bm]. cbn [fst snd] in A, B, D, S. subst rm.
  rewrite !ap_c, !am_c, A, B, D. unfold omega, RtoC. destruct (f m) as [f1 f2]. cbn [fst snd].
  split; [modes m HK|]. split; [modes m HK|]. split; [modes m HK|modes m HK].
Qed.

(** the modes give back the state if kx <> 0; if kx = 0 there is no wave *)
Theorem c241_decomposition : forall N rot b m, N <> 0 -> wavevector m ->
  (KX m <> 0 -> same (sum2 (rotbfft_from_apfft N (apfft N rot b)) (rotbfft_from_amfft N (amfft N rot b))) (rot, b) m)
  /\ (KX m = 0 -> apfft N rot b m = RtoC 0 /\ amfft N rot b m = RtoC 0
                  /\ same (sum2 (rotbfft_from_apfft N (apfft N rot b)) (rotbfft_from_amfft N (amfft N rot b))) (fun _ => RtoC 0, fun _ => RtoC 0) m).
Proof.
  intros N rot b m HN [HK HG]. split.
  - intros Hx. destruct HG as [[e _]|HG]; [contradiction|]. unfold same, sum2. cbn [fst snd]. rewrite mrot_same.
    rewrite !(prot_c N m _ HN Hx HG), (pb_c N m _ HN Hx HK), (mb_c N m _ HN Hx HK), ap_c, am_c. unfold omega.
    destruct (rot m) as [r1 r2], (b m) as [b1 b2]. unfold Cplus. cbn [fst snd]. split; modes m HK.
  - intros Hx. split; [|split].
    + rewrite ap_c. unfold omega. rewrite Hx. unfold RtoC. apply injective_projections; cbn [fst snd]; field; lra.
    + rewrite am_c. unfold omega. rewrite Hx. unfold RtoC. apply injective_projections; cbn [fst snd]; field; lra.
    + unfold same, sum2. cbn [fst snd].
      destruct (zero_c N m (apfft N rot b) Hx) as [[P1 P2] _]. destruct (zero_c N m (amfft N rot b) Hx) as [_ [M1 M2]].
      rewrite P1, P2, M1, M2. split; unfold Cplus, RtoC; cbn [fst snd]; f_equal; ring.
Qed.

(** the modes of the linear tendencies: d/dt ap = - i omega ap and d/dt am = i omega am *)
Theorem c241_waves : forall N rot b m, wavevector m ->
  let (f_rot, f_b) := tendencies_lin N (rot, b) in
  apfft N f_rot f_b m = Cmult (Copp (Cmult Ci (RtoC (frequency N m)))) (apfft N rot b m)
  /\ amfft N f_rot f_b m = Cmult (Cmult Ci (RtoC (frequency N m))) (amfft N rot b m).
Proof.
  intros N rot b m [HK _]. unfold tendencies_lin. rewrite !ap_c, !am_c. unfold omega, frequency, vecfft_from_rotfft. cbn [snd].
  destruct (rot m) as [r1 r2], (b m) as [b1 b2]. unfold Cmult, Copp, Ci, RtoC. cbn [fst snd]. split; modes m HK.
Qed.

(** a state initialised with one family of waves stays in it: the tendencies are those of the waves *)
Theorem c241_pure : forall N m f, N <> 0 -> wavevector m ->
  same (tendencies_lin N (rotbfft_from_apfft N f)) (rotbfft_from_apfft N (fun m => Cmult (Copp (Cmult Ci (RtoC (frequency N m)))) (f m))) m
  /\ same (tendencies_lin N (rotbfft_from_amfft N f)) (rotbfft_from_amfft N (fun m => Cmult (Cmult Ci (RtoC (frequency N m))) (f m))) m.
Proof.
  intros N m f HN [HK HG].
  assert (T : forall s, tendencies_lin N s = (fun m => Cmult (Cmult Ci (RtoC (KX m))) (snd s m), fun m => Copp (Cmult (RtoC (N ^ 2)) (snd (vecfft_from_rotfft (fst s)) m))))
    by (intros [rot b]; reflexivity).
  rewrite !T. unfold same, vecfft_from_rotfft. cbn [fst snd]. rewrite !mrot_same.
  destruct (Req_EM_T (KX m) 0) as [Hx|Hx].
  - set (fp := fun m0 => Cmult (Copp (Cmult Ci (RtoC (frequency N m0)))) (f m0)). set (fm := fun m0 => Cmult (Cmult Ci (RtoC (frequency N m0))) (f m0)).
    destruct (zero_c N m f Hx) as [[A B] [_ D]]. destruct (zero_c N m fp Hx) as [[A' B'] _]. destruct (zero_c N m fm Hx) as [[A2 _] [_ D2]].
    rewrite A, B, D, A', B', A2, D2. unfold Cmult, Copp, Ci, RtoC. cbn [fst snd]. split; split; f_equal; ring.
  - destruct HG as [[e _]|HG]; [contradiction|].
    rewrite !(prot_c N m _ HN Hx HG), !(pb_c N m _ HN Hx HK), !(mb_c N m _ HN Hx HK). unfold frequency.
    destruct (f m) as [f1 f2]. unfold Cmult, Copp, Ci, RtoC. cbn [fst snd]. split; split; modes m HK.
Qed.

(** the energy of a mode is the sum of the energies of its two waves *)
Theorem c241_energy : forall N rot b m, N <> 0 -> wavevector m ->
  Cmod (apfft N rot b m) ^ 2 + Cmod (amfft N rot b m) ^ 2 = 4 * N ^ 2 * frequency N m ^ 2 * energy_mode N rot b m.
Proof.
  intros N rot b m HN [HK HG]. rewrite !Cmod_sq, ap_c, am_c. unfold energy_mode, frequency, omega. rewrite !Cmod_sq. cbn [fst snd].
  assert (HK' : K_not0 m <> 0) by lra.
  destruct HG as [[e1 e2]|HG]; [rewrite e1, e2; field; split; assumption|]. rewrite <- HG. field. split; assumption.
Qed.

Example c241_hyps : wavevector {| KX := 3; KY := 4; weight := 2; K_not0 := 5 |} /\ frequency 10 {| KX := 3; KY := 4; weight := 2; K_not0 := 5 |} = 6
  /\ wavevector {| KX := 0; KY := 0; weight := 1; K_not0 := 1 |}.
Proof. unfold wavevector, frequency. cbn. split; [split; [lra|right; lra]|]. split; [lra|]. split; [lra|left; split; reflexivity]. Qed.

Print Assumptions c241_init.
Print Assumptions c241_decomposition.
Print Assumptions c241_waves.
Print Assumptions c241_pure.
Print Assumptions c241_energy.
