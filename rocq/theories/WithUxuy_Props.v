(** The solver ns2d with the velocity as state (C211-C213). *)
From Coq Require Import String Reals List Bool Lra Lia FunctionalExtensionality.
From Coquelicot Require Import Complex.
From Verif Require Import CExp Schemes_Model WithUxuy_Model.
Import ListNotations.
Local Open Scope C_scope.

(** ** A linear map which is local in the modes commutes with all the schemes *)
Section Intertwine.
Variables I J : Type.
Variable p : I -> J.
Variable a : I -> C.
Definition lift (x : arr J) : arr I := fun i => a i * x (p i).
Variable NI : arr I -> arr I.
Variable NJ : arr J -> arr J.
Hypothesis HN : forall x, NI (lift x) = lift (NJ x).
Definition rel (sI : store I) (sJ : store J) : Prop := forall ad, sI ad = lift (sJ ad).
Lemma rel_upd : forall sI sJ ad u v, rel sI sJ -> u = lift v -> rel (upd I sI ad u) (upd J sJ ad v).
Proof. intros sI sJ ad u v H E b. unfold upd. destruct (addr_eqb ad b); [exact E|apply H]. Qed.
Lemma rel_tend : forall sI sJ x y, rel sI sJ -> rel (compute_tendencies I NI x y sI) (compute_tendencies J NJ x y sJ).
Proof. intros sI sJ x y H. apply rel_upd; [exact H|]. rewrite (H x). apply HN. Qed.
Definition bc (f : arr J) : arr I := fun i => f (p i).
Variable sch : scheme.
Variable dt : R.
Variables d d2 ps al be : arr J.
(** every kernel is an update with a local linear expression *)
Lemma rel_euler : forall sI sJ x h t dd y, rel sI sJ -> rel (step_Euler I x h t (bc dd) y sI) (step_Euler J x h t dd y sJ).
Proof. intros sI sJ x h t dd y H. unfold step_Euler. apply rel_upd; [exact H|]. rewrite (H x), (H t). apply functional_extensionality. intros i. unfold lift, bc. ring. Qed.
Lemma rel_rk2 : forall sI sJ x h t dd dd2, rel sI sJ -> rel (step_like_RK2 I x h t (bc dd) (bc dd2) sI) (step_like_RK2 J x h t dd dd2 sJ).
Proof. intros sI sJ x h t dd dd2 H. unfold step_like_RK2. apply rel_upd; [exact H|]. rewrite (H x), (H t). apply functional_extensionality. intros i. unfold lift, bc. ring. Qed.
Lemma rel_mean : forall sI sJ t0 t1 q y, rel sI sJ -> rel (mean_with_phaseshift I t0 t1 (bc q) y sI) (mean_with_phaseshift J t0 t1 q y sJ).
Proof. intros sI sJ t0 t1 q y H. unfold mean_with_phaseshift. apply rel_upd; [exact H|]. rewrite (H t0), (H t1). apply functional_extensionality. intros i. unfold lift, bc, Cdiv. ring. Qed.
Lemma rel_mul : forall sI sJ q x y, rel sI sJ -> rel (mul I (bc q) x y sI) (mul J q x y sJ).
Proof. intros sI sJ q x y H. unfold mul. apply rel_upd; [exact H|]. rewrite (H x). apply functional_extensionality. intros i. unfold lift, bc. ring. Qed.
Lemma rel_div : forall sI sJ q x, rel sI sJ -> rel (div_inplace I x (bc q) sI) (div_inplace J x q sJ).
Proof. intros sI sJ q x H. unfold div_inplace. apply rel_upd; [exact H|]. rewrite (H x). apply functional_extensionality. intros i. unfold lift, bc, Cdiv. ring. Qed.
Ltac step :=
  first [ assumption | apply rel_tend | apply rel_euler | apply rel_rk2 | apply rel_mean | apply rel_mul | apply rel_div ].
Ltac raw sI sJ H := apply rel_upd; [exact H|]; apply functional_extensionality; intros i; rewrite ?(H _); unfold lift, bc, Cdiv; ring.
Lemma rel_scheme : forall sI sJ, rel sI sJ ->
  rel (time_step_RK I NI sch dt (bc d) (bc d2) (bc ps) (bc al) (bc be) sI) (time_step_RK J NJ sch dt d d2 ps al be sJ).
Proof.
  intros sI sJ H. destruct sch; cbn [time_step_RK].
  - unfold time_step_Euler, step_Euler_inplace. repeat step.
  - unfold time_step_Euler_phaseshift, step_Euler_inplace. cbn zeta.
    set (s1 := compute_tendencies I _ _ _ sI). set (t1 := compute_tendencies J _ _ _ sJ). assert (H1 : rel s1 t1) by (apply rel_tend; exact H). clearbody s1 t1.
    set (s2 := upd I s1 NEW1 _). set (t2 := upd J t1 NEW1 _). assert (H2 : rel s2 t2) by raw s1 t1 H1. clearbody s2 t2.
    set (s3 := compute_tendencies I _ _ _ s2). set (t3 := compute_tendencies J _ _ _ t2). assert (H3 : rel s3 t3) by (apply rel_tend; exact H2). clearbody s3 t3.
    set (s4 := upd I s3 NEW2 _). set (t4 := upd J t3 NEW2 _). assert (H4 : rel s4 t4) by raw s3 t3 H3. clearbody s4 t4.
    set (s5 := upd I s4 NEW3 _). set (t5 := upd J t4 NEW3 _). assert (H5 : rel s5 t5) by raw s4 t4 H4. clearbody s5 t5. now apply rel_euler.
  - unfold time_step_Euler_phaseshift_random, step_Euler_inplace. cbn zeta.
    set (s1 := upd I sI NEW0 _). set (t1 := upd J sJ NEW0 _). assert (H1 : rel s1 t1) by raw sI sJ H. clearbody s1 t1.
    set (s2 := compute_tendencies I _ _ _ s1). set (t2 := compute_tendencies J _ _ _ t1). assert (H2 : rel s2 t2) by (apply rel_tend; exact H1). clearbody s2 t2.
    set (s3 := upd I s2 NEW1 _). set (t3 := upd J t2 NEW1 _). assert (H3 : rel s3 t3) by raw s2 t2 H2. clearbody s3 t3.
    set (s4 := upd I s3 NEW2 _). set (t4 := upd J t3 NEW2 _). assert (H4 : rel s4 t4) by raw s3 t3 H3. clearbody s4 t4.
    set (s5 := compute_tendencies I _ _ _ s4). set (t5 := compute_tendencies J _ _ _ t4). assert (H5 : rel s5 t5) by (apply rel_tend; exact H4). clearbody s5 t5.
    set (s6 := upd I s5 NEW3 _). set (t6 := upd J t5 NEW3 _). assert (H6 : rel s6 t6) by raw s5 t5 H5. clearbody s6 t6.
    set (s7 := upd I s6 NEW4 _). set (t7 := upd J t6 NEW4 _). assert (H7 : rel s7 t7) by raw s6 t6 H6. clearbody s7 t7. now apply rel_euler.
  - unfold time_step_RK2. repeat step.
  - unfold time_step_RK2_trapezoid. cbn zeta.
    set (s1 := compute_tendencies I NI TMP NEW1 _). set (t1 := compute_tendencies J NJ TMP NEW1 _). assert (H1 : rel s1 t1) by (subst s1 t1; repeat step). clearbody s1 t1. raw s1 t1 H1.
  - unfold time_step_RK2_phaseshift. cbn zeta.
    set (s1 := step_Euler I _ _ _ _ _ _). set (t1 := step_Euler J _ _ _ _ _ _). assert (H1 : rel s1 t1) by (subst s1 t1; repeat step). clearbody s1 t1.
    set (s2 := upd I s1 NEW1 _). set (t2 := upd J t1 NEW1 _). assert (H2 : rel s2 t2) by raw s1 t1 H1. clearbody s2 t2.
    set (s3 := compute_tendencies I _ _ _ s2). set (t3 := compute_tendencies J _ _ _ t2). assert (H3 : rel s3 t3) by (apply rel_tend; exact H2). clearbody s3 t3.
    set (s4 := upd I s3 TMP _). set (t4 := upd J t3 TMP _). assert (H4 : rel s4 t4) by raw s3 t3 H3. clearbody s4 t4. now apply rel_rk2.
  - unfold time_step_RK2_phaseshift_random. cbn zeta. repeat step.
  - unfold time_step_RK2_phaseshift_exact. cbn zeta.
    set (s1 := compute_tendencies I NI tmp1 tmp1 (mul I (bc ps) TMP tmp1 _)). set (t1 := compute_tendencies J NJ tmp1 tmp1 (mul J ps TMP tmp1 _)).
    assert (H1 : rel s1 t1) by (subst s1 t1; repeat step). clearbody s1 t1.
    set (s2 := upd I s1 tmp3 _). set (t2 := upd J t1 tmp3 _). assert (H2 : rel s2 t2) by raw s1 t1 H1. clearbody s2 t2. now apply rel_rk2.
  - unfold time_step_RK4. cbn zeta.
    set (s1 := compute_tendencies I NI TMP1 NEW0 (step_Euler I _ _ _ _ TMP1 _)). set (t1 := compute_tendencies J NJ TMP1 NEW0 (step_Euler J _ _ _ _ TMP1 _)).
    assert (H1 : rel s1 t1) by (subst s1 t1; repeat step). clearbody s1 t1.
    set (s2 := upd I s1 TMP _). set (t2 := upd J t1 TMP _). assert (H2 : rel s2 t2) by raw s1 t1 H1. clearbody s2 t2.
    set (s3 := upd I s2 TMP1 _). set (t3 := upd J t2 TMP1 _). assert (H3 : rel s3 t3) by raw s2 t2 H2. clearbody s3 t3.
    set (s4 := compute_tendencies I _ _ _ s3). set (t4 := compute_tendencies J _ _ _ t3). assert (H4 : rel s4 t4) by (apply rel_tend; exact H3). clearbody s4 t4.
    set (s5 := upd I s4 TMP _). set (t5 := upd J t4 TMP _). assert (H5 : rel s5 t5) by raw s4 t4 H4. clearbody s5 t5.
    set (s6 := upd I s5 TMP1 _). set (t6 := upd J t5 TMP1 _). assert (H6 : rel s6 t6) by raw s5 t5 H5. clearbody s6 t6.
    set (s7 := compute_tendencies I _ _ _ s6). set (t7 := compute_tendencies J _ _ _ t6). assert (H7 : rel s7 t7) by (apply rel_tend; exact H6). clearbody s7 t7. raw s7 t7 H7.
Qed.
End Intertwine.
(** the buffers are written before they are read *)
Lemma state_only : forall I N sch dt d d2 ps al be s s', s STATE = s' STATE ->
  time_step_RK I N sch dt d d2 ps al be s STATE = time_step_RK I N sch dt d d2 ps al be s' STATE.
Proof.
  intros I N sch dt d d2 ps al be s s' H.
  destruct sch; cbv [time_step_RK time_step_Euler time_step_Euler_phaseshift time_step_Euler_phaseshift_random time_step_RK2 time_step_RK2_trapezoid time_step_RK2_phaseshift
       time_step_RK2_phaseshift_random time_step_RK2_phaseshift_exact time_step_RK4 step_Euler_inplace step_Euler step_like_RK2 mean_with_phaseshift mul div_inplace compute_tendencies upd addr_eqb addr_num Nat.eqb];
  rewrite H; reflexivity.
Qed.

(** * C211 *)
Section C211.
Variable mode X : Type.
Variables kx ky : mode -> R.
Variable ifft : (mode -> C) -> X -> R.
Variable fft : (X -> R) -> mode -> C.
Variable mask : mode -> bool.
Variable beta : R.
Variable f_lin ps : mode -> C.
Variable sch : scheme.
(** the two states describe the same flow without mean velocity: a divergence-free velocity with the vorticity (except at k = 0) *)
Definition same_flow (u : arr (bool * mode)) (rot : arr mode) : Prop := forall m,
  if Req_EM_T (kx m * kx m + ky m * ky m) 0 then u (true, m) = RtoC 0 /\ u (false, m) = RtoC 0
  else Ci * RtoC (kx m) * u (false, m) - Ci * RtoC (ky m) * u (true, m) = rot m /\ RtoC (kx m) * u (true, m) + RtoC (ky m) * u (false, m) = RtoC 0.
Definition coef (i : bool * mode) : C :=
  if fst i then Ci * RtoC (ky (snd i) / K2_not0 mode kx ky (snd i)) else - Ci * RtoC (kx (snd i) / K2_not0 mode kx ky (snd i)).
Notation L := (lift (bool * mode) mode snd coef).
Lemma sq0 : forall x y, (x * x + y * y = 0 -> x = 0 /\ y = 0)%R.
Proof. intros x y H. split; nra. Qed.
Lemma Ci2 : Ci * Ci = RtoC (-1).
Proof. apply injective_projections; cbn; ring. Qed.
Lemma RtoC_ne : forall x, (x <> 0)%R -> RtoC x <> RtoC 0.
Proof. intros x H E. apply H. now apply RtoC_inj. Qed.
Lemma K2_not0_pos : forall m, K2_not0 mode kx ky m <> 0%R.
Proof. intros m. unfold K2_not0. destruct (Req_EM_T (K2 mode kx ky m) 0); lra. Qed.
Lemma RtoC_frac : forall x y, (y <> 0)%R -> RtoC (x / y) = RtoC x / RtoC y.
Proof. intros x y H. now rewrite RtoC_div. Qed.
Lemma same_flow_lift : forall u rot, same_flow u rot <-> u = L rot.
Proof.
  intros u rot. split.
  - intros H. apply functional_extensionality. intros [b m]. unfold lift, coef. cbn [fst snd]. specialize (H m).
    destruct (Req_EM_T (kx m * kx m + ky m * ky m) 0) as [e|ne].
    + destruct (sq0 _ _ e) as [ex ey]. destruct H as [H1 H2]. rewrite ex, ey. unfold Rdiv. rewrite !Rmult_0_l. destruct b; [rewrite H1|rewrite H2]; ring.
    + destruct H as [H1 H2]. unfold K2_not0, K2. destruct (Req_EM_T (kx m * kx m + ky m * ky m) 0) as [e|_]; [contradiction|].
      rewrite !RtoC_frac by exact ne. rewrite <- H1.
      assert (N : RtoC (kx m * kx m + ky m * ky m) <> RtoC 0) by now apply RtoC_ne.
      rewrite RtoC_plus, !RtoC_mult in *. set (x := RtoC (kx m)) in *. set (y := RtoC (ky m)) in *. set (v := u (true, m)) in *. set (w := u (false, m)) in *.
      destruct b.
      * fold v. transitivity (((x * x + y * y) * v) / (x * x + y * y)); [field; exact N|]. unfold Cdiv. 
        replace (Ci * (y * / (x * x + y * y)) * (Ci * x * w - Ci * y * v)) with ((Ci * Ci) * (y * (x * w - y * v)) * / (x * x + y * y)) by ring.
        rewrite Ci2. replace (RtoC (-1) * (y * (x * w - y * v))) with ((x * x + y * y) * v - x * (x * v + y * w)) by (replace (RtoC (-1)) with (- RtoC 1) by (rewrite <- RtoC_opp; reflexivity); ring). rewrite H2. ring.
      * fold w. transitivity (((x * x + y * y) * w) / (x * x + y * y)); [field; exact N|]. unfold Cdiv. 
        replace (- Ci * (x * / (x * x + y * y)) * (Ci * x * w - Ci * y * v)) with ((Ci * Ci) * (- x * (x * w - y * v)) * / (x * x + y * y)) by ring.
        rewrite Ci2. replace (RtoC (-1) * (- x * (x * w - y * v))) with ((x * x + y * y) * w - y * (x * v + y * w)) by (replace (RtoC (-1)) with (- RtoC 1) by (rewrite <- RtoC_opp; reflexivity); ring). rewrite H2. ring.
  - intros -> m. unfold lift, coef. cbn [fst snd]. destruct (Req_EM_T (kx m * kx m + ky m * ky m) 0) as [e|ne].
    + destruct (sq0 _ _ e) as [ex ey]. rewrite ex, ey. unfold Rdiv. rewrite !Rmult_0_l. split; ring.
    + unfold K2_not0, K2. destruct (Req_EM_T (kx m * kx m + ky m * ky m) 0) as [e|_]; [contradiction|].
      rewrite !RtoC_frac by exact ne.
      assert (N : RtoC (kx m * kx m + ky m * ky m) <> RtoC 0) by now apply RtoC_ne.
      rewrite RtoC_plus, !RtoC_mult in *. set (x := RtoC (kx m)) in *. set (y := RtoC (ky m)) in *. split.
      * transitivity (- (Ci * Ci) * ((x * x + y * y) / (x * x + y * y)) * rot m); [unfold Cdiv; ring|]. rewrite Ci2. replace ((x * x + y * y) / (x * x + y * y)) with (RtoC 1) by (field; exact N). replace (RtoC (-1)) with (- RtoC 1) by (rewrite <- RtoC_opp; reflexivity). ring.
      * unfold Cdiv. ring.
Qed.
(** the gradient of the vorticity of the velocity is the gradient of the vorticity *)
Lemma rot_lift : forall rot m, (kx m * kx m + ky m * ky m <> 0)%R -> rotfft_from_vecfft mode kx ky (get_ux mode (L rot)) (get_uy mode (L rot)) m = rot m.
Proof.
  intros rot m H. pose proof (proj2 (same_flow_lift (L rot) rot) eq_refl m) as S. destruct (Req_EM_T (kx m * kx m + ky m * ky m) 0) as [e|_]; [contradiction|].
  destruct S as [S _]. rewrite <- S. unfold rotfft_from_vecfft, get_ux, get_uy. ring.
Qed.
Lemma grad_lift : forall rot, gradfft_from_fft mode kx ky (rotfft_from_vecfft mode kx ky (get_ux mode (L rot)) (get_uy mode (L rot))) = gradfft_from_fft mode kx ky rot.
Proof.
  intros rot. unfold gradfft_from_fft. f_equal; apply functional_extensionality; intros m;
  (destruct (Req_EM_T (kx m * kx m + ky m * ky m) 0) as [e|ne]; [destruct (sq0 _ _ e) as [ex ey]; rewrite ?ex, ?ey; ring|rewrite (rot_lift rot m ne); reflexivity]).
Qed.
Lemma get_lift : forall rot, get_ux mode (L rot) = fst (vecfft_from_rotfft mode kx ky rot) /\ get_uy mode (L rot) = snd (vecfft_from_rotfft mode kx ky rot).
Proof. intros rot. split; reflexivity. Qed.
Lemma set_lift : forall rot, set_vars mode (fst (vecfft_from_rotfft mode kx ky rot)) (snd (vecfft_from_rotfft mode kx ky rot)) = L rot.
Proof. intros rot. apply functional_extensionality. intros [[|] m]; reflexivity. Qed.
Lemma tend_lift : forall f rot, uxuy_tendencies mode X kx ky ifft fft mask beta (L f) (L rot) = L (ns2d_tendencies mode X kx ky ifft fft mask beta f rot).
Proof.
  intros f rot. unfold uxuy_tendencies, ns2d_tendencies, Frot_fft. rewrite grad_lift. cbn [vecfft_from_rotfft gradfft_from_fft].
  change (get_ux mode (L rot)) with (fun m => Ci * RtoC (ky m / K2_not0 mode kx ky m) * rot m).
  change (get_uy mode (L rot)) with (fun m => - Ci * RtoC (kx m / K2_not0 mode kx ky m) * rot m).
  apply functional_extensionality. intros [b m]. unfold set_vars, lift, coef. cbn [fst snd]. destruct b; ring.
Qed.
Lemma proj_lift : forall rot, projection_perp mode kx ky (get_ux mode (L rot)) (get_uy mode (L rot)) = (get_ux mode (L rot), get_uy mode (L rot)).
Proof.
  intros rot. assert (Z : forall m, RtoC (kx m) * get_ux mode (L rot) m + RtoC (ky m) * get_uy mode (L rot) m = RtoC 0).
  { intros m. pose proof (proj2 (same_flow_lift (L rot) rot) eq_refl m) as S. unfold get_ux, get_uy. destruct (Req_EM_T (kx m * kx m + ky m * ky m) 0) as [e|_].
    - destruct S as [-> ->]. ring. - exact (proj2 S). }
  unfold projection_perp. f_equal; apply functional_extensionality; intros m; rewrite Z; ring.
Qed.
Lemma dealias_lift : forall rot, set_vars mode (dealiasing mode mask (get_ux mode (L rot))) (dealiasing mode mask (get_uy mode (L rot))) = L (dealiasing mode mask rot).
Proof.
  intros rot. apply functional_extensionality. intros [b m]. unfold set_vars, dealiasing, get_ux, get_uy, lift. cbn [fst snd]. destruct b, (mask m); ring.
Qed.
Lemma step_lift : forall dt al be f s sr, s STATE = L (sr STATE) ->
  step_uxuy mode X kx ky ifft fft mask beta f_lin ps sch dt al be (L f) s STATE = L (step_ns2d mode X kx ky ifft fft mask beta f_lin ps sch dt al be f sr STATE).
Proof.
  intros dt al be f s sr H. unfold step_uxuy, step_ns2d. cbn zeta.
  set (T := time_step_RK (var mode) _ _ _ _ _ _ _ _ s). set (Tr := time_step_RK mode _ _ _ _ _ _ _ _ sr).
  assert (E : T STATE = L (Tr STATE)).
  { unfold T, Tr. rewrite (state_only (var mode) _ _ _ _ _ _ _ _ s (fun _ => L (sr STATE)) H).
    rewrite (state_only mode _ _ _ _ _ _ _ _ sr (fun _ => sr STATE) eq_refl).
    apply (rel_scheme (bool * mode) mode snd coef _ _ (tend_lift f) sch dt (diss mode f_lin dt) (diss2 mode f_lin dt) ps al be (fun _ => L (sr STATE)) (fun _ => sr STATE)). intros ad. reflexivity. }
  rewrite E, dealias_lift. rewrite proj_lift. unfold upd at 1 2. cbn [addr_eqb addr_num Nat.eqb].
  apply functional_extensionality. intros [[|] m]; reflexivity.
Qed.
(** the forcing: the velocity of the forcing of the vorticity *)
Definition same_step (st : R * (mode -> C) * (mode -> C) * arr (bool * mode)) (sr : R * (mode -> C) * (mode -> C) * arr mode) : Prop :=
  fst st = fst sr /\ same_flow (snd st) (snd sr).
(** same initial flow, same time steps and forcing: the same flow for ever, with all the schemes *)
Theorem c211_same : forall steps stepsr s sr, Forall2 same_step steps stepsr -> same_flow (s STATE) (sr STATE) ->
  same_flow (run_uxuy mode X kx ky ifft fft mask beta f_lin ps sch steps s STATE) (run_ns2d mode X kx ky ifft fft mask beta f_lin ps sch stepsr sr STATE).
Proof.
  intros steps stepsr s sr H. revert s sr. induction H as [|st str steps stepsr Hs _ IH]; intros s sr E; [exact E|].
  destruct st as [[[dt al] be] f], str as [[[dtr alr] ber] fr]. destruct Hs as [Hs Hf]. cbn [fst snd] in Hs, Hf. injection Hs as -> -> ->.
  cbn [run_uxuy run_ns2d]. apply IH. apply same_flow_lift. apply same_flow_lift in E. apply same_flow_lift in Hf. rewrite Hf. now apply step_lift.
Qed.
Theorem c211_tendencies : forall u f rot fr, same_flow u rot -> same_flow f fr ->
  same_flow (uxuy_tendencies mode X kx ky ifft fft mask beta f u) (ns2d_tendencies mode X kx ky ifft fft mask beta fr rot).
Proof. intros u f rot fr H Hf. apply same_flow_lift. apply same_flow_lift in H. apply same_flow_lift in Hf. rewrite H, Hf. apply tend_lift. Qed.
(** the energies are equal *)
Theorem c211_energy : forall u rot m, same_flow u rot -> (kx m * kx m + ky m * ky m <> 0)%R ->
  energy_fft mode (get_ux mode u) (get_uy mode u) m = (Cmod (rot m) ^ 2 / (2 * (kx m * kx m + ky m * ky m)))%R.
Proof.
  intros u rot m H N. apply same_flow_lift in H. subst u. unfold energy_fft, get_ux, get_uy, lift, coef. cbn [fst snd].
  unfold K2_not0, K2. destruct (Req_EM_T (kx m * kx m + ky m * ky m) 0) as [e|_]; [contradiction|].
  assert (Mi : Cmod Ci = 1%R) by (unfold Cmod; cbn; replace (0 * (0 * 1) + 1 * (1 * 1))%R with 1%R by ring; apply sqrt_1).
  rewrite !Cmod_mult, Cmod_opp, Mi, !Cmod_R. rewrite !Rpow_mult_distr, !pow2_abs. field. exact N.
Qed.

(** * C212: any initial velocity *)
Lemma proj_div : forall fx fy m, RtoC (kx m) * fst (projection_perp mode kx ky fx fy) m + RtoC (ky m) * snd (projection_perp mode kx ky fx fy) m = RtoC 0.
Proof.
  intros fx fy m. cbn [projection_perp fst snd]. unfold K2_not0, K2. destruct (Req_EM_T (kx m * kx m + ky m * ky m) 0) as [e|ne].
  - destruct (sq0 _ _ e) as [-> ->]. ring.
  - assert (N : RtoC (kx m * kx m + ky m * ky m) <> RtoC 0) by now apply RtoC_ne. rewrite !RtoC_frac by exact ne.
    rewrite RtoC_plus, !RtoC_mult in *. set (x := RtoC (kx m)) in *. set (y := RtoC (ky m)) in *. field. exact N.
Qed.
(** after one time step, the velocity is divergence-free and dealiased, whatever it was before *)
Theorem c212_divergence : forall dt al be f s m,
  let u := step_uxuy mode X kx ky ifft fft mask beta f_lin ps sch dt al be f s STATE in
  RtoC (kx m) * u (true, m) + RtoC (ky m) * u (false, m) = RtoC 0 /\ (mask m = true -> u (true, m) = RtoC 0 /\ u (false, m) = RtoC 0).
Proof.
  intros dt al be f s m u. subst u. unfold step_uxuy. cbn zeta. set (T := time_step_RK (var mode) _ _ _ _ _ _ _ _ s).
  set (D := set_vars mode _ _). destruct (projection_perp mode kx ky (get_ux mode D) (get_uy mode D)) as [px py] eqn:E.
  unfold upd. cbn [addr_eqb addr_num Nat.eqb]. unfold set_vars. cbn [fst snd]. split.
  - pose proof (proj_div (get_ux mode D) (get_uy mode D) m) as P. rewrite E in P. exact P.
  - intros M. cbn [projection_perp] in E. injection E as <- <-.
    assert (A : get_ux mode D m = RtoC 0 /\ get_uy mode D m = RtoC 0) by (unfold D, get_ux, get_uy, set_vars, dealiasing; cbn [fst snd]; rewrite M; split; reflexivity).
    destruct A as [-> ->]. split; ring.
Qed.
(** the projection keeps the vorticity, and the velocities which are divergence-free *)
Theorem c212_projection : forall fx fy m,
  let (px, py) := projection_perp mode kx ky fx fy in
  rotfft_from_vecfft mode kx ky px py m = rotfft_from_vecfft mode kx ky fx fy m
  /\ (RtoC (kx m) * fx m + RtoC (ky m) * fy m = RtoC 0 -> px m = fx m /\ py m = fy m).
Proof.
  intros fx fy m. cbn [projection_perp]. split.
  - unfold rotfft_from_vecfft. rewrite !RtoC_frac by apply K2_not0_pos. unfold Cdiv. ring.
  - intros ->. split; ring.
Qed.
(** the mean flow is constant without forcing *)
Lemma tend_zero : forall f u m b, kx m = 0%R -> ky m = 0%R -> f (b, m) = RtoC 0 -> uxuy_tendencies mode X kx ky ifft fft mask beta f u (b, m) = RtoC 0.
Proof.
  intros f u m b Hx Hy Hf. unfold uxuy_tendencies. cbn [vecfft_from_rotfft]. rewrite Hf. unfold set_vars. cbn [fst snd]. destruct b; [rewrite Hy|rewrite Hx]; unfold Rdiv; rewrite Rmult_0_l; ring.
Qed.
Lemma cexp_zero : forall x, x = RtoC 0 -> cexp x = RtoC 1.
Proof. intros x ->. apply injective_projections; unfold cexp; cbn; rewrite ?exp_0, ?cos_0, ?sin_0; ring. Qed.
Theorem c212_mean : forall dt al be f s m b, kx m = 0%R -> ky m = 0%R -> f_lin m = RtoC 0 -> mask m = false -> f (b, m) = RtoC 0 ->
  step_uxuy mode X kx ky ifft fft mask beta f_lin ps sch dt al be f s STATE (b, m) = s STATE (b, m).
Proof.
  intros dt al be f s m b Hx Hy Hl Hm Hf. unfold step_uxuy. cbn zeta. set (T := time_step_RK (var mode) _ _ _ _ _ _ _ _ s).
  assert (E : T STATE (b, m) = s STATE (b, m)).
  { pose proof (fun u => tend_zero f u m b Hx Hy Hf) as Z. unfold T. clear T. set (N := uxuy_tendencies mode X kx ky ifft fft mask beta f) in *.
    assert (D : cast mode (diss mode f_lin dt) (b, m) = RtoC 1) by (unfold cast, diss; cbn [snd]; rewrite Hl; apply cexp_zero; ring).
    assert (D2 : cast mode (diss2 mode f_lin dt) (b, m) = RtoC 1) by (unfold cast, diss2; cbn [snd]; rewrite Hl; apply cexp_zero; ring).
    set (d := cast mode (diss mode f_lin dt)) in *. set (d2 := cast mode (diss2 mode f_lin dt)) in *. clearbody d d2 N.
    destruct sch; cbv [time_step_RK time_step_Euler time_step_Euler_phaseshift time_step_Euler_phaseshift_random time_step_RK2 time_step_RK2_trapezoid time_step_RK2_phaseshift
       time_step_RK2_phaseshift_random time_step_RK2_phaseshift_exact time_step_RK4 step_Euler_inplace step_Euler step_like_RK2 mean_with_phaseshift mul div_inplace compute_tendencies upd addr_eqb addr_num Nat.eqb];
    rewrite ?Z, ?D, ?D2; unfold Cdiv; ring. }
  cbn [projection_perp]. unfold upd. cbn [addr_eqb addr_num Nat.eqb]. unfold set_vars at 1. cbn [fst snd]. rewrite Hx, Hy. unfold Rdiv. rewrite !Rmult_0_l.
  unfold get_ux, get_uy, set_vars, dealiasing. cbn [fst snd]. rewrite Hm. destruct b; rewrite E; ring.
Qed.

(** * C213: the initial states *)
(** the velocity with the keys ux_fft and uy_fft in any order *)
Theorem c213_vec : forall ux uy, uxuy_init_statespect_from mode kx ky [("ux_fft"%string, ux); ("uy_fft"%string, uy)] = Some (set_vars mode ux uy)
  /\ uxuy_init_statespect_from mode kx ky [("uy_fft"%string, uy); ("ux_fft"%string, ux)] = Some (set_vars mode ux uy).
Proof. intros ux uy. split; reflexivity. Qed.
(** from the vorticity: the same flow as ns2d if the vorticity is dealiased *)
Theorem c213_rot_partial : forall rot, (forall m, mask m = true -> rot m = RtoC 0) ->
  exists u, uxuy_init_statespect_from mode kx ky [("rot_fft"%string, rot)] = Some u /\ same_flow u (ns2d_init_from_rotfft mode mask rot).
Proof.
  intros rot H. eexists. split; [reflexivity|]. apply same_flow_lift.
  replace (ns2d_init_from_rotfft mode mask rot) with rot.
  - apply functional_extensionality. intros [[|] m]; reflexivity.
  - apply functional_extensionality. intros m. unfold ns2d_init_from_rotfft, dealiasing. destruct (mask m) eqn:E; [now apply H|reflexivity].
Qed.
(** from ux_fft alone: the divergence-free part *)
Theorem c213_ux : forall a, exists u, uxuy_init_statespect_from mode kx ky [("ux_fft"%string, a)] = Some u
  /\ same_flow u (fun m => - Ci * RtoC (ky m) * a m).
Proof.
  intros a. eexists. split; [reflexivity|]. apply same_flow_lift. apply functional_extensionality. intros [b m]. unfold uxuy_init_from_rotfft. cbn [vecfft_from_rotfft]. unfold set_vars, lift, coef, rotfft_from_vecfft. cbn [fst snd]. destruct b; ring.
Qed.
Theorem c213_uy : forall a, exists u, uxuy_init_statespect_from mode kx ky [("uy_fft"%string, a)] = Some u
  /\ same_flow u (fun m => Ci * RtoC (kx m) * a m).
Proof.
  intros a. eexists. split; [reflexivity|]. apply same_flow_lift. apply functional_extensionality. intros [b m]. unfold uxuy_init_from_rotfft. cbn [vecfft_from_rotfft]. unfold set_vars, lift, coef, rotfft_from_vecfft. cbn [fst snd]. destruct b; ring.
Qed.
(** a restart from a file is an error; it works with ns2d *)
Theorem c213_file_ns2d : forall rot a, exists s, init_from_file mode X fft keys_ns2d rot a = Ok s /\ s 0%nat = fft rot.
Proof. intros rot a. eexists. split; reflexivity. Qed.
End C211.
Theorem c213_file_refuted : exists keys, keys = keys_uxuy /\ forall mode X fft rot a, init_from_file mode X fft keys rot a = KeyError "rot_fft".
Proof. exists keys_uxuy. split; [reflexivity|]. intros mode X fft rot a. reflexivity. Qed.
(** a vorticity which is not dealiased: the two solvers do not start with the same flow *)
Theorem c213_rot_refuted : exists (kx ky : unit -> R) mask rot u, uxuy_init_statespect_from unit kx ky [("rot_fft"%string, rot)] = Some u
  /\ ~ same_flow unit kx ky u (ns2d_init_from_rotfft unit mask rot).
Proof.
  exists (fun _ => 1%R), (fun _ => 0%R), (fun _ => true), (fun _ => RtoC 1). eexists. split; [reflexivity|].
  intros H. specialize (H tt). cbv beta in H. destruct (Req_EM_T (1 * 1 + 0 * 0) 0) as [e|ne]; [lra|]. destruct H as [H _].
  unfold uxuy_init_from_rotfft, vecfft_from_rotfft, set_vars, ns2d_init_from_rotfft, dealiasing in H. cbn [fst snd] in H.
  unfold K2_not0, K2 in H. destruct (Req_EM_T (1 * 1 + 0 * 0) 0) as [e|_]; [lra|].
  apply (f_equal fst) in H. cbn in H. field_simplify in H. lra.
Qed.
(** the hypotheses are met: a mode and the mean *)
Example c211_ex : same_flow bool (fun b => if b then 1%R else 0%R) (fun _ => 0%R) (fun i => match i with (false, true) => - Ci | _ => RtoC 0 end) (fun b => if b then RtoC 1 else RtoC 0).
Proof.
  intros [|]; cbv beta iota.
  - destruct (Req_EM_T (1 * 1 + 0 * 0) 0) as [e|_]; [lra|]. split; apply injective_projections; cbn; ring.
  - destruct (Req_EM_T (0 * 0 + 0 * 0) 0) as [_|n]; [split; reflexivity|lra].
Qed.
Print Assumptions c211_same.
Print Assumptions c211_tendencies.
Print Assumptions c211_energy.
Print Assumptions c212_divergence.
Print Assumptions c212_projection.
Print Assumptions c212_mean.
Print Assumptions c213_vec.
Print Assumptions c213_rot_partial.
Print Assumptions c213_ux.
Print Assumptions c213_uy.
Print Assumptions c213_file_ns2d.
Print Assumptions c213_file_refuted.
Print Assumptions c213_rot_refuted.
