(** * C115: spectral energy budgets of ns3d and ns3d.strat *)

From Coq Require Import Reals Lra ZArith Lia String List Bool Permutation.
From Coquelicot Require Import Coquelicot.
From Verif Require Import CExp DFT Alias_Model Alias_Proofs Alias_Props Oper_Model Oper_Spec Oper_Proofs OperVec_Proofs
  Budget_Model Budget_Spec Budget_Proofs Budget2D_Proofs Budget2D_Props Budget3D_Proofs Budget3D_Props BudgetEq_Props
  Means_Model Means_Spec Means_Proofs Means_Props Seb_Model Seb2D_Props.
Import ListNotations.
Local Open Scope R_scope.

(** the rotational part of the horizontal velocity: the stream function is (kx vy - ky vx) / (kx^2 + ky^2); for the modes which
    do not depend on x and y, all the horizontal velocity *)
Definition sheared (o : oper) (m : mode) : bool := if Req_EM_T (wx o m ^ 2 + wy o m ^ 2) 0 then true else false.
Definition stream (o : oper) (v : (mode -> C) * (mode -> C) * (mode -> C)) (m : mode) : C :=
  (RtoC (/ (wx o m ^ 2 + wy o m ^ 2)) * (RtoC (wx o m) * cy v m - RtoC (wy o m) * cx v m))%C.
Definition rotational_x (o : oper) (v : (mode -> C) * (mode -> C) * (mode -> C)) (m : mode) : C :=
  if sheared o m then cx v m else (RtoC (- wy o m) * stream o v m)%C.
Definition rotational_y (o : oper) (v : (mode -> C) * (mode -> C) * (mode -> C)) (m : mode) : C :=
  if sheared o m then cy v m else (RtoC (wx o m) * stream o v m)%C.

Section Seb3P.
Variable o : oper.
Variable ms : list mode.
Variable dea : mode -> bool.
Hypothesis Hg : good_modes o ms.
Variable f_d : mode -> R.

Let Ho : oper_pos o := proj1 Hg.

(** the rate of change of the energy of a shell when the tendency of the velocity is F *)
Definition vrate (shell : list mode) (v F : vfield) : R :=
  rate shell (fun _ => 1) (cx v) (cx F) + rate shell (fun _ => 1) (cy v) (cy F) + rate shell (fun _ => 1) (cz v) (cz F).

Lemma derive_vrate shell v t F : vmoves shell v t F -> is_derive (fun s => energy_3d shell (v s)) t (vrate shell (v t) F).
Proof.
  intros (M1 & M2 & M3). unfold energy_3d, vrate.
  apply (is_derive_plus (fun s => square shell (cx (v s)) + square shell (cy (v s))) (fun s => square shell (cz (v s)))).
  - apply (is_derive_plus (fun s => square shell (cx (v s))) (fun s => square shell (cy (v s)))); [exact (derive_1 shell _ t _ M1) | exact (derive_1 shell _ t _ M2)].
  - exact (derive_1 shell _ t _ M3).
Qed.

Lemma vmoves_shell shell v t F : shell_of ms shell -> vmoves ms v t F -> vmoves shell v t F.
Proof. intros Hs (M1 & M2 & M3). split; [|split]; apply (moves_shell ms shell); assumption. Qed.

(** the real part of conj(v(m)) . w *)
Definition work (v : vfield) (m : mode) (w : C * C * C) : R :=
  fst (Cconj (vxf v m) * fst (fst w))%C + fst (Cconj (vyf v m) * snd (fst w))%C + fst (Cconj (vzf v m) * snd w)%C.

Lemma work_dot v m w : vreal ms v -> In m ms -> work v m w = fst (dot3 (at_mode v (mopp m)) w).
Proof.
  intros (R1 & R2 & R3) Hm. unfold work, dot3, at_mode. destruct w as [[w1 w2] w3]. cbn [fst snd].
  change (vxf v) with (cx v). change (vyf v) with (cy v). change (vzf v) with (cz v). rewrite (R1 m Hm), (R2 m Hm), (R3 m Hm). reflexivity.
Qed.

(** the projection does no work on an allowed field *)
Lemma work_projector pr nv v m w : vreal ms v -> In m ms -> allowed o pr nv v (mopp m) -> work v m (projector o pr m w) = work v m w.
Proof.
  intros R Hm A. rewrite !(work_dot v m) by assumption. rewrite <- projector_sym by exact Ho. rewrite (allowed_fix o Ho pr nv v (mopp m) A). reflexivity.
Qed.

Lemma work_zero z : fst (Cconj (RtoC 0) * z)%C = 0.
Proof. destruct z. cbn. ring. Qed.

Lemma work_project_state pr nv v g m : vreal ms v -> In m ms -> allowed o pr nv v m -> allowed o pr nv v (mopp m) -> (dea m = true -> null_at v m) ->
  work v m (at_mode (vdealiasing dea (project_state o pr nv g)) m) = work v m (at_mode g m).
Proof.
  intros R Hm A A' Hn. rewrite <- (work_projector pr nv v m (at_mode g m)) by assumption.
  unfold work, at_mode, vdealiasing, dealiasing, project_state, on_modes, zero_kz0, vxf, vyf, vzf in *. cbn [fst snd]. destruct (dea m).
  - destruct (Hn eq_refl) as (N1 & N2 & N3). unfold cx, cy, cz in *. rewrite N1, N2, N3, !work_zero. ring.
  - destruct nv; cbn [andb]; [|reflexivity]. destruct (mz m =? 0)%Z eqn:E; [|reflexivity]. apply Z.eqb_eq in E.
    destruct A as (_ & _ & Z). specialize (Z eq_refl E). unfold cz in Z. rewrite Z, !work_zero. reflexivity.
Qed.

Lemma work_plus v m a b c a' b' c' : work v m (a + a', b + b', c + c')%C = work v m (a, b, c) + work v m (a', b', c').
Proof. unfold work. cbn [fst snd]. destruct (vxf v m), (vyf v m), (vzf v m), a, b, c, a', b', c'. cbn. ring. Qed.

(** the Coriolis force does no work, for each mode *)
Lemma work_coriolis f v m : In m ms -> work v m (at_mode (vfft o (vector_product (vifft o ms v) (vifft o ms (modif_omega f (curl o v))))) m)
  = work v m (at_mode (vfft o (vector_product (vifft o ms v) (vifft o ms (curl o v)))) m).
Proof.
  intros Hm. rewrite (lamb o ms Hg f v m Hm).
  pose proof (lamb o ms Hg None v m Hm) as L. cbn [modif_omega coriolis] in L. rewrite L.
  unfold work. cbn [fst snd]. change (vxf v) with (cx v). change (vyf v) with (cy v). change (vzf v) with (cz v).
  generalize (transport_3d o ms v (cx v) m) (transport_3d o ms v (cy v) m) (transport_3d o ms v (cz v) m)
    (ddx o (bernoulli ms v) m) (ddy o (bernoulli ms v) m) (ddz o (bernoulli ms v) m) (cx v m) (cy v m) (cz v m) (coriolis f).
  intros [a1 a2] [b1 b2] [c1 c2] [d1 d2] [e1 e2] [g1 g2] [x1 x2] [y1 y2] [z1 z2] r. cbn. ring.
Qed.

Definition lamb_fft (v : vfield) : vfield := vfft o (vector_product (vifft o ms v) (vifft o ms (curl o v))).

Lemma vrate_work shell v F : vrate shell v F = total shell (fun m => work v m (at_mode F m)).
Proof.
  unfold vrate, rate. rewrite <- !total_plus. apply total_ext. intros m _. unfold work, at_mode. cbn [fst snd].
  change (vxf v) with (cx v). change (vyf v) with (cy v). change (vzf v) with (cz v).
  change (vxf F) with (cx F). change (vyf F) with (cy F). change (vzf F) with (cz F).
  destruct (cx v m), (cy v m), (cz v m), (cx F m), (cy F m), (cz F m). cbn. ring.
Qed.

Lemma total_zero shell (g : mode -> R) : total shell (fun m => 0 * g m) = 0.
Proof. rewrite total_scal. ring. Qed.

Section Kinetic.
Variable pr : projection.
Variable nv : bool.
Variable v : vfield.
Hypothesis Sv : state_3d o ms dea pr nv v.

(** the sum of the transfers is the work of the Lamb vector *)
Lemma transfer_work m : In m ms ->
  fst (Cconj (vxf v m) * vxf (on_modes (projector o pr) (lamb_fft v)) m)%C + fst (Cconj (vyf v m) * vyf (on_modes (projector o pr) (lamb_fft v)) m)%C
  + fst (Cconj (vzf v m) * vzf (on_modes (projector o pr) (lamb_fft v)) m)%C = work v m (at_mode (lamb_fft v) m).
Proof.
  intros Hm. pose proof Hg as (_ & Hs & _). destruct Sv as (Hr & Ha & _).
  rewrite <- (work_projector pr nv v m _ Hr Hm (Ha _ (proj2 Hs m Hm))). reflexivity.
Qed.

Lemma transfer_sum : total ms (fun m => work v m (at_mode (lamb_fft v) m)) = 0.
Proof.
  pose proof Hg as (_ & Hs & _). destruct Sv as (Hr & _).
  rewrite (total_lsum ms _ (fun m => dot3 (at_mode v (mopp m)) (at_mode (lamb_fft v) m))) by (intros m Hm; apply work_dot; assumption).
  change (fst (vdot ms v (lamb_fft v)) = 0). unfold lamb_fft. rewrite vdot_cross_l by exact Hs. reflexivity.
Qed.

Definition results : densities :=
  let f := on_modes (projector o pr) (lamb_fft v) in
  let urx := fun m => fst (ur (Kx o m) (Ky o m) (vxf v m) (vyf v m)) in
  let ury := fun m => snd (ur (Kx o m) (Ky o m) (vxf v m) (vyf v m)) in
  [("transfer_Kh"%string, fun m => fst (Cconj (vxf v m) * vxf f m)%C + fst (Cconj (vyf v m) * vyf f m)%C);
     ("transfer_Kz"%string, fun m => fst (Cconj (vzf v m) * vzf f m)%C);
     ("transfer_Khr"%string, fun m => fst (Cconj (urx m) * vxf f m)%C + fst (Cconj (ury m) * vyf f m)%C);
     ("diss_Kh"%string, fun m => f_d m * (abs2 (vxf v m) + abs2 (vyf v m)));
     ("diss_Kz"%string, fun m => f_d m * abs2 (vzf v m))].

(** the assertion is true *)
Lemma budget_results : ns3d_budget o ms f_d pr v = Some results.
Proof.
  unfold ns3d_budget. fold (lamb_fft v). cbv zeta.
  rewrite rsum_total. rewrite (total_ext ms _ (fun m => work v m (at_mode (lamb_fft v) m))) by (intros m Hm; apply transfer_work; exact Hm).
  rewrite transfer_sum. destruct (Rlt_dec 0 (/ 10 ^ 14)) as [|H]; [reflexivity|]. exfalso. apply H. apply Rinv_0_lt_compat. apply pow_lt. lra.
Qed.

Lemma saved_transfer shell : shell_of ms shell ->
  saved shell results "transfer_Kh" + saved shell results "transfer_Kz" = total shell (fun m => work v m (at_mode (lamb_fft v) m)).
Proof.
  intros (_ & Hs). cbn [saved results find fst snd String.eqb Ascii.eqb Bool.eqb]. rewrite <- total_plus.
  apply total_ext. intros m Hm. apply transfer_work. apply Hs. exact Hm.
Qed.

Lemma saved_diss shell : saved shell results "diss_Kh" + saved shell results "diss_Kz"
  = total shell (fun m => f_d m * (norm2 (cx v m) + norm2 (cy v m) + norm2 (cz v m))).
Proof.
  cbn [saved results find fst snd String.eqb Ascii.eqb Bool.eqb]. rewrite <- total_plus.
  apply total_ext. intros m _. rewrite !abs2_norm2. unfold cx, cy, cz, vxf, vyf, vzf. ring.
Qed.

Lemma vrate_damped shell F freq : vrate shell v (vdamped freq F v)
  = vrate shell v F - total shell (fun m => freq m * (norm2 (cx v m) + norm2 (cy v m) + norm2 (cz v m))).
Proof.
  unfold vrate. change (cx (vdamped freq F v)) with (damped freq (cx F) (cx v)). change (cy (vdamped freq F v)) with (damped freq (cy F) (cy v)).
  change (cz (vdamped freq F v)) with (damped freq (cz F) (cz v)). rewrite !rate_damped.
  replace (total shell (fun m => freq m * (norm2 (cx v m) + norm2 (cy v m) + norm2 (cz v m))))
    with (total shell (fun m => freq m * (1 * norm2 (cx v m))) + total shell (fun m => freq m * (1 * norm2 (cy v m))) + total shell (fun m => freq m * (1 * norm2 (cz v m)))).
  - ring.
  - rewrite <- !total_plus. apply total_ext. intros m _. ring.
Qed.
End Kinetic.

(** the kinetic energy of a shell: what is dissipated by the hypoviscosity is not in the budget *)
Section Rates.
Variable pr : projection.
Variable nv : bool.
Variable f : option R.
Variable f_h : mode -> R.
Variable v : R -> vfield.
Variable t : R.
Hypothesis Sv : state_3d o ms dea pr nv (v t).
Variable shell : list mode.
Hypothesis Hs : shell_of ms shell.

Theorem c115_ns3d_partial : vmoves ms v t (vdamped (freq_lin (f_d, f_h)) (ns3d o ms dea pr nv f (v t)) (v t)) ->
  exists l, ns3d_budget o ms f_d pr (v t) = Some l
  /\ is_derive (fun s => energy_3d shell (v s)) t
       (saved shell l "transfer_Kh" + saved shell l "transfer_Kz" - (saved shell l "diss_Kh" + saved shell l "diss_Kz")
        - total shell (fun m => f_h m * (norm2 (cx (v t) m) + norm2 (cy (v t) m) + norm2 (cz (v t) m)))).
Proof.
  intros M. exists (results pr (v t)). split; [exact (budget_results pr nv (v t) Sv)|].
  apply (vmoves_shell shell v t _ Hs) in M. eapply is_derive_eq; [exact (derive_vrate shell v t _ M)|].
  rewrite vrate_damped, (saved_transfer pr nv (v t) Sv shell Hs), saved_diss, vrate_work.
  pose proof Hg as (_ & Hsy & _). destruct Sv as (Hr & Ha & Hn).
  rewrite (total_ext shell (fun m => work (v t) m (at_mode (ns3d o ms dea pr nv f (v t)) m)) (fun m => work (v t) m (at_mode (lamb_fft (v t)) m))).
  - unfold Rminus. rewrite Rplus_assoc. f_equal. rewrite <- !total_opp, <- total_plus. apply total_ext. intros m _. unfold freq_lin. cbn [fst snd]. ring.
  - intros m Hm. apply (proj2 Hs) in Hm. unfold ns3d. rewrite (work_project_state pr nv (v t) _ m Hr Hm (Ha m Hm) (Ha _ (proj2 Hsy m Hm)) (Hn m Hm)). apply work_coriolis. exact Hm.
Qed.

(** the energy of the rotational part of the horizontal velocity, without rotation of the frame *)
Lemma ur_rotational w m : ur (Kx o m) (Ky o m) (vxf w m) (vyf w m) = (rotational_x o w m, rotational_y o w m).
Proof.
  unfold ur, ud, kdotu, rmul, inv_Kh, nozero, eqb0, Kh2, rotational_x, rotational_y, sheared, stream. rewrite !(w3x o Ho), !(w3y o Ho).
  change (vxf w m) with (cx w m). change (vyf w m) with (cy w m). generalize (Kx o m) (Ky o m) (cx w m) (cy w m). intros a b [x y] [u z].
  destruct (Req_EM_T (a ^ 2 + b ^ 2) 0) as [E | E].
  - assert (a = 0) by nra. assert (b = 0) by nra. subst. cbn [fst snd]. f_equal; apply C_eq; cbn; ring.
  - cbn [fst snd]. f_equal; apply C_eq; cbn; field; cbn in E; lra.
Qed.

Lemma derive_two (a b : R -> R) t0 x y p q : is_derive a t0 p -> is_derive b t0 q -> is_derive (fun r => x * a r + y * b r) t0 (x * p + y * q).
Proof. intros A B. apply derive_add; apply is_derive_scal; assumption. Qed.

Lemma rotational_moves w t0 F : vmoves shell w t0 F ->
  moves shell (fun s => rotational_x o (w s)) t0 (rotational_x o F) /\ moves shell (fun s => rotational_y o (w s)) t0 (rotational_y o F).
Proof.
  intros (V1 & V2 & _). split; intros m Hm; destruct (V1 m Hm) as [A1 B1]; destruct (V2 m Hm) as [A2 B2]; unfold rotational_x, rotational_y;
    destruct (sheared o m); split; try assumption; unfold stream; set (k2 := / (wx o m ^ 2 + wy o m ^ 2)).
  - apply (is_derive_ext (fun s => wy o m * k2 * wy o m * fst (cx (w s) m) + - wy o m * k2 * wx o m * fst (cy (w s) m))); [intros s; cbn; ring|].
    eapply is_derive_eq; [apply derive_two; eassumption|]. cbn. ring.
  - apply (is_derive_ext (fun s => wy o m * k2 * wy o m * snd (cx (w s) m) + - wy o m * k2 * wx o m * snd (cy (w s) m))); [intros s; cbn; ring|].
    eapply is_derive_eq; [apply derive_two; eassumption|]. cbn. ring.
  - apply (is_derive_ext (fun s => - wx o m * k2 * wy o m * fst (cx (w s) m) + wx o m * k2 * wx o m * fst (cy (w s) m))); [intros s; cbn; ring|].
    eapply is_derive_eq; [apply derive_two; eassumption|]. cbn. ring.
  - apply (is_derive_ext (fun s => - wx o m * k2 * wy o m * snd (cx (w s) m) + wx o m * k2 * wx o m * snd (cy (w s) m))); [intros s; cbn; ring|].
    eapply is_derive_eq; [apply derive_two; eassumption|]. cbn. ring.
Qed.

(** the part of F which is not rotational does no work *)
Lemma rotational_work w F m :
  fst (rotational_x o w m) * fst (rotational_x o F m) + snd (rotational_x o w m) * snd (rotational_x o F m)
  + (fst (rotational_y o w m) * fst (rotational_y o F m) + snd (rotational_y o w m) * snd (rotational_y o F m))
  = fst (Cconj (rotational_x o w m) * cx F m)%C + fst (Cconj (rotational_y o w m) * cy F m)%C.
Proof.
  unfold rotational_x, rotational_y, stream, sheared. generalize (wx o m) (wy o m) (cx w m) (cy w m) (cx F m) (cy F m).
  intros a b [x y] [u z] [p q] [r s]. destruct (Req_EM_T (a ^ 2 + b ^ 2) 0) as [E | E]; cbn; [ring|]. field. cbn in E. lra.
Qed.

Lemma rotational_damped freq w F m : rotational_x o (vdamped freq F w) m = (rotational_x o F m - RtoC (freq m) * rotational_x o w m)%C
  /\ rotational_y o (vdamped freq F w) m = (rotational_y o F m - RtoC (freq m) * rotational_y o w m)%C.
Proof.
  unfold rotational_x, rotational_y, stream. change (cx (vdamped freq F w)) with (damped freq (cx F) (cx w)). change (cy (vdamped freq F w)) with (damped freq (cy F) (cy w)).
  unfold damped. destruct (sheared o m); split; ring.
Qed.

Theorem c115_rotational : f = None -> vmoves ms v t (vdamped (freq_lin (f_d, f_h)) (ns3d o ms dea pr nv f (v t)) (v t)) ->
  exists l, ns3d_budget o ms f_d pr (v t) = Some l
  /\ is_derive (fun s => square shell (rotational_x o (v s)) + square shell (rotational_y o (v s))) t
       (saved shell l "transfer_Khr"
        - total shell (fun m => (f_d m + f_h m) * (norm2 (rotational_x o (v t) m) + norm2 (rotational_y o (v t) m)))).
Proof.
  intros -> M. exists (results pr (v t)). split; [exact (budget_results pr nv (v t) Sv)|].
  apply (vmoves_shell shell v t _ Hs) in M. apply rotational_moves in M. destruct M as [M1 M2].
  eapply is_derive_eq; [apply derive_add; [exact (derive_1 shell _ t _ M1) | exact (derive_1 shell _ t _ M2)]|].
  cbn [saved results find fst snd String.eqb Ascii.eqb Bool.eqb]. unfold Rminus. rewrite <- total_opp, <- total_plus. unfold rate. rewrite <- total_plus.
  apply total_ext. intros m Hm. cbv beta zeta. rewrite ur_rotational. cbn [fst snd].
  destruct (rotational_damped (freq_lin (f_d, f_h)) (v t) (ns3d o ms dea pr nv None (v t)) m) as [-> ->].
  set (F := ns3d o ms dea pr nv None (v t)).
  transitivity (fst (Cconj (rotational_x o (v t) m) * cx F m)%C + fst (Cconj (rotational_y o (v t) m) * cy F m)%C
    - freq_lin (f_d, f_h) m * (norm2 (rotational_x o (v t) m) + norm2 (rotational_y o (v t) m))).
  - rewrite <- rotational_work. generalize (rotational_x o (v t) m) (rotational_y o (v t) m) (rotational_x o F m) (rotational_y o F m).
    intros [x y] [u z] [p q] [r s]. unfold norm2. cbn. ring.
  - unfold freq_lin. cbn [fst snd].
    enough (E : fst (Cconj (rotational_x o (v t) m) * cx F m)%C + fst (Cconj (rotational_y o (v t) m) * cy F m)%C
      = fst (Cconj (rotational_x o (v t) m) * vxf (on_modes (projector o pr) (lamb_fft (v t))) m)%C
        + fst (Cconj (rotational_y o (v t) m) * vyf (on_modes (projector o pr) (lamb_fft (v t))) m)%C) by (rewrite E; ring).
    apply (proj2 Hs) in Hm. destruct Sv as (_ & _ & Hn). unfold F, ns3d, vdealiasing, dealiasing, project_state, cx, cy, vxf, vyf. cbn [fst snd modif_omega].
    destruct (dea m) eqn:D; [|reflexivity]. destruct (Hn m Hm D) as (N1 & N2 & _).
    assert (Zx : rotational_x o (v t) m = RtoC 0) by (unfold rotational_x, stream; rewrite N1, N2; destruct (sheared o m); [reflexivity|ring]).
    assert (Zy : rotational_y o (v t) m = RtoC 0) by (unfold rotational_y, stream; rewrite N1, N2; destruct (sheared o m); [reflexivity|ring]).
    rewrite Zx, Zy, !work_zero. reflexivity.
Qed.
End Rates.

(** without hypoviscosity *)
Theorem c115_ns3d_no_hypo_partial pr nv f v t shell : state_3d o ms dea pr nv (v t) -> shell_of ms shell ->
  vmoves ms v t (vdamped (freq_lin (f_d, fun _ => 0)) (ns3d o ms dea pr nv f (v t)) (v t)) ->
  exists l, ns3d_budget o ms f_d pr (v t) = Some l
  /\ is_derive (fun s => energy_3d shell (v s)) t
       (saved shell l "transfer_Kh" + saved shell l "transfer_Kz" - (saved shell l "diss_Kh" + saved shell l "diss_Kz")).
Proof.
  intros Sv Hs M. destruct (c115_ns3d_partial pr nv f (fun _ => 0) v t Sv shell Hs M) as (l & E & D). exists l. split; [exact E|].
  eapply is_derive_eq; [exact D|]. rewrite total_zero. ring.
Qed.

(** the assertion of the code never fails *)
Theorem c115_ns3d_sum pr nv v : state_3d o ms dea pr nv v ->
  exists l, ns3d_budget o ms f_d pr v = Some l /\ saved ms l "transfer_Kh" + saved ms l "transfer_Kz" = 0.
Proof.
  intros Sv. exists (results pr v). split; [exact (budget_results pr nv v Sv)|].
  rewrite (saved_transfer pr nv v Sv ms (all_modes o ms Hg)). apply (transfer_sum pr nv). exact Sv.
Qed.

(** ** ns3d.strat *)

Section Strat.
Variable N : R.
Hypothesis HN : N <> 0.
Variable pr : projection.
Variable nv : bool.

(** the buoyancy of a simulation: truncated, zero for kz = 0 with no_vz_kz0 *)
Definition buoyancy_3d (b : field) : Prop :=
  (nv = true -> forall m, In m ms -> mz m = 0%Z -> b m = RtoC 0) /\ (forall m, In m ms -> dea m = true -> b m = RtoC 0).

Lemma strat_results v b : state_3d o ms dea pr nv v ->
  exists w, ns3d_strat_budget o ms f_d pr N (v, b) = Some (results pr v ++
        [("diss_A"%string, fun m => 1 / N ^ 2 * f_d m * abs2 (b m));
         ("conv_K2A"%string, fun m => - fst (Cconj (vzf v m) * b m)%C);
         ("transfer_A"%string, fun m => fst (Cconj (b m) * (RtoC (-1 / N ^ 2) * div_vb_fft o (vifft o ms v) (ifft o ms b) m))%C)], w)
  /\ (w = true <-> / 10 ^ 12 < total ms (fun m => fst (Cconj (b m) * (RtoC (-1 / N ^ 2) * div_vb_fft o (vifft o ms v) (ifft o ms b) m))%C)).
Proof.
  intros Sv. unfold ns3d_strat_budget. rewrite (budget_results pr nv v Sv). destruct (Req_EM_T N 0); [contradiction|]. cbv zeta.
  eexists. split; [reflexivity|]. rewrite rsum_total. destruct (Rlt_dec _ _) as [L|L]; split; auto; discriminate || contradiction.
Qed.

Variable f : option R.
Variable f_h : mode -> R.
Variable v : R -> vfield.
Variable b : R -> field.
Variable t : R.
Hypothesis Sv : state_3d o ms dea pr nv (v t).
Hypothesis Sb : buoyancy_3d (b t).
Variable shell : list mode.
Hypothesis Hs : shell_of ms shell.

Theorem c115_strat_kinetic_partial :
  vmoves ms v t (vdamped (freq_lin (f_d, f_h)) (fst (ns3d_strat o ms dea pr nv f N (v t, b t))) (v t)) ->
  exists l w, ns3d_strat_budget o ms f_d pr N (v t, b t) = Some (l, w)
  /\ is_derive (fun s => energy_3d shell (v s)) t
       (saved shell l "transfer_Kh" + saved shell l "transfer_Kz" - saved shell l "conv_K2A" - (saved shell l "diss_Kh" + saved shell l "diss_Kz")
        - total shell (fun m => f_h m * (norm2 (cx (v t) m) + norm2 (cy (v t) m) + norm2 (cz (v t) m)))).
Proof.
  intros M. destruct (strat_results (v t) (b t) Sv) as (w & E & _). eexists. exists w. split; [exact E|].
  apply (vmoves_shell shell v t _ Hs) in M. eapply is_derive_eq; [exact (derive_vrate shell v t _ M)|].
  pose proof (saved_transfer pr nv (v t) Sv shell Hs) as E1. pose proof (saved_diss pr (v t) shell) as E2.
  cbn [saved results app find fst snd String.eqb Ascii.eqb Bool.eqb] in E1, E2 |- *. rewrite E1, E2.
  rewrite vrate_damped, vrate_work, total_opp.
  pose proof Hg as (_ & Hsy & _). destruct Sv as (Hr & Ha & Hn).
  rewrite (total_ext shell (fun m => work (v t) m (at_mode (fst (ns3d_strat o ms dea pr nv f N (v t, b t))) m))
    (fun m => work (v t) m (at_mode (lamb_fft (v t)) m) + fst (Cconj (vzf (v t) m) * b t m)%C)).
  - rewrite total_plus.
    rewrite (total_ext shell (fun m => freq_lin (f_d, f_h) m * (norm2 (cx (v t) m) + norm2 (cy (v t) m) + norm2 (cz (v t) m)))
      (fun m => f_d m * (norm2 (cx (v t) m) + norm2 (cy (v t) m) + norm2 (cz (v t) m)) + f_h m * (norm2 (cx (v t) m) + norm2 (cy (v t) m) + norm2 (cz (v t) m))))
      by (intros; unfold freq_lin; cbn [fst snd]; ring).
    rewrite total_plus. ring.
  - intros m Hm. apply (proj2 Hs) in Hm. unfold ns3d_strat. cbn [fst].
    rewrite (work_project_state pr nv (v t) _ m Hr Hm (Ha m Hm) (Ha _ (proj2 Hsy m Hm)) (Hn m Hm)).
    unfold lamb_fft. rewrite <- (work_coriolis f (v t) m Hm). set (g := vfft o _). unfold work, at_mode, vxf, vyf, vzf. cbn [fst snd].
    generalize (fst (fst g) m) (snd (fst g) m) (snd g m) (fst (fst (v t)) m) (snd (fst (v t)) m) (snd (v t) m) (b t m).
    intros [a1 a2] [b1 b2] [c1 c2] [d1 d2] [e1 e2] [g1 g2] [x1 x2]. cbn. ring.
Qed.

Theorem c115_strat_potential_partial :
  moves ms b t (damped (freq_lin (f_d, f_h)) (snd (ns3d_strat o ms dea pr nv f N (v t, b t))) (b t)) ->
  exists l w, ns3d_strat_budget o ms f_d pr N (v t, b t) = Some (l, w)
  /\ is_derive (fun s => square shell (b s) / N ^ 2) t
       (saved shell l "transfer_A" + saved shell l "conv_K2A" - saved shell l "diss_A" - total shell (fun m => f_h m * norm2 (b t m)) / N ^ 2).
Proof.
  intros M. destruct (strat_results (v t) (b t) Sv) as (w & E & _). eexists. exists w. split; [exact E|].
  apply (moves_shell ms shell _ _ _ Hs) in M. eapply is_derive_eq; [exact (derive_div _ t _ N (derive_1 shell b t _ M))|].
  cbn [saved results app find fst snd String.eqb Ascii.eqb Bool.eqb]. rewrite rate_damped. unfold rate, Rminus, Rdiv.
  rewrite <- !total_opp, <- !total_plus. rewrite !(Rmult_comm _ (/ N ^ 2)), <- !total_scal, <- total_opp, <- total_plus.
  apply total_ext. intros m Hm. apply (proj2 Hs) in Hm. rewrite abs2_norm2. unfold freq_lin. cbn [fst snd].
  destruct Sb as (B1 & B2).
  transitivity (/ N ^ 2 * (1 * (fst (b t m) * fst (- div_vb_fft o (vifft o ms (v t)) (ifft o ms (b t)) m - RtoC (N ^ 2) * vzf (v t) m)%C
     + snd (b t m) * snd (- div_vb_fft o (vifft o ms (v t)) (ifft o ms (b t)) m - RtoC (N ^ 2) * vzf (v t) m)%C) + - ((f_d m + f_h m) * (1 * norm2 (b t m))))).
  - f_equal. f_equal. f_equal. unfold ns3d_strat. cbn [snd]. unfold dealiasing, zero_kz0. destruct (dea m) eqn:D; [rewrite (B2 m Hm D); cbn [fst snd RtoC]; ring|].
    destruct nv; cbn [andb]; [|reflexivity]. destruct (mz m =? 0)%Z eqn:Z; [|reflexivity]. apply Z.eqb_eq in Z. rewrite (B1 eq_refl m Hm Z). cbn [fst snd RtoC]. ring.
  - unfold norm2. generalize (div_vb_fft o (vifft o ms (v t)) (ifft o ms (b t)) m) (vzf (v t) m) (b t m). intros [x1 x2] [y1 y2] [z1 z2]. cbn. field. exact HN.
Qed.

Theorem c115_strat_sum : real_field ms (b t) ->
  exists l, ns3d_strat_budget o ms f_d pr N (v t, b t) = Some (l, false)
  /\ saved ms l "transfer_Kh" + saved ms l "transfer_Kz" = 0 /\ saved ms l "transfer_A" = 0.
Proof.
  intros Rb. destruct (strat_results (v t) (b t) Sv) as (w & E & W).
  assert (Z : total ms (fun m => fst (Cconj (b t m) * (RtoC (-1 / N ^ 2) * div_vb_fft o (vifft o ms (v t)) (ifft o ms (b t)) m))%C) = 0).
  { rewrite (total_ext ms _ (fun m => -1 / N ^ 2 * fst (Cconj (b t m) * div_vb_fft o (vifft o ms (v t)) (ifft o ms (b t)) m)%C)).
    2:{ intros m _. generalize (div_vb_fft o (vifft o ms (v t)) (ifft o ms (b t)) m) (b t m). intros [x1 x2] [z1 z2]. cbn. ring. }
    rewrite total_scal. rewrite (total_lsum ms _ (fun m => b t (mopp m) * div_vb_fft o (vifft o ms (v t)) (ifft o ms (b t)) m)%C).
    - rewrite (transport o ms Hg) by (intros m Hm; apply Sv; exact Hm). cbn. ring.
    - intros m Hm. rewrite (Rb m Hm). reflexivity. }
  rewrite Z in W. assert (w = false).
  { destruct w; [|reflexivity]. exfalso. destruct W as [W _]. specialize (W eq_refl). revert W. apply Rle_not_lt. left. apply Rinv_0_lt_compat. apply pow_lt. lra. }
  subst w. eexists. split; [exact E|].
  pose proof (saved_transfer pr nv (v t) Sv ms (all_modes o ms Hg)) as E1. rewrite (transfer_sum pr nv (v t) Sv) in E1.
  cbn [saved results app find fst snd String.eqb Ascii.eqb Bool.eqb] in E1 |- *. split; [exact E1 | exact Z].
Qed.
End Strat.
End Seb3P.

(** ** With hypoviscosity *)

(** velocity cos(x) along y *)
Definition column (m : mode) : C := if ((Z.abs (mx m) =? 1) && (my m =? 0) && (mz m =? 0))%Z then RtoC 1 else RtoC 0.
Definition wave_y : vfield := (fun _ => RtoC 0, column, fun _ => RtoC 0).

Lemma column_opp m : column (mopp m) = column m.
Proof.
  unfold column, mopp, mx, my, mz. cbn [fst snd]. rewrite Z.abs_opp.
  replace (- snd (fst m) =? 0)%Z with (snd (fst m) =? 0)%Z by (apply eq_true_iff_eq; rewrite !Z.eqb_eq; lia).
  replace (- snd m =? 0)%Z with (snd m =? 0)%Z by (apply eq_true_iff_eq; rewrite !Z.eqb_eq; lia). reflexivity.
Qed.

Lemma column_real m : Cconj (column m) = column m.
Proof. unfold column. destruct (_ && _); apply C_eq; cbn; ring. Qed.

Lemma wave_y_state ms : state_3d o8 ms (fun _ => false) Perp false wave_y.
Proof.
  split; [|split; [|discriminate]].
  - split; [|split]; intros m _; unfold cx, cy, cz, wave_y; cbn [fst snd]; rewrite ?column_opp, ?column_real; try reflexivity; apply C_eq; cbn; ring.
  - intros m _. split; [|split; [exact I | discriminate]]. unfold solenoidal, cx, cy, cz, wave_y. cbn [fst snd]. unfold column.
    destruct ((Z.abs (mx m) =? 1) && (my m =? 0) && (mz m =? 0))%Z eqn:E; [|ring].
    apply andb_prop in E. destruct E as [E _]. apply andb_prop in E. destruct E as [_ E]. apply Z.eqb_eq in E.
    unfold wy. rewrite E. replace (2 * PI * 0 / Ly o8) with 0 by (unfold Rdiv; ring). ring.
Qed.

Definition vline (t : R) (a b : vfield) : R -> vfield := fun s => (line t (cx a) (cx b) s, line t (cy a) (cy b) s, line t (cz a) (cz b) s).
Lemma vline_at t a b : vline t a b t = a.
Proof. unfold vline. rewrite !line_at. symmetry. apply surjective_triple. Qed.
Lemma vline_moves ms t a b : vmoves ms (vline t a b) t b.
Proof. split; [|split]; apply line_moves. Qed.

(** the budget of the documentation is wrong with a hypoviscosity nu_m4 *)
Theorem c115_ns3d_refuted : exists o ms nu fs v l m, good_modes o ms /\ In m ms /\ 0 <= nu_2 nu /\ 0 <= nu_4 nu /\ 0 <= nu_8 nu /\ 0 < nu_m4 nu
  /\ compute_freq_diss 3 (/ 10 ^ 14) o (1, 0, 0)%Z nu = Some fs
  /\ state_3d o ms (fun _ => false) Perp false (v 0)
  /\ vmoves ms v 0 (vdamped (freq_lin fs) (ns3d o ms (fun _ => false) Perp false None (v 0)) (v 0))
  /\ ns3d_budget o ms (fst fs) Perp (v 0) = Some l
  /\ ~ is_derive (fun s => energy_3d [m] (v s)) 0
       (saved [m] l "transfer_Kh" + saved [m] l "transfer_Kz" - (saved [m] l "diss_Kh" + saved [m] l "diss_Kz")).
Proof.
  destruct o8_modes as (ms & Hg & Hin). set (nu := {| nu_2 := 0; nu_4 := 0; nu_8 := 0; nu_m4 := 1 |}).
  destruct (compute_freq_diss 3 (/ 10 ^ 14) o8 (1, 0, 0)%Z nu) as [fs|] eqn:Ef.
  2:{ exfalso. revert Ef. unfold compute_freq_diss, nu. cbn [nu_2 nu_4 nu_8 nu_m4]. destruct (Req_EM_T 1 0); [lra|]. cbn. discriminate. }
  assert (Eh : snd fs (1, 0, 0)%Z = 1).
  { revert Ef. unfold compute_freq_diss, nu. cbn [nu_2 nu_4 nu_8 nu_m4]. destruct (Req_EM_T 1 0); [lra|]. cbn [K2_not0_dim]. intros Ef. injection Ef as <-. cbn [snd].
    replace (is_mode0 (1, 0, 0)%Z) with false by reflexivity. cbv beta. rewrite (K2_dim_k2 3 o8) by apply o8_pos.
    assert (K : k2 3 o8 (1, 0, 0)%Z = 1) by (pose proof PI_RGT_0; unfold k2, wx, wy, wz, mx, my, mz, o8; cbn [fst snd Lx Ly Lz]; field; lra).
    rewrite K. field. }
  set (F := vdamped (freq_lin fs) (ns3d o8 ms (fun _ => false) Perp false None wave_y) wave_y).
  set (v := vline 0 wave_y F).
  assert (V0 : v 0 = wave_y) by apply vline_at.
  assert (M : vmoves ms v 0 F) by apply vline_moves.
  pose proof (wave_y_state ms) as St.
  assert (Sh : shell_of ms [(1, 0, 0)%Z]) by (split; [repeat constructor; intros [] | intros m [<-|[]]; exact Hin]).
  destruct fs as [fd fh]. cbn [fst snd] in Eh.
  assert (St' : state_3d o8 ms (fun _ => false) Perp false (v 0)) by (rewrite V0; exact St).
  assert (M' : vmoves ms v 0 (vdamped (freq_lin (fd, fh)) (ns3d o8 ms (fun _ => false) Perp false None (v 0)) (v 0))) by (rewrite V0; exact M).
  destruct (c115_ns3d_partial o8 ms (fun _ => false) Hg fd Perp false None fh v 0 St' _ Sh M') as (l & El & D).
  exists o8, ms, nu, (fd, fh), v, l, (1, 0, 0)%Z. cbn [nu_2 nu_4 nu_8 nu_m4 nu fst].
  split; [exact Hg|]. split; [exact Hin|]. split; [lra|]. split; [lra|]. split; [lra|]. split; [lra|]. split; [exact Ef|].
  split; [exact St'|]. split; [exact M'|]. split; [exact El|].
  intros D'. pose proof (derive_unique _ 0 _ _ D D') as U. rewrite V0 in U.
  assert (X : total [(1, 0, 0)%Z] (fun m => fh m * (norm2 (cx wave_y m) + norm2 (cy wave_y m) + norm2 (cz wave_y m))) = 1).
  { cbn [total fold_right]. rewrite Eh. unfold cx, cy, cz, wave_y, column, norm2, mx, my, mz. cbn. ring. }
  rewrite X in U. assert (G : forall x : R, x - 1 = x -> False) by (intros; lra). exact (G _ U).
Qed.

(** ** Examples: the hypotheses are met *)

Example c115_example : exists ms v, good_modes o8 ms /\ shell_of ms [(1, 0, 0)%Z] /\ state_3d o8 ms (fun _ => false) Perp false (v 0)
  /\ vmoves ms v 0 (vdamped (freq_lin (fun _ => 2, fun _ => 0)) (ns3d o8 ms (fun _ => false) Perp false (Some 1) (v 0)) (v 0))
  /\ forall l, ns3d_budget o8 ms (fun _ => 2) Perp (v 0) = Some l -> saved [(1, 0, 0)%Z] l "diss_Kh" = 2.
Proof.
  destruct o8_modes as (ms & Hg & Hin). pose proof (wave_y_state ms) as St.
  exists ms, (vline 0 wave_y (vdamped (freq_lin (fun _ => 2, fun _ => 0)) (ns3d o8 ms (fun _ => false) Perp false (Some 1) wave_y) wave_y)).
  rewrite !vline_at. split; [exact Hg|]. split; [split; [repeat constructor; intros []|intros m [<-|[]]; exact Hin]|].
  split; [exact St|]. split; [apply vline_moves|]. intros l E. rewrite (budget_results o8 ms (fun _ => false) Hg (fun _ => 2) Perp false wave_y St) in E. injection E as <-.
  cbn [saved results find fst snd String.eqb Ascii.eqb Bool.eqb total fold_right]. rewrite !abs2_norm2. unfold wave_y, vxf, vyf, column, norm2, mx, my, mz. cbn. ring.
Qed.

Example c115_rotational_example : exists ms v, good_modes o8 ms /\ shell_of ms [(1, 0, 0)%Z] /\ state_3d o8 ms (fun _ => false) Perp false (v 0)
  /\ vmoves ms v 0 (vdamped (freq_lin (fun _ => 2, fun _ => 0)) (ns3d o8 ms (fun _ => false) Perp false None (v 0)) (v 0)) /\ rotational_y o8 (v 0) (1, 0, 0)%Z <> RtoC 0.
Proof.
  destruct o8_modes as (ms & Hg & Hin). pose proof (wave_y_state ms) as St.
  exists ms, (vline 0 wave_y (vdamped (freq_lin (fun _ => 2, fun _ => 0)) (ns3d o8 ms (fun _ => false) Perp false None wave_y) wave_y)).
  rewrite !vline_at. split; [exact Hg|]. split; [split; [repeat constructor; intros []|intros m [<-|[]]; exact Hin]|].
  split; [exact St|]. split; [apply vline_moves|].
  assert (W1 : wx o8 (1, 0, 0)%Z = 1) by (unfold wx, mx; cbn; field; apply PI_neq0). assert (W2 : wy o8 (1, 0, 0)%Z = 0) by (unfold wy, my; cbn; field; apply PI_neq0).
  unfold rotational_y, sheared, stream. rewrite W1, W2. destruct (Req_EM_T (1 ^ 2 + 0 ^ 2) 0) as [E|_]; [lra|]. intros E. apply (f_equal fst) in E. cbn in E.
  replace (0 * (0 * 1)) with 0 in E by ring. lra.
Qed.

Example c115_strat_example : exists ms v b, good_modes o8 ms /\ shell_of ms [(1, 0, 0)%Z] /\ state_3d o8 ms (fun _ => false) Perp false (v 0)
  /\ buoyancy_3d ms (fun _ => false) false (b 0) /\ real_field ms (b 0) /\ b 0 (1, 0, 0)%Z = RtoC 1
  /\ vmoves ms v 0 (vdamped (freq_lin (fun _ => 2, fun _ => 1)) (fst (ns3d_strat o8 ms (fun _ => false) Perp false None 1 (v 0, b 0))) (v 0))
  /\ moves ms b 0 (damped (freq_lin (fun _ => 2, fun _ => 1)) (snd (ns3d_strat o8 ms (fun _ => false) Perp false None 1 (v 0, b 0))) (b 0)).
Proof.
  destruct o8_modes as (ms & Hg & Hin). pose proof (wave_y_state ms) as St.
  exists ms, (vline 0 wave_y (vdamped (freq_lin (fun _ => 2, fun _ => 1)) (fst (ns3d_strat o8 ms (fun _ => false) Perp false None 1 (wave_y, column))) wave_y)),
    (line 0 column (damped (freq_lin (fun _ => 2, fun _ => 1)) (snd (ns3d_strat o8 ms (fun _ => false) Perp false None 1 (wave_y, column))) column)).
  rewrite !vline_at, !line_at. split; [exact Hg|]. split; [split; [repeat constructor; intros []|intros m [<-|[]]; exact Hin]|].
  split; [exact St|]. split; [split; discriminate|]. split; [intros m _; rewrite column_opp, column_real; reflexivity|]. split; [reflexivity|].
  split; [apply vline_moves | apply line_moves].
Qed.

Print Assumptions c115_ns3d_partial.
Print Assumptions c115_rotational.
Print Assumptions c115_ns3d_no_hypo_partial.
Print Assumptions c115_ns3d_sum.
Print Assumptions c115_strat_kinetic_partial.
Print Assumptions c115_strat_potential_partial.
Print Assumptions c115_strat_sum.
Print Assumptions c115_ns3d_refuted.
