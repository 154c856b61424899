(** * C58, C59: the tendencies and the arrays given by the time schemes

    C58: tendencies_nonlin gives the tendencies of the state it was given, whatever the
    array in which they are written (in particular [old is state_spect], as in the
    RK2_phaseshift_random and RK2_phaseshift_exact schemes).

    C59: when a state is given, the result depends on nothing else. *)

From Coq Require Import List Bool Arith Lia ZArith.
From Verif Require Import InPlace_Model InPlace_Spec.
Import ListNotations.

(** [computes_if ok prog phys spec nph nvar]: called with a state argument and an output array
    such that [ok], the program leaves in the [nvar] output variables the tendencies [spec] of
    the variables of the given state.  If no state is given, the [nph] arrays of state_phys are
    supposed to be the physical variables [phys] of the state of the simulation (this is what
    statephys_from_statespect does at the end of each time step).  If a state is given,
    nothing is supposed on state_phys, on the state of the simulation and on the temporary
    arrays.  Moreover the program does not modify the state unless it is the output,
    and never modifies state_phys. *)
Definition computes_if {V} (ok : src -> bool -> Prop)
  (prog : src -> bool -> store V -> store V)
  (phys spec : (nat -> V) -> nat -> V) (nph nvar : nat) : Prop :=
  forall a same (s : store V),
    ok a same ->
    (a = SNone -> forall k, k < nph -> s (Ph k) = phys (fun j => s (Sim j)) k) ->
    (forall k, k < nvar -> prog a same s (out a same k) = spec (fun j => s (st a j)) k)
    /\ (same = false -> forall k, prog a same s (st a k) = s (st a k))
    /\ (a = SOther -> forall k, prog a same s (Sim k) = s (Sim k))
    /\ (forall k, prog a same s (Ph k) = s (Ph k)).

(** every combination of arguments *)
Definition computes {V} := @computes_if V (fun _ _ => True).
(** the output array is not the state *)
Definition computes_apart {V} := @computes_if V (fun _ same => same = false).
(** the state is the one of the simulation *)
Definition computes_sim {V} := @computes_if V (fun a _ => a <> SOther).

Ltac run_prog cases :=
  intros a same s Hok Hph;
  cases; destruct same; try discriminate;
  destruct a; try congruence; clear Hok;
  try (pose proof (Hph eq_refl 0 ltac:(lia)) as H0; cbn in H0);
  try (pose proof (Hph eq_refl 1 ltac:(lia)) as H1; cbn in H1);
  try (pose proof (Hph eq_refl 2 ltac:(lia)) as H2; cbn in H2);
  try (pose proof (Hph eq_refl 3 ltac:(lia)) as H3; cbn in H3);
  clear Hph;
  ((split; [| split; [| split]]);
  [ intros k Hk;
    repeat (destruct k as [|k];
            [ solve [vm_compute; repeat match goal with H : _ = _ |- _ => rewrite H end; reflexivity]
            | try (exfalso; lia) ])
  | first [intros; discriminate | intros _ k; vm_compute; reflexivity]
  | first [intros; discriminate | intros _ k; vm_compute; reflexivity]
  | intros k; vm_compute; reflexivity ]).

Section C58.

Variable V : Type.
Variable ifft fft : V -> V.
Variable plus : V -> V -> V.
Variable neg : V -> V.
Variable zero : V.
Variable dealias : V -> V.
Variable destroyed : V -> V.
Variable forcing : option (nat -> V).
Variable vfrx vfry gx gy : V -> V.
Variable k_Frot : V -> V -> V -> V -> V.
Variable k_rot6 k_b6 : V -> V -> V -> V -> V -> V -> V.
Variable rotf : V -> V -> V.
Variable rotx roty rotz : V -> V -> V -> V.
Variable modif_f : option (V -> V).
Variable crossx crossy crossz : V -> V -> V -> V -> V -> V -> V.
Variable projx projy projz : V -> V -> V -> V.
Variable no_vz_kz0 : option (V -> V).
Variable turb : option (nat -> V -> V -> V -> V).
Variable div_vb : V -> V -> V -> V -> V.
Variable k_fb : V -> V -> V.
Variable monge : V -> V -> V.
Variable invlap4 lap4 : V -> V.
Variable k_F1x k_F1y k_pressure : V -> V -> V -> V.
Variable k_flux divf : V -> V -> V.
Variable k_NL k_adv : V -> V -> V -> V -> V.
Variable k_FC : bool -> V -> V.
Variable c2mul : V -> V.
Variable uxf uyf etaf : V -> V -> V -> V.
Variable k_rotq k_N1x k_N1y k_ke k_mul : V -> V -> V.
Variable half : V -> V.
Variable toq top tom : V -> V -> V -> V.
Variable rotfft_from_q rotfft_from_a : V -> V.
Variable px : V -> V.
Variable k_burgers k_skew : V -> V -> V.
Variable oddball k_cons k_square k_nl1d : V -> V.

Theorem c58_ns2d :
  computes (tendencies_ns2d V ifft fft plus dealias forcing vfrx vfry gx gy k_Frot)
    (phys_rot V ifft vfrx vfry)
    (spec_ns2d V ifft fft plus dealias forcing vfrx vfry gx gy k_Frot) 2 1.
Proof. run_prog ltac:(destruct forcing). Qed.

Theorem c58_ns2d_strat :
  computes (tendencies_ns2d_strat V ifft fft plus dealias forcing vfrx vfry gx gy k_rot6 k_b6)
    (phys_rot V ifft vfrx vfry)
    (spec_ns2d_strat V ifft fft plus dealias forcing vfrx vfry gx gy k_rot6 k_b6) 2 2.
Proof. run_prog ltac:(destruct forcing). Qed.

Theorem c58_ns2d_bouss :
  computes (tendencies_ns2d_bouss V ifft fft plus dealias forcing vfrx vfry gx gy k_rot6 k_b6)
    (phys_rot V ifft vfrx vfry)
    (spec_ns2d_bouss V ifft fft plus dealias forcing vfrx vfry gx gy k_rot6 k_b6) 2 2.
Proof. run_prog ltac:(destruct forcing). Qed.

Theorem c58_with_uxuy :
  computes (tendencies_with_uxuy V ifft fft plus dealias forcing vfrx vfry gx gy k_Frot rotf)
    (phys_each V ifft)
    (spec_with_uxuy V ifft fft plus dealias forcing vfrx vfry gx gy k_Frot rotf) 2 2.
Proof. run_prog ltac:(destruct forcing). Qed.

(** ns3d without subgrid model: any output array *)
Theorem c58_ns3d :
  computes (tendencies_ns3d V ifft fft plus dealias destroyed forcing rotx roty rotz modif_f crossx crossy crossz projx projy projz no_vz_kz0 None)
    (phys_each V ifft)
    (spec_ns3d V ifft fft plus dealias forcing rotx roty rotz modif_f crossx crossy crossz projx projy projz no_vz_kz0 None) 3 3.
Proof. run_prog ltac:(destruct forcing; destruct modif_f; destruct no_vz_kz0). Qed.

(** with a subgrid model: if the output array is not the state *)
Theorem c58_ns3d_turb_model_partial :
  computes_apart (tendencies_ns3d V ifft fft plus dealias destroyed forcing rotx roty rotz modif_f crossx crossy crossz projx projy projz no_vz_kz0 turb)
    (phys_each V ifft)
    (spec_ns3d V ifft fft plus dealias forcing rotx roty rotz modif_f crossx crossy crossz projx projy projz no_vz_kz0 turb) 3 3.
Proof. run_prog ltac:(destruct forcing; destruct modif_f; destruct no_vz_kz0; destruct turb). Qed.

Theorem c58_ns3d_bouss :
  computes (tendencies_ns3d_bouss V ifft fft plus neg dealias forcing rotx roty rotz modif_f crossx crossy crossz projx projy projz no_vz_kz0 div_vb)
    (phys_each V ifft)
    (spec_ns3d_bouss V ifft fft plus neg dealias forcing rotx roty rotz modif_f crossx crossy crossz projx projy projz no_vz_kz0 div_vb) 4 4.
Proof. run_prog ltac:(destruct forcing; destruct modif_f; destruct no_vz_kz0). Qed.

(** ns3d.strat: only if the output array is not the state *)
Theorem c58_ns3d_strat_partial :
  computes_apart (tendencies_ns3d_strat V ifft fft plus dealias forcing rotx roty rotz modif_f crossx crossy crossz projx projy projz no_vz_kz0 div_vb k_fb)
    (phys_each V ifft)
    (spec_ns3d_strat V ifft fft plus dealias forcing rotx roty rotz modif_f crossx crossy crossz projx projy projz no_vz_kz0 div_vb k_fb) 4 4.
Proof. run_prog ltac:(destruct forcing; destruct modif_f; destruct no_vz_kz0). Qed.

(** plate2d: only if the output array is not the state *)
Theorem c58_plate2d_partial :
  computes_apart (tendencies_plate2d V plus neg dealias forcing monge invlap4 lap4)
    (phys_each V ifft)
    (spec_plate2d V plus neg dealias forcing monge invlap4 lap4) 0 2.
Proof. run_prog ltac:(destruct forcing). Qed.

Theorem c58_sw1l :
  computes (tendencies_sw1l V ifft fft plus neg dealias forcing gx gy rotf k_F1x k_F1y k_pressure k_flux divf)
    (phys_sw1l V ifft rotf)
    (spec_sw1l V ifft fft plus neg dealias forcing gx gy rotf k_F1x k_F1y k_pressure k_flux divf) 4 3.
Proof. run_prog ltac:(destruct forcing). Qed.

Theorem c58_sw1l_modified :
  computes (tendencies_sw1l_modified V ifft fft plus neg dealias forcing vfrx vfry gx gy rotf divf k_NL k_FC c2mul k_adv)
    (phys_sw1l V ifft rotf)
    (spec_sw1l_modified V ifft fft plus neg dealias forcing vfrx vfry gx gy rotf divf k_NL k_adv k_FC c2mul) 4 3.
Proof. run_prog ltac:(destruct forcing). Qed.

Theorem c58_sw1l_exactlin :
  computes (tendencies_sw1l_exactlin V ifft fft plus neg dealias forcing gx gy divf uxf uyf etaf k_rotq k_N1x k_N1y k_ke half k_mul toq top tom)
    (phys_exactlin V ifft uxf uyf etaf k_rotq)
    (spec_exactlin V ifft fft plus neg dealias forcing gx gy divf uxf uyf etaf k_rotq k_N1x k_N1y k_ke k_mul half toq top tom) 4 3.
Proof. run_prog ltac:(destruct forcing). Qed.

(** sw1l.exactlin.modified and sw1l.onlywaves with f > 0: only for the state of the simulation *)
Theorem c59_sw1l_exactlin_modified_partial :
  computes_sim (tendencies_sw1l_exactlin_modified V ifft fft plus neg dealias forcing vfrx vfry divf uxf uyf etaf k_mul toq top tom rotfft_from_q rotfft_from_a)
    (phys_exactlin V ifft uxf uyf etaf k_rotq)
    (spec_exactlin_modified V ifft fft plus neg dealias forcing vfrx vfry divf uxf uyf etaf k_rotq k_mul toq top tom rotfft_from_q rotfft_from_a) 3 3.
Proof. run_prog ltac:(destruct forcing). Qed.

Theorem c59_sw1l_onlywaves_partial :
  computes_sim (tendencies_sw1l_onlywaves V ifft fft plus neg zero dealias forcing gx gy divf uxf uyf etaf k_N1x k_N1y k_ke half k_mul top tom rotfft_from_a true)
    (phys_onlywaves V ifft uxf uyf etaf zero)
    (spec_onlywaves V ifft fft plus neg dealias forcing gx gy divf uxf uyf etaf k_N1x k_N1y k_ke k_mul half toq top tom rotfft_from_a zero true) 3 2.
Proof. run_prog ltac:(destruct forcing). Qed.

Theorem c58_sw1l_onlywaves_without_f :
  computes (tendencies_sw1l_onlywaves V ifft fft plus neg zero dealias forcing gx gy divf uxf uyf etaf k_N1x k_N1y k_ke half k_mul top tom rotfft_from_a false)
    (phys_onlywaves V ifft uxf uyf etaf zero)
    (spec_onlywaves V ifft fft plus neg dealias forcing gx gy divf uxf uyf etaf k_N1x k_N1y k_ke k_mul half toq top tom rotfft_from_a zero false) 3 2.
Proof. run_prog ltac:(destruct forcing). Qed.

Theorem c58_burgers1d :
  computes (tendencies_burgers1d V ifft fft dealias px k_burgers oddball)
    (phys_each V ifft)
    (spec_burgers1d V ifft fft dealias px k_burgers oddball) 1 1.
Proof. run_prog ltac:(idtac). Qed.

Theorem c58_skew_sym :
  computes (tendencies_skew_sym V ifft fft plus dealias px oddball k_skew k_cons k_square)
    (phys_each V ifft)
    (spec_skew_sym V ifft fft plus dealias px k_skew oddball k_cons k_square) 1 1.
Proof. run_prog ltac:(idtac). Qed.

Theorem c58_nl1d :
  computes (tendencies_nl1d V ifft fft dealias k_nl1d)
    (phys_each V ifft)
    (spec_nl1d V ifft fft dealias k_nl1d) 1 1.
Proof. run_prog ltac:(idtac). Qed.

(** waves2d (three variables at most), ad1d.pseudo_spect and the base solver *)
Theorem c58_zero :
  computes (tendencies_zero V zero [0; 1; 2])
    (phys_each V ifft)
    (fun _ _ => zero) 0 3.
Proof. run_prog ltac:(idtac). Qed.

(** *** What the unsafe calls compute instead *)

(** ns3d.strat with [old is state_spect]: the buoyancy tendency uses, in the place of vz, the
    vertical component of the velocity tendency just written in the same array. *)
Theorem c58_ns3d_strat_in_place_partial : forall a s,
  a <> SNone ->
  let x := fun j => s (st a j) in
  tendencies_ns3d_strat V ifft fft plus dealias forcing rotx roty rotz modif_f crossx crossy crossz projx projy projz no_vz_kz0 div_vb k_fb a true s (st a 3)
  = dealias (app_opt V no_vz_kz0
      (forced V plus forcing 3
         (k_fb (div_of V ifft div_vb x)
               (plus (fft (lamb V ifft rotx roty rotz modif_f crossz x)) (x 3))))).
Proof.
  intros a s Ha x; destruct a; try congruence;
  destruct forcing, modif_f, no_vz_kz0; vm_compute; reflexivity.
Qed.

(** plate2d with [old is state_spect]: the displacement z is replaced by the velocity w. *)
Theorem c58_plate2d_in_place_partial : forall a s k,
  k < 2 ->
  let x := fun j => s (st a j) in
  tendencies_plate2d V plus neg dealias forcing monge invlap4 lap4 a true s (st a k)
  = spec_plate2d V plus neg dealias forcing monge invlap4 lap4 (fun _ => x 0) k.
Proof.
  intros a s k Hk x; destruct k as [|[|k]]; [| | lia];
  destruct a, forcing; vm_compute; reflexivity.
Qed.

(** sw1l.exactlin.modified with another state: the advecting velocity is the one of the state of
    the simulation. *)
Theorem c59_exactlin_modified_advection_partial : forall same s k,
  k < 3 ->
  let x := fun j => s (Oth j) in
  let y := fun j => s (Sim j) in
  let rot_fft := plus (rotfft_from_q (y 2)) (rotfft_from_a (plus (y 0) (y 1))) in
  let adv c := neg (divf (fft (k_mul (ifft (vfrx rot_fft)) c))
                         (fft (k_mul (ifft (vfry rot_fft)) c))) in
  tendencies_sw1l_exactlin_modified V ifft fft plus neg dealias forcing vfrx vfry divf
    uxf uyf etaf k_mul toq top tom rotfft_from_q rotfft_from_a SOther same s (out SOther same k)
  = to_modes V plus dealias forcing toq top tom
      (adv (phys_exactlin V ifft uxf uyf etaf k_rotq x 0))
      (adv (phys_exactlin V ifft uxf uyf etaf k_rotq x 1))
      (adv (phys_exactlin V ifft uxf uyf etaf k_rotq x 2)) k.
Proof.
  intros same s k Hk; destruct k as [|[|[|k]]]; [| | | lia];
  destruct same, forcing; vm_compute; reflexivity.
Qed.

End C58.

(** ** Refutations *)

Open Scope Z_scope.

(** ns3d.strat on the grid with the only mode k = 0 (N = 1): the Fourier transforms are the
    identity, all derivatives vanish and the projector is the identity.  A uniform vertical
    velocity 1 without buoyancy must give db/dt = - N^2 vz = -1; in place it gives 0. *)
Definition id1 (x : Z) : Z := x.
Definition zero3 (x y z : Z) : Z := 0.
Definition strat_one_mode :=
  tendencies_ns3d_strat Z id1 id1 Z.add id1 None zero3 zero3 zero3 None
    (fun vx vy vz wx wy wz => vy * wz - vz * wy)
    (fun vx vy vz wx wy wz => vz * wx - vx * wz)
    (fun vx vy vz wx wy wz => vx * wy - vy * wx)
    (fun x _ _ => x) (fun _ y _ => y) (fun _ _ z => z) None
    (fun _ _ _ _ => 0) (fun div vz => - div - 1 * 1 * vz).
Definition strat_one_mode_spec :=
  spec_ns3d_strat Z id1 id1 Z.add id1 None zero3 zero3 zero3 None
    (fun vx vy vz wx wy wz => vy * wz - vz * wy)
    (fun vx vy vz wx wy wz => vz * wx - vx * wz)
    (fun vx vy vz wx wy wz => vx * wy - vy * wx)
    (fun x _ _ => x) (fun _ y _ => y) (fun _ _ z => z) None
    (fun _ _ _ _ => 0) (fun div vz => - div - 1 * 1 * vz).

Definition uniform_vz : store Z :=
  fun l => match l with Oth 2 => 1 | _ => 0 end.

Theorem c58_ns3d_strat_refuted :
  exists s : store Z,
    strat_one_mode SOther false s (Old 3) = -1
    /\ strat_one_mode SOther true s (Oth 3) = 0
    /\ strat_one_mode_spec (fun j => s (Oth j)) 3%nat = -1.
Proof. exists uniform_vz. vm_compute. repeat split. Qed.

(** plate2d for one plane wave of wavenumber K (K^4 = 16): the Monge-Ampere bracket of
    parallel waves vanishes.  The acceleration of z = 0, w = 1 must be 0; in place it
    is - K^4. *)
Definition plate_one_wave :=
  tendencies_plate2d Z Z.add Z.opp id1 None (fun _ _ => 0) id1 (fun z => 16 * z).

Theorem c58_plate2d_refuted :
  exists s : store Z,
    plate_one_wave SOther false s (Old 0) = 0
    /\ plate_one_wave SOther true s (Oth 0) = -16
    /\ spec_plate2d Z Z.add Z.opp id1 None (fun _ _ => 0) id1 (fun z => 16 * z)
         (fun j => s (Oth j)) 0%nat = 0.
Proof.
  exists (fun l => match l with Oth 0 => 1 | _ => 0 end). vm_compute. repeat split.
Qed.

(** ns3d with a subgrid model.  One mode, with the stand-in model force = - v (for instance
    a viscous force of the Smagorinsky model with a uniform eddy viscosity) and no
    vorticity: the force of v = (1, 0, 0) must be -1; in place the model sees the
    tendency 0. *)
Definition turb_one_mode :=
  tendencies_ns3d Z id1 id1 Z.add id1 id1 None zero3 zero3 zero3 None
    (fun vx vy vz wx wy wz => vy * wz - vz * wy)
    (fun vx vy vz wx wy wz => vz * wx - vx * wz)
    (fun vx vy vz wx wy wz => vx * wy - vy * wx)
    (fun x _ _ => x) (fun _ y _ => y) (fun _ _ z => z) None
    (Some (fun k x y z => match k with 0%nat => - x | 1%nat => - y | _ => - z end)).

Theorem c58_ns3d_turb_model_refuted :
  exists s : store Z,
    turb_one_mode SOther false s (Old 0) = -1
    /\ turb_one_mode SOther true s (Oth 0) = 0.
Proof.
  exists (fun l => match l with Oth 0 => 1 | _ => 0 end). vm_compute. repeat split.
Qed.

(** sw1l.exactlin.modified: with stand-in operators on one number (only the dependence on
    the state of the simulation matters), the same given state gives two different
    tendencies for two states of the simulation. *)
Definition exactlin_modified_stand_in :=
  tendencies_sw1l_exactlin_modified Z id1 id1 Z.add Z.opp id1 None id1 id1 Z.add
    (fun q ap am => ap) (fun q ap am => am) (fun q ap am => q) Z.mul
    (fun x y e => e) (fun x y e => x) (fun x y e => y) id1 id1.

Theorem c59_exactlin_modified_refuted :
  exists s1 s2 : store Z,
    (forall k, s1 (Oth k) = s2 (Oth k))
    /\ exactlin_modified_stand_in SOther false s1 (Old 0)
       <> exactlin_modified_stand_in SOther false s2 (Old 0).
Proof.
  exists (fun l => match l with Oth _ => 1 | _ => 0 end),
         (fun l => match l with Oth _ => 1 | _ => 1 end).
  split; [reflexivity | vm_compute; discriminate].
Qed.

(** sw1l.onlywaves with f > 0: same remark *)
Definition onlywaves_stand_in :=
  tendencies_sw1l_onlywaves Z id1 id1 Z.add Z.opp 0 id1 None id1 id1 Z.add
    (fun q ap am => ap) (fun q ap am => am) (fun q ap am => ap + am)
    Z.mul (fun rot ux => - rot * ux) (fun ux uy => ux * ux + uy * uy) id1 Z.mul
    (fun x y e => x) (fun x y e => y) id1 true.

Theorem c59_onlywaves_refuted :
  exists s1 s2 : store Z,
    (forall k, s1 (Oth k) = s2 (Oth k))
    /\ onlywaves_stand_in SOther false s1 (Old 0)
       <> onlywaves_stand_in SOther false s2 (Old 0).
Proof.
  exists (fun l => match l with Oth _ => 1 | _ => 0 end),
         (fun l => match l with Oth _ => 1 | _ => 1 end).
  split; [reflexivity | vm_compute; discriminate].
Qed.

(** ** The hypotheses can be met *)

(** a state of the simulation with its physical variables, and with a state given in place *)
Example computes_hypotheses_ok :
  exists s : store Z,
    (forall k, (k < 2)%nat -> s (Ph k) = phys_rot Z (fun x => 2 * x) id1 Z.opp
                                     (fun j => s (Sim j)) k)
    /\ s (Sim 0) = 5
    /\ tendencies_ns2d Z (fun x => 2 * x) id1 Z.add id1 (Some (fun _ => 7)) id1 Z.opp id1 id1
         (fun ux uy px py => - ux * px - uy * py + ux) SNone false s (Old 0) = 17.
Proof.
  exists (fun l => match l with Sim 0 => 5 | Ph 0 => 10 | Ph 1 => -10 | _ => 0 end).
  split; [|split].
  - intros [|[|k]] Hk; try reflexivity; lia.
  - reflexivity.
  - vm_compute. reflexivity.
Qed.

Example c58_in_place_call_example :
  tendencies_ns2d Z (fun x => 2 * x) id1 Z.add id1 (Some (fun _ => 7)) id1 Z.opp id1 id1
    (fun ux uy px py => - ux * px - uy * py + ux) SOther true
    (fun l => match l with Oth 0 => 5 | _ => 99 end) (Oth 0) = 17.
Proof. vm_compute. reflexivity. Qed.

Example turb_model_apart_example :
  (fun _ same => same = false) SOther false /\ turb_one_mode SOther false uniform_vz (Old 2) = -1.
Proof. vm_compute. split; reflexivity. Qed.

Print Assumptions c58_ns2d.
Print Assumptions c58_ns2d_strat.
Print Assumptions c58_ns2d_bouss.
Print Assumptions c58_with_uxuy.
Print Assumptions c58_ns3d.
Print Assumptions c58_ns3d_turb_model_partial.
Print Assumptions c58_ns3d_bouss.
Print Assumptions c58_ns3d_strat_partial.
Print Assumptions c58_plate2d_partial.
Print Assumptions c58_sw1l.
Print Assumptions c58_sw1l_modified.
Print Assumptions c58_sw1l_exactlin.
Print Assumptions c59_sw1l_exactlin_modified_partial.
Print Assumptions c59_sw1l_onlywaves_partial.
Print Assumptions c58_sw1l_onlywaves_without_f.
Print Assumptions c58_burgers1d.
Print Assumptions c58_skew_sym.
Print Assumptions c58_nl1d.
Print Assumptions c58_zero.
Print Assumptions c58_ns3d_strat_in_place_partial.
Print Assumptions c58_plate2d_in_place_partial.
Print Assumptions c59_exactlin_modified_advection_partial.
Print Assumptions c58_ns3d_strat_refuted.
Print Assumptions c58_plate2d_refuted.
Print Assumptions c58_ns3d_turb_model_refuted.
Print Assumptions c59_exactlin_modified_refuted.
Print Assumptions c59_onlywaves_refuted.
