(** * tendencies_nonlin of the solvers as programs over shared arrays

    Each function [tendencies_nonlin(state_spect=None, old=None)] is written as a
    sequence of reads and in-place writes on the arrays which outlive the call.
    Arrays created by the call are plain values.  The element type of arrays and
    what the external operators compute (fft, derivatives, projections, pointwise
    kernels) are left arbitrary: only the flow of data between arrays matters here.

    Simplifications: all arrays have one type [V]; [SetOfVariables] is the list of its
    variables; [forcing.get_forcing()] is a constant array per variable during the call
    ([None] if the forcing is not enabled); exceptions are not modelled. *)

From Coq Require Import List Bool Arith.
Import ListNotations.

(** The persistent arrays: variables of [sim.state.state_spect], of
    [sim.state.state_phys], of another SetOfVariables given as state, of a separate
    SetOfVariables given as [old] (or newly allocated if [old is None]),
    [state.field_tmpN]/[state.fields_tmp[N]], [state.fields_spect_tmp[N]]. *)
Inductive loc :=
| Sim (k : nat)
| Ph (k : nat)
| Oth (k : nat)
| Old (k : nat)
| FTmp (n : nat)
| SpTmp (n : nat).

Definition loc_eqb (a b : loc) : bool :=
  match a, b with
  | Sim i, Sim j | Ph i, Ph j | Oth i, Oth j | Old i, Old j
  | FTmp i, FTmp j | SpTmp i, SpTmp j => Nat.eqb i j
  | _, _ => false
  end.

(** What the argument [state_spect] is: [None], the state of the simulation, or
    another array. *)
Inductive src := SNone | SSim | SOther.

Definition is_none (a : src) : bool := match a with SNone => true | _ => false end.

(** [state_spect.get_var] (or [self.state.state_spect.get_var]) for variable [k] *)
Definition st (a : src) (k : nat) : loc :=
  match a with SOther => Oth k | _ => Sim k end.

(** [tendencies_fft.get_var]: [same] tells that [old is state_spect]. *)
Definition out (a : src) (same : bool) (k : nat) : loc :=
  if same then st a k else Old k.

Section InPlace.

Variable V : Type.

Definition store := loc -> V.

Definition upd (s : store) (l : loc) (v : V) : store :=
  fun l' => if loc_eqb l' l then v else s l'.

(** ** External operators *)
Variable ifft fft : V -> V.
Variable plus : V -> V -> V.                     (* numpy a + b *)
Variable neg : V -> V.                           (* numpy -a *)
Variable zero : V.
Variable dealias : V -> V.                       (* oper.dealiasing on one array *)
Variable destroyed : V -> V.                     (* content left by ifft_as_arg_destroy *)
Variable forcing : option (nat -> V).            (* forcing.get_forcing() *)

(** [tendencies_fft += forcing.get_forcing()] for the variables [ks] *)
Definition add_forcing (a : src) (same : bool) (ks : list nat) (s : store) : store :=
  match forcing with
  | None => s
  | Some F => fold_left
      (fun s k => upd s (out a same k) (plus (s (out a same k)) (F k))) ks s
  end.

(** [oper.dealiasing(tendencies_fft)] *)
Definition dealias_all (a : src) (same : bool) (ks : list nat) (s : store) : store :=
  fold_left (fun s k => upd s (out a same k) (dealias (s (out a same k)))) ks s.

(** ** ns2d: fluidsim/solvers/ns2d/solver.py 111-194.
    Variable 0 is rot_fft; state_phys variables 0, 1 are ux, uy. *)
Variable vfrx vfry : V -> V.                     (* oper.vecfft_from_rotfft *)
Variable gx gy : V -> V.                         (* oper.gradfft_from_fft *)
Variable k_Frot : V -> V -> V -> V -> V.         (* compute_Frot(.., beta) *)

Definition ns2d_ux (a : src) : loc := if is_none a then Ph 0 else FTmp 0.
Definition ns2d_uy (a : src) : loc := if is_none a then Ph 1 else FTmp 1.

(** lines 151-162: get or compute ux and uy *)
Definition ns2d_velocity (a : src) (s : store) : store :=
  if is_none a then s
  else
    let ux_fft := vfrx (s (st a 0)) in
    let uy_fft := vfry (s (st a 0)) in
    let s := upd s (FTmp 0) (ifft ux_fft) in
    upd s (FTmp 1) (ifft uy_fft).

Definition tendencies_ns2d (a : src) (same : bool) (s : store) : store :=
  let s := ns2d_velocity a s in
  let px_rot_fft := gx (s (st a 0)) in
  let py_rot_fft := gy (s (st a 0)) in
  let s := upd s (FTmp 2) (ifft px_rot_fft) in
  let s := upd s (FTmp 3) (ifft py_rot_fft) in
  let Frot := k_Frot (s (ns2d_ux a)) (s (ns2d_uy a)) (s (FTmp 2)) (s (FTmp 3)) in
  let s := upd s (out a same 0) (fft Frot) in
  let s := upd s (out a same 0) (dealias (s (out a same 0))) in
  add_forcing a same [0] s.

(** ** ns2d.strat: fluidsim/solvers/ns2d/strat/solver.py 71-181.
    Variables 0, 1 are rot_fft, b_fft. *)
Variable k_strat_rot k_strat_b : V -> V -> V -> V -> V -> V -> V.
                                                (* tendencies_nonlin_ns2dstrat *)

Definition tendencies_ns2d_strat (a : src) (same : bool) (s : store) : store :=
  let s := ns2d_velocity a s in
  let px_rot_fft := gx (s (st a 0)) in
  let py_rot_fft := gy (s (st a 0)) in
  let px_b_fft := gx (s (st a 1)) in
  let py_b_fft := gy (s (st a 1)) in
  let s := upd s (FTmp 2) (ifft px_rot_fft) in
  let s := upd s (FTmp 3) (ifft py_rot_fft) in
  let s := upd s (FTmp 4) (ifft px_b_fft) in
  let s := upd s (FTmp 5) (ifft py_b_fft) in
  let f_rot := k_strat_rot (s (ns2d_ux a)) (s (ns2d_uy a)) (s (FTmp 2)) (s (FTmp 3))
                 (s (FTmp 4)) (s (FTmp 5)) in
  let f_b := k_strat_b (s (ns2d_ux a)) (s (ns2d_uy a)) (s (FTmp 2)) (s (FTmp 3))
                 (s (FTmp 4)) (s (FTmp 5)) in
  let s := upd s (out a same 1) (fft f_b) in
  let s := upd s (out a same 0) (fft f_rot) in
  let s := upd s (out a same 0) (plus (s (out a same 0)) px_b_fft) in
  let s := dealias_all a same [0; 1] s in
  add_forcing a same [0; 1] s.

(** ** ns2d.bouss: fluidsim/solvers/ns2d/bouss/solver.py 65-173 *)
Variable k_bouss_rot k_bouss_b : V -> V -> V -> V -> V -> V -> V.
                                                (* tendencies_nonlin_ns2dbouss *)

Definition tendencies_ns2d_bouss (a : src) (same : bool) (s : store) : store :=
  let s := ns2d_velocity a s in
  let px_rot_fft := gx (s (st a 0)) in
  let py_rot_fft := gy (s (st a 0)) in
  let px_b_fft := gx (s (st a 1)) in
  let py_b_fft := gy (s (st a 1)) in
  let s := upd s (FTmp 2) (ifft px_rot_fft) in
  let s := upd s (FTmp 3) (ifft py_rot_fft) in
  let s := upd s (FTmp 4) (ifft px_b_fft) in
  let s := upd s (FTmp 5) (ifft py_b_fft) in
  let Frot := k_bouss_rot (s (ns2d_ux a)) (s (ns2d_uy a)) (s (FTmp 2)) (s (FTmp 3))
                 (s (FTmp 4)) (s (FTmp 5)) in
  let Fb := k_bouss_b (s (ns2d_ux a)) (s (ns2d_uy a)) (s (FTmp 2)) (s (FTmp 3))
                 (s (FTmp 4)) (s (FTmp 5)) in
  let s := upd s (out a same 1) (fft Fb) in
  let s := upd s (out a same 0) (fft Frot) in
  let s := dealias_all a same [0; 1] s in
  add_forcing a same [0; 1] s.

(** ** ns2d with ux, uy: fluidsim/solvers/ns2d/with_uxuy.py 91-139.
    Variables 0, 1 are ux_fft, uy_fft. *)
Variable rotf : V -> V -> V.                     (* oper.rotfft_from_vecfft (2D) *)

Definition tendencies_with_uxuy (a : src) (same : bool) (s : store) : store :=
  let rot_fft := rotf (s (st a 0)) (s (st a 1)) in
  let s := if is_none a then s
           else
             let s := upd s (FTmp 0) (ifft (s (st a 0))) in
             upd s (FTmp 1) (ifft (s (st a 1))) in
  let s := upd s (FTmp 2) (ifft (gx rot_fft)) in
  let s := upd s (FTmp 3) (ifft (gy rot_fft)) in
  let Frot := k_Frot (s (ns2d_ux a)) (s (ns2d_uy a)) (s (FTmp 2)) (s (FTmp 3)) in
  let Frot_fft := dealias (fft Frot) in
  let s := upd s (out a same 0) (vfrx Frot_fft) in
  let s := upd s (out a same 1) (vfry Frot_fft) in
  add_forcing a same [0; 1] s.

(** ** ns3d: fluidsim/solvers/ns3d/solver.py 180-263.
    Variables 0, 1, 2 are vx_fft, vy_fft, vz_fft (3 is b_fft below). *)
Variable rotx roty rotz : V -> V -> V -> V.      (* oper.rotfft_from_vecfft (3D) *)
Variable modif_f : option (V -> V).              (* effect of _modif_omegafft_with_f on
                                                    omegaz_fft, None if params.f is None *)
Variable crossx crossy crossz : V -> V -> V -> V -> V -> V -> V.   (* vector_product *)
Variable projx projy projz : V -> V -> V -> V.   (* self._projector *)
Variable no_vz_kz0 : option (V -> V).            (* dealiasing_variable(_, where_kz_0) *)
Variable turb : option (nat -> V -> V -> V -> V). (* turb_model.get_forcing(vx, vy, vz) *)

Definition with_f (v : V) : V := match modif_f with None => v | Some g => g v end.

Definition ns3d_v (a : src) (k : nat) : loc := if is_none a then Ph k else FTmp k.

(** lines 255-263: project_state_spect on the tendencies *)
Definition project_state_spect (a : src) (same : bool) (has_b : bool) (s : store) : store :=
  let x := s (out a same 0) in
  let y := s (out a same 1) in
  let z := s (out a same 2) in
  let s := upd s (out a same 0) (projx x y z) in
  let s := upd s (out a same 1) (projy x y z) in
  let s := upd s (out a same 2) (projz x y z) in
  match no_vz_kz0 with
  | None => s
  | Some m =>
      let s := upd s (out a same 2) (m (s (out a same 2))) in
      if has_b then upd s (out a same 3) (m (s (out a same 3))) else s
  end.

(** lines 210-226: ifft of the vorticity (already in values [ox oy oz]), of the velocity,
    and vector_product, which writes its result in the arrays of the vorticity *)
Definition ns3d_cross (a : src) (ox oy oz : V) (s : store) : store :=
  let s := upd s (FTmp 3) (ifft ox) in
  let s := upd s (FTmp 4) (ifft oy) in
  let s := upd s (FTmp 5) (ifft oz) in
  let s := if is_none a then s
           else
             let s := upd s (FTmp 0) (ifft (s (st a 0))) in
             let s := upd s (FTmp 1) (ifft (s (st a 1))) in
             upd s (FTmp 2) (ifft (s (st a 2))) in
  let vx := s (ns3d_v a 0) in
  let vy := s (ns3d_v a 1) in
  let vz := s (ns3d_v a 2) in
  let wx := s (FTmp 3) in
  let wy := s (FTmp 4) in
  let wz := s (FTmp 5) in
  let s := upd s (FTmp 3) (crossx vx vy vz wx wy wz) in
  let s := upd s (FTmp 4) (crossy vx vy vz wx wy wz) in
  upd s (FTmp 5) (crossz vx vy vz wx wy wz).

(** lines 239-241 *)
Definition ns3d_fft (a : src) (same : bool) (s : store) : store :=
  let s := upd s (out a same 0) (fft (s (FTmp 3))) in
  let s := upd s (out a same 1) (fft (s (FTmp 4))) in
  upd s (out a same 2) (fft (s (FTmp 5))).

Definition tendencies_ns3d (a : src) (same : bool) (s : store) : store :=
  let vx_fft := s (st a 0) in
  let vy_fft := s (st a 1) in
  let vz_fft := s (st a 2) in
  let s := upd s (SpTmp 0) (rotx vx_fft vy_fft vz_fft) in
  let s := upd s (SpTmp 1) (roty vx_fft vy_fft vz_fft) in
  let s := upd s (SpTmp 2) (rotz vx_fft vy_fft vz_fft) in
  let s := upd s (SpTmp 2) (with_f (s (SpTmp 2))) in
  let ox := s (SpTmp 0) in
  let oy := s (SpTmp 1) in
  let oz := s (SpTmp 2) in
  let s := upd s (SpTmp 0) (destroyed ox) in
  let s := upd s (SpTmp 1) (destroyed oy) in
  let s := upd s (SpTmp 2) (destroyed oz) in
  let s := ns3d_cross a ox oy oz s in
  let s := ns3d_fft a same s in
  let s := add_forcing a same [0; 1; 2] s in
  let s := match turb with
           | None => s
           | Some T =>
               (* the arrays vx_fft, vy_fft, vz_fft are read again here *)
               let x := s (st a 0) in let y := s (st a 1) in let z := s (st a 2) in
               fold_left (fun s k => upd s (out a same k)
                                       (plus (s (out a same k)) (T k x y z))) [0; 1; 2] s
           end in
  let s := project_state_spect a same false s in
  dealias_all a same [0; 1; 2] s.

(** ** ns3d.strat: fluidsim/solvers/ns3d/strat/solver.py 138-216 *)
Variable div_vb : V -> V -> V -> V -> V.         (* oper.div_vb_fft_from_vb *)
Variable k_fb : V -> V -> V.                     (* compute_fb_fft(div_vb_fft, N, vz_fft) *)

Definition ns3d_b (a : src) : loc := if is_none a then Ph 3 else FTmp 3.

Definition ns3d_buoyancy (a : src) (s : store) : store :=
  if is_none a then s else upd s (FTmp 3) (ifft (s (st a 3))).

Definition tendencies_ns3d_strat (a : src) (same : bool) (s : store) : store :=
  let ox := rotx (s (st a 0)) (s (st a 1)) (s (st a 2)) in
  let oy := roty (s (st a 0)) (s (st a 1)) (s (st a 2)) in
  let oz := with_f (rotz (s (st a 0)) (s (st a 1)) (s (st a 2))) in
  let s := ns3d_cross a ox oy oz s in
  let s := ns3d_fft a same s in
  let s := upd s (out a same 2) (plus (s (out a same 2)) (s (st a 3))) in
  let s := ns3d_buoyancy a s in
  let div_vb_fft := div_vb (s (ns3d_v a 0)) (s (ns3d_v a 1)) (s (ns3d_v a 2))
                      (s (ns3d_b a)) in
  let fb_fft := k_fb div_vb_fft (s (st a 2)) in
  let s := upd s (out a same 3) fb_fft in
  let s := add_forcing a same [0; 1; 2; 3] s in
  let s := project_state_spect a same true s in
  dealias_all a same [0; 1; 2; 3] s.

(** ** ns3d.bouss: fluidsim/solvers/ns3d/bouss/solver.py 99-175 *)
Definition tendencies_ns3d_bouss (a : src) (same : bool) (s : store) : store :=
  let ox := rotx (s (st a 0)) (s (st a 1)) (s (st a 2)) in
  let oy := roty (s (st a 0)) (s (st a 1)) (s (st a 2)) in
  let oz := with_f (rotz (s (st a 0)) (s (st a 1)) (s (st a 2))) in
  let s := ns3d_cross a ox oy oz s in
  let s := ns3d_fft a same s in
  let s := upd s (out a same 2) (plus (s (out a same 2)) (s (st a 3))) in
  let s := ns3d_buoyancy a s in
  let fb_fft := neg (div_vb (s (ns3d_v a 0)) (s (ns3d_v a 1)) (s (ns3d_v a 2))
                       (s (ns3d_b a))) in
  let s := upd s (out a same 3) fb_fft in
  let s := add_forcing a same [0; 1; 2; 3] s in
  let s := project_state_spect a same true s in
  dealias_all a same [0; 1; 2; 3] s.

(** ** plate2d: fluidsim/solvers/plate2d/solver.py 167-203.
    Variables 0, 1 are w_fft, z_fft. *)
Variable monge : V -> V -> V.                    (* fft2 (monge_ampere_from_fft a b) *)
Variable invlap4 lap4 : V -> V.                  (* (inv)laplacian_fft(_, order=4) *)

Definition tendencies_plate2d (a : src) (same : bool) (s : store) : store :=
  let s := upd s (out a same 1) (s (st a 0)) in
  let mamp_zz := monge (s (st a 1)) (s (st a 1)) in
  let chi_fft := neg (invlap4 mamp_zz) in
  let Nw_fft := monge (s (st a 1)) chi_fft in
  let lap2z_fft := lap4 (s (st a 1)) in
  let s := upd s (out a same 0) (plus (neg lap2z_fft) Nw_fft) in
  let s := dealias_all a same [0; 1] s in
  add_forcing a same [0; 1] s.

(** ** sw1l: fluidsim/solvers/sw1l/solver.py 205-246 and state.py 133-166.
    Variables 0, 1, 2 are ux_fft, uy_fft, eta_fft; physical variables 0..3 are
    ux, uy, eta, rot.  [return_statephys_from_statespect] allocates new arrays. *)
Variable k_F1x k_F1y : V -> V -> V -> V.         (* compute_Frot(rot, ux, uy, f) *)
Variable k_pressure : V -> V -> V -> V.          (* compute_pressure(c2, eta, ux, uy) *)
Variable k_flux : V -> V -> V.                   (* (eta + 1) * u *)
Variable divf : V -> V -> V.                     (* oper.divfft_from_vecfft *)

Definition tendencies_sw1l (a : src) (same : bool) (s : store) : store :=
  let ux := if is_none a then s (Ph 0) else ifft (s (st a 0)) in
  let uy := if is_none a then s (Ph 1) else ifft (s (st a 1)) in
  let eta := if is_none a then s (Ph 2) else ifft (s (st a 2)) in
  let rot := if is_none a then s (Ph 3) else ifft (rotf (s (st a 0)) (s (st a 1))) in
  let F1x := k_F1x rot ux uy in
  let F1y := k_F1y rot ux uy in
  let p_fft := fft (k_pressure eta ux uy) in
  let gradx_fft := dealias (gx p_fft) in
  let grady_fft := dealias (gy p_fft) in
  let s := upd s (out a same 0) (plus (fft F1x) (neg gradx_fft)) in
  let s := upd s (out a same 1) (plus (fft F1y) (neg grady_fft)) in
  let s := upd s (out a same 2) (neg (divf (fft (k_flux eta ux)) (fft (k_flux eta uy)))) in
  let s := dealias_all a same [0; 1; 2] s in
  add_forcing a same [0; 1; 2] s.

(** ** sw1l.modified: fluidsim/solvers/sw1l/modified/solver.py 45-117 *)
Variable k_NL : V -> V -> V -> V -> V.           (* -ux_rot*dxu - uy_rot*dyu *)
Variable k_FC : bool -> V -> V.                  (* +f*uy (true) or -f*ux (false) *)
Variable c2mul : V -> V.                         (* params.c2 * eta_fft *)
Variable k_adv : V -> V -> V -> V -> V.          (* ux_rot*dxeta + uy_rot*dyeta *)

Definition tendencies_sw1l_modified (a : src) (same : bool) (s : store) : store :=
  let ux := if is_none a then s (Ph 0) else ifft (s (st a 0)) in
  let uy := if is_none a then s (Ph 1) else ifft (s (st a 1)) in
  let ux_fft := s (st a 0) in
  let uy_fft := s (st a 1) in
  let eta_fft := s (st a 2) in
  let rot_fft := rotf ux_fft uy_fft in
  let ux_rot := ifft (vfrx rot_fft) in
  let uy_rot := ifft (vfry rot_fft) in
  let FNLx := k_NL ux_rot uy_rot (ifft (gx ux_fft)) (ifft (gy ux_fft)) in
  let FNLy := k_NL ux_rot uy_rot (ifft (gx uy_fft)) (ifft (gy uy_fft)) in
  let FCx := k_FC true uy in
  let FCy := k_FC false ux in
  let Fgradx_fft := gx (c2mul eta_fft) in
  let Fgrady_fft := gy (c2mul eta_fft) in
  let Fx_fft := plus (fft (plus FCx FNLx)) (neg Fgradx_fft) in
  let Fy_fft := plus (fft (plus FCy FNLy)) (neg Fgrady_fft) in
  let div_fft := divf ux_fft uy_fft in
  let Feta_fft := plus (neg (fft (k_adv ux_rot uy_rot (ifft (gx eta_fft))
                                    (ifft (gy eta_fft))))) (neg div_fft) in
  let s := upd s (out a same 0) Fx_fft in
  let s := upd s (out a same 1) Fy_fft in
  let s := upd s (out a same 2) Feta_fft in
  let s := dealias_all a same [0; 1; 2] s in
  add_forcing a same [0; 1; 2] s.

(** ** sw1l.exactlin: fluidsim/solvers/sw1l/exactlin/solver.py 52-108, state.py 162-183.
    Variables 0, 1, 2 are ap_fft, am_fft, q_fft. *)
Variable uxf uyf etaf : V -> V -> V -> V.        (* oper.uxuyetafft_from_qapamfft(q,ap,am) *)
Variable k_rotq : V -> V -> V.                   (* q_fft + f * eta_fft *)
Variable k_N1x k_N1y : V -> V -> V.              (* +rot*uy, -rot*ux *)
Variable k_ke : V -> V -> V.                     (* ux**2 + uy**2 *)
Variable half : V -> V.                          (* _ / 2 *)
Variable k_mul : V -> V -> V.                    (* a * b *)
Variable toq top tom : V -> V -> V -> V.         (* oper.qapamfft_from_uxuyetafft *)

Definition el_eta_fft (s : store) (a : src) : V := etaf (s (st a 2)) (s (st a 0)) (s (st a 1)).

Definition el_ux (a : src) (s : store) : V :=
  if is_none a then s (Ph 0) else ifft (uxf (s (st a 2)) (s (st a 0)) (s (st a 1))).
Definition el_uy (a : src) (s : store) : V :=
  if is_none a then s (Ph 1) else ifft (uyf (s (st a 2)) (s (st a 0)) (s (st a 1))).
Definition el_eta (a : src) (s : store) : V :=
  if is_none a then s (Ph 2) else ifft (el_eta_fft s a).
Definition el_rot (a : src) (s : store) : V :=
  if is_none a then s (Ph 3) else ifft (k_rotq (s (st a 2)) (el_eta_fft s a)).

(** lines 85-108: common end *)
Definition el_end (a : src) (same : bool) (Nx_fft Ny_fft Neta_fft : V) (s : store) : store :=
  let Nq_fft := dealias (toq Nx_fft Ny_fft Neta_fft) in
  let Np_fft := dealias (top Nx_fft Ny_fft Neta_fft) in
  let Nm_fft := dealias (tom Nx_fft Ny_fft Neta_fft) in
  let s := upd s (out a same 2) Nq_fft in
  let s := upd s (out a same 0) Np_fft in
  let s := upd s (out a same 1) Nm_fft in
  add_forcing a same [0; 1; 2] s.

Definition tendencies_sw1l_exactlin (a : src) (same : bool) (s : store) : store :=
  let ux := el_ux a s in
  let uy := el_uy a s in
  let eta := el_eta a s in
  let rot := el_rot a s in
  let g2 := half (fft (k_ke ux uy)) in
  let Nx_fft := plus (fft (k_N1x rot uy)) (neg (gx g2)) in
  let Ny_fft := plus (fft (k_N1y rot ux)) (neg (gy g2)) in
  let Neta_fft := neg (divf (fft (k_mul eta ux)) (fft (k_mul eta uy))) in
  el_end a same Nx_fft Ny_fft Neta_fft s.

(** ** sw1l.exactlin.modified: solvers/sw1l/exactlin/modified/solver.py 43-98.
    Line 59 reads [self.state.get_var("rot_fft")], i.e. exactlin/state.py 58-63 applied to the
    state of the simulation whatever [state_spect] is (no cached value assumed). *)
Variable rotfft_from_q rotfft_from_a : V -> V.

Definition state_rot_fft (s : store) : V :=
  plus (rotfft_from_q (s (Sim 2))) (rotfft_from_a (plus (s (Sim 0)) (s (Sim 1)))).

Definition tendencies_sw1l_exactlin_modified (a : src) (same : bool) (s : store) : store :=
  let ux := el_ux a s in
  let uy := el_uy a s in
  let eta := el_eta a s in
  let rot_fft := state_rot_fft s in
  let ux_rot := ifft (vfrx rot_fft) in
  let uy_rot := ifft (vfry rot_fft) in
  let Nx_fft := neg (divf (fft (k_mul ux_rot ux)) (fft (k_mul uy_rot ux))) in
  let Ny_fft := neg (divf (fft (k_mul ux_rot uy)) (fft (k_mul uy_rot uy))) in
  let Neta_fft := neg (divf (fft (k_mul ux_rot eta)) (fft (k_mul uy_rot eta))) in
  el_end a same Nx_fft Ny_fft Neta_fft s.

(** ** sw1l.onlywaves: solvers/sw1l/onlywaves/solver.py 46-106, state.py 52-66, 170-190.
    Variables 0, 1 are ap_fft, am_fft; line 70 reads [self.state.get_var("rot")]. *)
Variable f_pos : bool.                           (* params.f > 0 *)

Definition ow_state_rot (s : store) : V :=
  ifft (rotfft_from_a (plus (s (Sim 0)) (s (Sim 1)))).

Definition ow_ux (a : src) (s : store) : V :=
  if is_none a then s (Ph 0) else ifft (uxf zero (s (st a 0)) (s (st a 1))).
Definition ow_uy (a : src) (s : store) : V :=
  if is_none a then s (Ph 1) else ifft (uyf zero (s (st a 0)) (s (st a 1))).
Definition ow_eta (a : src) (s : store) : V :=
  if is_none a then s (Ph 2) else ifft (etaf zero (s (st a 0)) (s (st a 1))).

Definition tendencies_sw1l_onlywaves (a : src) (same : bool) (s : store) : store :=
  let ux := ow_ux a s in
  let uy := ow_uy a s in
  let eta := ow_eta a s in
  let g2 := half (fft (k_ke ux uy)) in
  let Nx_fft := neg (gx g2) in
  let Ny_fft := neg (gy g2) in
  let Nx_fft := if f_pos then plus Nx_fft (fft (k_N1x (ow_state_rot s) uy)) else Nx_fft in
  let Ny_fft := if f_pos then plus Ny_fft (fft (k_N1y (ow_state_rot s) ux)) else Ny_fft in
  let Neta_fft := neg (divf (fft (k_mul eta ux)) (fft (k_mul eta uy))) in
  let s := upd s (out a same 0) (dealias (top Nx_fft Ny_fft Neta_fft)) in
  let s := upd s (out a same 1) (dealias (tom Nx_fft Ny_fft Neta_fft)) in
  add_forcing a same [0; 1] s.

(** ** burgers1d: fluidsim/solvers/burgers1d/solver.py 69-94 (variable 0 is u_fft) *)
Variable px : V -> V.                            (* oper.pxffft_from_fft *)
Variable k_burgers : V -> V -> V.                (* -signal * pxu *)
Variable oddball : V -> V.                       (* f_fft[nkx - 1] = 0 *)

Definition tendencies_burgers1d (a : src) (same : bool) (s : store) : store :=
  let signal := if is_none a then s (Ph 0) else ifft (s (st a 0)) in
  let pxu := ifft (px (s (st a 0))) in
  let s := upd s (out a same 0) (fft (k_burgers signal pxu)) in
  let s := upd s (out a same 0) (dealias (s (out a same 0))) in
  upd s (out a same 0) (oddball (s (out a same 0))).

(** ** burgers1d.skew_sym: fluidsim/solvers/burgers1d/skew_sym/solver.py 30-63 *)
Variable k_skew : V -> V -> V.                   (* -0.5 * signal * pxu *)
Variable k_cons : V -> V.                        (* -0.25 * _ *)
Variable k_square : V -> V.                      (* signal**2 *)

Definition tendencies_skew_sym (a : src) (same : bool) (s : store) : store :=
  let signal := if is_none a then s (Ph 0) else ifft (s (st a 0)) in
  let pxu := ifft (px (s (st a 0))) in
  let f_fft_cons := k_cons (px (fft (k_square signal))) in
  let s := upd s (out a same 0) (fft (k_skew signal pxu)) in
  let s := upd s (out a same 0) (plus (s (out a same 0)) f_fft_cons) in
  let s := upd s (out a same 0) (dealias (s (out a same 0))) in
  upd s (out a same 0) (oddball (s (out a same 0))).

(** ** nl1d: fluidsim/solvers/nl1d/solver.py 55-73 *)
Variable k_nl1d : V -> V.                        (* -sign(signal)*sigma*signal**2 *)

Definition tendencies_nl1d (a : src) (same : bool) (s : store) : store :=
  let signal := if is_none a then s (Ph 0) else ifft (s (st a 0)) in
  let s := upd s (out a same 0) (fft (k_nl1d signal)) in
  dealias_all a same [0] s.

(** ** waves2d (solver.py 103-113), ad1d.pseudo_spect (solver.py 54-64),
    base/solvers/pseudo_spect.py 241-259: the tendencies are set to 0 *)
Definition tendencies_zero (ks : list nat) (a : src) (same : bool) (s : store) : store :=
  fold_left (fun s k => upd s (out a same k) zero) ks s.

End InPlace.
