(** The variant of the solver ns2d whose state is the velocity.
    Sources: solvers/ns2d/with_uxuy.py, solvers/ns2d/solver.py l.33-39 and 125-185,
    solvers/ns2d/state.py l.88-150, base/init_fields.py l.255-295.
    External (fluidfft): fft, ifft (parameters), vecfft_from_rotfft,
    rotfft_from_vecfft, gradfft_from_fft, projection_perp, with their documented
    formulas; SetOfVariables (fluiddyn): get_var fails for an unknown key.
    Simplifications: exact numbers; the coefficients of the linear terms are
    recomputed for each step (their cache is studied in Schemes_Model.v); the
    arrays of a forcing are given for each time step. *)
From Coq Require Import String Reals List Bool.
From Coquelicot Require Import Complex.
From Verif Require Import CExp Schemes_Model.
Import ListNotations.
Local Open Scope C_scope.

Inductive result (A : Type) := Ok (a : A) | KeyError (key : string).
Arguments Ok {A} _. Arguments KeyError {A} _.
Fixpoint index (key : string) (keys : list string) : option nat :=
  match keys with
  | [] => None
  | k :: keys => if String.eqb k key then Some 0%nat else option_map S (index key keys)
  end.

Section WithUxuy.
Variable mode : Type.
Variable X : Type.
Variables kx ky : mode -> R.
Variable ifft : (mode -> C) -> X -> R.
Variable fft : (X -> R) -> mode -> C.
Variable mask : mode -> bool.
Variable beta : R.

(** ** operators (fluidfft) *)
Definition K2 (m : mode) : R := (kx m * kx m + ky m * ky m)%R.
Definition K2_not0 (m : mode) : R := if Req_EM_T (K2 m) 0 then 1%R else K2 m.
Definition vecfft_from_rotfft (rot : mode -> C) : (mode -> C) * (mode -> C) :=
  (fun m => Ci * RtoC (ky m / K2_not0 m) * rot m, fun m => - Ci * RtoC (kx m / K2_not0 m) * rot m).
Definition rotfft_from_vecfft (ux uy : mode -> C) : mode -> C :=
  fun m => Ci * (RtoC (kx m) * uy m - RtoC (ky m) * ux m).
Definition gradfft_from_fft (f : mode -> C) : (mode -> C) * (mode -> C) :=
  (fun m => Ci * RtoC (kx m) * f m, fun m => Ci * RtoC (ky m) * f m).
Definition projection_perp (fx fy : mode -> C) : (mode -> C) * (mode -> C) :=
  let kdotf := fun m => RtoC (kx m) * fx m + RtoC (ky m) * fy m in
  (fun m => fx m - RtoC (kx m / K2_not0 m) * kdotf m, fun m => fy m - RtoC (ky m / K2_not0 m) * kdotf m).
Definition dealiasing (f : mode -> C) : mode -> C := fun m => if mask m then RtoC 0 else f m.

(** ns2d/solver.py l.33-39 *)
Definition compute_Frot (ux uy px_rot py_rot : X -> R) : X -> R :=
  if Req_EM_T beta 0 then fun x => (- ux x * px_rot x - uy x * py_rot x)%R
  else fun x => (- ux x * px_rot x - uy x * (py_rot x + beta))%R.
(** the end of the two functions tendencies_nonlin *)
Definition Frot_fft (ux uy : X -> R) (rot_fft : mode -> C) : mode -> C :=
  let (px, py) := gradfft_from_fft rot_fft in
  dealiasing (fft (compute_Frot ux uy (ifft px) (ifft py))).

(** ** ns2d/solver.py l.125-185: tendencies_nonlin with the forcing *)
Definition ns2d_tendencies (forcing : arr mode) (rot : arr mode) : arr mode :=
  let (ux, uy) := vecfft_from_rotfft rot in
  fun m => Frot_fft (ifft ux) (ifft uy) rot m + forcing m.

(** ** with_uxuy.py l.92-143; the index of an array is the variable (true: ux_fft) and the mode *)
Definition var := (bool * mode)%type.
Definition get_ux (a : arr var) : mode -> C := fun m => a (true, m).
Definition get_uy (a : arr var) : mode -> C := fun m => a (false, m).
Definition set_vars (ux uy : mode -> C) : arr var := fun i => if fst i then ux (snd i) else uy (snd i).
Definition uxuy_tendencies (forcing : arr var) (a : arr var) : arr var :=
  let rot := rotfft_from_vecfft (get_ux a) (get_uy a) in
  let F := Frot_fft (ifft (get_ux a)) (ifft (get_uy a)) rot in
  let (Fx, Fy) := vecfft_from_rotfft F in
  fun i => set_vars Fx Fy i + forcing i.

(** ** the time steps *)
Variable f_lin : mode -> C.
Variable ps : mode -> C.
Variable sch : scheme.
Definition diss (dt : R) : mode -> C := fun m => cexp (- RtoC dt * f_lin m).
Definition diss2 (dt : R) : mode -> C := fun m => cexp (- RtoC (dt / 2) * f_lin m).
(** the arrays (mode) are broadcast over the variables *)
Definition cast (f : mode -> C) : arr var := fun i => f (snd i).
(** base/time_stepping/pseudo_spect.py l.236-243 *)
Definition step_ns2d (dt : R) (alpha betaps : mode -> C) (forcing : arr mode) (s : store mode) : store mode :=
  let s := time_step_RK mode (ns2d_tendencies forcing) sch dt (diss dt) (diss2 dt) ps alpha betaps s in
  upd mode s STATE (dealiasing (s STATE)).
(** with_uxuy.py l.12-22 *)
Definition step_uxuy (dt : R) (alpha betaps : mode -> C) (forcing : arr var) (s : store var) : store var :=
  let s := time_step_RK var (uxuy_tendencies forcing) sch dt (cast (diss dt)) (cast (diss2 dt)) (cast ps) (cast alpha) (cast betaps) s in
  let state := set_vars (dealiasing (get_ux (s STATE))) (dealiasing (get_uy (s STATE))) in
  let (ux, uy) := projection_perp (get_ux state) (get_uy state) in
  upd var s STATE (set_vars ux uy).
(** several steps, each with its time step, its random phase shifts and its forcing *)
Fixpoint run_ns2d (steps : list (R * (mode -> C) * (mode -> C) * arr mode)) (s : store mode) : store mode :=
  match steps with
  | [] => s
  | (dt, alpha, betaps, forcing) :: steps => run_ns2d steps (step_ns2d dt alpha betaps forcing s)
  end.
Fixpoint run_uxuy (steps : list (R * (mode -> C) * (mode -> C) * arr var)) (s : store var) : store var :=
  match steps with
  | [] => s
  | (dt, alpha, betaps, forcing) :: steps => run_uxuy steps (step_uxuy dt alpha betaps forcing s)
  end.

(** ** with_uxuy.py l.59-63 and ns2d/output: compute_energy_fft *)
Definition energy_fft (ux uy : mode -> C) : mode -> R := fun m => ((Cmod (ux m) ^ 2 + Cmod (uy m) ^ 2) / 2)%R.

(** ** the state *)
(** fluiddyn SetOfVariables.set_var: the array of the key, an error for an unknown key *)
Definition set_var (keys : list string) (key : string) (value : mode -> C) (a : nat -> mode -> C) : result (nat -> mode -> C) :=
  match index key keys with
  | Some n => Ok (fun i => if Nat.eqb i n then value else a i)
  | None => KeyError key
  end.
Definition keys_ns2d : list string := ["rot_fft"%string].
Definition keys_uxuy : list string := ["ux_fft"%string; "uy_fft"%string].
(** ns2d/state.py l.104-109: inherited by with_uxuy *)
Definition statespect_from_statephys (keys : list string) (rot : X -> R) (a : nat -> mode -> C) : result (nat -> mode -> C) :=
  set_var keys "rot_fft" (fft rot) a.
(** base/init_fields.py l.284-294: after the loading of state_phys from a file *)
Definition init_from_file (keys : list string) (rot : X -> R) (a : nat -> mode -> C) : result (nat -> mode -> C) :=
  statespect_from_statephys keys rot a.
(** ns2d/state.py l.111-115 and with_uxuy.py l.40-44: init_from_rotfft *)
Definition ns2d_init_from_rotfft (rot : mode -> C) : mode -> C := dealiasing rot.
Definition uxuy_init_from_rotfft (rot : mode -> C) : arr var :=
  let (ux, uy) := vecfft_from_rotfft rot in set_vars ux uy.
(** with_uxuy.py l.31-38 and ns2d/state.py l.117-145; None: the other keys are
    given to the base class (not modelled) *)
Definition uxuy_init_statespect_from (kwargs : list (string * (mode -> C))) : option (arr var) :=
  match kwargs with
  | [(k1, a1); (k2, a2)] =>
      if (String.eqb k1 "ux_fft" && String.eqb k2 "uy_fft")%bool then Some (set_vars a1 a2)
      else if (String.eqb k1 "uy_fft" && String.eqb k2 "ux_fft")%bool then Some (set_vars a2 a1)
      else None
  | [(k, a)] =>
      let zero := fun _ : mode => RtoC 0 in
      if String.eqb k "rot_fft" then Some (uxuy_init_from_rotfft a)
      else if String.eqb k "ux_fft" then Some (uxuy_init_from_rotfft (rotfft_from_vecfft a zero))
      else if String.eqb k "uy_fft" then Some (uxuy_init_from_rotfft (rotfft_from_vecfft zero a))
      else None
  | _ => None
  end.
End WithUxuy.
