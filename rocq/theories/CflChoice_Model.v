(** * Choice of the computation of the time step (fluidsim/base/time_stepping/base.py 248-297)

    What each function does with the velocity is in Cfl_Model.v. The method compute of the states gives the variables of
    keys_computable and no other one (ValueError, base/state.py 74-76). *)

From Coq Require Import Ascii String List Bool QArith.
Import ListNotations.
Local Open Scope string_scope.

(** keys_spect: None for a StateBase, base/state.py 30-72 and 217-248 *)
Record state := mkState { keys_phys : list string; keys_computable : list string; keys_spect : option (list string) }.

Definition is_in (k : string) (l : list string) : bool := existsb (String.eqb k) l.

(** set(self.keys_state_phys + self.keys_computable [+ self.keys_state_spect]), 118 and 269-271 *)
Definition keys_state (s : state) : list string :=
  (keys_phys s ++ keys_computable s ++ match keys_spect s with None => [] | Some l => l end)%list.

(** base/state.py 82-120 and 250-273: the keys are a subset *)
Definition has_vars (s : state) (keys : list string) : bool := forallb (fun k => is_in k (keys_state s)) keys.

(** base/state.py 121-147 and 275-304: true if there is no ValueError *)
Definition get_var_ok (s : state) (k : string) : bool :=
  match keys_spect s with Some l => is_in k l | None => false end || is_in k (keys_phys s) || is_in k (keys_computable s).

Inductive func := F_uxuyuz | F_uxuyeta | F_uxuy | F_ux | F_U.

(** the variables given by state.get_var in the functions, 319-321, 359-360, 373-374, 416 and 423 *)
Definition keys_read (f : func) : list string :=
  match f with
  | F_uxuyuz => ["vx"; "vy"; "vz"]
  | F_uxuyeta => ["ux"; "uy"]
  | F_uxuy => ["ux"; "uy"]
  | F_ux => ["ux"]
  | F_U => []
  end.

(** str.startswith *)
Definition startswith (p s : string) : bool := String.prefix p s.

Record params := mkParams { use_cfl : bool; cfl_coef : option Q; type_time_scheme : string; has_U : bool }.

(** 251-264; inl None: the attribute CFL is not set *)
Definition init_CFL (p : params) : option Q + string :=
  if use_cfl p then
    match cfl_coef p with
    | Some c => inl (Some c)
    | None =>
        if existsb (fun scheme => startswith scheme (type_time_scheme p)) ["RK2"; "Euler"] then inl (Some (4 # 10)%Q)
        else if startswith "RK4" (type_time_scheme p) then inl (Some 1%Q)
        else inr "Problem name time_scheme"
    end
  else inl None.

(** 271-295; None: the function is not set *)
Definition choose (s : state) (p : params) : option func + string :=
  let has_ux := has_vars s ["ux"] || has_vars s ["vx"] in
  let has_uy := has_vars s ["uy"] || has_vars s ["vy"] in
  let has_uz := has_vars s ["uz"] || has_vars s ["vz"] in
  let has_eta := has_vars s ["eta"] in
  if has_ux && has_uy && has_uz then inl (Some F_uxuyuz)
  else if has_ux && has_uy && has_eta then inl (Some F_uxuyeta)
  else if has_ux && has_uy then inl (Some F_uxuy)
  else if has_ux then inl (Some F_ux)
  else if has_U p then inl (Some F_U)
  else if use_cfl p then inr "params_ts.USE_CFL but no velocity."
  else inl None.

(** 249-297: inr: the message of the ValueError *)
Definition init_compute_time_step (s : state) (p : params) : option Q * option func + string :=
  match init_CFL p with
  | inr e => inr e
  | inl cfl => match choose s p with inr e => inr e | inl f => inl (cfl, f) end
  end.

(** the first call of compute_time_increment_CLF (210-211: only with USE_CFL): inl: the variables which are used, inr: ValueError *)
Definition first_call (s : state) (f : func) : list string + string :=
  match find (fun k => negb (get_var_ok s k)) (keys_read f) with
  | None => inl (keys_read f)
  | Some k => inr ("No method to compute key """ ++ k ++ """")
  end.

(** the keys of the solvers: solvers/{ns2d,ns3d,sw1l,sw1l/exactlin,sphere/sw1l,plate2d,waves2d,burgers1d,ad1d}/{state,solver}.py (the computable keys
    which are not velocities are not listed) *)
Definition st_ns2d := mkState ["ux"; "uy"; "rot"] [] (Some ["rot_fft"]).
Definition st_ns3d := mkState ["vx"; "vy"; "vz"] [] (Some ["vx_fft"; "vy_fft"; "vz_fft"]).
Definition st_sw1l := mkState ["ux"; "uy"; "eta"; "rot"] [] (Some ["ux_fft"; "uy_fft"; "eta_fft"]).
Definition st_plate2d := mkState ["w"; "z"] [] (Some ["w_fft"; "z_fft"]).
Definition st_waves2d := mkState ["f"; "g"] [] (Some ["f_fft"; "g_fft"]).
Definition st_burgers1d := mkState ["u"] [] (Some ["u_fft"]).
Definition st_ad1d := mkState ["s"] [] None.
