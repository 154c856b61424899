(** The normalized forcing of ns3d and ns3d.strat: the variable key_forced is forced, the state of the forcing is built
    from it, and the tendencies are projected.
    Sources: base/forcing/specific.py l.471-514 (NormalizedForcing.compute) and 672-684 (coefficients a and b),
    solvers/ns3d/state.py l.60-95 (compute) and 126-172 (init_statespect_from), base/state.py l.352-386,
    solvers/ns3d/solver.py tendencies_nonlin (the forcing is added before project_state_spect), operators3d.py (Oper_Model.v).
    Simplifications: exact numbers; the sums are over the list of the modes of the grid of the forcing, with the weights of
    sum_wavenumbers; the forced modes are not removed by the dealiasing; projector = perpendicular (default), no_vz_kz0 false;
    one forward step with the forcing alone; None is an exception. *)
From Coq Require Import String List Reals.
From Coquelicot Require Import Complex.
From Verif Require Import Oper_Model.
Import ListNotations.
Local Open Scope R_scope.

(** a mode: wavenumbers and weight *)
Record mode := { mkx : R; mky : R; mkz : R; weight : R }.
Definition vec : Type := C * C * C.
(** velocity and buoyancy *)
Definition spect : Type := vec * C.
Definition abs2 (z : C) : R := fst z ^ 2 + snd z ^ 2.
(** (v.conj() * f).real *)
Definition dotc (v f : C) : R := fst (Cmult (Cconj v) f).
Definition sum_k (l : list mode) (f : mode -> R) : R := fold_right Rplus 0 (map (fun m => weight m * f m) l).
Definition vadd3 (a b : vec) : vec := (Cplus (fst (fst a)) (fst (fst b)), Cplus (snd (fst a)) (snd (fst b)), Cplus (snd a) (snd b)).
Definition vsub3 (a b : vec) : vec := (Cminus (fst (fst a)) (fst (fst b)), Cminus (snd (fst a)) (snd (fst b)), Cminus (snd a) (snd b)).
Definition vmul3 (c : R) (a : vec) : vec := (rmul c (fst (fst a)), rmul c (snd (fst a)), rmul c (snd a)).
Definition vzero : vec := (RtoC 0, RtoC 0, RtoC 0).

(** state_spect.get_var(key) or state.get_var(key) *)
Definition forced_var (key : string) (m : mode) (s : spect) : option C :=
  let v := fst s in
  if String.eqb key "vx_fft" then Some (fst (fst v))
  else if String.eqb key "vy_fft" then Some (snd (fst v))
  else if String.eqb key "vz_fft" then Some (snd v)
  else if String.eqb key "b_fft" then Some (snd s)
  else if String.eqb key "rotz_fft" then Some (rotz (mkx m) (mky m) (fst (fst v)) (snd (fst v)))
  else if String.eqb key "divh_fft" then Some (divh (mkx m) (mky m) (fst (fst v)) (snd (fst v)))
  else if String.eqb key "vp_fft" then Some (vp_from_vec (mkx m) (mky m) (mkz m) v)
  else if String.eqb key "vt_fft" then Some (vt_from_vec (mkx m) (mky m) v)
  else None.

(** ns3d/state.py 147-172 with one key *)
Definition init_statespect (key : string) (m : mode) (f : C) : option spect :=
  let o := RtoC 0 in
  if String.eqb key "rotz_fft" then let (x, y) := v_from_rotz (mkx m) (mky m) f in Some ((x, y, o), o)
  else if String.eqb key "divh_fft" then let (x, y) := v_from_divh (mkx m) (mky m) f in Some ((x, y, o), o)
  else if String.eqb key "vp_fft" then Some (vec_from_vp (mkx m) (mky m) (mkz m) f, o)
  else if String.eqb key "vt_fft" then Some (vec_from_vt (mkx m) (mky m) f, o)
  else if String.eqb key "vx_fft" then Some ((f, o, o), o)
  else if String.eqb key "vy_fft" then Some ((o, f, o), o)
  else if String.eqb key "vz_fft" then Some ((o, o, f), o)
  else if String.eqb key "b_fft" then Some ((o, o, o), f)
  else None.

(** the value of an optional field, where there is one *)
Definition get (x : option C) : C := match x with Some z => z | None => RtoC 0 end.

(** specific.py 672-680, with constant_rate_of None *)
Definition coef_ab (l : list mode) (key : string) (f : mode -> C) (s : mode -> spect) (deltat : R) : R * R :=
  (deltat / 2 * sum_k l (fun m => abs2 (f m)), sum_k l (fun m => dotc (get (forced_var key m (s m))) (f m))).

(** specific.py 480-512: [raw key] is the raw forcing and [coef key] the coefficient of its normalisation *)
Fixpoint compute (keys : list string) (raw : string -> mode -> C) (coef : string -> R) (m : mode) (acc : spect) : option spect :=
  match keys with
  | [] => Some acc
  | key :: r =>
      match init_statespect key m (rmul (coef key) (raw key m)) with
      | None => None
      | Some s => compute r raw coef m (vadd3 (fst acc) (fst s), Cplus (snd acc) (snd s))
      end
  end.
Definition forcing (keys : list string) (raw : string -> mode -> C) (coef : string -> R) (m : mode) : option spect :=
  compute keys raw coef m (vzero, RtoC 0).

(** project_perpk3d *)
Definition perp (m : mode) (v : vec) : vec := vsub3 v (project_kradial3d (mkx m) (mky m) (mkz m) v).

(** one step with the forcing alone *)
Definition step (deltat : R) (m : mode) (s f : spect) : spect :=
  (vadd3 (fst s) (vmul3 deltat (perp m (fst f))), Cplus (snd s) (rmul deltat (snd f))).
