(** The start of a simulation: the constructor, the initialisation of the outputs, the
    preprocessing, the preparation of the main loop and the time steps.

    fluidsim/base/solvers/base.py 168-223, base/init_fields.py 122-126 and 434-439,
    base/output/base.py 190-248 and 263-309, 540-595, base/forcing/base.py 134-157,
    base/time_stepping/base.py 145-250 and 322-339.

    The fields, the forcing maker and the parameters which the preprocessing sets are abstract. *)
From Coq Require Import Reals List Bool.
Import ListNotations.
Local Open Scope R_scope.

Definition ltb (a b : R) : bool := if Rlt_dec a b then true else false.

(** TimeSteppingBase._compute_time_increment_CLF_from_tmp, base/time_stepping/base.py 322-337, one
    process. [tmp]: the sum of the maximal velocities divided by the mesh sizes *)
Definition cfl_from_tmp (coef deltat_max tmp deltat : R) : R :=
  let deltat_CFL := if ltb 0 tmp then coef / tmp else deltat_max in
  let maybe_new_dt := Rmin deltat_CFL deltat_max in
  let normalize_diff := Rabs (deltat - maybe_new_dt) / maybe_new_dt in
  if ltb (2 / 100) normalize_diff then maybe_new_dt else deltat.

Section Start.
(** [S]: state; [P]: the parameters which the preprocessing changes (viscosity, forcing rate);
    [G]: the forcing maker (its arrays, its generator of random numbers and the current forcing) *)
Variables S P G : Type.
(** the maximal velocities of a state divided by the mesh sizes *)
Variable tmp_of : S -> R.
(** forcing_maker.compute(): time, time step, parameters, state *)
Variable maker : R -> R -> P -> S -> G -> G.
(** one_time_step_computation *)
Variable step : R -> R -> P -> G -> S -> S.
(** Preprocess.__call__ when params.preprocess.enable *)
Variable preprocess : P -> S -> P * S.
(** init_fields and the modification of the state by the user, between the construction of the
    simulation and the start of the main loop (no modification: the identity) *)
Variable init_fields : S.
Variable user : S -> S.

Record options := mkOptions {
  use_cfl : bool;
  cfl_coef : R;
  deltat_max : R;
  deltat0 : R;
  forcing_enabled : bool;
  (** the forcing maker has an attribute is_initialized which is False (in_script) *)
  forcing_in_script : bool;
  has_to_save : bool;
  (** type in_script or params.init_fields.modif_after_init *)
  modif_after_init : bool;
  preprocess_enable : bool;
  (** params.output.periods_save of one output; 0: not saved *)
  period_save : R
}.

(** a record of an output: the time, the state and the forcing which it has seen *)
Record record := mkRecord { r_t : R; r_state : S; r_forcing : G }.

Record sim := mkSim {
  state : S;
  prm : P;
  maker_state : G;
  (** None: minus infinity *)
  t_last_computed : option R;
  t : R;
  it : nat;
  deltat : R;
  (** output._has_been_initialized_with_state *)
  outputs_ready : bool;
  t_last_save : R;
  records : list record
}.

Variable o : options.

Definition set_deltat (x : R) (s : sim) : sim :=
  mkSim (state s) (prm s) (maker_state s) (t_last_computed s) (t s) (it s) x (outputs_ready s)
    (t_last_save s) (records s).

(** compute_time_increment_CLF *)
Definition compute_cfl (s : sim) : sim :=
  set_deltat (cfl_from_tmp (cfl_coef o) (deltat_max o) (tmp_of (state s)) (deltat s)) s.

(** ForcingBase.compute, base/forcing/base.py 143-147 *)
Definition forcing_compute (s : sim) : sim :=
  if match t_last_computed s with None => true | Some a => ltb a (t s) end then
    mkSim (state s) (prm s) (maker (t s) (deltat s) (prm s) (state s) (maker_state s)) (Some (t s))
      (t s) (it s) (deltat s) (outputs_ready s) (t_last_save s) (records s)
  else s.

(** a record of the output at the current time: _init_files and _online_save *)
Definition save (s : sim) : sim :=
  mkSim (state s) (prm s) (maker_state s) (t_last_computed s) (t s) (it s) (deltat s)
    (outputs_ready s) (t s) (records s ++ [mkRecord (t s) (state s) (maker_state s)]).

(** does the output save? 540-568: period_save is set to 0 if not output._has_to_save *)
Definition saves : bool := has_to_save o && negb (if Req_EM_T (period_save o) 0 then true else false).

(** OutputBase.init_with_initialized_state, base/output/base.py 263-309; one output with a file *)
Definition init_with_initialized_state (s : sim) : sim :=
  if outputs_ready s then s else
  let s := mkSim (state s) (prm s) (maker_state s) (t_last_computed s) (t s) (it s) (deltat s) true
             (t_last_save s) (records s) in
  let s := if use_cfl o then compute_cfl s else s in
  let s := if forcing_enabled o && has_to_save o then forcing_compute s else s in
  if saves then save s else s.

(** OutputBase.post_init, 245-249 *)
Definition post_init (s : sim) : sim :=
  if negb (modif_after_init o) then
    if forcing_enabled o && forcing_in_script o then s else init_with_initialized_state s
  else s.

(** PreprocessPseudoSpectral.__call__ *)
Definition call_preprocess (s : sim) : sim :=
  if preprocess_enable o then
    let r := preprocess (prm s) (state s) in
    mkSim (snd r) (fst r) (maker_state s) (t_last_computed s) (t s) (it s) (deltat s)
      (outputs_ready s) (t_last_save s) (records s)
  else s.

(** SimulBase.__init__, 168-223: state, time stepping, initial fields, forcing, outputs and then the
    preprocessing *)
Definition construct (p : P) (g : G) : sim :=
  call_preprocess
    (post_init (mkSim init_fields p g None 0 0%nat (deltat0 o) false 0 [])).

(** what the user does with sim.state before start *)
Definition user_modifies (s : sim) : sim :=
  mkSim (user (state s)) (prm s) (maker_state s) (t_last_computed s) (t s) (it s) (deltat s)
    (outputs_ready s) (t_last_save s) (records s).

(** prepare_main_loop, base/time_stepping/base.py 153-171 *)
Definition prepare_main_loop (s : sim) : sim :=
  if outputs_ready s then s else init_with_initialized_state s.

(** OutputBase.one_time_step and _online_save, base/output/base.py 310-327 and 583-589 *)
Definition output_one_time_step (s : sim) : sim :=
  if saves && negb (ltb (t s - t_last_save s) (period_save o)) then save s else s.

(** one_time_step, base/time_stepping/base.py 209-250 *)
Definition one_time_step (s : sim) : sim :=
  let s := if use_cfl o then compute_cfl s else s in
  let s := if forcing_enabled o then forcing_compute s else s in
  let s := output_one_time_step s in
  mkSim (step (t s) (deltat s) (prm s) (maker_state s) (state s)) (prm s) (maker_state s)
    (t_last_computed s) (t s + deltat s) (Datatypes.S (it s)) (deltat s) (outputs_ready s)
    (t_last_save s) (records s).

Fixpoint time_steps (n : nat) (s : sim) : sim :=
  match n with O => s | Datatypes.S k => one_time_step (time_steps k s) end.

(** construction, modification by the user, preparation *)
Definition started (p : P) (g : G) : sim :=
  prepare_main_loop (user_modifies (construct p g)).

(** and the first [n] time steps *)
Definition run (p : P) (g : G) (n : nat) : sim := time_steps n (started p g).
End Start.
