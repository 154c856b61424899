(** * Model of the main time loop

    Models fluidsim/base/time_stepping/base.py (class TimeSteppingBase0) and the
    signal handlers of fluidsim/base/solvers/base.py.

    Time is an exact rational, except that the addition [t += deltat] is an
    arbitrary function [addt] (so that it can be the rounded one).  The physical
    state, the CFL computation, the forcing, the clock and the arrival of signals
    are arbitrary. *)

From Coq Require Import ZArith QArith List Bool String.
Import ListNotations.
Open Scope Z_scope.

(** Strict comparison of Python numbers. *)
Definition qltb (a b : Q) : bool := negb (Qle_bool b a).

(** Parameters read by the loop (base.py 42-93 for the defaults).
    [p_time_should_stop] is [_time_should_stop] (base.py 119-142), [None] when
    params.time_stepping.max_elapsed is None; the parsing of "%H:%M:%S" is not
    modelled. *)
Record params := {
  p_use_t_end : bool;
  p_t_end : Q;
  p_it_end : Z;
  p_use_cfl : bool;
  p_forcing : bool;
  p_time_should_stop : option Q
}.

(** What an external observer (output, forcing, stdout) can see. *)
Inductive event (S : Type) : Type :=
| EvCfl (it : Z) (t dt : Q)          (* compute_time_increment_CLF called *)
| EvForcing (it : Z) (t : Q)         (* forcing.compute() called *)
| EvMaxElapsed                       (* "Maximum elapsed time reached..." *)
| EvStopSignal (name : option string)(* "Stop signal (...) received..." *)
| EvOutput (it : Z) (t : Q) (st : S) (* output.one_time_step() called *)
| EvCompute (it : Z) (t dt : Q).     (* one_time_step_computation() called *)
Arguments EvCfl {S}. Arguments EvForcing {S}. Arguments EvMaxElapsed {S}.
Arguments EvStopSignal {S}. Arguments EvOutput {S}. Arguments EvCompute {S}.

(** Attributes of the time stepping object (base.py 96-104) and the state of the
    simulation.  [ts_stop_signal] is the integer value of
    [_stop_signal_received]: False is 0, True is 1, a signal number is itself.
    [ts_nstep] counts the calls of one_time_step
    (it only selects the behaviour of the environment). *)
Record tstate (S : Type) := {
  ts_it : Z;
  ts_t : Q;
  ts_deltat : Q;
  ts_has_to_stop : bool;
  ts_stop_signal : Z;
  ts_phys : S;
  ts_nstep : nat
}.
Arguments ts_it {S}. Arguments ts_t {S}. Arguments ts_deltat {S}.
Arguments ts_has_to_stop {S}. Arguments ts_stop_signal {S}.
Arguments ts_phys {S}. Arguments ts_nstep {S}.

(** Signal numbers on Linux. *)
Definition SIGHUP : Z := 1.
Definition SIGUSR2 : Z := 12.
Definition SIGTERM : Z := 15.

(** The handlers.  SIGUSR2: handler_signals, base.py 106-108, stores [True].
    SIGTERM: sig_handler, solvers/base.py 156-164, stores the signal number (it
    also removes the lock file, see Lock_Model.v).  Other signals do not change
    [_stop_signal_received]. *)
Definition handle_signal (signo : Z) (stop_signal : Z) : Z :=
  if signo =? SIGUSR2 then 1
  else if signo =? SIGTERM then signo
  else stop_signal.

Definition handle_signals (l : list Z) (stop_signal : Z) : Z :=
  fold_left (fun v signo => handle_signal signo v) l stop_signal.

(** [signal.Signals(value).name] (base.py 235) for the standard Linux signals
    that matter here; [None] stands for the ValueError of an unknown number. *)
Definition signal_name (v : Z) : option string :=
  if v =? 1 then Some "SIGHUP"%string
  else if v =? 2 then Some "SIGINT"%string
  else if v =? 10 then Some "SIGUSR1"%string
  else if v =? 12 then Some "SIGUSR2"%string
  else if v =? 15 then Some "SIGTERM"%string
  else None.

Section Loop.
  Variable S : Type.
  Variable addt : Q -> Q -> Q.
  (** CFL computation: new deltat from the state and the old deltat. *)
  Variable clf : S -> Q -> Q.
  (** forcing.compute(): may change the forcing part of the state. *)
  Variable forcing_compute : S -> Q -> S.
  (** one_time_step_computation(): advance the state by deltat. *)
  Variable advance : S -> Q -> S.
  (** value of time() during the n-th call of one_time_step *)
  Variable clock : nat -> Q.
  (** signals received during the n-th call, before / after the value of
      [_stop_signal_received] is read (base.py 227-233); signals received between
      two calls belong to the "before" list of the next call. *)
  Variable sig_before sig_after : nat -> list Z.

  (** one_time_step, base.py 208-244 (sequential case: mpi.nb_proc == 1). *)
  Definition one_time_step (p : params) (s : tstate S)
    : tstate S * list (event S) :=
    let n := ts_nstep s in
    let sig := handle_signals (sig_before n) (ts_stop_signal s) in
    let dt := if p_use_cfl p then clf (ts_phys s) (ts_deltat s) else ts_deltat s in
    let ev_cfl := if p_use_cfl p then [EvCfl (ts_it s) (ts_t s) dt] else [] in
    let ph := if p_forcing p then forcing_compute (ts_phys s) (ts_t s) else ts_phys s in
    let ev_forc := if p_forcing p then [EvForcing (ts_it s) (ts_t s)] else [] in
    let too_late := match p_time_should_stop p with
                    | None => false
                    | Some lim => qltb lim (clock n)
                    end in
    let ev_late := if too_late then [EvMaxElapsed] else [] in
    let received := negb (sig =? 0) in
    let ev_sig := if received then [EvStopSignal (signal_name sig)] else [] in
    let stop := ts_has_to_stop s || too_late || received in
    let ev_out := [EvOutput (ts_it s) (ts_t s) ph] in
    let ph' := advance ph dt in
    let sig' := handle_signals (sig_after n) sig in
    ({| ts_it := ts_it s + 1;
        ts_t := addt (ts_t s) dt;
        ts_deltat := dt;
        ts_has_to_stop := stop;
        ts_stop_signal := sig';
        ts_phys := ph';
        ts_nstep := Datatypes.S n |},
     ev_cfl ++ ev_forc ++ ev_late ++ ev_sig ++ ev_out
       ++ [EvCompute (ts_it s) (ts_t s) dt]).

  (** Loop condition, base.py 198-206. *)
  Definition continue (p : params) (s : tstate S) : bool :=
    (if p_use_t_end p then qltb (ts_t s) (p_t_end p)
     else ts_it s <? p_it_end p)
    && negb (ts_has_to_stop s).

  (** main_loop, base.py 182-206, with explicit fuel; [None] means that the loop
      is still running after [fuel] iterations.  The printed header and the
      initial save are not modelled here (see PhysFiles_Model.v for the save). *)
  Fixpoint main_loop (fuel : nat) (p : params) (s : tstate S)
    : option (tstate S * list (event S)) :=
    if continue p s then
      match fuel with
      | O => None
      | Datatypes.S fuel' =>
          let '(s1, e1) := one_time_step p s in
          match main_loop fuel' p s1 with
          | None => None
          | Some (s2, e2) => Some (s2, e1 ++ e2)
          end
      end
    else Some (s, []).

  (** is_simul_completed, base.py 309-319. *)
  Definition is_simul_completed (p : params) (s : tstate S) : bool :=
    if p_use_t_end p then Qle_bool (p_t_end p) (ts_t s)
    else p_it_end p <=? ts_it s.
End Loop.
