(** * Vocabulary for the properties of the time loop

    Everything is stated on the trace of observable events and on the final
    state; nothing here refers to the functions of the model. *)

From Coq Require Import ZArith QArith List Bool.
From Verif Require Import TimeLoop_Model.
Import ListNotations.

Section Spec.
  Context {S : Type}.

  (** Time steps done: the dt of each computed step, in order. *)
  Fixpoint dts (tr : list (event S)) : list Q :=
    match tr with
    | [] => []
    | EvCompute _ _ dt :: tr' => dt :: dts tr'
    | _ :: tr' => dts tr'
    end.

  Definition n_steps (tr : list (event S)) : nat := length (dts tr).

  Fixpoint qsum (l : list Q) : Q :=
    match l with [] => 0 | x :: l' => x + qsum l' end.

  Definition is_stop_event (e : event S) : Prop :=
    match e with
    | EvMaxElapsed => True
    | EvStopSignal _ => True
    | _ => False
    end.

  (** What the solver does: the CFL computation (new dt from the state and the
      old dt), the forcing (state from state and time), the advance (state from
      state and dt), and the addition of times. *)
  Record solver := {
    sv_clf : S -> Q -> Q;
    sv_forcing : S -> Q -> S;
    sv_advance : S -> Q -> S;
    sv_add : Q -> Q -> Q
  }.

  (** One step as seen from outside, when the state before it has iteration
      [it], time [t], fields [ph] and time step [dt0]: the new time step [dt] is
      computed, then the forcing, possible stop messages, the outputs (which see the
      fields with the forcing of this time) and the computation; all of them for
      this [it] and [t]. The fields after the step are [ph']. *)
  Inductive step_block (v : solver) (cfl forc : bool) (it : Z) (t : Q)
    : Q -> S -> Q -> S -> list (event S) -> Prop :=
  | step_block_intro : forall dt0 ph dt st msgs,
      dt = (if cfl then sv_clf v ph dt0 else dt0) ->
      st = (if forc then sv_forcing v ph t else ph) ->
      (forall e, In e msgs -> is_stop_event e) ->
      step_block v cfl forc it t dt0 ph dt (sv_advance v st dt)
        ((if cfl then [EvCfl it t dt] else [])
         ++ (if forc then [EvForcing it t] else [])
         ++ msgs ++ [EvOutput it t st; EvCompute it t dt]).

  (** A whole run: blocks following each other; iteration, time, time step and
      fields are those left by the previous block. *)
  Inductive run_blocks (v : solver) (cfl forc : bool)
    : Z -> Q -> Q -> S -> list (event S) -> Z -> Q -> Q -> S -> Prop :=
  | run_nil : forall it t dt ph, run_blocks v cfl forc it t dt ph [] it t dt ph
  | run_cons : forall it t dt0 ph dt ph1 b tr it' t' dt' ph',
      step_block v cfl forc it t dt0 ph dt ph1 b ->
      run_blocks v cfl forc (it + 1) (sv_add v t dt) dt ph1 tr it' t' dt' ph' ->
      run_blocks v cfl forc it t dt0 ph (b ++ tr) it' t' dt' ph'.

  (** The run from one state of the time stepping object to another. *)
  Definition complete_steps (v : solver) (p : params) (s : tstate S)
             (tr : list (event S)) (s' : tstate S) : Prop :=
    run_blocks v (p_use_cfl p) (p_forcing p)
      (ts_it s) (ts_t s) (ts_deltat s) (ts_phys s) tr
      (ts_it s') (ts_t s') (ts_deltat s') (ts_phys s').

  (** Signals that ask a run to stop. *)
  Definition is_stop_signo (signo : Z) : Prop := signo = 12%Z \/ signo = 15%Z.

  (** An environment in which nothing asks the run to stop. *)
  Definition quiet (p : params) (clock : nat -> Q)
             (sig_before sig_after : nat -> list Z) : Prop :=
    (forall n s, In s (sig_before n) -> ~ is_stop_signo s) /\
    (forall n s, In s (sig_after n) -> ~ is_stop_signo s) /\
    (forall n lim, p_time_should_stop p = Some lim -> clock n <= lim)%Q.

  (** A fresh time stepping object. *)
  Definition fresh (s : tstate S) : Prop :=
    ts_has_to_stop s = false /\ ts_stop_signal s = 0%Z.
End Spec.
Arguments solver : clear implicits.
