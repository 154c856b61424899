(** * What is expected of the file stdout.txt *)

From Coq Require Import List Arith ZArith Bool Reals.
From Verif Require Import PrintOut_Model.
Import ListNotations.
Local Open Scope R_scope.

(** each value with its variation since the value before, the first one being compared with [first] *)
Definition variations (first : R) (values : list R) (pairs : list (R * R)) : Prop :=
  map fst pairs = values
  /\ forall i v d, nth_error pairs i = Some (v, d) -> exists before, nth_error (first :: values) i = Some before /\ d = v - before.

(** the instants of the prints of a run: clock time, simulation time, number of time steps, time step *)
Definition instant := (R * R * Z * R)%type.
Definition clock (i : instant) : R := fst (fst (fst i)).
Definition time (i : instant) : R := snd (fst (fst i)).
Definition steps (i : instant) : Z := snd (fst i).

(** consecutive instants *)
Fixpoint consecutive {A} (l : list A) : list (A * A) :=
  match l with
  | a :: ((b :: _) as rest) => (a, b) :: consecutive rest
  | _ => []
  end.

(** the instants followed by an estimation: time has passed since the one before and the end is not over *)
Definition estimated (t_end : R) (p : instant * instant) : bool :=
  if Req_EM_T (time (snd p)) (time (fst p)) then false else if Rlt_dec t_end (time (snd p)) then false else true.

(** the record expected for two consecutive instants *)
Definition expected (round : R -> Z) (t_end : R) (p : instant * instant) : clock_record :=
  let '(a, b) := p in
  {| c_remaining := round ((t_end - time b) / (time b - time a) * (clock b - clock a))%R; c_time := time b;
     c_delta := (time b - time a)%R; c_delta_it := (steps b - steps a)%Z; c_end := t_end |}.
