(** Specification for the files of the physical state (C25-C29, C69) *)

From Coq Require Import List Arith Bool QArith Qabs.
From Verif Require Import PhysFiles_Model.
Import ListNotations.

(** Every name with an iteration belongs to a file holding this iteration. *)
Definition names_tell {V} (d : list (name * file V)) : Prop :=
  forall w ms i f, lookup V d (state_name w ms (Some i)) = Some f -> f_it V f = i.

(** A request to save. *)
Record request V := mkReq { r_with_it : bool; r_width : nat; r_t : Q; r_it : nat; r_v : V }.
Arguments mkReq {V}. Arguments r_with_it {V}. Arguments r_width {V}. Arguments r_t {V}.
Arguments r_it {V}. Arguments r_v {V}.

Definition do_save {V} (ms : Q -> nat) (d : list (name * file V)) (r : request V) :=
  save V ms (r_with_it r) (r_width r) (r_t r) (r_it r) (r_v r) d.

(** [i] is at a smallest distance of [t]. *)
Definition closest (l : list Q) (t : Q) (x : Q) : Prop :=
  In x l /\ forall y, In y l -> (Qabs (x - t) <= Qabs (y - t))%Q.

(** linear interpolation between two points *)
Definition linear (t0 f0 t1 f1 t : Q) : Q := (f0 + (f1 - f0) * ((t - t0) / (t1 - t0)))%Q.

Fixpoint increasing (l : list Q) : Prop :=
  match l with
  | x :: r => match r with y :: _ => (x < y)%Q | [] => True end /\ increasing r
  | [] => True
  end.
