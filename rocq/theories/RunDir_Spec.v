(** Specification for the directories, the lock and the opening of files (C30, C46, C47, C71, C72) *)

From Coq Require Import String List Arith Bool.
From Verif Require Import RunDir_Model.
Import ListNotations.
Local Open Scope nat_scope.

(** time at the beginning of attempt [k], when all the previous ones were busy *)
Fixpoint start_of (attempt : nat -> outcome * nat) (once k : nat) : nat :=
  match k with
  | O => 0
  | S j => start_of attempt once j + snd (attempt j) + once
  end.

Definition busy (attempt : nat -> outcome * nat) (k : nat) : Prop := fst (attempt k) = Errno 11.

(** the runs of a directory do not overlap and are not interrupted by a signal *)
Inductive separate : list event -> Prop :=
| sep_nil : separate []
| sep_run : forall p l, separate l -> separate (Start p :: End p :: l).

Definition run_events (l : list event) : lock_state := fold_left lock_step l (mkLock None []).

(** [p] created the lock and has not ended *)
Definition owns (l : list event) (p : nat) : Prop :=
  exists l1 l2, l = l1 ++ Start p :: l2 /\ lock (run_events l1) = None /\ ~ In (End p) l2.

(** [child] is below the directory [parent] (paths as lists of components) *)
Definition below (parent child : list string) : Prop := exists r, child = parent ++ r.
Fixpoint path_text (l : list string) : string :=
  match l with [] => EmptyString | c :: r => String.append "/" (String.append c (path_text r)) end.
