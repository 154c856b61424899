(** What the schedule of the outputs should be, without reference to the code *)

From Coq Require Import QArith ZArith List Arith.
Import ListNotations.
Local Open Scope Q_scope.

(** non-decreasing sequence of call times, from t, with steps of at most d *)
Fixpoint steps (d t : Q) (ts : list Q) : Prop :=
  match ts with
  | [] => True
  | u :: r => t <= u /\ u <= t + d /\ steps d u r
  end.

(** s2 is the save which follows s1 (in the lists the latest save is first) *)
Definition next_in (l : list Q) (s2 s1 : Q) : Prop := exists l1 l2, l = l1 ++ s2 :: s1 :: l2.

(** the period slot number n is [n p, (n+1) p[ *)
Definition in_slot (p : Q) (n : Z) (t : Q) : Prop :=
  inject_Z n * p <= t /\ t < inject_Z (n + 1) * p.

(** constant steps *)
Definition time (d : Q) (i : nat) : Q := inject_Z (Z.of_nat i) * d.

Definition multiples (k n : nat) : list nat := filter (fun i => Nat.eqb (i mod k) 0) (seq 1 n).
