(** Specification for the forcing (C31-C35, C70) *)

From Coq Require Import Reals List.
From Coquelicot Require Import Complex.
From Verif Require Import Forcing_Model.
Import ListNotations.
Local Open Scope R_scope.

(** the quadratic quantity of the variable: sum of w |u|^2 / 2 *)
Fixpoint energy (l : list (R * C)) : R :=
  match l with
  | [] => 0
  | (wm, v) :: r => wm * (Cmod v * Cmod v) / 2 + energy r
  end.

(** the variable before and after a forward step with the forcing only *)
Definition before (l : list mode) : list (R * C) := map (fun m => (w m, u m)) l.
Definition after (dt : R) (l : list mode) : list (R * C) :=
  map (fun m => (w m, Cplus (u m) (Cmult (RtoC dt) (f m)))) l.

Definition weights_nonneg (l : list mode) : Prop := Forall (fun m => 0 <= w m) l.

(** the raw forcing injects something *)
Definition forcing_not_zero (l : list mode) : Prop :=
  exists m, In m l /\ 0 < w m /\ f m <> RtoC 0.

Definition is_root (a b c x : R) : Prop := a * (x * x) + b * x + c = 0.

(** calls of compute at successive times *)
Fixpoint compute_all {S} (maker : R -> S -> S) (ts : list R) (x : forcing S) : forcing S :=
  match ts with [] => x | t :: r => compute_all maker r (compute S maker t x) end.

(** the values of the arrays used at each call *)
Fixpoint tc_run {rng A} (seeded : nat -> rng) (randint : rng -> nat * rng) (raw : rng -> A * rng)
  (period : R) (save : bool) (ts : list R) (s : tc rng A) : tc rng A * list (R * A * A * R) :=
  match ts with
  | [] => (s, [])
  | t :: r =>
      let s' := tc_change rng seeded randint A raw period save t s in
      let (e, l) := tc_run seeded randint raw period save r s' in
      (e, (t_last_change rng A s', forcing0 rng A s', forcing1 rng A s', t) :: l)
  end.
