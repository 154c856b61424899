(** * plate2d: specification *)

From Coq Require Import Reals ZArith List Bool.
From Coquelicot Require Import Coquelicot.
From Verif Require Import DFT Alias_Model Alias_Proofs Budget_Spec Means_Spec.
Local Open Scope R_scope.

(** the fields are zero for the modes which are removed *)
Definition truncated (removed : mode -> bool) (ms : list mode) (a : mode -> C) : Prop :=
  forall m, In m ms -> removed m = true -> a m = RtoC 0.

(** all the modes are two dimensional and there are the opposites; a mode is removed if and only if its opposite is *)
Definition plate_modes (removed : mode -> bool) (ms : list mode) : Prop :=
  symmetric_modes ms /\ (forall m, In m ms -> mz m = 0%Z) /\ (forall m, In m ms -> removed (mopp m) = removed m).

(** the product of two modes which are kept is not seen as another mode of the grid *)
Definition products_seen (removed : mode -> bool) (o : oper) (ms : list mode) : Prop :=
  forall p q k, In p ms -> In q ms -> In k ms -> removed p = false -> removed q = false -> ~ aliased o p q k.

(** bracket of Monge-Ampere {a, b}: coefficient of the mode k, sum over p + q = k of (p x q)^2 a_p b_q *)
Definition cross (o : oper) (p q : mode) : R := wx o p * wy o q - wy o p * wx o q.
Definition bracket (o : oper) (ms : list mode) (a b : mode -> C) (k : mode) : C :=
  lsum ms (fun p => lsum ms (fun q => if mode_eqb (madd p q) k then (RtoC (cross o p q ^ 2) * (a p * b q))%C else RtoC 0)).

Definition k4 (o : oper) (m : mode) : R := (wx o m ^ 2 + wy o m ^ 2) ^ 2.

(** the stress function: bilaplacian chi = - {z, z}, with a zero mean *)
Definition stress (o : oper) (ms : list mode) (z chi : mode -> C) : Prop :=
  forall m, In m ms -> (m = (0, 0, 0)%Z -> chi m = RtoC 0) /\ (m <> (0, 0, 0)%Z -> (RtoC (k4 o m) * chi m)%C = (- bracket o ms z z m)%C).

(** energies *)
Definition bending (o : oper) (ms : list mode) (z : mode -> C) : R := total ms (fun m => k4 o m * norm2 (z m) / 2).
Definition stretching (o : oper) (ms : list mode) (chi : mode -> C) : R := total ms (fun m => k4 o m * norm2 (chi m) / 4).
