(** * Budgets of quadratic quantities: specification *)

From Coq Require Import Reals ZArith List Permutation.
From Coquelicot Require Import Coquelicot.
From Verif Require Import DFT Alias_Model Alias_Proofs.
Local Open Scope R_scope.

(** the opposite wavenumber; the set of modes contains the opposite of each of its modes *)
Definition mopp (m : mode) : mode := (- mx m, - my m, - mz m)%Z.
Definition symmetric_modes (ms : list mode) : Prop := NoDup ms /\ forall m, In m ms -> In (mopp m) ms.

(** the modes are such that no product of two modes is seen as a third one *)
Definition alias_free (o : oper) (ms : list mode) : Prop :=
  forall p q k, In p ms -> In q ms -> In k ms -> ~ aliased o p q k.

(** the field is real in physical space *)
Definition real_field (ms : list mode) (a : mode -> C) : Prop := forall m, In m ms -> a (mopp m) = Cconj (a m).

(** sums over the modes; square of the modulus *)
Definition total (ms : list mode) (f : mode -> R) : R := fold_right (fun m s => f m + s) 0 ms.
Definition norm2 (z : C) : R := fst z ^ 2 + snd z ^ 2.

(** [b] is the time derivative of [a] at the time [t] *)
Definition moves (ms : list mode) (a : R -> mode -> C) (t : R) (b : mode -> C) : Prop :=
  forall m, In m ms -> is_derive (fun s => fst (a s m)) t (fst (b m)) /\ is_derive (fun s => snd (a s m)) t (snd (b m)).

(** wavenumbers *)
Definition wx (o : oper) (m : mode) : R := 2 * PI * IZR (mx m) / Lx o.
Definition wy (o : oper) (m : mode) : R := 2 * PI * IZR (my m) / Ly o.
Definition wz (o : oper) (m : mode) : R := 2 * PI * IZR (mz m) / Lz o.

(** kinetic energy of the two dimensional flow of vorticity [rot]: |rot|^2 / (2 k^2) *)
Definition energy_2d (o : oper) (ms : list mode) (rot : mode -> C) : R :=
  total ms (fun m => if ((mx m =? 0) && (my m =? 0))%Z%bool then 0 else norm2 (rot m) / (2 * (wx o m ^ 2 + wy o m ^ 2))).

(** half of the mean of the square of a field *)
Definition square (ms : list mode) (a : mode -> C) : R := total ms (fun m => norm2 (a m) / 2).

(** the modes of a simulation with a good truncation *)
Definition good_modes (o : oper) (ms : list mode) : Prop :=
  oper_pos o /\ symmetric_modes ms /\ In (0, 0, 0)%Z ms /\ alias_free o ms.

(** velocity without divergence and without mean flow *)
Definition incompressible_2d (o : oper) (ms : list mode) (ux uy : mode -> C) : Prop :=
  forall m, In m ms -> (RtoC (wx o m) * ux m + RtoC (wy o m) * uy m)%C = RtoC 0
    /\ (mx m = 0%Z -> my m = 0%Z -> ux m = RtoC 0 /\ uy m = RtoC 0).

(** the mean of the product of two fields *)
Definition product (ms : list mode) (a b : mode -> C) : R := total ms (fun m => fst (a m) * fst (b m) + snd (a m) * snd (b m)).

(** vertical velocity (along y) of the two dimensional flow of vorticity [rot]: -i kx / k^2 rot *)
Definition vertical_velocity (o : oper) (rot : mode -> C) (m : mode) : C :=
  if ((mx m =? 0) && (my m =? 0))%Z%bool then RtoC 0 else (- Ci * RtoC (wx o m / (wx o m ^ 2 + wy o m ^ 2)) * rot m)%C.

(** *** Three dimensions; a vector field is ((x, y), z) *)

Definition cx (v : (mode -> C) * (mode -> C) * (mode -> C)) := fst (fst v).
Definition cy (v : (mode -> C) * (mode -> C) * (mode -> C)) := snd (fst v).
Definition cz (v : (mode -> C) * (mode -> C) * (mode -> C)) := snd v.

Definition vreal (ms : list mode) (v : (mode -> C) * (mode -> C) * (mode -> C)) : Prop :=
  real_field ms (cx v) /\ real_field ms (cy v) /\ real_field ms (cz v).
Definition vmoves (ms : list mode) (v : R -> (mode -> C) * (mode -> C) * (mode -> C)) (t : R) (w : (mode -> C) * (mode -> C) * (mode -> C)) : Prop :=
  moves ms (fun s => cx (v s)) t (cx w) /\ moves ms (fun s => cy (v s)) t (cy w) /\ moves ms (fun s => cz (v s)) t (cz w).

Definition energy_3d (ms : list mode) (v : (mode -> C) * (mode -> C) * (mode -> C)) : R :=
  square ms (cx v) + square ms (cy v) + square ms (cz v).

(** k . v = 0 *)
Definition solenoidal (o : oper) (v : (mode -> C) * (mode -> C) * (mode -> C)) (m : mode) : Prop :=
  (RtoC (wx o m) * cx v m + RtoC (wy o m) * cy v m + RtoC (wz o m) * cz v m)%C = RtoC 0.

(** horizontal wavevector zero, vertical vorticity zero, zero *)
Definition shear_mode (m : mode) : Prop := mx m = 0%Z /\ my m = 0%Z.
Definition no_rotz (o : oper) (v : (mode -> C) * (mode -> C) * (mode -> C)) (m : mode) : Prop :=
  (RtoC (wx o m) * cy v m - RtoC (wy o m) * cx v m)%C = RtoC 0.
Definition null_at (v : (mode -> C) * (mode -> C) * (mode -> C)) (m : mode) : Prop :=
  cx v m = RtoC 0 /\ cy v m = RtoC 0 /\ cz v m = RtoC 0.

(** vorticity i k x v *)
Definition vorticity (o : oper) (v : (mode -> C) * (mode -> C) * (mode -> C)) : (mode -> C) * (mode -> C) * (mode -> C) :=
  (fun m => Ci * (RtoC (wy o m) * cz v m - RtoC (wz o m) * cy v m),
   fun m => Ci * (RtoC (wz o m) * cx v m - RtoC (wx o m) * cz v m),
   fun m => Ci * (RtoC (wx o m) * cy v m - RtoC (wy o m) * cx v m))%C.

(** mean of the product of the velocity and the vorticity *)
Definition helicity (o : oper) (ms : list mode) (v : (mode -> C) * (mode -> C) * (mode -> C)) : R :=
  product ms (cx v) (cx (vorticity o v)) + product ms (cy v) (cy (vorticity o v)) + product ms (cz v) (cz (vorticity o v)).

(** mean of f over the points of the grid of a one dimensional field *)
Definition mean_1d (n : nat) (f : nat -> R) : R := fold_right (fun j s => f j + s) 0 (seq 0 n) / INR n.

(** value of a one dimensional real field at the point j of the grid, and at the position x *)
Definition value_1d (o : oper) (ms : list mode) (a : mode -> C) (j : nat) : R :=
  total ms (fun m => fst (a m) * cos (2 * PI * IZR (mx m) * INR j / INR (nx o)) - snd (a m) * sin (2 * PI * IZR (mx m) * INR j / INR (nx o))).
Definition value_at (o : oper) (ms : list mode) (a : mode -> C) (x : R) : R :=
  total ms (fun m => fst (a m) * cos (wx o m * x) - snd (a m) * sin (wx o m * x)).

(** the documented equations of waves2d without damping: df/dt = g, dg/dt = - Omega^2 f *)
Definition wave_equations (o : oper) (ms : list mode) (f0 c2 : R) (f g : R -> mode -> C) (t : R) : Prop :=
  moves ms f t (g t) /\ moves ms g t (fun m => - RtoC (f0 ^ 2 + c2 * (wx o m ^ 2 + wy o m ^ 2)) * f t m)%C.
