(** * Dissipation frequencies and spatial means: specification *)

From Coq Require Import Reals ZArith String List.
From Coquelicot Require Import Coquelicot.
From Verif Require Import DFT Alias_Model Budget_Spec.
Local Open Scope R_scope.

(** the value written with the name [s] (0 if there is none) *)
Definition written (l : list (string * R)) (s : string) : R :=
  match find (fun p => String.eqb (fst p) s) l with Some p => snd p | None => 0 end.

(** square of the wavenumber for each number of dimensions *)
Definition k2 (dim : nat) (o : oper) (m : mode) : R :=
  match dim with 1%nat => wx o m ^ 2 | 2%nat => wx o m ^ 2 + wy o m ^ 2 | _ => wx o m ^ 2 + wy o m ^ 2 + wz o m ^ 2 end.

(** a coefficient is taken into account when it is positive *)
Definition enabled (nu : R) : R := Rmax 0 nu.

(** value of a field at a point of the grid; mean over the grid *)
Definition value (o : oper) (ms : list mode) (a : mode -> C) (jx jy jz : nat) : R :=
  total ms (fun m =>
    fst (a m) * cos (2 * PI * (IZR (mx m) * INR jx / INR (nx o) + IZR (my m) * INR jy / INR (ny o) + IZR (mz m) * INR jz / INR (nz o)))
    - snd (a m) * sin (2 * PI * (IZR (mx m) * INR jx / INR (nx o) + IZR (my m) * INR jy / INR (ny o) + IZR (mz m) * INR jz / INR (nz o)))).
Definition rsum_to (n : nat) (f : nat -> R) : R := fold_right (fun j s => f j + s) 0 (seq 0 n).
Definition mean (o : oper) (f : nat -> nat -> nat -> R) : R :=
  rsum_to (nx o) (fun jx => rsum_to (ny o) (fun jy => rsum_to (nz o) (fun jz => f jx jy jz))) / (INR (nx o) * INR (ny o) * INR (nz o)).

(** energies of the one layer shallow water equations; a state is ((ux, uy), eta) *)
Definition EK_sw1l (o : oper) (ms : list mode) (s : (mode -> C) * (mode -> C) * (mode -> C)) : R :=
  mean o (fun jx jy jz => (1 + value o ms (cz s) jx jy jz) * (value o ms (cx s) jx jy jz ^ 2 + value o ms (cy s) jx jy jz ^ 2) / 2).

(** a field after a step of duration dt with the constant tendency F *)
Definition after (dt : R) (F a : mode -> C) : mode -> C := fun m => (a m + RtoC dt * F m)%C.
Definition vafter (dt : R) (F v : (mode -> C) * (mode -> C) * (mode -> C)) : (mode -> C) * (mode -> C) * (mode -> C) :=
  (after dt (cx F) (cx v), after dt (cy F) (cy v), after dt (cz F) (cz v)).

(** damping *)
Definition damped (freq : mode -> R) (g a : mode -> C) : mode -> C := fun m => (g m - RtoC (freq m) * a m)%C.
Definition vdamped (freq : mode -> R) (g a : (mode -> C) * (mode -> C) * (mode -> C)) : (mode -> C) * (mode -> C) * (mode -> C) :=
  (damped freq (cx g) (cx a), damped freq (cy g) (cy a), damped freq (cz g) (cz a)).
Definition plus_f (a b : mode -> C) : mode -> C := fun m => (a m + b m)%C.
Definition plus_v (a b : (mode -> C) * (mode -> C) * (mode -> C)) : (mode -> C) * (mode -> C) * (mode -> C) :=
  (plus_f (cx a) (cx b), plus_f (cy a) (cy b), plus_f (cz a) (cz b)).

(** energies of the parts of a three dimensional velocity *)
Definition horizontal_divergence (o : oper) (v : (mode -> C) * (mode -> C) * (mode -> C)) (m : mode) : C :=
  (RtoC (wx o m) * cx v m + RtoC (wy o m) * cy v m)%C.
Definition vertical_vorticity (o : oper) (v : (mode -> C) * (mode -> C) * (mode -> C)) (m : mode) : C :=
  (RtoC (wx o m) * cy v m - RtoC (wy o m) * cx v m)%C.
Definition over_kh2 (o : oper) (ms : list mode) (a : mode -> C) : R :=
  total ms (fun m => if ((mx m =? 0) && (my m =? 0))%Z%bool then 0 else norm2 (a m) / (2 * (wx o m ^ 2 + wy o m ^ 2))).
Definition shear_energy (ms : list mode) (a : mode -> C) : R :=
  total ms (fun m => if ((mx m =? 0) && (my m =? 0))%Z%bool then norm2 (a m) / 2 else 0).

(** rate of change of the kinetic energy of the shallow water equations when the tendency of the state [s] is [g]:
    mean of h u.g + g_eta |u|^2 / 2 *)
Definition EK_rate (o : oper) (ms : list mode) (s g : (mode -> C) * (mode -> C) * (mode -> C)) : R :=
  mean o (fun jx jy jz =>
    (1 + value o ms (cz s) jx jy jz) * (value o ms (cx s) jx jy jz * value o ms (cx g) jx jy jz + value o ms (cy s) jx jy jz * value o ms (cy g) jx jy jz)
    + value o ms (cz g) jx jy jz * (value o ms (cx s) jx jy jz ^ 2 + value o ms (cy s) jx jy jz ^ 2) / 2).
