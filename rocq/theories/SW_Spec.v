(** * Shallow water: specification *)

From Coq Require Import Reals ZArith List.
From Coquelicot Require Import Coquelicot.
From Verif Require Import DFT Alias_Model Budget_Spec Means_Spec.
Local Open Scope R_scope.

Notation sfield := (mode -> C).
Notation sstate := (sfield * sfield * sfield)%type.

(** the mode of the horizontal mean; two states with the same coefficients for the mode [m] *)
Definition mean_mode (m : mode) : Prop := mx m = 0%Z /\ my m = 0%Z.
Definition agree (m : mode) (v w : sstate) : Prop := cx v m = cx w m /\ cy v m = cy w m /\ cz v m = cz w m.

(** vertical vorticity, divergence, gradient *)
Definition vort (o : oper) (ux uy : sfield) (m : mode) : C := (Ci * (RtoC (wx o m) * uy m - RtoC (wy o m) * ux m))%C.
Definition dvg (o : oper) (ux uy : sfield) (m : mode) : C := (Ci * (RtoC (wx o m) * ux m + RtoC (wy o m) * uy m))%C.
Definition gradx (o : oper) (a : sfield) (m : mode) : C := (Ci * RtoC (wx o m) * a m)%C.
Definition grady (o : oper) (a : sfield) (m : mode) : C := (Ci * RtoC (wy o m) * a m)%C.

(** quadratic energy: (|ux|^2 + |uy|^2 + c^2 |eta|^2) / 2 *)
Definition quadratic (c2 : R) (s : sstate) (m : mode) : R := (norm2 (cx s m) + norm2 (cy s m) + c2 * norm2 (cz s m)) / 2.

(** linear shallow water equations: du/dt = f uy - c^2 deta/dx, dv/dt = - f ux - c^2 deta/dy, deta/dt = - div u *)
Definition linear_sw (o : oper) (f c2 : R) (s : sstate) : sstate :=
  (fun m => RtoC f * cy s m - RtoC c2 * gradx o (cz s) m,
   fun m => - RtoC f * cx s m - RtoC c2 * grady o (cz s) m,
   fun m => - dvg o (cx s) (cy s) m)%C.

(** sum of states *)
Definition splus (s s' : sstate) : sstate := (fun m => cx s m + cx s' m, fun m => cy s m + cy s' m, fun m => cz s m + cz s' m)%C.

(** coefficients of a function given on the grid *)
Definition phase (o : oper) (m : mode) (jx jy jz : nat) : R :=
  2 * PI * (IZR (mx m) * INR jx / INR (nx o) + IZR (my m) * INR jy / INR (ny o) + IZR (mz m) * INR jz / INR (nz o)).
Definition coefs (o : oper) (g : nat -> nat -> nat -> R) : sfield := fun m =>
  (mean o (fun jx jy jz => g jx jy jz * cos (phase o m jx jy jz)), - mean o (fun jx jy jz => g jx jy jz * sin (phase o m jx jy jz))).

(** energy of the shallow water equations: mean of (1 + eta) |u|^2 / 2 + c^2 eta^2 / 2 *)
Definition energy_sw (o : oper) (ms : list mode) (c2 : R) (s : sstate) : R :=
  EK_sw1l o ms s + c2 * mean o (fun jx jy jz => value o ms (cz s) jx jy jz ^ 2 / 2).

(** (1 + eta) u, for one component [a] of the velocity, on the grid and with the modes [ms] only *)
Definition flux (o : oper) (ms : list mode) (eta a : sfield) (jx jy jz : nat) : R := (1 + value o ms eta jx jy jz) * value o ms a jx jy jz.
Definition flux_kept (o : oper) (ms : list mode) (eta a : sfield) : nat -> nat -> nat -> R := value o ms (coefs o (flux o ms eta a)).
