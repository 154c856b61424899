(** The milestone forcing: coarse grid of the objects, transfer to the grid of
    the simulation and arrays of the forcing.
    Sources: base/forcing/milestone.py l.161-203 and 405-450,
    solvers/ns3d/forcing/milestone.py l.18-125,
    operators/operators3d.py l.301-328 (build_invariant_arrayX_from_2d_indices12X).
    Simplifications: exact numbers (in particular nx * ly / lx / 2); the transforms
    of the arrays are parameters; the movement and the profile of the objects are
    studied in Milestone_Model.v. *)
From Coq Require Import String List ZArith QArith Qround Reals Bool Arith.
From Coquelicot Require Import Complex.
From Verif Require Import Oper_Model.
Import ListNotations.

(** base/forcing/milestone.py l.197-203: the checks of nx_max; the error or whether a coarse operator is used *)
Definition check_nx_max (nx_max : option Z) (nx : Z) : option (option Z) :=
  match nx_max with
  | None => Some None
  | Some n => if (nx <? n)%Z then None else if (n =? nx)%Z then Some None else Some (Some n)
  end.
(** l.179-180: ny = 2 * int(nx * ly / lx / 2) *)
Definition coarse_ny (nx : Z) (lx ly : Q) : Z := (2 * Qfloor (inject_Z nx * ly / lx / 2))%Z.

Section Solid.
Context {V : Type}.
Variable zero : V.
Variable small : V -> bool.
(** l.408-410: the row nKyc // 2 and the column nKxc - 1 are set to zero *)
Definition zero_nyquist (nkyc nkxc : nat) (f : nat -> nat -> V) : nat -> nat -> V :=
  let f := fun i j => if (i =? nkyc / 2)%nat then zero else f i j in
  fun i j => if (j =? nkxc - 1)%nat then zero else f i j.
(** l.405-422 and ns3d/forcing/milestone.py l.69-90: the Fourier coefficients of the solid on the grid of the
    simulation, from those on the coarse grid; [big] is the array of the previous time *)
Definition full_from_coarse (nkyc nkxc nky : nat) (coarse big : nat -> nat -> V) : option (nat -> nat -> V) :=
  put_coarse_2d small nkyc nkxc nky (zero_nyquist nkyc nkxc coarse) big.
(** the arrays of successive times *)
Fixpoint full_history (nkyc nkxc nky : nat) (coarses : list (nat -> nat -> V)) (big : nat -> nat -> V) : option (nat -> nat -> V) :=
  match coarses with
  | [] => Some big
  | c :: cs => match full_from_coarse nkyc nkxc nky c big with Some b => full_history nkyc nkxc nky cs b | None => None end
  end.
(** operators3d.py l.301-328; shapes (n1, n2) of the 2D array and (n0, n1, n2) of the local 3D arrays; None: NotImplementedError *)
Definition build_invariant (nb_proc : nat) (shape2d : nat * nat) (n1_loc n2_loc : nat) (arr2d : nat -> nat -> V) : option (nat -> nat -> nat -> V) :=
  if (nb_proc =? 1)%nat then Some (fun _ => arr2d)
  else if ((fst shape2d =? n1_loc) && (snd shape2d =? n2_loc))%nat then Some (fun _ => arr2d)
  else None.
End Solid.

Local Open Scope R_scope.
Section Force.
Variables X K : Type.
Variable fft : (X -> R) -> K -> C.
Variable rotfft_from_vecfft : (K -> C) -> (K -> C) -> K -> C.
Variable sigma : R.
(** fx and fy at the points *)
Definition fx (solid : X -> R) (speed : R) (ux : X -> R) : X -> R := fun x => sigma * solid x * (speed - ux x).
Definition fy (solid uy : X -> R) : X -> R := fun x => - sigma * solid x * uy x.
(** base/forcing/milestone.py l.424-448: the arguments of init_statespect_from (without NO_SHEAR_MODES) *)
Definition compute_2d (keys_state_spect : list string) (solid : X -> R) (speed : R) (ux uy : X -> R) : list (string * (K -> C)) :=
  let fx_fft := fft (fx solid speed ux) in
  if existsb (String.eqb "rot_fft") keys_state_spect then
    [("rot_fft"%string, rotfft_from_vecfft fx_fft (fun _ => RtoC 0))]
  else [("ux_fft"%string, fx_fft); ("uy_fft"%string, fft (fy solid uy))].
(** ns3d/forcing/milestone.py l.104-125 *)
Definition compute_3d (solid : X -> R) (speed : R) (vx vy : X -> R) : list (string * (K -> C)) :=
  [("vx_fft"%string, fft (fx solid speed vx)); ("vy_fft"%string, fft (fy solid vy))].
End Force.
