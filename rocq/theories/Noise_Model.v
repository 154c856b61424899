(** Model of the initial fields "noise" of ns2d and ns3d, "jet" and "dipole":
    fluidsim/solvers/ns2d/init_fields.py, fluidsim/solvers/ns3d/init_fields.py.

    Simplifications: exact numbers; a Fourier transform is the list of its independent real numbers (real and imaginary
    parts), each with its wavevector; the random numbers and the two transforms are given. *)
From Coq Require Import Reals List ZArith.
Import ListNotations.
Local Open Scope R_scope.

Inductive error := ZeroDivisionError.
Definition vec : Type := R * R * R.
Definition vx (v : vec) : R := fst (fst v). Definition vy (v : vec) : R := snd (fst v). Definition vz (v : vec) : R := snd v.
Definition vscale (s : R) (v : vec) : vec := (s * vx v, s * vy v, s * vz v).
Definition norm (v : vec) : R := sqrt (vx v ^ 2 + vy v ^ 2 + vz v ^ 2).
Fixpoint rmax (n : nat) (f : nat -> R) : R := match n with O => f O | S n => Rmax (rmax n f) (f (S n)) end.

(** ns2d 65-66, ns3d 115-116, 160-161 *)
Definition H_smooth (x delta : R) : R := (1 + tanh (2 * PI * x / delta)) / 2.

Section Noise.
(** the wavevectors (K2 = kx^2 + ky^2 + kz^2), the truncated modes, the transforms of n + 1 points *)
Variables (kvec : nat -> vec) (truncated : nat -> bool) (n : nat) (ifft fft : (nat -> R) -> nat -> R).
Definition K2 (i : nat) : R := vx (kvec i) ^ 2 + vy (kvec i) ^ 2 + vz (kvec i) ^ 2.
Definition K (i : nat) : R := sqrt (K2 i).
(** the mode 0 *)
Definition remove_mean (c : nat -> vec) (i : nat) : vec := if Req_EM_T (K2 i) 0 then (0, 0, 0) else c i.
(** project_perpk3d: v - k (k.v) / k^2 *)
Definition project_perpk (c : nat -> vec) (i : nat) : vec :=
  let v := c i in let k := kvec i in
  let t := if Req_EM_T (K2 i) 0 then 0 else (vx k * vx v + vy k * vy v + vz k * vz v) / K2 i in
  (vx v - vx k * t, vy v - vy k * t, vz v - vz k * t).
Definition dealiasing (c : nat -> vec) (i : nat) : vec := if truncated i then (0, 0, 0) else c i.
Definition smooth (k0 : R) (c : nat -> vec) (i : nat) : vec := vscale (H_smooth (k0 - K i) (1 * k0)) (c i).
Definition ifft3 (c : nat -> vec) (j : nat) : vec := (ifft (fun i => vx (c i)) j, ifft (fun i => vy (c i)) j, ifft (fun i => vz (c i)) j).
Definition fft3 (v : nat -> vec) (i : nat) : vec := (fft (fun j => vx (v j)) i, fft (fun j => vy (v j)) i, fft (fun j => vz (v j)) i).

(** ns3d 163-196 (the transforms c of the random fields) and, with kz = 0 and no third component, ns2d 68-105 *)
Definition filtered (k0 : R) (c : nat -> vec) : nat -> vec := smooth k0 (dealiasing (project_perpk (remove_mean c))).
Definition velo_max_result (k0 : R) (c : nat -> vec) : R := rmax n (fun j => norm (ifft3 (filtered k0 c) j)).
Definition noise_velocity (k0 velo_max : R) (c : nat -> vec) (j : nat) : vec := vscale (velo_max / velo_max_result k0 c) (ifft3 (filtered k0 c) j).
Definition noise_fft (k0 velo_max : R) (c : nat -> vec) : nat -> vec := fft3 (noise_velocity k0 velo_max c).

(** ns3d 124-142: the other variables *)
Definition filtered_scalar (k0 : R) (c : nat -> R) (i : nat) : R := if Req_EM_T (K2 i) 0 then 0 else H_smooth (k0 - K i) (1 * k0) * c i.
Definition value_max (k0 : R) (c : nat -> R) : R := rmax n (fun j => Rabs (ifft (filtered_scalar k0 c) j)).
Definition scalar_fft (k0 field_max : R) (c : nat -> R) (i : nat) : R := field_max / value_max k0 c * filtered_scalar k0 c i.
End Noise.

(** ** The cutoff: python numbers *)
Definition k0_from_length (lambda0 : R) : R + error := if Req_EM_T lambda0 0 then inr ZeroDivisionError else inl (2 * PI / lambda0).
(** ns2d 61-63, 91: 0 by default *)
Definition k0_2d (length Lx Ly : R) : R + error := k0_from_length (if Req_EM_T length 0 then Rmin Lx Ly / 4 else length).
(** ns3d 156-158, 178: None by default *)
Definition k0_3d (length : option R) (Lx Ly Lz : R) : R + error := k0_from_length (match length with None => Lx / 4 | Some l => l end).
(** ns3d 111-113: for the other variables *)
Definition k0_3d_scalar (length : option R) (Lx Ly Lz : R) : R + error := k0_from_length (match length with None => Rmin (Rmin Lx Ly) Lz / 4 | Some l => l end).

(** ** The jet (ns2d 130-144) *)
Definition gauss (a x : R) : R := exp (- (x / a) ^ 2).
Definition vorticity_jet (Ly y : R) : R :=
  let a := 1 / 2 in let b := Ly / 2 in
  2 * (gauss a (y - Ly / 2 + b / 2) - gauss a (y - Ly / 2 - b / 2) + gauss a (y - Ly / 2 + b / 2 + Ly) - gauss a (y - Ly / 2 - b / 2 + Ly)
       + gauss a (y - Ly / 2 + b / 2 - Ly) - gauss a (y - Ly / 2 - b / 2 - Ly)).
(** ** The dipole (ns2d 164-187, ns3d 51-76) *)
Definition wz_2LO (X Y b : R) : R := 2 * exp (- (X ^ 2 + (Y - b / 2) ^ 2)) - 2 * exp (- (X ^ 2 + (Y + b / 2) ^ 2)).
Definition one_dipole (theta Lx Ly x y ip jp : R) : R :=
  let X := cos theta * (x - Lx / 2 - ip * Lx) + sin theta * (y - Ly / 2 - jp * Ly) in
  let Y := cos theta * (y - Ly / 2 - jp * Ly) - sin theta * (x - Lx / 2 - ip * Lx) in
  wz_2LO X Y (25 / 10).
Definition vorticity_dipole (Lx Ly x y : R) : R :=
  fold_left (fun o i => fold_left (fun o j => o + one_dipole (PI / (23 / 10)) Lx Ly x y (IZR i) (IZR j)) [-1; 0; 1]%Z o) [-1; 0; 1]%Z 0.
