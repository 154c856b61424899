(** The solvers on the sphere.
    Sources: solvers/sphere/sw1l/solver.py l.23-29 and 65-165, solvers/sphere/sw1l/state.py,
    base/sphericalharmo/state.py l.80-125, solvers/sphere/ns2d/solver.py l.50-125.
    External (fluidsht), parameters of the model: the transforms sht and isht,
    divrotsh_from_vec (the divergence and the rotational of a vector),
    vec_from_divrotsh, gradf_from_fsh, and the values K2 = l(l+1)/r^2 used by laplacian_sh.
    Simplifications: exact numbers; the forcing is an array added at the end. *)
From Coq Require Import String Reals List Bool.
From Coquelicot Require Import Complex.
Import ListNotations.
Local Open Scope R_scope.

Section Sphere.
Variable point : Type.
Variable lm : Type.
Definition phys := point -> R.
Definition spect := lm -> C.
Variable sht : phys -> spect.
Variable isht : spect -> phys.
(** divrotsh_from_vec: first and second output *)
Variable div_sh : phys -> phys -> spect.
Variable rot_sh : phys -> phys -> spect.
Variable vec_from_divrotsh : spect -> spect -> phys * phys.
Variable gradf_from_fsh : spect -> phys * phys.
Variable K2 : lm -> R.
(** fluidsht: laplacian_sh(a, negative) *)
Definition laplacian_sh (a : spect) (negative : bool) : spect :=
  fun i => if negative then (RtoC (K2 i) * a i)%C else (- (RtoC (K2 i) * a i))%C.

(** sphere/sw1l/solver.py l.23-29 *)
Definition compute_Frot (rot ux uy f_radial : phys) : phys * phys :=
  let rot_abs := fun x => rot x + f_radial x in
  (fun x => rot_abs x * uy x, fun x => - rot_abs x * ux x).

(** l.115-165; state_phys is (ux, uy, eta, rot); the result is (rot_sh, div_sh, eta_sh) *)
Record statephys := { s_ux : phys; s_uy : phys; s_eta : phys; s_rot : phys }.
Record statespect := { t_rot : spect; t_div : spect; t_eta : spect }.
Definition sw1l_tendencies (f_radial : phys) (c2 : R) (s : statephys) : statespect :=
  let ux := s_ux s in let uy := s_uy s in let eta := s_eta s in
  let (Fux, Fuy) := compute_Frot (s_rot s) ux uy f_radial in
  let lap := laplacian_sh (sht (fun x => / 2 * (ux x ^ 2 + uy x ^ 2) + c2 * eta x)) true in
  {| t_rot := rot_sh Fux Fuy;
     t_div := fun i => (div_sh Fux Fuy i + lap i)%C;
     t_eta := div_sh (fun x => - (eta x + 1) * ux x) (fun x => - (eta x + 1) * uy x) |}.

(** ** sphere/sw1l/state.py *)
(** l.82-100: statephys_from_statespect *)
Definition sw1l_statephys (t : statespect) : statephys :=
  let (ux, uy) := vec_from_divrotsh (t_div t) (t_rot t) in
  {| s_ux := ux; s_uy := uy; s_eta := isht (t_eta t); s_rot := isht (t_rot t) |}.
(** tendencies_nonlin(state_spect) *)
Definition sw1l_tendencies_spect (f_radial : phys) (c2 : R) (t : statespect) : statespect :=
  sw1l_tendencies f_radial c2 (sw1l_statephys t).
(** l.111-122: statespect_from_statephys *)
Definition sw1l_statespect (s : statephys) : statespect :=
  {| t_rot := rot_sh (s_ux s) (s_uy s); t_div := div_sh (s_ux s) (s_uy s); t_eta := sht (s_eta s) |}.
(** l.124-136: init_from_uxuyeta *)
Definition init_from_uxuyeta (ux uy eta : phys) (old : statephys) : statephys * statespect :=
  let s := {| s_ux := ux; s_uy := uy; s_eta := eta; s_rot := s_rot old |} in
  let t := sw1l_statespect s in
  ({| s_ux := ux; s_uy := uy; s_eta := eta; s_rot := isht (t_rot t) |}, t).
(** l.63-66: q *)
Definition compute_q (f_radial : phys) (s : statephys) : phys := fun x => s_rot s x - f_radial x * s_eta s x.
(** l.138-150: init_statespect_from; None: the base class *)
Definition sw1l_init_statespect_from (kwargs : list (string * spect)) (old : statephys * statespect) : option (statephys * statespect) :=
  match kwargs with
  | [(key, a)] =>
      if String.eqb key "rot_sh" then
        let t := {| t_rot := a; t_div := t_div (snd old); t_eta := t_eta (snd old) |} in
        Some (sw1l_statephys t, t)
      else Some old
  | _ => None
  end.

(** ** sphere/ns2d/solver.py: the tendency of the vorticity; the velocity is vec_from_rotsh (a null divergence) *)
Definition ns2d_Frot (ux uy px_rot py_rot : phys) : phys := fun x => - ux x * px_rot x - uy x * py_rot x.
Definition ns2d_tendencies (rot : spect) : spect :=
  let (ux, uy) := vec_from_divrotsh (fun _ => RtoC 0) rot in
  let (px, py) := gradf_from_fsh rot in
  sht (ns2d_Frot ux uy px py).
End Sphere.
