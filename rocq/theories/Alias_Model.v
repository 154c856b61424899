(** * Phase shifts, truncations

    fluidsim/operators/{base,operators1d,operators2d,operators3d}.py and
    fluidsim/base/time_stepping/pseudo_spect.py.

    Wavenumbers are deltak * m for the integers m (the order of the modes in the arrays is the
    subject of the area Index).  Exact reals.  Random numbers are arguments. *)

From Coq Require Import Reals Lra ZArith List Bool.
From Coquelicot Require Import Complex.
From Verif Require Import CExp DFT.
Open Scope R_scope.

(** comparisons of numpy *)
Definition gtb (a b : R) : bool := if Rlt_dec b a then true else false.
Definition geb (a b : R) : bool := if Rle_dec b a then true else false.

(** parameters of an operator: number of points and length of the domain in each direction *)
Record oper := mkOper { nx : nat; ny : nat; nz : nat; Lx : R; Ly : R; Lz : R }.
Definition deltax o := Lx o / INR (nx o).
Definition deltay o := Ly o / INR (ny o).
Definition deltaz o := Lz o / INR (nz o).
Definition deltakx o := 2 * PI / Lx o.
Definition deltaky o := 2 * PI / Ly o.
Definition deltakz o := 2 * PI / Lz o.
Definition Kx o (m : mode) := deltakx o * IZR (mx m).
Definition Ky o (m : mode) := deltaky o * IZR (my m).
Definition Kz o (m : mode) := deltakz o * IZR (mz m).

(** beta_x = alpha_x + 0.5 if alpha_x < 0 else alpha_x - 0.5 *)
Definition beta_of (alpha : R) : R := if Rlt_dec alpha 0 then alpha + 1 / 2 else alpha - 1 / 2.

(** operators1d.py 94-100 (get_phases_random); [alpha] is the draw *)
Definition get_phases_random_1d (o : oper) (alpha : R) : (mode -> R) * (mode -> R) :=
  let beta := beta_of alpha in
  (fun m => alpha * deltax o * Kx o m, fun m => beta * deltax o * Kx o m).

(** operators2d.py 618-631 *)
Definition get_phases_random_2d (o : oper) (alpha_x alpha_y : R) : (mode -> R) * (mode -> R) :=
  let beta_x := beta_of alpha_x in
  let beta_y := beta_of alpha_y in
  (fun m => alpha_x * deltax o * Kx o m + alpha_y * deltay o * Ky o m,
   fun m => beta_x * deltax o * Kx o m + beta_y * deltay o * Ky o m).

(** operators3d.py 1128-1146 *)
Definition get_phases_random_3d (o : oper) (alpha_x alpha_y alpha_z : R)
  : (mode -> R) * (mode -> R) :=
  let beta_x := beta_of alpha_x in
  let beta_y := beta_of alpha_y in
  let beta_z := beta_of alpha_z in
  (fun m => alpha_x * deltax o * Kx o m + alpha_y * deltay o * Ky o m + alpha_z * deltaz o * Kz o m,
   fun m => beta_x * deltax o * Kx o m + beta_y * deltay o * Ky o m + beta_z * deltaz o * Kz o m).

(** pseudo_spect.py 281-300 (_get_phaseshift): the phase, for each number of dimensions *)
Definition phase_1d (o : oper) (m : mode) : R := 1 / 2 * deltax o * Kx o m.
Definition phase_2d (o : oper) (m : mode) : R :=
  1 / 2 * (deltax o * Kx o m + deltay o * Ky o m).
Definition phase_3d (o : oper) (m : mode) : R :=
  1 / 2 * (deltax o * Kx o m + deltay o * Ky o m + deltaz o * Kz o m).

(** pseudo_spect.py 92-100 (compute_phaseshift_terms) and 299: exp(1j * phase) *)
Definition phaseshift_term (phase : mode -> R) (m : mode) : C := cexp (Ci * RtoC (phase m)).

(** ** Truncations: where_dealiased *)

(** operators1d.py 44-53: nkx = nx // 2 + 1 *)
Definition where_dealiased_1d (coef : R) (o : oper) (m : mode) : bool :=
  let nkx := S (Nat.div (nx o) 2) in
  let kx_max := deltakx o * INR (nkx - 1) in
  gtb (Rabs (Kx o m)) (coef * kx_max).

(** base.py 57-61: truncation_shape = "spherical" (K2 in 2 and 3 dimensions) *)
Definition K2_2d o m := Kx o m ^ 2 + Ky o m ^ 2.
Definition K2_3d o m := Kx o m ^ 2 + Ky o m ^ 2 + Kz o m ^ 2.
Definition kmax_spherical (coef : R) (o : oper) : R := coef * deltakx o * INR (nx o) / 2.
Definition where_dealiased_spherical (K2 : oper -> mode -> R) (coef : R) (o : oper) (m : mode)
  : bool := geb (K2 o m) (kmax_spherical coef o ^ 2).

(** operators2d.py 195-198, operators3d.py 280-288: get_region_multiple_aliases *)
Definition aliases_x o m := geb (Rabs (Kx o m)) (2 / 3 * deltakx o * INR (nx o) / 2).
Definition aliases_y o m := geb (Rabs (Ky o m)) (2 / 3 * deltaky o * INR (ny o) / 2).
Definition aliases_z o m := geb (Rabs (Kz o m)) (2 / 3 * deltakz o * INR (nz o) / 2).
Definition get_region_multiple_aliases_2d o m := aliases_x o m && aliases_y o m.
Definition get_region_multiple_aliases_3d o m :=
  (aliases_x o m && aliases_y o m) || (aliases_y o m && aliases_z o m)
  || (aliases_z o m && aliases_x o m).

(** base.py 62-69: truncation_shape = "no_multiple_aliases"; a coefficient equal to zero is
    false in Python *)
Definition where_dealiased_nma (region : oper -> mode -> bool) (K2 : oper -> mode -> R)
  (coef : R) (o : oper) (m : mode) : bool :=
  if Req_EM_T coef 0 then region o m
  else region o m || geb (K2 o m) (kmax_spherical coef o ^ 2).

(** ** Quadratic terms computed with transforms (e.g. solvers/ns2d: product in physical space)

    One term: coefficient c(k) times the transform of the product of the inverse transforms
    of f.S and g.S, with f, g, c functions of the mode (derivatives, projections...).  [ms] are
    the modes of the state. *)
Definition grid_of (o : oper) : grid := mkGrid (nx o) (ny o) (nz o).

Definition quadratic (g : grid) (ms : list mode) (c f h : mode -> C) (S : mode -> C) (k : mode)
  : C :=
  (c k * dft g (fun jx jy jz =>
      idft g ms (fun p => f p * S p) jx jy jz * idft g ms (fun q => h q * S q) jx jy jz) k)%C.

Definition tendencies_quadratic (g : grid) (ms : list mode)
  (terms : list ((mode -> C) * (mode -> C) * (mode -> C))) (S : mode -> C) (k : mode) : C :=
  lsum terms (fun t => quadratic g ms (fst (fst t)) (snd (fst t)) (snd t) S k).
