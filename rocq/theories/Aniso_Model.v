(** * Forced region of tcrandom_anisotropic: model of fluidsim/base/forcing/anisotropic.py 75-231

    Numbers are exact reals.  [grid_size] is fftw_grid_size of fluiddyn (a size at least as large as its
    argument).  The arrays of oper_coarse are functions of the indices, in the order (y, x) in 2D and
    (z, y, x) in 3D (oper_coarse is sequential). *)

From Coq Require Import Reals Bool Arith ZArith.
Local Open Scope R_scope.

Definition gtb (a b : R) : bool := if Rlt_dec b a then true else false.

(** params.forcing: kmin_forcing, kmax_forcing (nkmin and nkmax times deltak), the angle and delta_angle
    in radians *)
Record aniso := mkAniso {
  kmin : R; kmax : R; angle : R; delta_angle : option R; kz_negative_enable : bool;
  deltakx : R; deltaky : R; deltakz : R }.

(** Python int() of a float: truncation towards zero *)
Definition int_trunc (x : R) : Z := if Rle_dec 0 x then (up x - 1)%Z else (- (up (- x) - 1))%Z.

Section Aniso.
Variable grid_size : nat -> nat.
Variable p : aniso.

(** 90-105 *)
Definition khmax_forcing : R :=
  match delta_angle p with
  | None => sin (angle p) * kmax p
  | Some d => sin (angle p + 0.5 * d) * kmax p
  end.
Definition kvmax_forcing : R :=
  match delta_angle p with
  | None => cos (angle p) * kmax p
  | Some d => cos (angle p - 0.5 * d) * kmax p
  end.

(** 116-139: number of points of oper_coarse in one direction *)
Definition coarse_size (kmax_dir deltak : R) : nat :=
  (2 * grid_size (Z.to_nat (int_trunc (kmax_dir / deltak) + 1)))%nat.

(** 107-112: in 3D kymax_forcing is khmax_forcing, in 2D y is the vertical *)
Definition nx_coarse : nat := coarse_size khmax_forcing (deltakx p).
Definition ny_coarse_2d : nat := coarse_size kvmax_forcing (deltaky p).
Definition ny_coarse_3d : nat := coarse_size khmax_forcing (deltaky p).
Definition nz_coarse_3d : nat := coarse_size kvmax_forcing (deltakz p).

(** shapeK_loc along x *)
Definition nkx_coarse : nat := (nx_coarse / 2 + 1)%nat.

(** wavenumbers of the indices (fluidfft), in units of deltak; along x only the positive ones *)
Definition wavenumber (n i : nat) : Z := if (i <=? n / 2)%nat then Z.of_nat i else (Z.of_nat i - Z.of_nat n)%Z.

(** 165-191: delta_angle is None *)
Definition cond_box (Kh Kv : R) : bool :=
  let khmin := sin (angle p) * kmin p in
  let kvmin := cos (angle p) * kmin p in
  let cond_kh := gtb Kh khmax_forcing || gtb khmin Kh in
  let cond_kv := gtb Kv kvmax_forcing || gtb kvmin Kv in
  let cond_kv := if kz_negative_enable p
    then cond_kv && (gtb (- kvmax_forcing) Kv || gtb Kv (- kvmin)) else cond_kv in
  cond_kh || cond_kv.

(** 195-227: delta_angle is not None *)
Definition cond_sector (d K Kv : R) : bool :=
  let K_nozero := if Req_EM_T K 0 then / 100000000000000 else K in
  let theta := acos (Kv / K_nozero) in
  let cond_k := gtb K (kmax p) || gtb (kmin p) K in
  let cond_theta := gtb theta (angle p + 0.5 * d) || gtb (angle p - 0.5 * d) theta in
  let cond_theta := if kz_negative_enable p
    then cond_theta && (gtb (PI - angle p - 0.5 * d) theta || gtb theta (PI - angle p + 0.5 * d)) else cond_theta in
  cond_k || cond_theta.

(** 142-231 (_compute_cond_no_forcing); 2D *)
Definition cond_no_forcing_2d (i0 i1 : nat) : bool :=
  let KX := deltakx p * INR i1 in
  let KY := deltaky p * IZR (wavenumber ny_coarse_2d i0) in
  let cond := match delta_angle p with
    | None => cond_box KX KY
    | Some d => cond_sector d (sqrt (KX * KX + KY * KY)) KY
    end in
  cond || (i0 =? ny_coarse_2d / 2)%nat || (i1 =? nkx_coarse - 1)%nat.

(** 3D: shapeK_loc[1] is the number of points along y *)
Definition cond_no_forcing_3d (i0 i1 i2 : nat) : bool :=
  let Kx := deltakx p * INR i2 in
  let Ky := deltaky p * IZR (wavenumber ny_coarse_3d i1) in
  let Kz := deltakz p * IZR (wavenumber nz_coarse_3d i0) in
  let cond := match delta_angle p with
    | None => cond_box (sqrt (Kx * Kx + Ky * Ky)) Kz
    | Some d => cond_sector d (sqrt (Kx * Kx + Ky * Ky + Kz * Kz)) Kz
    end in
  cond || (i0 =? nz_coarse_3d / 2)%nat || (i1 =? ny_coarse_3d - 1)%nat.
End Aniso.
