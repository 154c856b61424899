(** * Forced modes of the random and proportional forcings

    The numbers are real numbers, the sizes and the indices integers. Process 0 (the coarse operator is sequential). *)

From Coq Require Import Reals ZArith List Bool.
From Flocq Require Import Core.Core.
Import ListNotations.
Local Open Scope R_scope.

Definition Rltb (x y : R) : bool := if Rlt_dec x y then true else false.

(** fluidsim/base/forcing/specific.py 191-200: the size of the coarse grid. [g]: fftw_grid_size of fluiddyn (None: ImportError);
    round of Python: ties to even *)
Fixpoint pow_loop (fuel : nat) (x : R) (i : Z) : Z :=
  match fuel with
  | O => i
  | S n => if Rltb (IZR (2 ^ i)) x then pow_loop n x (i + 1) else i
  end.
Definition fft_size (g : option (Z -> Z)) (nkmax : R) : Z :=
  match g with
  | Some g => 2 * g (ZnearestE nkmax)
  | None => 2 ^ pow_loop (Z.to_nat (up (2 * nkmax))) (2 * nkmax) 0
  end.

(** wave number of an index of an axis with [n] points (not the one of the real transform) *)
Definition wavenumber (n i : Z) : Z := if (i <=? n / 2)%Z then i else (i - n)%Z.

(** 180-183: oper.deltak is the largest of the deltak of the axes *)
Definition k_lim (deltak nk : R) : R := deltak * nk.

(** 260-278 (_compute_cond_no_forcing) for a coarse grid of [N] points in each direction: shapeK_loc is (N, N/2 + 1) in 2D,
    (N, N, N/2 + 1) in 3D; indices (i0, i1) and (i0, i1, i2) *)
Definition cond_no_f2 (dkx dky kmin kmax : R) (N i0 i1 : Z) : bool :=
  let nkyc := N in
  let nkxc := (N / 2 + 1)%Z in
  let K := sqrt ((dkx * IZR i1) * (dkx * IZR i1) + (dky * IZR (wavenumber N i0)) * (dky * IZR (wavenumber N i0))) in
  (Rltb kmax K || Rltb K kmin) || (i0 =? nkyc / 2)%Z || (i1 =? nkxc - 1)%Z.

Definition cond_no_f3 (dkx dky dkz kmin kmax : R) (N i0 i1 i2 : Z) : bool :=
  let nkzc := N in
  let nkyc := N in
  let nkxc := (N / 2 + 1)%Z in
  let K := sqrt ((dkx * IZR i2) * (dkx * IZR i2) + (dky * IZR (wavenumber N i1)) * (dky * IZR (wavenumber N i1))
                 + (dkz * IZR (wavenumber N i0)) * (dkz * IZR (wavenumber N i0))) in
  (Rltb kmax K || Rltb K kmin) || (i0 =? nkzc / 2)%Z || (i1 =? nkyc / 2)%Z || (i2 =? nkxc - 1)%Z.

(** range(n) *)
Definition range (n : Z) : list Z := map Z.of_nat (seq 0 (Z.to_nat n)).

Inductive result := ValueError_nk | NotImplementedError_shape | ValueError_0_modes | Forced (N : Z).

(** 144-161 (_check_forcing_shape) *)
Definition check_forcing_shape (size : Z) (shape : list Z) : bool := forallb (fun n => size <=? n)%Z shape.

(** 173-217 (__init__ of SpecificForcingPseudoSpectralCoarse), 2D: the shape is (ny, nx) *)
Definition init2 (g : option (Z -> Z)) (dkx dky : R) (nx ny : Z) (nkmin nkmax : R) : result :=
  if Rltb nkmax nkmin then ValueError_nk
  else
    let deltak := Rmax dkx dky in
    let kmax := k_lim deltak nkmax in
    let kmin := k_lim deltak nkmin in
    let N := fft_size g nkmax in
    if negb (check_forcing_shape N [ny; nx]) then NotImplementedError_shape
    else if existsb (fun i0 => existsb (fun i1 => negb (cond_no_f2 dkx dky kmin kmax N i0 i1)) (range (N / 2 + 1))) (range N) then Forced N
    else ValueError_0_modes.

(** cubic truncation (fluidfft, where_dealiased) of the operator of the simulation along an axis with [n] points *)
Definition axis_dealiased (coef : R) (n k : Z) : bool := Rltb (coef * (IZR n / 2)) (Rabs (IZR k)).
