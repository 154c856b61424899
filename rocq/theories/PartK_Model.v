(** * Normalisation "particular_k" of the forcing and the Kolmogorov flows:
    model of fluidsim/base/forcing/specific.py 260-277 and 523-585 and of
    fluidsim/base/forcing/kolmogorov.py

    Numbers are exact.  The arrays of the coarse resolution are functions of the indices (iky, ikx);
    the coarse grid has an even number of points in each direction (it is 2 * fftw_grid_size(...) or
    a power of 2). *)

From Coq Require Import Reals List Bool Arith ZArith.
From Coquelicot Require Import Complex.
From Verif Require Import Oper_Model DFT.
From Verif Require Forcing_Model.
Import ListNotations.
Local Open Scope R_scope.

Definition rltb (a b : R) : bool := if Rlt_dec a b then true else false.

(** Re(conj(a) * b) and abs(a)**2 *)
Definition re_conj_mult (a b : C) : R := fst a * fst b + snd a * snd b.
Definition abs_square (a : C) : R := fst a * fst a + snd a * snd a.

(** numpy argmin of a non-empty list: the first index of the smallest value *)
Fixpoint argmin_from (ibest : nat) (best : R) (i : nat) (l : list R) : nat :=
  match l with
  | [] => ibest
  | x :: r => if rltb x best then argmin_from i x (S i) r else argmin_from ibest best (S i) r
  end.
Definition argmin (l : list R) : nat :=
  match l with [] => O | x :: r => argmin_from 0 x 1 r end.

Section PartK.
(** shapeK_loc of oper_coarse, deltakx and deltaky *)
Variables nky nkx : nat.
Variables deltakx deltaky : R.

(** kx_loc and ky_loc (fluidfft) *)
Definition kx_loc (ikx : nat) : R := deltakx * INR ikx.
Definition ky_loc (iky : nat) : R :=
  deltaky * (if (iky <=? nky / 2)%nat then INR iky else INR iky - INR nky).

(** all the indices, in the order of flatten() *)
Definition indices : list (nat * nat) := list_prod (seq 0 nky) (seq 0 nkx).

(** oper.sum_wavenumbers (fluidfft, even number of points along x): the coefficients of the negative
    kx are not stored *)
Definition weight (ikx : nat) : R := if ((ikx =? 0) || (ikx =? nkx - 1))%nat then 1 else 2.
Definition sum_wavenumbers (g : nat -> nat -> R) : R :=
  fold_right (fun p s => weight (snd p) * g (fst p) (snd p) + s) 0 indices.

(** 260-277 (_compute_cond_no_forcing), 2D *)
Definition cond_no_forcing (kmin_forcing kmax_forcing : R) (iky ikx : nat) : bool :=
  let K := sqrt (kx_loc ikx * kx_loc ikx + ky_loc iky * ky_loc iky) in
  rltb kmax_forcing K || rltb K kmin_forcing || (iky =? nky / 2)%nat || (ikx =? nkx - 1)%nat.

(** 523-585 (normalize_forcingc_part_k); [randint n]: np.random.randint(0, n), which raises a
    ValueError (None) for n <= 0; None also for the divisions by zero (the array is filled with inf
    and nan) *)
Definition normalize_forcingc_part_k (randint : nat -> nat) (cond_no_f : nat -> nat -> bool)
  (forcing_rate deltat : R) (fvc vc : nat -> nat -> C) : option (nat -> nat -> C) :=
  let fvc := project_fft_on_realX_seq nky nkx fvc in
  let P_forcing2 := sum_wavenumbers (fun i j => re_conj_mult (fvc i j) (vc i j)) in
  let forced := filter (fun p => negb (cond_no_f (fst p) (snd p))) indices in
  let KX_f := map (fun p => kx_loc (snd p)) forced in
  let KY_f := map (fun p => ky_loc (fst p)) forced in
  let nb_wn_f := length KX_f in
  if (nb_wn_f <=? 1)%nat then None
  else
    let ipart := randint (nb_wn_f - 1)%nat in
    let kx_part := nth ipart KX_f 0 in
    let ky_part := nth ipart KY_f 0 in
    let ikx := argmin (map (fun i => Rabs (kx_loc i - kx_part)) (seq 0 nkx)) in
    let iky := argmin (map (fun i => Rabs (ky_loc i - ky_part)) (seq 0 nky)) in
    let part := fst (Cplus (Cmult (Cconj (fvc iky ikx)) (vc iky ikx))
                           (Cmult (fvc iky ikx) (Cconj (vc iky ikx)))) in
    let part := if (ikx =? 0)%nat then part / 2 else part in
    let other := P_forcing2 - part in
    if Req_EM_T (fst (vc iky ikx)) 0 then None
    else
      let fvc := set2 fvc iky ikx (RtoC (- other / fst (vc iky ikx))) in
      let fvc := if (ikx =? 0)%nat then fvc else set2 fvc iky ikx (Cdiv (fvc iky ikx) (RtoC 2)) in
      let fvc := project_fft_on_realX_seq nky nkx fvc in
      let PZ_nonorm := sum_wavenumbers (fun i j => abs_square (fvc i j)) * deltat / 2 in
      if Req_EM_T PZ_nonorm 0 then None
      else Some (fun i j => Cmult (RtoC (sqrt (forcing_rate / PZ_nonorm))) (fvc i j)).
End PartK.

(** ** Kolmogorov flows, base/forcing/kolmogorov.py *)

(** the axis of the gradient, 62-97: the default is the last letter; a letter which is not one of the
    axes is a ValueError (None) *)
Inductive letter := X | Y | Z | OtherLetter.

Definition get_axis (is_3d : bool) (letter_gradient : option letter) : option letter :=
  match letter_gradient with
  | None => Some (if is_3d then Z else Y)
  | Some X => Some X
  | Some Y => Some Y
  | Some Z => if is_3d then Some Z else None
  | Some OtherLetter => None
  end.

(** number of points and index along the axis *)
Definition points (g : grid) (l : letter) : nat :=
  match l with X => gx g | Y => gy g | _ => gz g end.
Definition index (l : letter) (jx jy jz : nat) : nat :=
  match l with X => jx | Y => jy | _ => jz end.

(** coordinates of the points: oper.X, oper.Y, get_XYZ_loc *)
Definition coordinate (g : grid) (length : R) (l : letter) (jx jy jz : nat) : R :=
  length / INR (points g l) * INR (index l jx jy jz).

(** 142-147 and 184-187: amplitude * np.sin(2 * np.pi * ik / length * variable); the grid is the one
    of sim.oper or the one of oper_coarse *)
Definition kolmogorov_field (g : grid) (amplitude length : R) (ik : BinNums.Z) (l : letter) (jx jy jz : nat) : C :=
  RtoC (amplitude * sin (2 * PI * IZR ik / length * coordinate g length l jx jy jz)).

(** its coefficients, statespect_from_statephys or oper_coarse.fft *)
Definition kolmogorov_fft (g : grid) (amplitude length : R) (ik : BinNums.Z) (l : letter) (k : mode) : C :=
  dft g (kolmogorov_field g amplitude length ik l) k.

(** KolmogorovFlowNormalized.forcingc_raw_each_time 189-191 returns the array self._f_fft itself, which
    is then multiplied in place by the coefficient (specific.py 677): the array kept for the next call is
    the normalized one.  [state]: weights and coefficients of the forced variable at this call. *)
Definition with_forcing (state : list (R * C)) (f_fft : list C) : list Forcing_Model.mode :=
  map (fun p : (R * C) * C => Forcing_Model.mkMode (fst (fst p)) (snd (fst p)) (snd p)) (combine state f_fft).

Definition kolmogorov_normalized_compute (order : R -> R -> R -> bool) (which_root : Forcing_Model.root)
  (forcing_rate deltat : R) (state : list (R * C)) (f_fft : list C) : option (list C) :=
  match Forcing_Model.normalize_2nd_degree_eq order which_root forcing_rate deltat (with_forcing state f_fft) with
  | None => None
  | Some l => Some (map Forcing_Model.f l)
  end.

(** successive calls *)
Fixpoint kolmogorov_normalized_run (order : R -> R -> R -> bool) (which_root : Forcing_Model.root)
  (forcing_rate : R) (calls : list (R * list (R * C))) (f_fft : list C) : option (list C) :=
  match calls with
  | [] => Some f_fft
  | (deltat, state) :: r =>
      match kolmogorov_normalized_compute order which_root forcing_rate deltat state f_fft with
      | None => None
      | Some f_fft => kolmogorov_normalized_run order which_root forcing_rate r f_fft
      end
  end.
