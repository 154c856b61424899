(** Model of fluidsim/extend_simul/spatial_means_regions_milestone.py (SpatialMeansRegions).

    Simplifications: exact numbers; at least two points along x; the arrays of a process are functions of the local
    indices (z, y, x), one element of the lists below per process; the sums over the processes (allreduce) are exact; a file
    is the limits written in its first line, the names of the columns and its rows; the fields in physical space obtained
    by inverse Fourier transform are given (their Fourier coefficients are modelled for the pressures). *)
From Coq Require Import String ZArith Reals List Bool.
From Coquelicot Require Import Complex.
From Verif Require Import HMeans_Model.
Import ListNotations.
Local Open Scope R_scope.

(** what a process knows of the grid: seq_indices_first_X[2], shapeX_loc *)
Record proc := mkProc { ix_start : nat; nz_loc : nat; ny_loc : nat; nx_loc : nat }.

(** ** The regions *)

(** 95-107: a number is one limit; None is ValueError *)
Inductive limits := Number (x : R) | Sequence (l : list R).
Definition given (l : limits) : list R := match l with Number x => [x] | Sequence l => l end.
Definition regions (xmin xmax : limits) : option (list (R * R)) :=
  if Nat.eqb (length (given xmax)) (length (given xmin)) then Some (combine (given xmin) (given xmax)) else None.

(** 112-116 *)
Definition x_seq (Lx : R) (nx : nat) : list R := map (fun i => Lx / INR nx * INR i) (seq 0 nx).

Record info := mkInfo { xmin_r : R; xmax_r : R; ixmin_loc : option Z; ixmax_surf_loc : option Z; ixstop_loc : Z }.

(** 126-129, 142-145 *)
Definition in_process (p : proc) (i : Z) : option Z :=
  if ((i <? 0) || (Z.of_nat (nx_loc p) - 1 <? i))%Z then None else Some i.

(** 123-149 *)
Definition make_info (Lx : R) (nx : nat) (p : proc) (xmin xmax : R) : info :=
  let xs := x_seq Lx nx in
  let ixmin := index_time xs (Lx * xmin) in
  let xmin := nth ixmin xs 0 in
  let ixmin_loc := in_process p (Z.of_nat ixmin - Z.of_nat (ix_start p)) in
  let ixmax := index_time xs (Lx * xmax) in
  let xmax := nth ixmax xs 0 in
  let ixmax_loc := (Z.of_nat ixmax - Z.of_nat (ix_start p))%Z in
  let ixstop_loc := (ixmax_loc + 1)%Z in
  let whole := Nat.eqb ixmax (nx - 1) && Nat.eqb ixmin 0 in
  let xmax := if whole then xmax + nth 1 xs 0 else xmax in
  let ixmax := if whole then (ixmax + 1)%nat else ixmax in
  let ixmax_surf := Nat.modulo ixmax nx in
  mkInfo xmin xmax ixmin_loc (in_process p (Z.of_nat ixmax_surf - Z.of_nat (ix_start p))) ixstop_loc.

(** an index in the slice start:stop of an axis of n elements, start being None or in the axis *)
Definition in_slice (n : nat) (start : option Z) (stop : Z) (i : nat) : bool :=
  let stop := if (stop <? 0)%Z then (stop + Z.of_nat n)%Z else stop in
  let start := match start with None => 0%Z | Some a => a end in
  ((start <=? Z.of_nat i) && (Z.of_nat i <? stop))%Z.

(** 163-166: mask_loc[:, :, ixmin_loc:ixstop_loc] = 1 *)
Definition mask (p : proc) (r : info) (ix : nat) : R := if in_slice (nx_loc p) (ixmin_loc r) (ixstop_loc r) ix then 1 else 0.

Definition sum3 (p : proc) (f : arr3) : R := sumn (nz_loc p) (fun iz => sumn (ny_loc p) (fun iy => sumn (nx_loc p) (fun ix => f iz iy ix))).
Definition allreduce {A : Type} (l : list A) (f : A -> R) : R := fold_right (fun a s => f a + s) 0 l.

(** a process, its region, its local array *)
Definition lproc (A : Type) : Type := (proc * info * A)%type.

(** 168-171 *)
Definition nb_points {A} (l : list (lproc A)) : R := allreduce l (fun x => let '(p, r, _) := x in sum3 p (fun _ _ ix => mask p r ix)).
(** 261-268 *)
Definition compute_mean_region {A} (l : list (lproc A)) (field : A -> arr3) : R :=
  allreduce l (fun x => let '(p, r, a) := x in sum3 p (fun iz iy ix => mask p r ix * field a iz iy ix)) / nb_points l.

(** 173-188 *)
Definition nb_points_surface {A} (surf : info -> option Z) (l : list (lproc A)) : R :=
  allreduce l (fun x => let '(p, r, _) := x in match surf r with None => 0 | Some _ => INR (ny_loc p) * INR (nz_loc p) end).
(** 278-291 *)
Definition compute_flux {A} (surf : info -> option Z) (l : list (lproc A)) (field vx : A -> arr3) (length_region : R) : R :=
  allreduce l (fun x => let '(p, r, a) := x in
    match surf r with
    | None => 0
    | Some ix => sumn (nz_loc p) (fun iz => sumn (ny_loc p) (fun iy => vx a iz iy (Z.to_nat ix) * field a iz iy (Z.to_nat ix)))
    end) / nb_points_surface surf l / length_region.
(** 270-296: the fluxes at xmin and at xmax; the limits are the same in all the processes *)
Definition compute_fluxes_region {A} (l : list (lproc A)) (field vx : A -> arr3) : R * R :=
  match l with
  | [] => (0, 0)
  | (_, r, _) :: _ =>
      let length_region := xmax_r r - xmin_r r in
      (compute_flux ixmin_loc l field vx length_region, - compute_flux ixmax_surf_loc l field vx length_region)
  end.

(** ** The values of one record (_save_one_time), one region *)

(** the arrays: b and v, f_d times them, the forcing and the three parts of the pressure *)
Record fields := mkFields { vx : arr3; vy : arr3; vz : arr3; b : arr3; d_vx : arr3; d_vy : arr3; d_vz : arr3; d_b : arr3;
  fx : arr3; fy : arr3; P_nl : arr3; P_forcing : arr3; P_dz_b : arr3 }.

Record values := mkValues { EK : R; EKz : R; EA : R; epsK : R; epsA : R; conv_K2A : R; PK : R;
  flux_Pnl : R * R; flux_v2 : R * R; flux_P_dz_b : R * R; flux_Pforcing : R * R; flux_A : R * R }.

(** 298-410; None is UnboundLocalError: without forcing P_forcing is not defined at the line 409 *)
Definition compute_values (N deltat : R) (forcing : bool) (l : list (lproc fields)) : option values :=
  let mean := compute_mean_region l in
  let N2b2 := fun f iz iy ix => 1 / 2 / N ^ 2 * b f iz iy ix * b f iz iy ix in
  let EA := mean N2b2 in
  let vh2 := fun f iz iy ix => 1 / 2 * (vx f iz iy ix * vx f iz iy ix + vy f iz iy ix * vy f iz iy ix) in
  let vz2 := fun f iz iy ix => 1 / 2 * vz f iz iy ix * vz f iz iy ix in
  let v2_over_2 := fun f iz iy ix => vh2 f iz iy ix + vz2 f iz iy ix in
  let EKh := mean vh2 in let EKz := mean vz2 in
  let EK := EKh + EKz in
  let conv := - mean (fun f iz iy ix => b f iz iy ix * vz f iz iy ix) in
  let epsK := mean (fun f iz iy ix => vx f iz iy ix * d_vx f iz iy ix + vy f iz iy ix * d_vy f iz iy ix + vz f iz iy ix * d_vz f iz iy ix) in
  let epsA := mean (fun f iz iy ix => b f iz iy ix * d_b f iz iy ix) / N ^ 2 in
  if forcing then
    let PK := mean (fun f iz iy ix => vx f iz iy ix * fx f iz iy ix + vy f iz iy ix * fy f iz iy ix
                                      + (Rabs (fx f iz iy ix) ^ 2 + Rabs (fy f iz iy ix) ^ 2) * deltat / 2) in
    Some (mkValues EK EKz EA epsK epsA conv PK (compute_fluxes_region l P_nl vx) (compute_fluxes_region l v2_over_2 vx)
            (compute_fluxes_region l P_dz_b vx) (compute_fluxes_region l P_forcing vx) (compute_fluxes_region l N2b2 vx))
  else None.

(** 393-406: the Fourier coefficients of the three parts of the pressure, at one wavevector; K2_not0 is 1 for the mode zero *)
Section Pressure.
Variables kx ky kz : R.
Definition K2_not0 : R := if Req_EM_T (kx ^ 2 + ky ^ 2 + kz ^ 2) 0 then 1 else kx ^ 2 + ky ^ 2 + kz ^ 2.
Definition i_k (k : R) (a : C) : C := (Ci * RtoC k * a)%C.
Definition div (ax ay az : C) : C := (i_k kx ax + i_k ky ay + i_k kz az)%C.
Definition P_nl_fft (fx fy fz : C) : C := (- (div fx fy fz) / RtoC K2_not0)%C.
Definition P_forcing_fft (fx fy fz : C) : C := (- (div fx fy fz / RtoC K2_not0))%C.
Definition P_dz_b_fft (b : C) : C := (- (i_k kz b / RtoC K2_not0))%C.
End Pressure.

(** ** The files *)

(** 205-212 *)
Definition columns : list string :=
  ["time"; "EK"; "EKz"; "EA"; "epsK"; "epsA"; "conv_K2A"; "PK"; "PA";
   "flux_Pnl_xmin"; "flux_Pnl_xmax"; "flux_v2_xmin"; "flux_v2_xmax";
   "flux_P_dz_b_xmin"; "flux_P_dz_b_xmax";
   "flux_Pforcing_xmin"; "flux_Pforcing_xmax";
   "flux_A_xmin"; "flux_A_xmax"]%string.
(** 422-430 *)
Definition row (t : R) (v : values) : list R :=
  [t; EK v; EKz v; EA v; epsK v; epsA v; conv_K2A v; PK v; 0;
   fst (flux_Pnl v); snd (flux_Pnl v); fst (flux_v2 v); snd (flux_v2 v);
   fst (flux_P_dz_b v); snd (flux_P_dz_b v);
   fst (flux_Pforcing v); snd (flux_Pforcing v);
   fst (flux_A v); snd (flux_A v)].

Record file := mkFile { f_xmin : R; f_xmax : R; names : list string; rows : list (list R) }.
(** 196-224 (_init_files), one region; None is ValueError *)
Definition init_file (xmin xmax : R) (existing : option file) : option file :=
  match existing with
  | None => Some (mkFile xmin xmax columns [])
  | Some f => if Req_EM_T (f_xmin f) xmin then if Req_EM_T (f_xmax f) xmax then Some f else None else None
  end.
Definition append_row (f : file) (r : list R) : file := mkFile (f_xmin f) (f_xmax f) (names f) (rows f ++ [r]).
(** load()[key] (432-434): None is KeyError *)
Fixpoint position (key : string) (l : list string) : option nat :=
  match l with [] => None | k :: l => if String.eqb k key then Some O else option_map S (position key l) end.
Definition load_key (f : file) (key : string) : option (list R) :=
  match position key (names f) with None => None | Some i => Some (map (fun r => nth i r 0) (rows f)) end.

(** 451-483 (plot_budget): the curve "All terms", one record *)
Definition get (names : list string) (r : list R) (key : string) : R := match position key names with None => 0 | Some i => nth i r 0 end.
Definition all_terms (names : list string) (r : list R) : R :=
  let g := get names r in
  let flux kind := g (append kind "_xmin") + g (append kind "_xmax") in
  g "PK"%string + g "PA"%string - (g "epsK"%string + g "epsA"%string)
  + (flux "flux_Pnl"%string + flux "flux_Pforcing"%string + flux "flux_A"%string + flux "flux_P_dz_b"%string).
