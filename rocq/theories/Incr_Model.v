(** * Probability density functions and increments

    Model of fluidsim/operators/operators2d.py 62-70 and 370-401, fluidsim/base/output/increments.py
    23-37, 55-97, 125-149 and 356-430, fluidsim/base/output/prob_dens_func.py 58-79 and
    fluidsim/solvers/sw1l/output/increments.py 24-55.

    Numbers are exact reals.  A field is the list, over the processes, of the local arrays; the rows are
    distributed over the processes.  Arrays of known length are functions of the index. *)

From Coq Require Import Reals List Arith ZArith Bool.
Import ListNotations.
Local Open Scope R_scope.

Definition sumR (n : nat) (f : nat -> R) : R := fold_right Rplus 0 (map f (seq 0 n)).
Definition sum_list (l : list R) : R := fold_right Rplus 0 l.

(** np.mean of an array *)
Definition mean (l : list R) : R := sum_list l / INR (length l).

(** array.max() or min(), and comm.allreduce; numpy raises an error for an empty array *)
Definition reduce (op : R -> R -> R) (l : list R) : R := match l with [] => 0 | x :: r => fold_left op r x end.

(** ** np.histogram *)

(** numpy: the range is enlarged if it is empty *)
Definition outer_edges (lo hi : R) : R * R := if Req_EM_T lo hi then (lo - / 2, hi + / 2) else (lo, hi).
(** numpy: bin_edges = linspace(first, last, nb + 1) *)
Definition bin_edge (first last : R) (nb : nat) (i : nat) : R := first + INR i * ((last - first) / INR nb).
(** numpy: the last bin is closed *)
Definition bin_index (first last : R) (nb : nat) (x : R) : nat :=
  let i := Z.to_nat (Int_part ((x - first) * INR nb / (last - first))) in
  if (i =? nb)%nat then (nb - 1)%nat else i.
Definition histogram (first last : R) (nb : nat) (field : list R) (i : nat) : nat :=
  length (filter (fun x => (bin_index first last nb x =? i)%nat) field).

(** operators2d.py 370-401: (pdf, bin_edges) *)
Definition pdf_normalized (field : list (list R)) (nb_bins : nat) : (nat -> R) * (nat -> R) :=
  let field_max := reduce Rmax (map (reduce Rmax) field) in
  let field_min := reduce Rmin (map (reduce Rmin) field) in
  let '(first, last) := outer_edges field_min field_max in
  let bin_edges := bin_edge first last nb_bins in
  match field with
  | [f] =>
      (* density=True *)
      let n i := INR (histogram first last nb_bins f i) in
      (fun i => n i / (bin_edges (S i) - bin_edges i) / sumR nb_bins n, bin_edges)
  | _ =>
      let hist i := INR (fold_right Nat.add 0%nat (map (fun f => histogram first last nb_bins f i) field)) in
      (fun i => hist i / ((bin_edges 1%nat - bin_edges 0%nat) * sumR nb_bins hist), bin_edges)
  end.

(** ** Increments *)

(** operators2d.py 62-70, one row *)
Definition increments_row (irx : nat) (row : list R) : list R :=
  map (fun p => fst p - snd p) (combine (skipn irx row) (firstn (length row - irx) row)).
(** the local array (a list of rows) *)
Definition compute_increments_dim1 (var : list (list R)) (irx : nat) : list R :=
  concat (map (increments_row irx) var).

(** increments.py 55-66.  np.round rounds half to even; 0.8 nx is exact *)
Definition np_round (x : R) : Z :=
  let f := Int_part x in
  let d := x - IZR f in
  if Rlt_dec d (/ 2) then f else if Rlt_dec (/ 2) d then (f + 1)%Z else if Z.even f then f else (f + 1)%Z.

Section Rxs.
Variable nx : nat.
Definition nrx : nat := Nat.max (Nat.min (nx / 16) 128) (nx / 2).
Definition rmin : nat := 1.
Definition rmax : nat := (8 * nx / 10)%nat.
Definition delta_logr : R := ln (INR rmax / INR rmin) / INR (nrx - 1).
Definition rxs_log (ir : nat) : Z := np_round (exp (ln (INR rmin) + delta_logr * INR ir)).
(** the loop over ir modifies the array in place *)
Fixpoint rxs (ir : nat) : Z :=
  match ir with
  | O => rxs_log 0
  | S i => if (rxs_log (S i) <=? rxs i)%Z then (rxs i + 1)%Z else rxs_log (S i)
  end.
End Rxs.

(** 125-147: what is saved for one variable and one separation (all processes compute the same) *)
Definition compute_increment_pdf (var : list (list (list R))) (rx nbins : nat) : (nat -> R) * R * R :=
  let '(pdf, edges) := pdf_normalized (map (fun loc => compute_increments_dim1 loc rx) var) nbins in
  (pdf, edges 0%nat, edges nbins).

(** 93 and 148-149 *)
Definition compute_values_inc (nbins : nat) (valmin valmax : R) (i : nat) : R :=
  valmin + (valmax - valmin) * ((INR i + / 2) / INR nbins).

(** 23-37, one separation; order is a natural number *)
Definition strfunc_from_pdf (nbins : nat) (pdf values : nat -> R) (order : nat) (absolute : bool) : R :=
  let values := if absolute then (fun i => Rabs (values i)) else values in
  let deltainc := Rabs (values 1%nat - values 0%nat) in
  deltainc * sumR nbins (fun i => pdf i * values i ^ order).

(** np.interp: constant outside of the range *)
Fixpoint interp_from (x x0 f0 : R) (l : list (R * R)) : R :=
  match l with
  | [] => f0
  | (x1, f1) :: r => if Rlt_dec x x1 then f0 + (x - x0) * (f1 - f0) / (x1 - x0) else interp_from x x1 f1 r
  end.
Definition interp (x : R) (l : list (R * R)) : R :=
  match l with [] => 0 | (x0, f0) :: r => if Rlt_dec x x0 then f0 else interp_from x x0 f0 r end.

(** 356-430, one separation; the records between imin_plot and imax_plot: (pdf, valmin, valmax) *)
Definition load_pdf (nbins : nat) (records : list ((nat -> R) * R * R)) : (nat -> R) * (nat -> R) :=
  let valmin := mean (map (fun r => snd (fst r)) records) in
  let valmax := mean (map snd records) in
  let values := compute_values_inc nbins valmin valmax in
  let at_values (r : (nat -> R) * R * R) (i : nat) : R :=
    let values_inc := compute_values_inc nbins (snd (fst r)) (snd r) in
    interp (values i) (map (fun j => (values_inc j, fst (fst r) j)) (seq 0 nbins)) in
  (fun i => mean (map (fun r => at_values r i) records), values).

(** ** What is saved by sw1l: the dictionary of the process 0 *)

(** prob_dens_func.py 58-73: [u] is the list of the (ux, uy) of the points of each process *)
Definition compute_pdf_u (u : list (list (R * R))) (nb_bins : nat) : (nat -> R) * (nat -> R) :=
  let u_norme (loc : list (R * R)) : list R :=
    let uxm := mean (map fst loc) in
    let uym := mean (map snd loc) in
    map (fun p => sqrt ((fst p - uxm) ^ 2 + (snd p - uym) ^ 2)) loc in
  pdf_normalized (map u_norme u) nb_bins.

(** sw1l/output/increments.py 24-55: the local rows of ux, uy, eta; struc_func_Kolmo *)
Definition struc_func_Kolmo (c2 : R) (rx : nat) (ux uy eta Jx : list (list R)) : R :=
  let inc_ux := compute_increments_dim1 ux rx in
  let inc_uy := compute_increments_dim1 uy rx in
  let inc_eta := compute_increments_dim1 eta rx in
  let inc_Jx := compute_increments_dim1 Jx rx in
  let S_uL2JL := mean (map (fun p => fst p ^ 2 * snd p) (combine inc_ux inc_Jx)) in
  let S_uT2JL := mean (map (fun p => fst p ^ 2 * snd p) (combine inc_uy inc_Jx)) in
  let S_c2h2uL := c2 * mean (map (fun p => fst p ^ 2 * snd p) (combine inc_eta inc_ux)) in
  S_uL2JL + S_uT2JL + S_c2h2uL.
Definition flux (ux eta : list (list R)) : list (list R) :=
  map (fun r => map (fun p => (1 + snd p) * fst p) (combine (fst r) (snd r))) (combine ux eta).
(** the file is written by the process 0 with its own dictionary *)
Definition saved_struc_func_Kolmo (c2 : R) (rx : nat) (ux uy eta : list (list (list R))) : R :=
  let ux := nth 0 ux [] in let uy := nth 0 uy [] in let eta := nth 0 eta [] in
  struc_func_Kolmo c2 rx ux uy eta (flux ux eta).
