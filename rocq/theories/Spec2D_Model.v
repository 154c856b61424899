(** * Loading and plotting of the spectra of the two-dimensional solvers

    fluidsim/base/output/spectra.py (Spectra, SpectraBase) and the functions load1d_means and plot1d
    of fluidsim/solvers/ns2d/strat/output/spectra.py.  Exact numbers; a spectrum is the list of its
    values; figures are the lists of what is drawn; [None] is an exception or a mean of nothing
    (nan). *)

From Coq Require Import QArith Qabs ZArith List Bool.
From Verif Require Import PhysFiles_Model Probes_Model.
Import ListNotations.
Local Open Scope Q_scope.

(** spectra.py 198-199, 458-466, 497-505: np.argmin(abs(times - t)) *)
Definition closest (times : list Q) (t : Q) : nat := argmin (map (fun x => Qabs (x - t)) times).

Definition first_index (times : list Q) (tmin : option Q) : nat :=
  match tmin with None => 0 | Some t => closest times t end.

Definition last_index (times : list Q) (tmax : option Q) : nat :=
  match tmax with None => (length times - 1)%nat | Some t => closest times t end.

(** dset[imin : imax + 1] *)
Definition slice {A} (imin imax : nat) (l : list A) : list A :=
  firstn (imax + 1 - imin) (skipn imin l).

Definition sumq (l : list Q) : Q := fold_right Qplus 0 l.

(** mean of one component over the records *)
Definition mean (l : list Q) : option Q :=
  match l with [] => None | _ => Some (sumq l / inject_Z (Z.of_nat (length l))) end.

(** 450-485 (load2d_mean) for one component of one spectrum *)
Definition load_mean (times values : list Q) (tmin tmax : option Q) : option Q :=
  mean (slice (first_index times tmin) (last_index times tmax) values).

(** the file spectra1D.h5; [f_x], [f_y]: the records of one spectrum versus kx and one versus ky *)
Record file1d := { kxE : list Q; kyE : list Q; f_times : list Q; f_x : list (list Q); f_y : list (list Q) }.

Definition mean_spectrum (n : nat) (f : file1d) (records : list (list Q)) (tmin tmax : option Q) : list (option Q) :=
  map (fun k => load_mean (f_times f) (map (fun r => nth k r 0) records) tmin tmax) (seq 0 n).

(** 487-524 (load1d_mean): "kh", the spectrum versus kx and the one versus ky *)
Definition load1d_mean (f : file1d) (tmin tmax : option Q) : list Q * list (option Q) * list (option Q) :=
  (kxE f, mean_spectrum (length (kxE f)) f (f_x f) tmin tmax, mean_spectrum (length (kyE f)) f (f_y f) tmin tmax).

(** np.mean(times[1:] - times[0:-1]).  [None]: nan *)
Fixpoint differences (l : list Q) : list Q :=
  match l with
  | a :: (b :: _) as r => (b - a) :: differences r
  | _ => []
  end.

Definition delta_t_save (times : list Q) : option Q := mean (differences times).

(** int(np.round(delta_t / delta_t_save)), at least 1.  [None]: int(nan) or int(inf) *)
Definition delta_i (times : list Q) (delta_t : Q) : option Z :=
  match delta_t_save times with
  | None => None
  | Some d =>
      if Qeq_bool d 0 then None
      else let i := round_even (delta_t / d) in Some (if Z.eqb i 0 then 1%Z else i)
  end.

(** 212-222 (_plot_ndim): [Some None]: only the average is plotted *)
Definition step_plot (times : list Q) (delta_t : option Q) : option (option Z) :=
  match delta_t with
  | None => Some None
  | Some d => if Qeq_bool d 0 then Some None else option_map Some (delta_i times d)
  end.

(** range(imin, imax + 1, step) for a positive step *)
Fixpoint range_from (fuel imin imax step : nat) : list nat :=
  match fuel with
  | O => []
  | S k => if Nat.leb imin imax then imin :: range_from k (imin + step) imax step else []
  end.

Definition range (imin imax step : nat) : list nat := range_from (imax + 1) imin imax step.

(** 299-326 (_plot_ndim_direction): the index and the opacity of the plotted records.  [None]: the
    opacity is not a number *)
Definition lines (imin imax : nat) (step : Z) : option (list (nat * Q)) :=
  if Nat.eqb imin imax then None
  else
    let slope := (1 - (1 # 10)) / inject_Z (Z.of_nat imax - Z.of_nat imin) in
    let alpha0 := (1 # 10) - slope * inject_Z (Z.of_nat imin) in
    Some (map (fun i => (i, alpha0 + slope * inject_Z (Z.of_nat i))) (range imin imax (Z.to_nat step))).

(** 159-273 (_plot_ndim): the plotted records and the average (one component); the last time is the
    largest *)
Definition plot_ndim (times values : list Q) (tmin : Q) (tmax delta_t : option Q)
  : option (list (nat * Q) * option Q) :=
  let imin := closest times tmin in
  let imax := match tmax with None => closest times (nth (length times - 1) times 0) | Some t => closest times t end in
  match step_plot times delta_t with
  | None => None
  | Some None => Some ([], mean (slice imin imax values))
  | Some (Some i) =>
      match lines imin imax i with
      | None => None
      | Some l => Some (l, mean (slice imin imax values))
      end
  end.

(** ns2d/strat/output/spectra.py 94-168 (load1d_means), one component.  [None]: exception;
    [Some None]: nan *)
Definition load1d_means (times values : list Q) (tmin : Q) (tmax : option Q) (delta_t : Q) : option (option Q) :=
  match delta_i times delta_t with
  | None => None
  | Some _ =>
      let imin := closest times tmin in
      let imax := match tmax with None => closest times (nth (length times - 1) times 0) | Some t => closest times t end in
      Some (mean (slice imin imax values))
  end.

(** ns2d/strat/output/spectra.py 202-213: the wave numbers of plot1d ([k]: positive wave numbers of
    the grid in increasing order; a negative end of a slice counts from the end) *)
Definition plotted_wavenumbers (k : list Q) (coef : Q) : list Q :=
  let kmax := nth (length k - 1) k 0 in
  let id := (Z.of_nat (closest k (kmax * coef)) - 1)%Z in
  if Z.ltb id 0 then firstn (length k - 1) k else firstn (Z.to_nat id) k.
