(** * plot2d of the spectra of ns2d.strat

    fluidsim/solvers/ns2d/strat/output/spectra.py 337-380 (load2d_means), 382-411 (plot2d).

    Exact numbers.  The file is the list of the times and, at one wave number, the values of the data sets spectrum2D_E,
    spectrum2D_EK and spectrum2D_EA for each record.  The NaN (mean of no record) is None.  The printed message is not modelled. *)

From Coq Require Import List QArith Qabs Qround Bool.
Import ListNotations.
Local Open Scope Q_scope.

(** int(nan): ValueError; int(inf): OverflowError; argmin of an empty array: ValueError *)
Inductive error := ValueErr | OverflowErr.

Fixpoint sum (l : list Q) : Q := match l with [] => 0 | x :: r => x + sum r end.
Definition mean (l : list Q) : option Q :=
  match l with [] => None | _ => Some (sum l / inject_Z (Z.of_nat (List.length l))) end.

(** times[1:] - times[0:-1] *)
Fixpoint diffs (l : list Q) : list Q := match l with x :: ((y :: _) as r) => (y - x) :: diffs r | _ => [] end.

(** np.argmin(abs(times - t)) *)
Fixpoint argmin_from (best : Q) (ibest i : nat) (l : list Q) : nat :=
  match l with
  | [] => ibest
  | x :: r => if Qle_bool best x then argmin_from best ibest (S i) r else argmin_from x i (S i) r
  end.
Definition argmin (times : list Q) (t : Q) : option nat :=
  match map (fun x => Qabs (x - t)) times with [] => None | x :: r => Some (argmin_from x 0 1 r) end.

(** dset[imin : imax + 1] *)
Definition slice (imin imax : nat) (l : list Q) : list Q := skipn imin (firstn (imax + 1) l).

(** 347-351: delta_i_plot; np.round is to the nearest even integer, only its existence matters here *)
Definition delta_i (times : list Q) (delta_t : Q) : Q + error :=
  match mean (diffs times) with
  | None => inr ValueErr
  | Some d => if Qeq_bool d 0 then (if Qeq_bool delta_t 0 then inr ValueErr else inr OverflowErr) else inl (delta_t / d)
  end.

Record curves := mkC { E : option Q; EK : option Q; EA : option Q }.

Definition load2d_means (times dE dEK dEA : list Q) (tmin tmax delta_t : Q) : curves + error :=
  match delta_i times delta_t with
  | inr e => inr e
  | inl _ =>
      match argmin times tmin, argmin times tmax with
      | Some i, Some j => inl (mkC (mean (slice i j dE)) (mean (slice i j dEK)) (mean (slice i j dEA)))
      | _, _ => inr ValueErr
      end
  end.

(** the drawn values: the black, red and blue curves at the wave number k; coef_compensate is only printed *)
Definition plot2d (k : Q) (times dE dEK dEA : list Q) (tmin tmax delta_t : Q) (coef_compensate : Z) : curves + error :=
  load2d_means times dE dEK dEA tmin tmax delta_t.
