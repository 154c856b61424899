(** * Last time of the spatial means, figure of the budget of ns2d.strat, check of the injection rate *)

From Coq Require Import List Bool PeanoNat QArith Reals.
From Coquelicot Require Import Complex.
Import ListNotations.

(** ** fluidsim/util/util.py 735-762 (get_last_time_spatial_means_from_path)

    A file is the list of its lines with their numbers of bytes (newline included). [LTime t]: a line "time = t" of
    spatial_means.txt; [LJson t]: a line of spatial_means.json which is a complete record of time t; [LOther]: any other line, in
    particular a line which was not written completely, or the end of a line. *)
Inductive line := LTime (t : Q) | LJson (t : Q) | LOther.
Definition mfile := list (line * nat).

Definition nb_bytes (f : mfile) : nat := fold_right (fun l n => snd l + n)%nat O f.

(** file.seek: the file from the byte number [n]; a line which is cut is not recognised *)
Fixpoint seek_from (n : nat) (f : mfile) : mfile :=
  match f with
  | [] => []
  | (x, len) :: rest =>
      if (n =? 0)%nat then f
      else if (len <=? n)%nat then seek_from (n - len) rest
      else (LOther, (len - n)%nat) :: rest
  end.

(** 740-742: nb_char_to_read = min(nb_char, 1000), from the end *)
Definition tail_file (f : mfile) : mfile := seek_from (nb_bytes f - Nat.min (nb_bytes f) 1000) f.

(** 743-750; None: line_time is not defined *)
Definition last_time_txt (f : mfile) : option Q :=
  fold_left (fun cur l => match fst l with LTime t => Some t | _ => cur end) (tail_file f) None.

(** 757-762; None: line_prev is not defined, or it cannot be read *)
Definition last_time_json (f : mfile) : option Q :=
  match fold_left (fun _ l => fst l) (tail_file f) LOther with LJson t => Some t | _ => None end.

(** the two files, if they exist; None: returns None, or an exception *)
Definition get_last_time (txt json : option mfile) : option Q :=
  match txt, json with
  | Some f, _ => last_time_txt f
  | None, Some f => last_time_json f
  | None, None => None
  end.

(** ** fluidsim/solvers/ns2d/strat/output/spatial_means.py 311-357 (plot_dt_energy)

    The points of the curves; rational numbers. *)
Fixpoint pairs (l : list Q) : list (Q * Q) :=
  match l with a :: ((b :: _) as r) => (a, b) :: pairs r | _ => [] end.

(** 329-330: dtE and times_dtE *)
Definition curve_dtE (times E : list Q) : list (Q * Q) :=
  combine (map (fun p => (snd p + fst p) / 2)%Q (pairs times))
    (map (fun p => (snd (fst p) - fst (fst p)) / (snd (snd p) - fst (snd p)))%Q (combine (pairs E) (pairs times))).

(** 344: times[:-1] += np.diff(times) / 2 *)
Fixpoint shift_times (times : list Q) : list Q :=
  match times with
  | a :: ((b :: _) as r) => (a + (b - a) / 2)%Q :: shift_times r
  | _ => times
  end.

(** 345: the model P - epsilon *)
Definition curve_model (times model : list Q) : list (Q * Q) := combine (tl (shift_times times)) (tl model).

(** 349-353: the second figure *)
Definition curve_second (times y : list Q) : list (Q * Q) := combine (shift_times times) y.

(** ** fluidsim/base/forcing/specific.py 292-306 (verify_injection_rate)

    The modes: weight in sum_wavenumbers, forcing, forced variable; the printed P_1, P_2 and P_f. *)
Definition sum_modes (l : list R) : R := fold_right Rplus 0%R l.
Definition P_1 (modes : list (R * (C * C))) : R := sum_modes (map (fun m => fst m * Re (Cmult (Cconj (fst (snd m))) (snd (snd m))))%R modes).
Definition P_2 (deltat : R) (modes : list (R * (C * C))) : R := (deltat / 2 * sum_modes (map (fun m => fst m * (Cmod (fst (snd m)) * Cmod (fst (snd m)))) modes))%R.
Definition P_f (deltat : R) (modes : list (R * (C * C))) : R := (P_1 modes + P_2 deltat modes)%R.
