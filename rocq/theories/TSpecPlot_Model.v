(** * plot_spectra of the temporal spectra

    fluidsim/base/output/temporal_spectra.py 602-696 (plot_spectra), 798-841 (the file of the spectra).

    The numbers of the arguments are given by the characters of their str(); the directory is the list of its files, the
    last written first; [compute] (compute_spectra) is outside and depends on the recorded signals.  The reals are exact;
    the limits of the axes and the guides of watu_coriolis are not modelled. *)

From Coq Require Import Ascii String List Reals Bool.
Import ListNotations.

(** 798-804 *)
Definition txt := list ascii.
Record args := mkArgs { region : list txt; tmin : txt; tmax : txt; dtype : option txt }.
Fixpoint of_string (s : string) : txt := match s with EmptyString => [] | String c r => c :: of_string r end.
Fixpoint join (l : list txt) : txt := match l with [] => [] | [x] => x | x :: r => x ++ of_string "_" ++ join r end.
Definition file_name (a : args) : txt :=
  of_string "periodogram_" ++ join (region a) ++ of_string "_" ++ tmin a ++ of_string "_" ++ tmax a
  ++ (match dtype a with Some d => of_string "_" ++ d | None => [] end) ++ of_string ".h5".

Definition txt_eqb (a b : txt) : bool := if list_eq_dec Ascii.ascii_dec a b then true else false.

Section Files.
Variables (signals spectra : Type) (compute : signals -> args -> spectra).
Definition directory := list (txt * spectra).
Fixpoint lookup (d : directory) (name : txt) : option spectra :=
  match d with [] => None | (n, s) :: r => if txt_eqb n name then Some s else lookup r name end.
(** 806-825 *)
Definition save_spectra (sig : signals) (d : directory) (a : args) : directory * spectra :=
  let s := compute sig a in ((file_name a, s) :: d, s).
(** 613-622 *)
Definition get (sig : signals) (d : directory) (a : args) : directory * spectra :=
  match lookup d (file_name a) with Some s => (d, s) | None => save_spectra sig d a end.
Fixpoint calls (sig : signals) (d : directory) (l : list args) : directory :=
  match l with [] => d | a :: r => calls sig (fst (get sig d a)) r end.
End Files.

(** 636-661: the curves: their names; with_N: hasattr(params, "N") *)
Definition curves (with_N : bool) (key : string) : list string := if with_N then ["K"%string; "A"%string] else [key].
Definition default_key (keys_fields : list string) (key : option string) : string :=
  match key with Some k => k | None => hd EmptyString keys_fields end.

Local Open Scope R_scope.
(** 663-671 *)
Definition aspect_ratio (nb_dim : nat) (Lx Ly Lz : R) : R := if Nat.eqb nb_dim 3 then Lx / Lz else Lx / Ly.
Definition mode (aspect nx nz : R) : R := sqrt (nx ^ 2 / (nx ^ 2 + aspect ^ 2 * nz ^ 2)).

(** 649: EK[abs(omegas - 1).argmin()], omegas divided by N (648): the frequency and the value of the first closest one *)
Fixpoint closest (l : list (R * R)) : option (R * R) :=
  match l with
  | [] => None
  | p :: r => match closest r with
              | None => Some p
              | Some q => if Rle_dec (Rabs (fst p - 1)) (Rabs (fst q - 1)) then Some p else Some q
              end
  end.
Definition EKN (N : R) (l : list (R * R)) : option R := option_map snd (closest (map (fun p => (fst p / N, snd p)) l)).
(** 682-683 *)
Definition scaling (ekn omega : R) : R := ekn * / omega ^ 2.
