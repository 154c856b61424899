(** Model of the times taken by default and of the use of the saved periodograms by get_spectra and
    plot_temporal_spectra (fluidsim/base/output/spatiotemporal_spectra.py 81-88, 1250-1254, 1256-1294, 1453-1523).

    Simplifications: those of TCache_Model.v; a file rank<rank>_tmin<tmin>.h5 is its rank, its tmin and the times of its
    signals; the files of the periodograms are read with their attribute tmax. *)
From Coq Require Import String Ascii QArith List Bool Arith.
From Verif Require Import TCache_Model.
Import ListNotations.
Local Open Scope string_scope.

(** what a call gives *)
Inductive res (A : Type) : Type :=
| Ok (a : A)
| TypeError
| ValueError
| IndexError
| FileNotFound.
Arguments Ok {A} a.
Arguments TypeError {A}.
Arguments ValueError {A}.
Arguments IndexError {A}.
Arguments FileNotFound {A}.

(** ** The default tmax, 1489-1505 *)

Definition rank_file : Type := nat * (Q * list Q).
Definition rank_of (f : rank_file) : nat := fst f.
Definition tmin_of (f : rank_file) : Q := fst (snd f).
Definition times_of (f : rank_file) : list Q := snd (snd f).

(** sorted({...})[0] *)
Definition first_rank (f : rank_file) (r : list rank_file) : nat := fold_right (fun g m => Nat.min (rank_of g) m) (rank_of f) r.

(** sort_files_tmin(...)[-1], the sort is stable: the last one of the greatest tmin *)
Fixpoint last_tmin (l : list rank_file) : option rank_file :=
  match l with
  | [] => None
  | f :: r => match last_tmin r with Some g => if Qle_bool (tmin_of f) (tmin_of g) then Some g else Some f | None => Some f end
  end.

(** l[-1] *)
Definition last_item {A} (l : list A) : res A := match rev l with [] => IndexError | x :: _ => Ok x end.

Definition py_max (a b : Q) : Q := if Qle_bool b a then a else b.

(** [periodo]: the attributes tmax of the files periodogram_*.h5 *)
Definition default_tmax (ranks : list rank_file) (periodo : list Q) (t_end : Q) : res Q :=
  match ranks with
  | [] => match periodo with [] => Ok t_end | _ => Ok (fold_left py_max periodo 0) end
  | f :: r =>
      let first := first_rank f r in
      match last_tmin (filter (fun g => Nat.eqb (rank_of g) first) ranks) with
      | None => IndexError
      | Some g => last_item (times_of g)
      end
  end.

(** ** The default tmin, 1250-1254 *)

(** sorted(l)[-1] *)
Fixpoint last_sorted (l : list string) : option string :=
  match l with
  | [] => None
  | x :: r => match last_sorted r with Some m => if String.ltb m x then Some x else Some m | None => Some x end
  end.

Section Names.
  Variable str_float : Q -> string.
  Variable float_str : string -> option Q.

  (** [tmin] is None in the two calls *)
  Definition default_tmin (files : list string) (tmin : option Q) : res (option Q) :=
    match last_sorted (filter (glob "periodogram_*.h5") files) with
    | None => Ok tmin
    | Some name =>
        match nth_error (split_underscore name) 2 with
        | None => IndexError
        | Some s => match float_str s with None => ValueError | Some x => Ok (Some x) end
        end
    end.

  (** ** plot_temporal_spectra (1269-1294): where the temporal spectra come from *)

  Inductive origin : Type :=
  | loaded (c : call)
  | computed (c : call).

  Definition is_file (d : disk) (path : string) : bool := match read d path with Some _ => true | None => false end.

  (** 1475-1487; compute_temporal_spectra is the call *)
  Definition save_temporal (d : disk) (c : call) : res (origin * disk) :=
    let '(tmin, tmax, dtype, urud) := c in
    match get_path str_float float_str true (map fst d) tmin tmax dtype urud with
    | None => ValueError
    | Some path => Ok (computed c, write d path c)
    end.

  (** 1458-1471 *)
  Definition load_temporal (d : disk) (c : call) : res origin :=
    let '(tmin, tmax, dtype, urud) := c in
    match get_path str_float float_str true (map fst d) tmin tmax dtype urud with
    | None => ValueError
    | Some path => match read d path with Some c' => Ok (loaded c') | None => FileNotFound end
    end.

  (** [tmax] is given or is the one of default_tmax; float(None) of _get_path_saved_tspectra is a TypeError, except if a
      name cannot be read before *)
  Definition plot_temporal (nb3 : bool) (d : disk) (tmin : option Q) (tmax : Q) (dtype : option string) : res (origin * disk) :=
    let urud := nb3 in
    match (match tmin with None => default_tmin (map fst d) tmin | Some t => Ok (Some t) end) with
    | Ok (Some t) =>
        match get_path str_float float_str true (map fst d) t tmax dtype urud with
        | None => ValueError
        | Some path =>
            if is_file d path then
              match load_temporal d (t, tmax, dtype, urud) with
              | Ok o => Ok (o, d)
              | TypeError => TypeError | ValueError => ValueError | IndexError => IndexError | FileNotFound => FileNotFound
              end
            else save_temporal d (t, tmax, dtype, urud)
        end
    | Ok None => TypeError
    | TypeError => TypeError
    | ValueError => ValueError
    | IndexError => IndexError
    | FileNotFound => FileNotFound
    end.

  (** ** get_spectra, 1507-1523 *)
  Definition get_spectra (nb3 : bool) (d : disk) (tmin tmax : Q) (dtype : option string) : res (origin * origin * disk) :=
    match get_path str_float float_str false (map fst d) tmin tmax dtype true with
    | None => ValueError
    | Some path =>
        if is_file d path then
          match load_spectra str_float float_str d (tmin, tmax, dtype, true), load_temporal d (tmin, tmax, dtype, true) with
          | Some c, Ok o => Ok (loaded c, o, d)
          | None, _ => FileNotFound
          | _, ValueError => ValueError
          | _, _ => FileNotFound
          end
        else
          let c := (tmin, tmax, dtype, nb3) in
          match save_spectra str_float float_str d c with
          | None => ValueError
          | Some d' => Ok (computed c, computed c, d')
          end
    end.
End Names.
