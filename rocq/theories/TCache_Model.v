(** Model of the names of the files in which fluidsim/base/output/spatiotemporal_spectra.py saves the
    periodograms.

    Simplifications: a directory is the list of the names of its files in the order of glob; a file is the
    arguments of the call whose result it contains; formatting and parsing of the floats are parameters; None is
    an exception (ValueError of float, FileNotFoundError). *)
From Coq Require Import String Ascii QArith List Bool.
Import ListNotations.
Local Open Scope string_scope.

(** fnmatch, for patterns of literal characters and stars *)
Fixpoint glob (p : string) : string -> bool :=
  match p with
  | EmptyString => fun s => String.eqb s EmptyString
  | String c p' =>
      if Ascii.eqb c "*"%char then
        fix star (s : string) : bool := glob p' s || match s with EmptyString => false | String _ s' => star s' end
      else fun s => match s with EmptyString => false | String c' s' => Ascii.eqb c c' && glob p' s' end
  end.

(** str.split("_") *)
Fixpoint split_underscore (s : string) : list string :=
  match s with
  | EmptyString => [EmptyString]
  | String c s' =>
      if Ascii.eqb c "_"%char then EmptyString :: split_underscore s'
      else match split_underscore s' with [] => [String c EmptyString] | f :: r => String c f :: r end
  end.

(** Path.stem: what is before the last dot *)
Fixpoint before_last_dot (s : string) : option string :=
  match s with
  | EmptyString => None
  | String c s' =>
      match before_last_dot s' with
      | Some t => Some (String c t)
      | None => if Ascii.eqb c "."%char then Some EmptyString else None
      end
  end.
Definition stem (s : string) : string := match before_last_dot s with Some t => t | None => s end.

(** sub in s *)
Fixpoint contains_sub (sub s : string) : bool :=
  String.prefix sub s || match s with EmptyString => false | String _ s' => contains_sub sub s' end.

(** 700-705 *)
Definition complete_name (name : string) (dtype : option string) (save_urud : bool) : string :=
  (name ++ (match dtype with Some d => "_" ++ d | None => "" end) ++ (if save_urud then "_urud" else "")) ++ ".h5".

Section Names.
  (** f"{float(t)}" *)
  Variable str_float : Q -> string.
  (** float(s), None is ValueError *)
  Variable float_str : string -> option Q.

  (** tuple(float(s) for s in l) *)
  Fixpoint floats (l : list string) : option (list Q) :=
    match l with
    | [] => Some []
    | s :: r => match float_str s, floats r with Some x, Some y => Some (x :: y) | _, _ => None end
    end.

  (** (tmin, tmax) == ... *)
  Definition same_times (tmin tmax : Q) (l : list Q) : bool :=
    match l with [a; b] => Qeq_bool tmin a && Qeq_bool tmax b | _ => false end.

  Definition slice (i n : nat) (l : list string) : list string := firstn n (skipn i l).

  Definition base (temporal : bool) : string := if temporal then "periodogram_temporal_" else "periodogram_".

  (** the loops of 716-721 (temporal = false) and 734-737 (temporal = true); the outer None is an exception *)
  Fixpoint search (temporal : bool) (tmin tmax : Q) (pattern : string) (files : list string) : option (option string) :=
    match files with
    | [] => Some None
    | path :: r =>
        if negb (glob pattern path) then search temporal tmin tmax pattern r
        else if negb temporal && contains_sub "_temporal" path then search temporal tmin tmax pattern r
        else match floats (slice (if temporal then 2 else 1) 2 (split_underscore (stem path))) with
             | None => None
             | Some l => if same_times tmin tmax l then Some (Some path) else search temporal tmin tmax pattern r
             end
    end.

  (** 710-726 and 728-742 *)
  Definition get_path (temporal : bool) (files : list string) (tmin tmax : Q) (dtype : option string) (urud : bool) : option string :=
    match search temporal tmin tmax (complete_name (base temporal ++ "*_*") dtype urud) files with
    | None => None
    | Some (Some path) => Some path
    | Some None => Some (complete_name (base temporal ++ str_float tmin ++ "_" ++ str_float tmax) dtype urud)
    end.

  (** ** Saving and loading *)

  (** tmin, tmax, dtype, save_urud of the call *)
  Definition call : Type := Q * Q * option string * bool.
  Definition disk : Type := list (string * call).
  Fixpoint read (d : disk) (name : string) : option call :=
    match d with [] => None | (n, c) :: r => if String.eqb n name then Some c else read r name end.
  (** h5py.File(path, "w") *)
  Fixpoint write (d : disk) (name : string) (c : call) : disk :=
    match d with
    | [] => [(name, c)]
    | (n, c') :: r => if String.eqb n name then (n, c) :: r else (n, c') :: write r name c
    end.

  (** 841-855 (the two files are written with "w"; the additions of 883-895 go in the same files) *)
  Definition save_spectra (d : disk) (c : call) : option disk :=
    let '(tmin, tmax, dtype, urud) := c in
    match get_path false (map fst d) tmin tmax dtype urud with
    | None => None
    | Some path =>
        let d := write d path c in
        match get_path true (map fst d) tmin tmax dtype urud with
        | None => None
        | Some path => Some (write d path c)
        end
    end.

  (** 899-911 *)
  Definition load_spectra (d : disk) (c : call) : option call :=
    let '(tmin, tmax, dtype, urud) := c in
    match get_path false (map fst d) tmin tmax dtype urud with None => None | Some path => read d path end.
End Names.
