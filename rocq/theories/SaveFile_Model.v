(** The writing of the files of the state.
    Source: fluidsim/util/output.py (the whole file).
    Simplifications: the date and the content of info_simul other than the two changed attributes are left out; the
    HDF5 library is reduced to named arrays and attributes; gather_Xspace is a parameter; a block which does not have the
    shape of the selection is an error (h5py also accepts a length 1, which is not modelled). *)
From Coq Require Import String List ZArith Bool Arith.
Import ListNotations.

(** output.py l.21-29: the names of the dimensions; None: the variable is not bound *)
Definition dimensions (ndim : nat) : option (list string) :=
  match ndim with
  | 0 => Some []
  | 1 => Some ["x"%string]
  | 2 => Some ["y"%string; "x"%string]
  | 3 => Some ["z"%string; "y"%string; "x"%string]
  | _ => None
  end.

Inductive error := ShapeMismatch | NotImplemented | Unbound | NoVariable.
Inductive result (A : Type) := Done (a : A) | Error (e : error).
Arguments Done {A} a. Arguments Error {A} e.

Section File.
Context {V A : Type}.
(** an array: its shape and its values *)
Record array := { shape : list nat; val : list nat -> V }.
(** a dataset: the array and the names of the dimensions for a netCDF file *)
Record dataset := { data : array; dims : option (list string) }.
Record file := { group_attrs : list (string * A); datasets : list (string * dataset); file_attrs : list (string * A); params_attrs : list (string * A) }.

(** l.18-45; [nc]: ext == "nc" *)
Definition create_variable (nc : bool) (f : file) (key : string) (a : array) : result file :=
  let add d := Done {| group_attrs := group_attrs f; datasets := datasets f ++ [(key, {| data := a; dims := d |})]; file_attrs := file_attrs f; params_attrs := params_attrs f |} in
  if nc then match dimensions (length (shape a)) with Some d => add (Some d) | None => Error Unbound end
  else add None.
Fixpoint create_variables (nc : bool) (l : list (string * array)) (f : file) : result file :=
  match l with
  | [] => Done f
  | (k, a) :: l => match create_variable nc f k a with Done f => create_variables nc l f | Error e => Error e end
  end.

(** the local array of a process and the indices of its first point (seq_indices_first_X) *)
Record block := { start : list nat; local : array }.
(** l.96-103: dset[xstart:xend, ystart:yend(, :)] = field_loc, for one process; the slices are cut at the size of the dataset *)
Definition write_block (d : array) (b : block) : result array :=
  match shape d, start b, shape (local b) with
  | M0 :: M1 :: rest, x0 :: y0 :: _, n0 :: n1 :: rest_loc =>
      let x1 := x0 + n0 in
      let y1 := y0 + n1 in
      if list_eq_dec Nat.eq_dec (n0 :: n1 :: rest_loc) ((Nat.min x1 M0 - Nat.min x0 M0) :: (Nat.min y1 M1 - Nat.min y0 M1) :: rest) then
        Done {| shape := shape d;
                val := fun idx => match idx with
                                  | i :: j :: r => if ((x0 <=? i) && (i <? x1) && (y0 <=? j) && (j <? y1)) then val (local b) (i - x0 :: j - y0 :: r) else val d idx
                                  | _ => val d idx
                                  end |}
      else Error ShapeMismatch
  | _, _, _ => Error NotImplemented
  end.
Fixpoint write_blocks (d : array) (l : list block) : result array :=
  match l with [] => Done d | b :: l => match write_block d b with Done d => write_blocks d l | Error e => Error e end end.
(** l.83-104: the parallel writing of all the keys; [fill]: a new dataset; the number of dimensions is checked first *)
Fixpoint write_parallel (shapeX_seq : list nat) (fill : list nat -> V) (l : list (string * list block)) (f : file) : result file :=
  match l with
  | [] => Done f
  | (k, bs) :: l =>
      if ((length shapeX_seq =? 2) || (length shapeX_seq =? 3))%bool then
        match write_blocks {| shape := shapeX_seq; val := fill |} bs with
        | Done a => write_parallel shapeX_seq fill l {| group_attrs := group_attrs f; datasets := datasets f ++ [(k, {| data := a; dims := None |})]; file_attrs := file_attrs f; params_attrs := params_attrs f |}
        | Error e => Error e
        end
      else Error NotImplemented
  end.

(** l.56-62 *)
Definition new_file (what info time it : A) : file :=
  {| group_attrs := [("what"%string, what); ("name_type_variables"%string, info); ("time"%string, time); ("it"%string, it)]; datasets := []; file_attrs := []; params_attrs := [] |}.
(** l.109-122 *)
Definition close_file (short_name name_run axes one : A) (particular_attr : option A) (f : file) : file :=
  {| group_attrs := group_attrs f; datasets := datasets f;
     file_attrs := file_attrs f ++ [("name_solver"%string, short_name); ("name_run"%string, name_run); ("axes"%string, axes)]
                   ++ match particular_attr with Some p => [("particular_attr"%string, p)] | None => [] end;
     params_attrs := params_attrs f ++ [("SAVE"%string, one); ("NEW_DIR_RESULTS"%string, one)] |}.

(** the fields: on one process, or the blocks of the processes *)
Inductive state_phys := Sequential (l : list (string * array)) | Distributed (l : list (string * list block)).
Variable gather : list block -> array.
(** l.48-123; [h5mpi]: cfg_h5py.mpi (in this case the files are HDF5 files) *)
Definition save_file (h5mpi : bool) (shapeX_seq : list nat) (fill : list nat -> V) (s : state_phys) (what info time it short_name name_run axes one : A) (particular_attr : option A) : result file :=
  let f := new_file what info time it in
  let r := match s with
           | Sequential l => create_variables (negb h5mpi) l f
           | Distributed l => if negb h5mpi then create_variables true (map (fun kb => (fst kb, gather (snd kb))) l) f
                              else write_parallel shapeX_seq fill l f
           end in
  match r with Done f => Done (close_file short_name name_run axes one particular_attr f) | Error e => Error e end.
End File.
Arguments array V : clear implicits.
Arguments dataset V : clear implicits.
Arguments file V A : clear implicits.
Arguments block V : clear implicits.
Arguments state_phys V : clear implicits.
