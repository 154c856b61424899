(** * Contents of the output files

    HDF5 files opened, resized and written one dataset at a time.  A crash (or an exception) is a
    prefix of the elementary operations; each operation is atomic and reaches the disk in order.
    Values of the records are abstract ([V]: a number or an array); the shapes are not modelled. *)

From Coq Require Import String List Arith Bool QArith Qround ZArith.
Import ListNotations.
Local Open Scope nat_scope.

Section Files.

Variable V : Type.

Inductive cell := Fill | Time (t : Q) | Val (v : V).

Definition dataset := list cell.

(** a file: the datasets with a time axis ("times" included) *)
Definition file := list (string * dataset).

Fixpoint find (f : file) (k : string) : option dataset :=
  match f with
  | [] => None
  | (k', l) :: r => if String.eqb k k' then Some l else find r k
  end.

Fixpoint set (f : file) (k : string) (l : dataset) : file :=
  match f with
  | [] => []
  | (k', l') :: r => if String.eqb k k' then (k', l) :: r else (k', l') :: set r k l
  end.

Inductive op :=
| Create (k : string) (c : cell)            (* create_dataset with one record *)
| Resize (k : string) (n : nat)
| Write (k : string) (i : nat) (c : cell).

(** h5py: a resize keeps the first entries and completes with the fill value *)
Definition resized (n : nat) (l : dataset) : dataset :=
  firstn n l ++ repeat Fill (n - length l).

Fixpoint write_at (i : nat) (c : cell) (l : dataset) : option dataset :=
  match l, i with
  | [], _ => None
  | _ :: r, O => Some (c :: r)
  | x :: r, S j => option_map (cons x) (write_at j c r)
  end.

(** [None]: an exception is raised (KeyError, existing dataset, index out of range) *)
Definition exec (f : file) (o : op) : option file :=
  match o with
  | Create k c => match find f k with None => Some (f ++ [(k, [c])]) | Some _ => None end
  | Resize k n => match find f k with None => None | Some l => Some (set f k (resized n l)) end
  | Write k i c =>
      match find f k with
      | None => None
      | Some l => option_map (set f k) (write_at i c l)
      end
  end.

(** the file left on disk by a list of operations, and whether they have all been done *)
Fixpoint exec_all (f : file) (os : list op) : file * bool :=
  match os with
  | [] => (f, true)
  | o :: r => match exec f o with None => (f, false) | Some f' => exec_all f' r end
  end.

(** base/output/base.py 614-643 (_create_file_from_dict_arrays): "times", then the values (the
    arrays saved only once are omitted) *)
Definition create_ops (t : Q) (dict : list (string * V)) : list op :=
  Create "times" (Time t) :: map (fun kv => Create (fst kv) (Val (snd kv))) dict.

(** base/output/base.py 645-663 (_add_dict_arrays_to_file), from the second line of the with block:
    [n] is dset_times.shape[0] *)
Definition add_ops (n : nat) (t : Q) (dict : list (string * V)) : list op :=
  [Resize "times" (n + 1); Write "times" n (Time t)]
  ++ flat_map (fun kv => [Resize (fst kv) (n + 1); Write (fst kv) n (Val (snd kv))]) dict.

(** what is on the disk: no file, or a file *)
Definition disk := option file.

(** a save which is interrupted after [stop] elementary operations ([None]: not interrupted) *)
Definition interrupted (stop : option nat) (os : list op) : list op :=
  match stop with None => os | Some n => firstn n os end.

(** base.py 580-595 (_init_files) and 597-604 (_online_save), rank 0; the result is the new disk
    and whether the save went to its end *)
Definition init_files (stop : option nat) (t : Q) (dict : list (string * V)) (d : disk)
  : disk * bool :=
  match d with
  | None => let (f, ok) := exec_all [] (interrupted stop (create_ops t dict)) in (Some f, ok)
  | Some f =>
      match find f "times" with
      | None => (Some f, false)
      | Some ts =>
          let (f', ok) := exec_all f (interrupted stop (add_ops (length ts) t dict)) in (Some f', ok)
      end
  end.

(** base.py 645-647: ValueError if the file does not exist *)
Definition online_save (stop : option nat) (t : Q) (dict : list (string * V)) (d : disk)
  : disk * bool :=
  match d with
  | None => (None, false)
  | Some f => init_files stop t dict (Some f)
  end.

(** a simulation (first or restart): the save of _init_files, then the online saves *)
Local Notation save := (Q * list (string * V))%type.

Definition online_all (l : list save) (d : disk) : disk * bool :=
  fold_left (fun (db : disk * bool) s =>
    if snd db then online_save None (fst s) (snd s) (fst db) else db) l (d, true).

Definition simul (run : save * list save) (d : disk) : disk * bool :=
  let (d1, ok) := init_files None (fst (fst run)) (snd (fst run)) d in
  if ok then online_all (snd run) d1 else (d1, false).

Definition simuls (runs : list (save * list save)) (d : disk) : disk * bool :=
  fold_left (fun (db : disk * bool) r => if snd db then simul r (fst db) else db) runs (d, true).

(** ** Files of the probes: temporal_spectra.py 199-390, spatiotemporal_spectra.py 243-459

    One process with probes.  A file is named after its first time with 3 decimals; [fmt] is this
    decimal (in thousandths).  [rnd] is the rounding of the times to simple precision: the dataset
    "times" is created without dtype.  All the datasets are written together in _write_to_file,
    so a file is a list of records; [None] is a record filled with zeros. *)

Variable fmt : Q -> Z.
Variable rnd : Q -> Q.
Variable teps : Q -> Q.

Definition record := option (Q * V).
Definition pdir := list (Z * list record).

Record probes := mkPr {
  pfiles : pdir;
  path : Z;             (* path_file *)
  nb : nat;             (* number_times_in_file *)
  tl : Q                (* t_last_save *)
}.

Fixpoint pfind (d : pdir) (z : Z) : list record :=
  match d with
  | [] => []
  | (z', l) :: r => if Z.eqb z z' then l else pfind r z
  end.

Fixpoint pset (d : pdir) (z : Z) (l : list record) : pdir :=
  match d with
  | [] => []
  | (z', l') :: r => if Z.eqb z z' then (z', l) :: r else (z', l') :: pset r z l
  end.

(** temporal_spectra.py 299-336, spatiotemporal_spectra.py 376-414 (_init_new_file): mode "w",
    datasets with one record *)
Definition init_new_file (t : Q) (p : probes) : probes :=
  let z := fmt t in
  mkPr ((z, [None]) :: filter (fun f => negb (Z.eqb (fst f) z)) (pfiles p)) z (nb p) (tl p).

(** temporal_spectra.py 338-352 (_write_to_file): resize to [nb] records and write the last one *)
Definition write_last (n : nat) (x : record) (l : list record) : list record :=
  firstn (n - 1) (l ++ repeat None (n - length l)) ++ [x].

(** temporal_spectra.py 365-390, spatiotemporal_spectra.py 440-459 (_online_save) *)
Definition probes_save (period : Q) (max_nb : nat) (t : Q) (v : V) (p : probes) : probes :=
  if (Qfloor (tl p / period) <? Qfloor (teps t / period))%Z then
    let p1 := if Nat.leb max_nb (nb p)
              then init_new_file t (mkPr (pfiles p) (path p) 0 (tl p)) else p in
    let n := nb p1 + 1 in
    mkPr (pset (pfiles p1) (path p1) (write_last n (Some (rnd t, v)) (pfind (pfiles p1) (path p1))))
         (path p1) n t
  else p.

(** the last of the sorted names (temporal_spectra.py 199, spatiotemporal_spectra.py 243): the
    largest initial time, the widths of the names being the same *)
Fixpoint max_name (d : pdir) : option Z :=
  match d with
  | [] => None
  | (z, _) :: r => match max_name r with None => Some z | Some y => Some (Z.max z y) end
  end.

(** temporal_spectra.py 199-225 and 283-289: initialisation from the files or from scratch *)
Definition probes_init (period t0 : Q) (d : pdir) : probes :=
  match max_name d with
  | None => init_new_file t0 (mkPr [] 0%Z 0 (- period)%Q)
  | Some z =>
      let l := pfind d z in
      mkPr d z (length l)
           (match last l None with Some (t, _) => t | None => 0%Q end)
  end.

Definition probes_run (period : Q) (max_nb : nat) (calls : list (Q * V)) (p : probes) : probes :=
  fold_left (fun p c => probes_save period max_nb (fst c) (snd c) p) calls p.

(** load_time_series: the records of all the files, in the order of the names *)
Fixpoint insert_file (f : Z * list record) (d : pdir) : pdir :=
  match d with
  | [] => [f]
  | g :: r => if (fst f <=? fst g)%Z then f :: g :: r else g :: insert_file f r
  end.

Definition sorted_files (d : pdir) : pdir := fold_right insert_file [] d.

Definition load_time_series (d : pdir) : list record := flat_map snd (sorted_files d).

End Files.
