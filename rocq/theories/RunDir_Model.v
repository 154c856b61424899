(** * Directories of the runs, lock file, patient opening of files *)

From Coq Require Import String List Arith Bool.
Import ListNotations.
Local Open Scope nat_scope.

(** ** New directory, lib/fluidsim_core/output/base.py 264-287 (OutputCore._init_path_run) *)

Section NewDir.
(** name of the run at each attempt (made with the time, _init_name_run) *)
Variable name_run : nat -> string.
(** at each attempt: does a path exist when it is tested, and just before the mkdir (another
    simulation can create it in between); does the mkdir fail for another reason (OSError) *)
Variable exists_test : nat -> string -> bool.
Variable exists_mkdir : nat -> string -> bool.
Variable mkdir_error : nat -> bool.

(** None: still looping after [fuel] attempts *)
Fixpoint init_path_run (fuel : nat) (has_to_save : bool) (k : nat) : option (nat * string) :=
  match fuel with
  | O => None
  | S n =>
      let path_run := name_run k in
      if negb has_to_save then Some (k, path_run)
      else if exists_test k path_run then init_path_run n has_to_save (S k)
      else if exists_mkdir k path_run || mkdir_error k then init_path_run n has_to_save (S k)
      else Some (k, path_run)
  end.
End NewDir.

(** ** Move at the end, fluidsim/base/output/base.py 371-394 (Output.end_of_simul) *)

Section Move.
(** f"{name_run}_{i}" *)
Variable suffixed : nat -> string.
Variable name : string.

Notation dirs := (list string).

Definition exists_dir (d : dirs) (p : string) : bool := existsb (String.eqb p) d.

(** 384-387 *)
Fixpoint new_name (fuel : nat) (d : dirs) (new_path_run : string) (i : nat) : option string :=
  match fuel with
  | O => None
  | S n => if exists_dir d new_path_run then new_name n d (suffixed i) (S i) else Some new_path_run
  end.

Definition select (fuel : nat) (d : dirs) : option string := new_name fuel d name 1.

(** shutil.move of a directory on a path: a rename if the path does not exist, otherwise the
    directory is moved inside of it (here: the destination is not replaced) *)
Definition move (dst : string) (d : dirs) : dirs := if exists_dir d dst then d else dst :: d.

(** with several processes: rank 0 selects then moves, another process selects before or after the
    move; the results are the values of path_run *)
Definition end_of_simul_mpi (fuel : nat) (late : bool) (d : dirs) : option (string * string) :=
  match select fuel d with
  | None => None
  | Some p0 =>
      match select fuel (if late then move p0 d else d) with
      | None => None
      | Some p1 => Some (p0, p1)
      end
  end.
End Move.

(** 371: not self.path_run.startswith(FLUIDSIM_PATH) *)
Definition is_moved (path_run fluidsim_path : string) : bool :=
  negb (String.prefix fluidsim_path path_run).

(** ** Lock file, fluidsim/base/solvers/base.py 101-167

    one directory; [lock] is the process which created the file *)

Record lock_state := mkLock { lock : option nat; running : list nat }.

Inductive event :=
| Start (p : nat)
(* SIGTERM: the lock is released at once, the simulation stops after its time step *)
| Term (p : nat)
(* SIGINT, __exit__ or atexit *)
| End (p : nat).

Definition lock_step (s : lock_state) (e : event) : lock_state :=
  match e with
  | Start p =>
      (* 138-148: only a warning if the file exists *)
      mkLock (match lock s with Some q => Some q | None => Some p end) (p :: running s)
  | Term p => mkLock None (running s)
  | End p => mkLock None (filter (fun q => negb (Nat.eqb q p)) (running s))
  end.

(** the directories which contain a lock file, at the end of a run in [d] (101-114: output.end_of_simul
    can move the directory with all its files, then the file at the first path is removed) *)
Definition rename_dir (d n : string) (locks : list string) : list string :=
  map (fun x => if String.eqb x d then n else x) locks.

Definition unlink (d : string) (locks : list string) : list string :=
  filter (fun x => negb (String.eqb x d)) locks.

Definition exit_run (d : string) (moved_to : option string) (locks : list string) : list string :=
  unlink d (match moved_to with Some n => rename_dir d n locks | None => locks end).

(** ** open_patient, fluidsim/util/util.py 680-719 *)

Inductive outcome :=
| Opened
| Errno (n : nat)
(* OSError whose text does not contain "errno = " *)
| NoErrno.

Inductive answer :=
| File (k : nat)
| RaiseOSError (k : nat)
| RaiseIndexError (k : nat)
| Looping.

Section Patient.
(** for each attempt: what happens, and how long it takes *)
Variable attempt : nat -> outcome * nat.
Variable time_wait_total : nat.
Variable time_wait_once : nat.

(** [elapsed]: time since the first try at the beginning of attempt [k] *)
Fixpoint open_patient (fuel : nat) (k elapsed : nat) : answer :=
  match fuel with
  | O => Looping
  | S n =>
      let (o, d) := attempt k in
      match o with
      | Opened => File k
      | NoErrno => RaiseIndexError k
      | Errno errno =>
          if negb (Nat.eqb errno 11) || Nat.ltb time_wait_total (elapsed + d) then RaiseOSError k
          else open_patient n (S k) (elapsed + d + time_wait_once)
      end
  end.
End Patient.
