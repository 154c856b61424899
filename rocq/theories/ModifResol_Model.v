(** * Files of states with a modified resolution (fluidsim/util/util.py 408-605)

    The size of an axis is a natural number, the coefficient and the times are exact rational numbers. A directory of
    results is a list of files; a file is known by its directory (the sizes of the name State_phys_{nx}x{ny}[x{nz}])
    and its name (time in thousandths and, possibly, iteration: the padding by zeros is not modelled). The last file
    written with a name comes first. *)

From Coq Require Import Ascii String List Bool Arith ZArith QArith.
From Verif Require Import Oper_Model Resol_Model.
Import ListNotations.
Local Open Scope nat_scope.

Section ModifResol.
(** the arrays in physical space and in spectral space *)
Context {X K : Type}.

Record state_file := mkFile {
  time : Q; iteration : nat; name_run : string; variables : list (string * X); particular_attr : option string }.

Definition file_name := (Z * option nat)%type.
Definition path := (list nat * file_name)%type.
Definition directory := list (path * state_file).

Definition name_eqb (a b : file_name) : bool :=
  Z.eqb (fst a) (fst b) &&
  match snd a, snd b with None, None => true | Some i, Some j => Nat.eqb i j | _, _ => false end.

Fixpoint sizes_eqb (a b : list nat) : bool :=
  match a, b with [], [] => true | x :: a, y :: b => Nat.eqb x y && sizes_eqb a b | _, _ => false end.

Definition path_eqb (a b : path) : bool := sizes_eqb (fst a) (fst b) && name_eqb (snd a) (snd b).

Fixpoint read (d : directory) (p : path) : option state_file :=
  match d with
  | [] => None
  | (q, f) :: r => if path_eqb p q then Some f else read r p
  end.

(** h5pack.File(path, "w") replaces an existing file *)
Definition write (d : directory) (p : path) (f : state_file) : directory := (p, f) :: d.

(** int(n * coef_modif_resol): truncation towards zero *)
Definition new_size (coef : Q) (n : nat) : nat := Z.to_nat (Z.quot (Z.of_nat n * Qnum coef) (Zpos (Qden coef))).

(** 426-428 and 542-555: sizes (nx, ny) or (nx, ny, nz) *)
Definition new_sizes (coef : Q) (sizes : list nat) : list nat := map (new_size coef) sizes.

Fixpoint get (l : list (string * X)) (k : string) : option X :=
  match l with
  | [] => None
  | (k', x) :: r => if String.eqb k k' then Some x else get r k
  end.

(** ** The memory efficient function *)
Variable fft : X -> K.
Variable ifft : K -> X.
(** oper2.fill_field_fft(field_spect, field2_spect, oper): the new value of field2_spect *)
Variable fill : K -> K -> K.
(** oper2.create_arrayK(0) *)
Variable zeros : K.

(** 486-519 (StatePhysLike.get_var): the array field2 and the new value of field2_spect, which is used by the next calls;
    None: KeyError *)
Definition get_var (f : state_file) (key : string) (field2_spect : K) : option (X * K) :=
  match get (variables f) key with
  | None => None
  | Some field => let s := fill (fft field) field2_spect in Some (ifft s, s)
  end.

(** fluidsim/util/output.py 71-74 (save_file, one process): the variables in the order of the keys *)
Fixpoint save_variables (f : state_file) (keys : list string) (field2_spect : K) : option (list (string * X)) :=
  match keys with
  | [] => Some []
  | k :: r =>
      match get_var f k field2_spect with
      | None => None
      | Some (x, s) => match save_variables f r s with None => None | Some l => Some ((k, x) :: l) end
      end
  end.

(** util.py 522-605 (modif_resolution_from_dir_memory_efficient); [name] is the name of the file which is read.
    479-484: the keys, the time, the iteration and the name of the run are those of the file *)
Definition modif_resolution_memory_efficient (coef : Q) (sizes : list nat) (name : file_name) (f : state_file) (d : directory) :
  option directory :=
  match save_variables f (map fst (variables f)) zeros with
  | None => None
  | Some l => Some (write d (new_sizes coef sizes, name) (mkFile (time f) (iteration f) (name_run f) l (Some "modif_resolution"%string)))
  end.

(** ** The function with two simulations *)
(** statespect_from_statephys and statephys_from_statespect *)
Variable spect_of : list (string * X) -> list (string * K).
Variable phys_of : list (string * K) -> list (string * X).
(** _make_state_spect_2d, _make_state_spect_3d (init_fields.py 346-384) for one variable *)
Variable resized : K -> K.
(** the time in thousandths (format .3f) *)
Variable thousandths : Q -> Z.

(** a simulation: the time, the iteration and the state in spectral space *)
Record simul := mkSimul { s_time : Q; s_it : nat; s_name_run : string; s_spect : list (string * K) }.

(** load_state_phys_file: the state, the time and the iteration of the file (C55, C196) *)
Definition load_state_phys_file (f : state_file) : simul := mkSimul (time f) (iteration f) (name_run f) (spect_of (variables f)).

(** sim.__class__(params2): a new simulation (the time and the iteration are 0, time_stepping/base.py 233-234) *)
Definition new_simul (name : string) : simul := mkSimul 0 0 name [].

(** init_fields.py 386-432 (_get_state_from_simul): the time and the state *)
Definition get_state_from_simul (sim2 sim_in : simul) : simul :=
  mkSimul (s_time sim_in) (s_it sim2) (s_name_run sim2) (map (fun kv => (fst kv, resized (snd kv))) (s_spect sim_in)).

(** fluidsim/base/output/phys_fields.py 130-201 (save) in the directory [dir]; [with_it]: 0 < period_save < 0.001 or
    file_with_it *)
Definition save (with_it : bool) (dir : list nat) (sim : simul) (attr : option string) (d : directory) : directory :=
  let f := mkFile (s_time sim) (s_it sim) (s_name_run sim) (phys_of (s_spect sim)) attr in
  let name := (thousandths (s_time sim), if with_it then Some (s_it sim) else None) in
  match read d (dir, name) with
  | None => write d (dir, name) f
  | Some old =>
      if Nat.eqb (iteration old) (s_it sim) then d
      else write d (dir, (thousandths (s_time sim), Some (s_it sim))) f
  end.

(** util.py 414-451 (modif_resolution_from_dir); [name2] is the name of the run of the new simulation *)
Definition modif_resolution_from_dir (with_it : bool) (coef : Q) (sizes : list nat) (name2 : string) (f : state_file) (d : directory) :
  directory :=
  let sim := load_state_phys_file f in
  let sim2 := get_state_from_simul (new_simul name2) sim in
  save with_it (new_sizes coef sizes) sim2 (Some "modif_resolution"%string) d.
End ModifResol.

Arguments state_file : clear implicits.
Arguments directory : clear implicits.

(** mini_oper_modif_resol.py 57-84: the functions fill of MiniOperModifResol *)
Section Mini.
Context {V : Type}.
Definition mini_fill_2d (nx ny nx2 ny2 : nat) : (nat -> nat -> V) -> (nat -> nat -> V) -> nat -> nat -> V :=
  fill_field_fft_2d ny (nx / 2 + 1) ny2 (nx2 / 2 + 1).
Definition mini_fill_3d (nx ny nz nx2 ny2 nz2 : nat) : (nat -> nat -> nat -> V) -> (nat -> nat -> nat -> V) -> nat -> nat -> nat -> V :=
  mini_fill_field_fft_3d nz ny (nx / 2 + 1) nz2 ny2 (nx2 / 2 + 1).
End Mini.
