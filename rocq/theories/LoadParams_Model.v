(** * Loading of the parameters, directories of results, parameters of the benchmarks *)

From Coq Require Import Ascii String List Bool Arith ZArith QArith.
From Verif Require Import Info_Model Bench_Model.
Import ListNotations.
Local Open Scope nat_scope.

(** ** lib/fluidsim_core/params.py 79-150 *)
Section Load.
(** the parameters and the information on the solver *)
Variables P I : Type.

(** the content of a file: xml (parameters or information), HDF5 (with both groups) or anything else *)
Inductive content := XmlParams (p : P) | XmlInfo (i : I) | H5 (p : P) (i : I) | Garbage.

Inductive node := Missing | File (c : content) | Dir (entries : list (string * content)).

(** ReadError: the file can not be read as an xml (or HDF5) file *)
Inductive loaded (A : Type) := Loaded (a : A) | ValueError | ReadError.

(** path.name.endswith(".xml") *)
Definition ends_with_xml (name : string) : bool :=
  String.eqb (substring (String.length name - 4) 4 name) ".xml".

Definition read_params_xml (c : content) : loaded P := match c with XmlParams p => Loaded _ p | _ => ReadError _ end.
Definition read_info_xml (c : content) : loaded I := match c with XmlInfo i => Loaded _ i | _ => ReadError _ end.
Definition read_params_h5 (c : content) : loaded P := match c with H5 p _ => Loaded _ p | _ => ReadError _ end.
Definition read_info_h5 (c : content) : loaded I := match c with H5 _ i => Loaded _ i | _ => ReadError _ end.

(** sorted(path.glob("state_*")) *)
Definition state_files (entries : list (string * content)) : list (string * content) :=
  sorted_items (filter (fun kc => String.prefix "state_" (fst kc)) entries).

(** 87-114; the path is [node] and its name is [name] *)
Definition load_params_seq (name : string) (n : node) : loaded P :=
  (* 92-99: path_xml, when it exists *)
  let path_xml :=
    match n with
    | Dir entries => inr (find entries "params_simul.xml")
    | Missing => if ends_with_xml name then inl tt else inr None
    | File c => if ends_with_xml name then inr (Some c) else inr None
    end in
  match path_xml with
  | inl _ => ValueError _
  | inr (Some c) => read_params_xml c
  | inr None =>
      match (match n with File c => [(name, c)] | Dir entries => state_files entries | Missing => [] end) with
      | [] => ValueError _
      | (_, c) :: _ => read_params_h5 c
      end
  end.

(** 81-118 (_load_params_simul), for the process of this rank; [node_of r] is what the process r sees;
    the broadcast gives to all the processes the value of the process 0 *)
Definition load_params (nb_proc rank : nat) (only_mpi_rank0 : bool) (name : string) (node_of : nat -> node) : loaded P :=
  if (1 <? nb_proc) && negb only_mpi_rank0 then load_params_seq name (node_of 0) else load_params_seq name (node_of rank).

(** 120-150 (_load_info_solver) *)
Definition load_info (n : node) : loaded I :=
  match n with
  | Dir entries =>
      match find entries "info_solver.xml" with
      | Some c => read_info_xml c
      | None => match state_files entries with [] => ValueError _ | (_, c) :: _ => read_info_h5 c end
      end
  | _ => ValueError _
  end.
End Load.

(** ** lib/fluidsim_core/paths.py 16-43 (find_path_result_dir)
    A path is absolute or relative, and its parts; ~ is already expanded *)
Record path := mkPath { absolute : bool; parts : list string }.
Inductive found := Found (p : path) | NoSuchDirectory.

(** p / q: an absolute path q replaces p *)
Definition join_path (p q : path) : path := if absolute q then q else mkPath (absolute p) (parts p ++ parts q).

(** path.is_dir(): a relative path is looked for in the working directory *)
Definition is_dir (dirs : path -> bool) (cwd p : path) : bool := dirs (join_path cwd p).

Definition find_path_result_dir (dirs : path -> bool) (cwd results : path) (thing : option path) : found :=
  match thing with
  | None => Found cwd
  | Some p =>
      if is_dir dirs cwd p then Found (join_path cwd p)
      else
        let p := if absolute p then p else join_path results p in
        if is_dir dirs cwd p then Found p else NoSuchDirectory
  end.

(** ** fluidsim/util/console/util.py 83-214 (modif_params2d, modif_params3d)
    The attributes which are not in the container of all the solvers are optional (setting an attribute which does not
    exist is an AttributeError of the container) *)
Record bench_params := mkBench {
  short_name : string; nx : Z; ny : Z; nz : Z; size : box; type_fft : string; init_type : string;
  available_types : list string; nu_8 : option Q; f : option Q; c2 : option Q; N : option Q;
  deltat0 : Q; use_cfl : bool; it_end : Z; use_t_end : bool; period_print : Q; has_to_save : bool }.

(** the part which is common to the two functions (after the sizes); None: AttributeError *)
Definition modif_common (dt : Q) (name_run : string) (fft : option string) (it : Z) (x y z : Z) (b : box) (p : bench_params) : option bench_params :=
  match nu_8 p with
  | None => None
  | Some _ =>
      let fc :=
        match f p with
        | None => (None, c2 p)
        | Some _ => (Some 1%Q, match c2 p with None => None | Some _ => Some 200%Q end)
        end in
      Some (mkBench name_run x y z b (match fft with Some t => t | None => type_fft p end)
        (if existsb (String.eqb "noise") (available_types p) then "noise"%string else init_type p)
        (available_types p) (Some 1%Q) (fst fc) (snd fc) (match N p with None => None | Some _ => Some 1%Q end)
        dt false it false 0%Q false)
  end.

Definition modif_params2d (p : bench_params) (n0 : Z) (n1 : option Z) (name_run : string) (fft : option string) (it : Z) : option bench_params :=
  let n1 := match n1 with Some n => n | None => n0 end in
  modif_common (1 # 1000000) name_run fft it n1 n0 (nz p) (modif_box_size (size p) n0 n1 None) p.

Definition modif_params3d (p : bench_params) (n0 : Z) (n1 n2 : option Z) (name_run : string) (fft : option string) (it : Z) : option bench_params :=
  let n1 := match n1 with Some n => n | None => n0 end in
  let n2 := match n2 with Some n => n | None => n0 end in
  modif_common (1 # 10000) name_run fft it n2 n1 n0 (modif_box_size (size p) n0 n1 (Some n2)) p.
