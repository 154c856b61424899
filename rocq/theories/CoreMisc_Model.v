(** * Loading of the solvers, files of the parameters, arrows of the figures *)

From Coq Require Import Ascii String Reals ZArith List Bool.
From Flocq Require Import Core.Core.
Import ListNotations.
Local Open Scope string_scope.

(** ** lib/fluidsim_core/loader.py *)
Inductive exn := KeyError | ValueError | AttributeError | ImportError | OtherError.

(** a module of a solver: its class Simul, if it has one *)
Record module := mk_module { mod_name : string; Simul : option string }.

(** entry points of a group: name and result of load() *)
Definition entries := list (string * (module + exn)).

Fixpoint find_entry (key : string) (solvers : entries) : option (module + exn) :=
  match solvers with
  | [] => None
  | (k, m) :: r => if String.eqb k key then Some m else find_entry key r
  end.

(** 33-54 (import_module_solver): try: solvers[key].load() except KeyError: raise ValueError *)
Definition import_module_solver (key : string) (solvers : entries) : module + exn :=
  match find_entry key solvers with
  | None => inr ValueError
  | Some (inl m) => inl m
  | Some (inr KeyError) => inr ValueError
  | Some (inr e) => inr e
  end.

(** key.startswith(p) and key[len(p):] *)
Fixpoint strip (p key : string) : option string :=
  match p, key with
  | EmptyString, _ => Some key
  | String a p', String b k' => if Ascii.eqb a b then strip p' k' else None
  | String _ _, EmptyString => None
  end.

(** 57-74 (import_cls_simul) *)
Definition import_cls_simul (key group : string) (solvers : entries) : string + exn :=
  let key := match strip (group ++ ".") key with Some k => k | None => key end in
  match import_module_solver key solvers with
  | inl m => match Simul m with Some c => inl c | None => inr AttributeError end
  | inr e => inr e
  end.

(** ** lib/fluidsim_core/output/base.py 346-375 and fluidsim/base/output/base.py 251-261 (_save_info_solver_params_xml)

    The content of a file is the content of the objects at the time of the save. Each operation is atomic. *)
Record dir (A : Type) := mk_dir { info_xml : option A; params_xml : option A }.
Arguments mk_dir {A} _ _.
Arguments info_xml {A} _.
Arguments params_xml {A} _.

Inductive op (A : Type) := Unlink_info | Unlink_params | Save_info (x : A) | Save_params (x : A).
Arguments Unlink_info {A}.
Arguments Unlink_params {A}.
Arguments Save_info {A} _.
Arguments Save_params {A} _.

(** unlink: FileNotFoundError if there is no file; _save_as_xml (fluiddyn): an error if there is a file when [refuse] *)
Definition exec_op {A} (refuse : bool) (o : op A) (d : dir A) : option (dir A) :=
  match o with
  | Unlink_info => match info_xml d with Some _ => Some (mk_dir None (params_xml d)) | None => None end
  | Unlink_params => match params_xml d with Some _ => Some (mk_dir (info_xml d) None) | None => None end
  | Save_info x => match info_xml d, refuse with Some _, true => None | _, _ => Some (mk_dir (Some x) (params_xml d)) end
  | Save_params x => match params_xml d, refuse with Some _, true => None | _, _ => Some (mk_dir (info_xml d) (Some x)) end
  end.

(** the directory and: finished without error *)
Fixpoint exec {A} (refuse : bool) (l : list (op A)) (d : dir A) : dir A * bool :=
  match l with
  | [] => (d, true)
  | o :: r => match exec_op refuse o d with Some d' => exec refuse r d' | None => (d, false) end
  end.

Definition save_ops {A} (rank0 has_to_save new_dir replace : bool) (info params : A) : list (op A) :=
  if rank0 && has_to_save && new_dir then
    (if replace then [Unlink_info; Unlink_params] else []) ++ [Save_info info; Save_params params]
  else [].

(** fluidsim/base/solvers/base.py 215-223: post_init, then the preprocessing (base/preprocess/pseudo_spect.py 37), if enabled, which
    modifies the parameters *)
Definition start_ops {A} (rank0 has_to_save new_dir enable : bool) (info params params' : A) : list (op A) :=
  save_ops rank0 has_to_save new_dir false info params
  ++ (if enable then save_ops rank0 has_to_save new_dir true info params' else []).

(** ** fluidsim/base/output/phys_fields2d.py 125-137, lib/fluidsim_core/output/phys_fields.py 89-105 (_init_skip_quiver)

    np.round: ties to even *)
Definition skip_quiver (nx : Z) (Lx Ly : R) : Z :=
  let delta_quiver := (4 / 100 * Rmin Lx Ly)%R in
  let skip := ZnearestE (IZR nx / Lx * delta_quiver) in
  if (skip <? 1)%Z then 1%Z else skip.

(** phys_fields2d.py 421-433 (XX[::skip, ::skip]): positions of the arrows along an axis with [n] points *)
Definition arrows (skip n : Z) (L : R) : list R :=
  map (fun i => IZR (Z.of_nat i * skip) * (L / IZR n))%R (seq 0 (Z.to_nat ((n + skip - 1) / skip))).
