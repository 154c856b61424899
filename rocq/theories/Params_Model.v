(** * Parameters: merge, restart, choice of the directory; extensions of the solver classes *)

From Coq Require Import String List Arith Bool ZArith QArith Ascii.
Import ListNotations.
Local Open Scope nat_scope.

(** ** Containers of parameters (fluiddyn ParamContainer: attributes and children, both with names) *)

Inductive value := VStr (s : string) | VNum (q : Q) | VBool (b : bool) | VOther (n : nat).

Inductive tree := Node (attribs : list (string * value)) (children : list (string * tree)).

Definition attribs_of (t : tree) := match t with Node a _ => a end.
Definition children_of (t : tree) := match t with Node _ c => c end.

Fixpoint assoc {A} (k : string) (l : list (string * A)) : option A :=
  match l with
  | [] => None
  | (k', a) :: r => if String.eqb k k' then Some a else assoc k r
  end.

Fixpoint set_assoc {A} (k : string) (v : A) (l : list (string * A)) : list (string * A) :=
  match l with
  | [] => []
  | (k', a) :: r => if String.eqb k k' then (k', v) :: r else (k', a) :: set_assoc k v r
  end.

Definition has {A} (k : string) (l : list (string * A)) : bool :=
  match assoc k l with Some _ => true | None => false end.

(** elements of [l2] whose name is not in [l1] (set(...) - set(...); the order of the additions is
    taken as the one of [l2]) *)
Definition missing {A B} (l1 : list (string * A)) (l2 : list (string * B)) : list (string * B) :=
  filter (fun kv => negb (has (fst kv) l1)) l2.

(** lib/fluidsim_core/params.py 154-211 (Parameters.__ior__). The children which are missing are
    created with the attributes only (params2[child]._make_dict() without the internal names), then
    completed by the recursion. *)
Fixpoint merge (params1 params2 : tree) {struct params2} : tree :=
  match params2 with
  | Node a2 c2 =>
      let a := (attribs_of params1 ++ missing (attribs_of params1) a2)%list in
      let c := (children_of params1
                ++ map (fun kt => (fst kt, Node (attribs_of (snd kt)) [])) (missing (children_of params1) c2))%list in
      let fix recurse (l : list (string * tree)) (c : list (string * tree)) : list (string * tree) :=
        match l with
        | [] => c
        | (k, t2) :: r =>
            recurse r (match assoc k c with Some t1 => set_assoc k (merge t1 t2) c | None => c end)
        end in
      Node a (recurse c2 c)
  end.

(** ** Assignments *)

(** params.a.b.key = v; None is AttributeError (the attribute or a child does not exist) *)
Fixpoint assign (path : list string) (key : string) (v : value) (t : tree) : option tree :=
  match path with
  | [] => if has key (attribs_of t) then Some (Node (set_assoc key v (attribs_of t)) (children_of t)) else None
  | k :: p =>
      match assoc k (children_of t) with
      | None => None
      | Some c =>
          match assign p key v c with
          | None => None
          | Some c' => Some (Node (attribs_of t) (set_assoc k c' (children_of t)))
          end
      end
  end.

(** _set_attrib: creates the attribute if needed *)
Definition set_attrib (key : string) (v : value) (t : tree) : tree :=
  if has key (attribs_of t) then Node (set_assoc key v (attribs_of t)) (children_of t)
  else Node (attribs_of t ++ [(key, v)])%list (children_of t).

Definition try_assign (path : list string) (key : string) (v : value) (t : tree) : tree :=
  match assign path key v t with Some t' => t' | None => t end.

(** ** merge_params, fluidsim/base/params.py 45-76 *)

Definition fft_kept (method : string) : bool :=
  negb (String.eqb method "")
  && (String.eqb method "default" || String.prefix "fft2d." method || String.prefix "fft3d." method
      || String.prefix "fluidfft." method).

Definition fix_type_fft (t : tree) : tree :=
  match assoc "oper" (children_of t) with
  | None => t
  | Some oper =>
      match assoc "type_fft" (attribs_of oper) with
      | Some (VStr method) =>
          if fft_kept method then t else try_assign ["oper"%string] "type_fft" (VStr "default") t
      | _ => t
      end
  end.

Definition merge_params (to_params : tree) (other_params : list tree) : tree :=
  fix_type_fft (fold_left merge other_params to_params).

(** fluidsim/base/params.py 18-42 (fix_old_params) *)
Definition fix_old_params (t : tree) : tree :=
  let t1 :=
    match assoc "FORCING" (attribs_of t), assoc "forcing" (children_of t) with
    | Some v, Some f => Node (attribs_of t) (set_assoc "forcing" (set_attrib "enable" v f) (children_of t))
    | _, _ => t
    end in
  match assoc "NO_SHEAR_MODES" (attribs_of t1) with
  | Some v => try_assign ["oper"%string] "NO_SHEAR_MODES" v t1
  | None => t1
  end.

(** fluidsim/util/util.py 363-396 (load_for_restart): [params] is the content of the file *)
Definition load_for_restart (path_dir path_file : string) (merge_missing : option tree) (params : tree) : option tree :=
  let params := match merge_missing with Some d => merge_params params [d] | None => params end in
  match assign [] "path_run" (VStr path_dir) params with
  | None => None
  | Some p =>
  match assign [] "NEW_DIR_RESULTS" (VBool false) p with
  | None => None
  | Some p =>
  match assign ["init_fields"%string] "type" (VStr "from_file") p with
  | None => None
  | Some p =>
  match assign ["init_fields"; "from_file"]%string "path" (VStr path_file) p with
  | None => None
  | Some p =>
  match assign ["init_fields"%string] "modif_after_init" (VBool false) p with
  | None => None
  | Some p => Some (fix_old_params (try_assign ["preprocess"%string] "enable" (VBool false) p))
  end end end end end.

(** ** Directory of a simulation, lib/fluidsim_core/output/base.py 181-232 (OutputCore.__init__)

    [nx], [ny], [nz]: are the values in the parameters and in those of the directory equal, None if
    one of them does not exist. Without params.path_run the call of _init_name_run (177, then 87-88
    of the same file) already raises AttributeError, before the fallback of lines 184-189. *)
Inductive directory := NewDirectory | SameDirectory | DirAttributeError.

Definition choose_directory (new_dir_results has_path_run has_to_save : bool)
  (nx ny nz : option bool) : directory :=
  let different (c : option bool) := match c with Some b => negb b | None => false end in
  if new_dir_results then NewDirectory
  else if negb has_path_run then DirAttributeError
  else if has_to_save && (different nx || different ny || different nz) then NewDirectory
  else SameDirectory.

(** ** fluidsim-restart, fluidsim/util/scripts/restart.py and lib/fluidsim_core/scripts/restart.py *)

Record tparams := mkT {
  t_end : Q; it_end : Z; use_t_end : bool; has_to_save : bool; new_dir : bool; max_elapsed : option string }.

Record args := mkArgs {
  only_check : bool; only_init : bool; new_dir_results : bool;
  add_to_t_end : option Q; add_to_it_end : option Z; arg_t_end : option Q; arg_it_end : option Z;
  arg_max_elapsed : option string }.

(** 79-87 (_set_params_time_stepping) *)
Definition set_time_stepping (a : args) (p : tparams) : tparams :=
  let t := match add_to_t_end a with Some x => (t_end p + x)%Q | None => t_end p end in
  let i := match add_to_it_end a with Some x => (it_end p + x)%Z | None => it_end p end in
  let t := match arg_t_end a with Some x => x | None => t end in
  let i := match arg_it_end a with Some x => (i + x)%Z | None => i end in
  mkT t i (use_t_end p) (has_to_save p) (new_dir p) (max_elapsed p).

(** 92-105 (_check_params_time_stepping): ValueError? *)
Definition nothing_to_do (time_name : Q) (it_file : Z) (p : tparams) : bool :=
  if use_t_end p then Qle_bool (t_end p) time_name else Z.leb (it_end p) it_file.

Inductive restart_result := OnlyCheck (p : tparams) | Refused (p : tparams) | OnlyInit (p : tparams) | Started (p : tparams).

(** 63-113 (RestarterABC.restart); [modify]: the code of --modify-params *)
Definition restart (a : args) (modify : tparams -> tparams) (time_name : Q) (it_file : Z) (p : tparams) : restart_result :=
  let p := mkT (t_end p) (it_end p) (use_t_end p) (has_to_save p) (new_dir_results a) (max_elapsed p) in
  let p := set_time_stepping a p in
  let p := if only_check a || only_init a
           then mkT (t_end p) (it_end p) (use_t_end p) false (new_dir p) (max_elapsed p) else p in
  let p := match arg_max_elapsed a with
           | Some m => mkT (t_end p) (it_end p) (use_t_end p) (has_to_save p) (new_dir p) (Some m)
           | None => p end in
  let p := modify p in
  if only_check a then OnlyCheck p
  else if nothing_to_do time_name it_file p then Refused p
  else if only_init a then OnlyInit p
  else Started p.

(** ** Extension of a solver class, lib/fluidsim_core/extend_simul.py 23-50

    InfoSolver classes: own reference to the lists _modificators and _extenders (always changed
    together) and parent class; [heap] gives the content of the lists *)

Section Extend.
Context {E : Type}.

Record cls := mkCls { own : option nat; parent : option nat }.
Record world := mkW { classes : list cls; heap : list (list E) }.

(** attribute lookup in the class and its ancestors *)
Fixpoint lookup (fuel : nat) (l : list cls) (c : nat) : option nat :=
  match fuel with
  | O => None
  | S n =>
      match nth_error l c with
      | None => None
      | Some k =>
          match own k, parent k with
          | Some r, _ => Some r
          | None, Some p => lookup n l p
          | None, None => None
          end
      end
  end.

(** a parent is created before its children *)
Definition find_ref (w : world) (c : nat) : option nat := lookup (S c) (classes w) c.

Fixpoint append_at (r : nat) (x : list E) (h : list (list E)) : list (list E) :=
  match h, r with
  | [], _ => []
  | l :: h', O => (l ++ x)%list :: h'
  | l :: h', S r' => l :: append_at r' x h'
  end.

(** extend_simul_class: the new class is the last one *)
Definition extend_simul_class (w : world) (c : nat) (extenders : list E) : world :=
  match find_ref w c with
  | Some r => mkW (classes w ++ [mkCls None (Some c)])%list (append_at r extenders (heap w))
  | None => mkW (classes w ++ [mkCls (Some (List.length (heap w))) (Some c)])%list (heap w ++ [extenders])%list
  end.

(** the extenders of a class ([] if it has no list), lib/fluidsim_core/info.py 60-71 *)
Definition extenders_of (w : world) (c : nat) : list E :=
  match find_ref w c with
  | Some r => nth r (heap w) []
  | None => []
  end.
End Extend.

(** ** Names of the extenders in the files, lib/fluidsim_core/info.py 64-71 and extend_simul.py 90-106 *)

Definition full_name (e : string * string) : string := String.append (fst e) (String.append "." (snd e)).

(** rsplit(".", 1); None: there is no dot (ValueError when unpacked) *)
Fixpoint rsplit_dot (s : string) : option (string * string) :=
  match s with
  | EmptyString => None
  | String c r =>
      match rsplit_dot r with
      | Some (a, b) => Some (String c a, b)
      | None => if Ascii.eqb c "."%char then Some (EmptyString, r) else None
      end
  end.

(** the classes found again: those which can be imported; None: exception *)
Fixpoint extenders_from_names (can_import : string * string -> bool) (l : list string) : option (list (string * string)) :=
  match l with
  | [] => Some []
  | n :: r =>
      match rsplit_dot n, extenders_from_names can_import r with
      | Some e, Some q => Some (if can_import e then e :: q else q)
      | _, _ => None
      end
  end.
