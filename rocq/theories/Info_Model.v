(** * The information on a solver, the default parameters and the extended classes (lib/fluidsim_core) *)

From Coq Require Import Ascii String List Bool Arith.
Import ListNotations.
Local Open Scope nat_scope.

(** names of Python classes (module and class) *)
Definition cls := (string * string)%type.

(** ** info.py: InfoSolverCore *)
(** a dictionary, in the order of insertion *)
Fixpoint find {A} (l : list (string * A)) (k : string) : option A :=
  match l with
  | [] => None
  | (k', x) :: r => if String.eqb k k' then Some x else find r k
  end.

(** d[k] = x; for a container: _set_child (an existing child is replaced) *)
Fixpoint put {A} (l : list (string * A)) (k : string) (x : A) : list (string * A) :=
  match l with
  | [] => [(k, x)]
  | (k', y) :: r => if String.eqb k k' then (k, x) :: r else (k', y) :: put r k x
  end.

(** the container of a class (classes.Forcing for example): its name (None: no attributes module_name and class_name)
    and the classes it organises, with the attribute _cached_imported_classes *)
Record entry := mkEntry { impl : option cls; sub : list (string * cls); sub_cache : option (list (string * cls)) }.

Record info := mkInfo { classes : list (string * entry); cache : option (list (string * cls)) }.

(** 108-124: the loop on the tags *)
Fixpoint named (l : list (string * entry)) : list (string * cls) :=
  match l with
  | [] => []
  | (k, e) :: r => match impl e with None => named r | Some c => (k, c) :: named r end
  end.

(** 103-126 (import_classes): the dictionary of the classes and the object with its cache. The function import_class
    (fluiddyn) is not modelled: a class is its name *)
Definition import_classes (i : info) : list (string * cls) * info :=
  match cache i with
  | Some d => (d, i)
  | None => let d := named (classes i) in (d, mkInfo (classes i) (Some d))
  end.

(** the same method for info_solver.classes.<tag>; None: AttributeError *)
Definition import_sub_classes (tag : string) (i : info) : option (list (string * cls) * info) :=
  match find (classes i) tag with
  | None => None
  | Some e =>
      Some (match sub_cache e with
            | Some d => (d, i)
            | None => (sub e, mkInfo (put (classes i) tag (mkEntry (impl e) (sub e) (Some (sub e)))) (cache i))
            end)
  end.

(** info_solver.classes.<tag>.classes._set_child(name, class): used by the extenders; None: AttributeError *)
Definition add_sub_class (tag name : string) (c : cls) (i : info) : option info :=
  match find (classes i) tag with
  | None => None
  | Some e => Some (mkInfo (put (classes i) tag (mkEntry (impl e) (put (sub e) name c) (sub_cache e))) (cache i))
  end.

(** info_solver.classes._set_child(tag, attribs) *)
Definition set_class (tag : string) (c : cls) (i : info) : info :=
  mkInfo (put (classes i) tag (mkEntry (Some c) [] None)) (cache i).

(** fluidsim/base/turb_model/base.py 24-41 (modif_infosolver_turb_model) *)
Definition modif_infosolver_turb_model (i : info) : info :=
  match find (classes i) "TurbModel" with
  | Some _ => i
  | None =>
      let i := set_class "TurbModel" ("fluidsim.base.turb_model.base"%string, "TurbModel"%string) i in
      mkInfo (classes i) None
  end.

(** 107-119 (SpecificTurbModel.get_modif_info_solver) *)
Definition modif_turb_model (tag : string) (c : cls) (i : info) : option info :=
  add_sub_class "TurbModel" tag c (modif_infosolver_turb_model i).

Section Create.
(** Class._complete_info_solver(info_solver) (a class without this method: the identity) *)
Variable complete_info_solver : cls -> info -> info.

(** 128-135 (complete_with_classes) *)
Definition complete_with_classes (i : info) : info :=
  let '(d, i) := import_classes i in
  fold_left (fun i kc => complete_info_solver (snd kc) i) d i.

(** 49-75 (__init__); [root] is the object after _init_root; [modificators] are the functions of the extenders;
    None: an exception *)
Definition create_info (root : info) (modificators : list (info -> option info)) : option info :=
  fold_left (fun i m => match i with None => None | Some i => m i end) modificators (Some (complete_with_classes root)).
End Create.

(** ** params.py: the default parameters *)
Section Params.
Variable P : Type.

Inductive result := Done (p : P) | TypeError (p : P) | OtherError (p : P).

(** the method _complete_params_with_default of a class, which takes the parameters only, or also info_solver;
    None: no such method *)
Inductive method := One (f : P -> result) | Two (f : P -> info -> result).
Variable method_of : cls -> option method.

(** a call with a wrong number of arguments raises a TypeError *)
Definition call1 (m : method) (p : P) : result := match m with One f => f p | Two _ => TypeError p end.
Definition call2 (m : method) (p : P) (i : info) : result := match m with One _ => TypeError p | Two f => f p i end.

(** 36-47 (iter_complete_params) for a list of classes *)
Fixpoint iter_complete_params (l : list cls) (i : info) (p : P) : result :=
  match l with
  | [] => Done p
  | c :: r =>
      match method_of c with
      | None => iter_complete_params r i p
      | Some m =>
          match call1 m p with
          | Done p => iter_complete_params r i p
          | OtherError p => OtherError p
          | TypeError p =>
              match call2 m p i with
              | Done p => iter_complete_params r i p
              | e => e
              end
          end
      end
  end.

(** sorted(classes.keys()) *)
Fixpoint insert_key {A} (x : string * A) (l : list (string * A)) : list (string * A) :=
  match l with
  | [] => [x]
  | y :: r => if String.leb (fst x) (fst y) then x :: l else y :: insert_key x r
  end.
Definition sorted_items {A} (l : list (string * A)) : list (string * A) := fold_right insert_key [] l.

(** 33-34: for a dictionary the classes in the order of the sorted keys *)
Definition iter_complete_params_dict (d : list (string * cls)) (i : info) (p : P) : result :=
  iter_complete_params (map snd (sorted_items d)) i p.

(** the argument of _create_params *)
Inductive input :=
| AnInfo (i : info) (solver_class : cls)
(** a module with an attribute Simul: [default_params] is Simul.create_default_params() *)
| AModule (default_params : P)
| Other.

Inductive created := Params (r : result) | AttributeError | ValueError.

(** 54-77 (_create_params; no class has the tag Solver): for a module, the variable info_solver is a Parameters object, without attribute module_name *)
Definition create_params (empty : P) (x : input) : created :=
  match x with
  | AnInfo i solver_class =>
      let '(d, i) := import_classes i in
      Params (iter_complete_params (map snd (put [] "Solver"%string solver_class ++ d)) i empty)
  | AModule _ => AttributeError
  | Other => ValueError
  end.
End Params.

Arguments Done {P}. Arguments TypeError {P}. Arguments OtherError {P}.
Arguments One {P}. Arguments Two {P}.
Arguments AnInfo {P}. Arguments AModule {P}. Arguments Other {P}.

(** ** extend_simul.py *)
(** an extender is its full name. The attributes _modificators and _extenders of a class InfoSolver are lists which are
    appended together: one list of extenders at an address; None: the class (and its parents) has no such attribute *)
Definition extender := string.
Record simul_class := mkSimulClass { base : string; lists_at : option nat }.
Definition memory := list (list extender).

Definition extenders_of (m : memory) (s : simul_class) : list extender :=
  match lists_at s with None => [] | Some a => nth a m [] end.

Fixpoint append_at (a : nat) (l : list extender) (m : memory) : memory :=
  match m, a with
  | [], _ => []
  | x :: r, O => (x ++ l) :: r
  | x :: r, S a => x :: append_at a l r
  end.

(** 20-48 (extend_simul_class): the class NewInfoSolver has the lists of its parent, if there are some (hasattr) *)
Definition extend_simul_class (s : simul_class) (l : list extender) (m : memory) : simul_class * memory :=
  let '(a, m) := match lists_at s with Some a => (a, m) | None => (length m, m ++ [[]]) end in
  (mkSimulClass (base s) (Some a), append_at a l m).

(** info.py 66-75: the attribute extenders saved in the files *)
Definition saved_extenders (m : memory) (s : simul_class) : list extender := extenders_of m s.

(** extend_simul.py 90-131 (_extend_simul_class_from_path); [importable]: import_class does not raise an ImportError *)
Definition extend_from_path (importable : extender -> bool) (s : simul_class) (saved : list extender) (m : memory) :
  simul_class * memory :=
  match filter importable saved with
  | [] => (s, m)
  | l => extend_simul_class s l m
  end.
