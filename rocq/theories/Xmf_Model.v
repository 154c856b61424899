(** The description of the files of the state for Paraview.
    Source: fluidsim/base/output/__init__.py, create_description_xmf_file (l.63-221).
    Simplifications: the document is the list of its elements, not its text; the list of the paths is already sorted; a file is
    its name, the attributes nx, Lx... of its parameters, the keys of the group state_phys and its time. *)
From Coq Require Import String Ascii List QArith Bool.
Import ListNotations.
Local Open Scope nat_scope.

Record h5file := { name : string; p_x : option (nat * Q); p_y : option (nat * Q); p_z : option (nat * Q); keys : list string; time : Q }.
Inductive error := NoFile | KeyError | Unbound.
Inductive result (A : Type) := Done (a : A) | Error (e : error).
Arguments Done {A} a. Arguments Error {A} e.

(** key.endswith("x") and key[:-1] *)
Fixpoint strip_x (s : string) : option string :=
  match s with
  | EmptyString => None
  | String c EmptyString => if Ascii.eqb c "x" then Some EmptyString else None
  | String c s => match strip_x s with Some r => Some (String c r) | None => None end
  end.
Definition mem (s : string) (l : list string) : bool := existsb (String.eqb s) l.
(** l.112-126: the vectors whose components are all in the keys *)
Definition vectors (ndim : nat) (ks : list string) : list string :=
  let components := match ndim with 2 => ["x"; "y"] | _ => ["x"; "y"; "z"] end%string in
  flat_map (fun key => match strip_x key with
                       | Some v => if forallb (fun c => mem (v ++ c) ks) components then [v] else []
                       | None => []
                       end) ks.
(** an array of a file: the name of the file and the key *)
Definition item := (string * string)%type.
Record attribute_vector := { v_name : string; v_dims : list nat; v_ndim : nat; v_join : list nat; v_items : list item }.
Record grid := { g_time : Q; g_ndim : nat; g_dims : list nat; g_origins : list Q; g_deltas : list Q; g_scalars : list (string * item); g_vectors : list attribute_vector }.

(** l.137-205: the grid of one file *)
Definition grid_of (ndim : nat) (dims : list nat) (origins deltas : list Q) (ks vs : list string) (f : h5file) : grid :=
  {| g_time := time f; g_ndim := ndim; g_dims := dims; g_origins := origins; g_deltas := deltas;
     g_scalars := map (fun k => (k, (name f, k))) ks;
     g_vectors := map (fun v => {| v_name := v; v_dims := dims ++ [ndim]; v_ndim := ndim; v_join := seq 0 ndim;
                                   v_items := [(name f, (v ++ "x")%string); (name f, (v ++ "y")%string); (name f, (v ++ "z")%string)] |}) vs |}.
Definition delta (p : nat * Q) : Q := (snd p / inject_Z (Z.of_nat (fst p)))%Q.
(** l.63-221: the variables ny, deltay, nz, deltaz, vectors may not be bound *)
Definition create_description (files : list h5file) : result (list grid) :=
  match files with
  | [] => Error NoFile
  | f :: _ =>
      match p_x f with
      | None => Error KeyError
      | Some px =>
          let ndim := 3 in
          let ndim := match p_y f with Some _ => ndim | None => 1 end in
          let ndim := match p_z f with Some _ => ndim | None => 2 end in
          match ndim with
          | 1 => Error Unbound                      (* vectors is not bound, l.184 *)
          | 2 => match p_y f with
                 | None => Error Unbound            (* ny is not bound, l.103 *)
                 | Some py => Done (map (grid_of 2 [fst py; fst px] [0%Q; 0%Q] [delta py; delta px] (keys f) (vectors 2 (keys f))) files)
                 end
          | _ => match p_y f, p_z f with
                 | Some py, Some pz => Done (map (grid_of 3 [fst pz; fst py; fst px] [0%Q; 0%Q; 0%Q] [delta pz; delta py; delta px] (keys f) (vectors 3 (keys f))) files)
                 | _, _ => Error Unbound
                 end
          end
      end
  end.
