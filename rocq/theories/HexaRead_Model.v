(** * Reading of the hexadata and vectors of the figures: lib/fluidsim_core/hexa_files.py *)

From Coq Require Import List Bool PeanoNat Reals.
Import ListNotations.

Section Read.
Context {D : Type}.
(** a path and skip_vars are one number; [content] is what pymech.readnek would return now, None if there is no file *)
Definition key := nat.
Definition files := key -> option D.
(** the entries of the lru_cache, the most recently used first *)
Definition cache := list (key * D).

Fixpoint lookup (k : key) (c : cache) : option D :=
  match c with [] => None | (k', d) :: r => if Nat.eqb k' k then Some d else lookup k r end.
Definition remove_key (k : key) (c : cache) : cache := filter (fun e => negb (Nat.eqb (fst e) k)) c.

(** 240-242 (_read_hexadata_from_path): lru_cache(maxsize=2); an exception of readnek is not recorded *)
Definition read_from_path (content : files) (k : key) (c : cache) : option D * cache :=
  match lookup k c with
  | Some d => (Some d, (k, d) :: remove_key k c)
  | None => match content k with
            | Some d => (Some d, firstn 2 ((k, d) :: c))
            | None => (None, c)
            end
  end.

(** path_files[index]: a negative index is counted from the end; None: IndexError *)
Inductive index := Pos (n : nat) | Neg (n : nat).   (** n and - (n + 1) *)
Definition get_path (path_files : list key) (i : index) : option key :=
  match i with Pos n => nth_error path_files n | Neg n => nth_error (rev path_files) n end.

(** 223-238 (read_hexadata); None: an exception *)
Definition read_hexadata (content : files) (path_files : list key) (path : option key) (i : option index) (c : cache) : option D * cache :=
  match path, i with
  | Some _, Some _ => (None, c)
  | _, _ =>
      let i := match path, i with None, None => Some (Neg 0) | _, _ => i end in
      let path := match i with Some i => get_path path_files i | None => path end in
      match path with
      | None => (None, c)
      | Some k => match content k with None => (None, c) | Some _ => read_from_path content k c end
      end
  end.

(** a history of calls, each one with the files at the time of the call *)
Definition call : Type := files * option key * option index.
Fixpoint calls (path_files : list key) (l : list call) (c : cache) : list (option D) * cache :=
  match l with
  | [] => ([], c)
  | (content, path, i) :: r =>
      let (d, c) := read_hexadata content path_files path i c in
      let (ds, c) := calls path_files r c in (d :: ds, c)
  end.
End Read.

(** ** 398-413 (compute_vectors_quiver): an element is the indices of its arrows and its two arrays, as lists of values *)
Definition elem : Type := list nat * list (R * R).
Definition norm (v : R * R) : R := sqrt (fst v * fst v + snd v * snd v).
(** None is - infinity; an element has at least one point *)
Definition np_max (l : list R) : option R := match l with [] => None | x :: r => Some (fold_left Rmax r x) end.
Definition update_vmax (vmax : option R) (e : elem) : option R :=
  match np_max (map norm (snd e)), vmax with
  | Some m, Some v => if Rlt_dec v m then Some m else Some v
  | Some m, None => Some m
  | None, _ => vmax
  end.
Definition compute_vectors_quiver (l : list elem) : list (R * R) * option R :=
  (flat_map (fun e => map (fun i => nth i (snd e) (0%R, 0%R)) (fst e)) l, fold_left update_vmax l None).
