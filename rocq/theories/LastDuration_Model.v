(** * Last estimated remaining duration (fluidsim/util/util.py 657-676)

    The file stdout.txt is a list of (ASCII) characters: a position given by tell is a number of characters. *)

From Coq Require Import Ascii String List Bool Arith.
From Verif Require Import Repr_Model.
Import ListNotations.
Local Open Scope nat_scope.

Inductive outcome := Value (t : text) | ValueError | RuntimeError | IndexError.

(** white spaces of str.strip (ASCII): \t \n \v \f \r, 28-31 and the space *)
Definition is_space (c : ascii) : bool :=
  let n := nat_of_ascii c in ((9 <=? n) && (n <=? 13)) || ((28 <=? n) && (n <=? 32)).

Fixpoint lstrip (t : text) : text :=
  match t with
  | [] => []
  | c :: r => if is_space c then lstrip r else t
  end.

(** str.strip() *)
Definition strip (t : text) : text := rev (lstrip (rev (lstrip t))).

(** the end of the text after a prefix; Some _: str.startswith(prefix) *)
Fixpoint after (prefix t : text) : option text :=
  match prefix, t with
  | [], _ => Some t
  | a :: p, c :: r => if Ascii.eqb a c then after p r else None
  | _ :: _, [] => None
  end.

(** the parts before and after the first separator *)
Fixpoint cut (sep t : text) : text * option text :=
  match after sep t with
  | Some r => ([], Some r)
  | None => match t with [] => ([], None) | c :: r => let '(a, b) := cut sep r in (c :: a, b) end
  end.

(** str.split(sep)[1]; None: IndexError *)
Definition second_part (sep t : text) : option text :=
  match cut sep t with
  | (_, None) => None
  | (_, Some r) => Some (fst (cut sep r))
  end.

Definition newline : ascii := ascii_of_nat 10.
Definition beginning : text := txt "estimated remaining duration".
Definition equal_sign : text := txt " = ".

(** 671-674, for the lines from the last one to the first one *)
Fixpoint search (lines : list text) : outcome :=
  match lines with
  | [] => RuntimeError
  | l :: r =>
      let l := strip l in
      match after beginning l with
      | Some _ => match second_part equal_sign l with Some v => Value (strip v) | None => IndexError end
      | None => search r
      end
  end.

(** 659-676; None: there is no file *)
Definition get_last_estimated_remaining_duration (file : option text) : outcome :=
  match file with
  | None => ValueError
  | Some t =>
      let nb_caract := length t in
      let nb_caract_to_read := min nb_caract 3000 in
      let end_of_file := skipn (nb_caract - nb_caract_to_read) t in
      search (rev (split newline end_of_file))
  end.

(** the line of fluidsim/base/output/print_stdout.py (_make_str_info of the solvers), for example
    fluidsim/solvers/models0d/predaprey/output/print_stdout.py 56 *)
Definition printed (duration : text) : text :=
  txt "              estimated remaining duration = " ++ duration.
