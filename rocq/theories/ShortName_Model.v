(** * Names of the functions in the pie chart of a profile (fluidsim/util/console/profile.py 236-261, _compute_shorter_name)

    Simplifications: the strings are lists of ASCII characters; None is the IndexError. *)

From Coq Require Import Ascii String List Arith Bool.
Import ListNotations.

Definition txt := list ascii.
Fixpoint of_string (s : string) : txt := match s with EmptyString => [] | String c r => c :: of_string r end.

(** ** str methods *)
Fixpoint prefixb (p l : txt) : bool :=
  match p, l with
  | [], _ => true
  | a :: p', b :: l' => Ascii.eqb a b && prefixb p' l'
  | _, [] => false
  end.
(** p in l *)
Fixpoint contains (p l : txt) : bool := prefixb p l || match l with [] => false | _ :: r => contains p r end.

(** l.split(sep): skip is the number of characters of the separator still to skip *)
Fixpoint split (sep l : txt) (skip : nat) (cur : txt) : list txt :=
  match l with
  | [] => [rev cur]
  | c :: r =>
      match skip with
      | S k => split sep r k cur
      | 0 => if prefixb sep l then rev cur :: split sep r (length sep - 1) [] else split sep r 0 (c :: cur)
      end
  end.
(** l.split(sep)[-1] and l.split(sep)[0] *)
Definition split_last (sep l : txt) : txt := last (split sep l 0 []) [].
Definition split_first (sep l : txt) : txt := hd [] (split sep l 0 []).

(** white spaces (str.isspace, ASCII) and l.split() *)
Definition is_space (c : ascii) : bool :=
  let n := nat_of_ascii c in ((9 <=? n) && (n <=? 13)) || ((28 <=? n) && (n <=? 32)).
Definition flush (cur : txt) : list txt := match cur with [] => [] | _ => [rev cur] end.
Fixpoint words (l cur : txt) : list txt :=
  match l with
  | [] => flush cur
  | c :: r => if is_space c then flush cur ++ words r [] else words r (c :: cur)
  end.

(** l.lstrip(c), l.rstrip(c), l.strip(c) for one character *)
Fixpoint lstrip (c : ascii) (l : txt) : txt :=
  match l with [] => [] | d :: r => if Ascii.eqb d c then lstrip c r else l end.
Definition rstrip (c : ascii) (l : txt) : txt := rev (lstrip c (rev l)).
Definition strip (c : ascii) (l : txt) : txt := rstrip c (lstrip c l).

(** ** 236-261 *)
Definition shorter_name (key kind : txt) : option txt :=
  if list_eq_dec ascii_dec kind (of_string "fft_as") then
    match words key [] with
    | [] => None
    | [_] => Some key
    | _ :: w :: _ => Some (removelast (tl w))
    end
  else if (if list_eq_dec ascii_dec kind (of_string "pythran") then contains (of_string "pythran") key else false) then
    if contains (of_string "_pythran.") key
    then Some (rstrip ">" (split_last (of_string "_pythran.") key) ++ of_string " (pythran)")
    else Some (rstrip ">" (split_last (of_string "<built-in method ") key))
  else if contains (of_string "fluidsim.solvers.") key then Some (removelast (split_last (of_string "fluidsim.solvers.") key))
  else if prefixb (of_string "<built-in method ") key then Some (removelast (split_last (of_string "<built-in method ") key))
  else if prefixb (of_string "<method ") key then
    Some (strip "'" (split_first (of_string " ") (removelast (split_last (of_string "<method ") key))))
  else Some key.
