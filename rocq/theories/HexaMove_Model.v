(** * The value shown under the cursor of the figures of the hexahedral files

    lib/fluidsim_core/hexa_files.py 139 (limits), 285-329 (on_move).

    An element is the list of its points, in the order of the flattened arrays: x, y and value.  Exact numbers.  The
    coordinates of the message are not modelled, None is no message.  The event is in the axes. *)

From Coq Require Import List QArith Bool.
Import ListNotations.

Record point := mkPoint { px : Q; py : Q; color : Q }.
Definition element := list point.

(** 139: arr.min(), arr.max() (elements with points) *)
Fixpoint arr_min (l : list Q) : Q :=
  match l with [] => 0 | [x] => x | x :: r => let m := arr_min r in if Qle_bool x m then x else m end.
Fixpoint arr_max (l : list Q) : Q :=
  match l with [] => 0 | [x] => x | x :: r => let m := arr_max r in if Qle_bool m x then x else m end.

(** 302: (x_2d - x) ** 2 + (y_2d - y) ** 2 *)
Definition distance2 (x y : Q) (p : point) : Q := (px p - x) * (px p - x) + (py p - y) * (py p - y).

(** 303-310: argmin (the first of the smallest), the distance and the value *)
Fixpoint first_min (x y : Q) (l : element) : option (Q * Q) :=
  match l with
  | [] => None
  | p :: r =>
      match first_min x y r with
      | Some (d, c) => if Qle_bool (distance2 x y p) d then Some (distance2 x y p, color p) else Some (d, c)
      | None => Some (distance2 x y p, color p)
      end
  end.

Definition in_lims (x : Q) (l : list Q) : bool := Qle_bool (arr_min l) x && Qle_bool x (arr_max l).

(** 289-311 *)
Fixpoint possibly_touched (x y : Q) (elems : list element) : list (Q * Q) :=
  match elems with
  | [] => []
  | e :: r =>
      let rest := possibly_touched x y r in
      if in_lims x (map px e) && in_lims y (map py e) then match first_min x y e with Some t => t :: rest | None => rest end else rest
  end.

(** 314-316: sorted(..., key=lambda el: el[0]) is stable *)
Fixpoint insert (t : Q * Q) (l : list (Q * Q)) : list (Q * Q) :=
  match l with [] => [t] | u :: r => if Qle_bool (fst t) (fst u) then t :: l else u :: insert t r end.
Fixpoint sorted (l : list (Q * Q)) : list (Q * Q) := match l with [] => [] | t :: r => insert t (sorted r) end.

(** 313-318 *)
Definition on_move (x y : Q) (elems : list element) : option Q :=
  match sorted (possibly_touched x y elems) with [] => None | t :: _ => Some (snd t) end.
