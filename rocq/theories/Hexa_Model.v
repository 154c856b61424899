(** Model of lib/fluidsim_core/hexa_files.py (edges of the cells, cross sections of the elements, positions of the vectors).

    Simplifications: exact numbers; an element has nz, ny, nx points; its arrays are functions of (iz, iy, ix); float(...) of
    the text of an equation is given. *)
From Coq Require Import String Ascii QArith Qabs Qround ZArith List Bool.
From Verif Require PhysFiles_Model.
Import ListNotations.

Definition arr2 : Type := nat -> nat -> Q.
Definition arr3 : Type := nat -> nat -> nat -> Q.
Definition argmin : list Q -> nat := PhysFiles_Model.argmin.

(** ** Edges of the cells (30-46): the array of (ny + 1) x (nx + 1) elements *)

Definition get_edges_2d (ny nx : nat) (var : arr2) : arr2 := fun iy ix =>
  let by_ := Nat.eqb iy 0 || Nat.eqb iy ny in let bx := Nat.eqb ix 0 || Nat.eqb ix nx in
  (* indices 0 and -1 of var *)
  let cy := if Nat.eqb iy 0 then O else (ny - 1)%nat in let cx := if Nat.eqb ix 0 then O else (nx - 1)%nat in
  if by_ && bx then var cy cx
  else if bx then ((1 # 2) * (var (iy - 1)%nat cx + var iy cx))%Q
  else if by_ then ((1 # 2) * (var cy (ix - 1)%nat + var cy ix))%Q
  else ((1 # 4) * (var (iy - 1)%nat (ix - 1)%nat + var iy ix + var iy (ix - 1)%nat + var (iy - 1)%nat ix))%Q.

(** ** Cross sections *)

Record element := mkElement { nz : nat; ny : nat; nx : nat; pos_x : arr3; pos_y : arr3; pos_z : arr3; values : arr3 }.
Definition all_values (e : element) (f : arr3) : list Q :=
  flat_map (fun iz => flat_map (fun iy => map (fun ix => f iz iy ix) (seq 0 (nx e))) (seq 0 (ny e))) (seq 0 (nz e)).
(** f.min() <= t <= f.max(), for a nonempty array *)
Definition crosses (e : element) (f : arr3) (t : Q) : bool := existsb (fun v => Qle_bool v t) (all_values e f) && existsb (fun v => Qle_bool t v) (all_values e f).
(** np.argmin(abs(f[:, 0, 0] - t)) *)
Definition index_first_axis (e : element) (f : arr3) (t : Q) : nat := argmin (map (fun iz => Qabs (f iz O O - t)) (seq 0 (nz e))).

Section Equation.
Variable float : string -> Q.

(** the array of a cross section *)
Definition section_z (e : element) (t : Q) : arr2 := fun iy ix => values e (index_first_axis e (pos_z e) t) iy ix.
Definition section_y (e : element) (t : Q) : arr2 := fun iz ix => values e iz (index_first_axis e (pos_y e) t) ix.
Definition section_x (e : element) (t : Q) : arr2 := fun iz iy => values e iz iy (index_first_axis e (pos_x e) t).

Definition after2 (s : string) : string := substring 2 (String.length s - 2) s.
(** 90-134: equation.replace(" ", "") has no effect; None is NotImplementedError (if there is an element) *)
Definition cross_section (elems : list element) (equation : string) : option (list arr2) :=
  match elems with
  | [] => Some []
  | _ =>
      if prefix "z=" equation then Some (map (fun e => section_z e (float (after2 equation))) (filter (fun e => crosses e (pos_z e) (float (after2 equation))) elems))
      else if prefix "y=" equation then Some (map (fun e => section_y e (float (after2 equation))) (filter (fun e => crosses e (pos_y e) (float (after2 equation))) elems))
      else if prefix "x=" equation then Some (map (fun e => section_x e (float (after2 equation))) (filter (fun e => crosses e (pos_x e) (float (after2 equation))) elems))
      else None
  end.
End Equation.

(** equation.replace(" ", "") *)
Fixpoint remove_spaces (s : string) : string :=
  match s with EmptyString => EmptyString | String c s => if Ascii.eqb c " " then remove_spaces s else String c (remove_spaces s) end.
(** 417-431 (get_letters_axes_from_equation) *)
Definition letters_axes (equation : string) : option (string * string) :=
  let equation := remove_spaces equation in
  if prefix "z=" equation then Some ("x", "y")%string
  else if prefix "y=" equation then Some ("x", "z")%string
  else if prefix "x=" equation then Some ("z", "y")%string
  else None.

(** ** Positions of the vectors (338-396) *)

(** one element of the cross section: its size and its coordinates *)
Record elem2 := mkElem2 { n0 : nat; n1 : nat; x2d : arr2; y2d : arr2 }.
Definition flat (e : elem2) (f : arr2) : list Q := flat_map (fun iy => map (fun ix => f iy ix) (seq 0 (n1 e))) (seq 0 (n0 e)).
Definition qmin (l : list Q) : Q := match l with [] => 0%Q | x :: l => fold_left (fun a b => if Qle_bool a b then a else b) l x end.
Definition qmax (l : list Q) : Q := match l with [] => 0%Q | x :: l => fold_left (fun a b => if Qle_bool b a then a else b) l x end.

(** np.linspace *)
Definition linspace (a b : Q) (n : nat) : list Q :=
  map (fun k => if Nat.eqb k 0 then a else (a + inject_Z (Z.of_nat k) * ((b - a) / inject_Z (Z.of_nat (n - 1))))%Q) (seq 0 n).

(** the loops "if x < lo: continue; if x > hi: break" *)
Fixpoint loop (lo hi : Q) (l : list Q) : list Q :=
  match l with
  | [] => []
  | x :: l => if negb (Qle_bool lo x) then loop lo hi l else if negb (Qle_bool x hi) then [] else x :: loop lo hi l
  end.

(** the indices (iy, ix) of the nearest point *)
Definition nearest_point (e : elem2) (x y : Q) : nat * nat :=
  let k := argmin (flat e (fun iy ix => ((x2d e iy ix - x) * (x2d e iy ix - x) + (y2d e iy ix - y) * (y2d e iy ix - y))%Q)) in
  ((k / n1 e)%nat, (k mod n1 e)%nat).

(** sorted(set(...)) *)
Definition pair_leb (a b : nat * nat) : bool := (fst a <? fst b)%nat || ((fst a =? fst b)%nat && (snd a <=? snd b)%nat).
Definition pair_eqb (a b : nat * nat) : bool := (fst a =? fst b)%nat && (snd a =? snd b)%nat.
Fixpoint insert (a : nat * nat) (l : list (nat * nat)) : list (nat * nat) :=
  match l with [] => [a] | b :: r => if pair_eqb a b then l else if pair_leb a b then a :: l else b :: insert a r end.
Definition sorted_set (l : list (nat * nat)) : list (nat * nat) := fold_right insert [] l.

(** int(x) for x >= 0 *)
Definition int_of (x : Q) : nat := Z.to_nat (Qfloor x).

Definition all_x (es : list elem2) : list Q := flat_map (fun e => flat e (x2d e)) es.
Definition all_y (es : list elem2) : list Q := flat_map (fun e => flat e (y2d e)) es.

(** 338-354: the abscissas and the ordinates *)
Definition approx_quiver (percentage : Q) (es : list elem2) : list Q * list Q :=
  let xmin := qmin (all_x es) in let xmax := qmax (all_x es) in
  let ymin := qmin (all_y es) in let ymax := qmax (all_y es) in
  let dx_quiver := (percentage / 100 * (xmax - xmin))%Q in
  let nx_quiver := int_of ((xmax - xmin) / dx_quiver) in let ny_quiver := int_of ((ymax - ymin) / dx_quiver) in
  (linspace (xmin + dx_quiver) (xmax - dx_quiver) nx_quiver, linspace (xmin + dx_quiver) (ymax - dx_quiver) ny_quiver).

(** 356-384: the indices in each element *)
Definition indices_in_elem (xs ys : list Q) (e : elem2) : list (nat * nat) :=
  let xmin := qmin (flat e (x2d e)) in let xmax := qmax (flat e (x2d e)) in
  let ymin := qmin (flat e (y2d e)) in let ymax := qmax (flat e (y2d e)) in
  sorted_set (flat_map (fun y => map (fun x => nearest_point e x y) (loop xmin xmax xs)) (loop ymin ymax ys)).
Definition init_quiver (percentage : Q) (es : list elem2) : list (list (nat * nat)) :=
  let '(xs, ys) := approx_quiver percentage es in map (indices_in_elem xs ys) es.
(** 386-394: the positions of the vectors *)
Definition positions (percentage : Q) (es : list elem2) : list (Q * Q) :=
  flat_map (fun p => map (fun k => (x2d (snd p) (fst k) (snd k), y2d (snd p) (fst k) (snd k))) (fst p)) (combine (init_quiver percentage es) es).
