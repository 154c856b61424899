(** * plot1d and the linear modes of plot2d for the spectra of sw1l

    fluidsim/solvers/sw1l/output/spectra.py 145-241 (plot1d: the curves), 450-480 (SpectraSW1LNormalMode.compute_lin_spectra: what
    is saved), 482-538 (plot2d, _plot2d_lin_spectra of SpectraSW1LNormalMode), 336-349 (the guides of plot2d),
    fluidsim/solvers/sw1l/output/base.py 65-70 (the class used by the solvers sw1l, exactlin, modified, ...).

    Exact numbers.  A data set is the list of its records, a record the list of its values.  The abscissas are kxE.  The chosen
    records [imin, imax] are those of SpecPlot_Model and are given here (at least one). *)

From Coq Require Import String List Reals Bool.
Import ListNotations.
Local Open Scope R_scope.

(** numpy: the sum of two 1d arrays; None: ValueError (operands could not be broadcast) *)
Fixpoint map2 (f : R -> R -> R) (a b : list R) : list R :=
  match a, b with x :: a, y :: b => f x y :: map2 f a b | _, _ => [] end.
Definition broadcast (f : R -> R -> R) (a b : list R) : option (list R) :=
  if Nat.eqb (List.length a) (List.length b) then Some (map2 f a b)
  else match a, b with
       | [x], _ => Some (map (fun y => f x y) b)
       | _, [y] => Some (map (fun x => f x y) a)
       | _, _ => None
       end.
Definition bind {A B : Type} (o : option A) (f : A -> option B) : option B := match o with Some a => f a | None => None end.

(** the spectra of one record *)
Record rec1d := mkRec { kxEK : list R; kyEK : list R; kxEA : list R; kyEA : list R }.

(** kh ** coef_compensate, for a natural number *)
Definition coef_norm (c : nat) (kh : list R) : list R := map (fun k => k ^ c) kh.

(** ax.plot(kh, y): None if the lengths differ *)
Definition line (kh y : list R) : option (list (R * R)) :=
  if Nat.eqb (List.length kh) (List.length y) then Some (combine kh y) else None.
Definition curve (kh coef y : list R) : option (list (R * R)) := bind (broadcast Rmult y coef) (line kh).

(** 208-221: the curves of one record: black, red, blue *)
Definition curves (c : nat) (kh : list R) (r : rec1d) : option (list (R * R) * list (R * R) * list (R * R)) :=
  bind (broadcast Rplus (kxEK r) (kyEK r)) (fun EK =>
  bind (broadcast Rplus (kxEA r) (kyEA r)) (fun EA =>
  bind (broadcast Rplus EK EA) (fun Etot =>
  let coef := coef_norm c kh in
  bind (curve kh coef Etot) (fun k => bind (curve kh coef EK) (fun r' => bind (curve kh coef EA) (fun b => Some (k, r', b))))))).

(** ** The linear modes *)

(** 465-478: the data sets of the linear modes saved by compute_lin_spectra, for the energies of the modes g, a+ and a- *)
Definition lin_saved (eg ep em : R) : list (string * R) :=
  [("spectrum2D_Eglin", eg); ("spectrum2D_Ealin", ep + em)]%string.

Fixpoint lookup (file : list (string * R)) (k : string) : option R :=
  match file with [] => None | (n, v) :: r => if String.eqb n k then Some v else lookup r k end.
Definition has (file : list (string * R)) (k : string) : bool := match lookup file k with Some _ => true | None => false end.
Definition machine_zero : R := / 10 ^ 15.

(** 509-538: the label, the color and the value (mean over the records, at one wave number); None: KeyError *)
Definition lin_curves (file : list (string * R)) (keys : list string) : option (list (string * string * R)) :=
  bind (lookup file (if has file "spectrum2D_Edlin" then "spectrum2D_Edlin" else "spectrum2D_Ealin")) (fun ea =>
  let a := if existsb (String.eqb "Ealin") keys then [("AGEO", "y", ea + machine_zero)] else [] in
  if existsb (String.eqb "Eglin") keys
  then bind (lookup file "spectrum2D_Eglin") (fun eg => Some (a ++ [("GEO", "g", eg + machine_zero)])%list)
  else Some a)%string.

(** 336-349: the position of the text and the line k^s of the guides, for the given coefficient (None: kh**coef_compensate) *)
Definition guide (s c : R) (coef : option (R -> R)) (k : R) : R :=
  Rpower k s * match coef with Some f => f k | None => Rpower k c end.
Definition text (s c kmax : R) : R := Rpower kmax (s + c).
