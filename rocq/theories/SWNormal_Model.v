(** * Shallow water: normal modes with the dimension of a velocity, groups of dyads and triads

    fluidsim/solvers/sw1l/output/normal_mode.py. Same conventions as SW_Model. K_not0 = sqrt(K2_not0) (fluidfft). *)

From Coq Require Import Reals ZArith String List Bool.
From Coquelicot Require Import Complex.
From Verif Require Import CExp DFT Alias_Model Oper_Model Budget_Model SW_Model.
Import ListNotations.
Local Open Scope R_scope.

Section Normal.
Variable o : oper.
Variables f c2 : R.

Definition K_not0 (m : mode) : R := sqrt (K2_not0 o m).

(** 28-43 (__init__): sigma *)
Definition sigma (m : mode) : R :=
  let ck := sqrt c2 * K_not0 m in
  if Req_EM_T f 0 then ck else sqrt (f ^ 2 + ck ^ 2).

(** 64-79 (bvecfft_from_qapamfft), 81-88 (bvecfft_from_uxuyetafft) *)
Definition bvec (s : vfield) : vfield :=
  let '(q, ap, am) := s in
  let c := sqrt c2 in
  (fun m => if first m then RtoC 0 else (- q m * RtoC c / RtoC (sigma m))%C,
   fun m => if first m then RtoC 0 else (ap m * RtoC (sqrt 2 * c2) / RtoC (sigma m * K_not0 m))%C,
   fun m => if first m then RtoC 0 else (am m * RtoC (sqrt 2 * c2) / RtoC (sigma m * K_not0 m))%C).
Definition bvec_of_fields (s : vfield) : vfield := bvec (qapamfft_from_uxuyetafft o f c2 s).

(** 90-111 (compute_qda_energies_fft, compute_qapam_energies_fft) *)
Definition energy (z : C) : R := 1 / 2 * cabs2 z.
Definition compute_qda_energies_fft (b : vfield) (m : mode) : R * R * R :=
  let '(b0, bp, bm) := b in
  (energy (b0 m), energy (RtoC (1 / 2) * (bp m - bm m))%C, energy (RtoC (1 / 2) * (bp m + bm m))%C).
Definition compute_qapam_energies_fft (b : vfield) (m : mode) : R * R * R :=
  let '(b0, bp, bm) := b in (energy (b0 m), energy (bp m), energy (bm m)).

(** 117-153 (qmat): row r, column j *)
Definition qmat (r j : nat) (m : mode) : C :=
  let c := sqrt c2 in
  let ck := c * K_not0 m in
  let s := sigma m in
  let kx := Kx o m in
  let ky := Ky o m in
  let den := RtoC (sqrt 2 * s * K_not0 m) in
  if first m then RtoC 0 else
  match r, j with
  | 0%nat, 0%nat => (- Ci * RtoC (sqrt 2 * ck * ky)) / den
  | 0%nat, 1%nat => (Ci * RtoC (f * ky) + RtoC (kx * s)) / den
  | 0%nat, _ => (Ci * RtoC (f * ky) - RtoC (kx * s)) / den
  | 1%nat, 0%nat => (Ci * RtoC (sqrt 2 * ck * kx)) / den
  | 1%nat, 1%nat => (- Ci * RtoC (f * kx) + RtoC (ky * s)) / den
  | 1%nat, _ => (- Ci * RtoC (f * kx) - RtoC (ky * s)) / den
  | _, 0%nat => RtoC (sqrt 2 * f * sqrt (K2_2d o m)) / den
  | _, _ => RtoC (c * K2_2d o m) / den
  end%C.

Inductive nvar := Ux | Uy | Eta.
Inductive deriv := NoD | Px | Py.
Definition row (v : nvar) : nat := match v with Ux => 0%nat | Uy => 1%nat | Eta => 2%nat end.

(** 155-198 (normalmodefft_from_keyfft): the contributions of the modes G, A and a to a variable or to one of its derivatives;
    div is px_ux + py_uy *)
Definition comp (b : vfield) (j : nat) : field := match j with 0%nat => fst (fst b) | 1%nat => snd (fst b) | _ => snd b end.
Definition normalmode (b : vfield) (d : deriv) (v : nvar) (j : nat) : field :=
  let a : field := fun m => (qmat (row v) j m * comp b j m)%C in
  let a : field := match d with NoD => a | Px => px_fft o a | Py => py_fft o a end in
  match v with Eta => fun m => (a m / RtoC (sqrt c2))%C | _ => a end.
Definition normalmode_div (b : vfield) (j : nat) : field := fadd (normalmode b Px Ux j) (normalmode b Py Uy j).
End Normal.

(** ** Groups *)

Definition dyad_group : list (string * list string) :=
  [("GG", ["GG"]); ("AG", ["GA"; "AG"]); ("aG", ["Ga"; "aG"]); ("AA", ["AA"; "Aa"; "aA"; "aa"])]%string.
Definition triad_group : list (string * list string) :=
  [("GGG", ["GGG"]);
   ("AGG", ["AGG"; "GAG"; "GGA"; "aGG"; "GaG"; "GGa"]);
   ("GAAs", ["aaG"; "aGa"; "Gaa"; "AAG"; "AGA"; "GAA"]);
   ("GAAd", ["aAG"; "AaG"; "aGA"; "AGa"; "GaA"; "GAa"]);
   ("AAA", ["AAA"; "aaa"; "AAa"; "AaA"; "aAA"; "aaA"; "aAa"; "Aaa"])]%string.

(** 211-232 (_group_matrix_using_dict): the elements of the matrix are given one after the other with their keys; [None]
    for KeyError *)
Definition find_group (groups : list (string * list string)) (k : string) : option string :=
  option_map fst (find (fun g => existsb (String.eqb k) (snd g)) groups).
Fixpoint add_to (d : list (string * C)) (k : string) (v : C) : list (string * C) :=
  match d with
  | [] => []
  | (k', x) :: d => if String.eqb k k' then (k', (x + v)%C) :: d else (k', x) :: add_to d k v
  end.
Fixpoint fill_groups (groups : list (string * list string)) (l : list (string * C)) (d : list (string * C)) : option (list (string * C)) :=
  match l with
  | [] => Some d
  | (k, v) :: l => match find_group groups k with None => None | Some g => fill_groups groups l (add_to d g v) end
  end.
Definition group_matrix (groups : list (string * list string)) (l : list (string * C)) : option (list (string * C)) :=
  fill_groups groups l (map (fun g => (fst g, RtoC 0)) groups).

(** outer products of two lists of modes: the keys are joined *)
Definition outer (l l' : list (string * C)) : list (string * C) :=
  flat_map (fun p => map (fun q => (append (fst p) (fst q), (snd p * snd q)%C)) l') l.
Definition keyed (v : nat -> C) : list (string * C) := [("G", v 0%nat); ("A", v 1%nat); ("a", v 2%nat)]%string.

(** 234-262 (dyad_from_keyfft) and 299-319 (triad_from_keyfft), for one mode; 264-297, 321-343 (dyad_from_keyphys, triad_from_keyfftphys)
    are the same with the products of the fields in physical space *)
Definition dyad (conjugate : bool) (n1 n2 : nat -> C) : option (list (string * C)) :=
  group_matrix dyad_group (outer (keyed (fun i => if conjugate then Cconj (n1 i) else n1 i)) (keyed n2)).
Definition triad (n1 n2 n3 : nat -> C) : option (list (string * C)) :=
  match dyad false n2 n3 with
  | None => None
  | Some d => group_matrix triad_group (outer (keyed (fun i => Cconj (n1 i))) d)
  end.
(** one matrix of products already made: element (i, j) *)
Definition triad_of_products (n1 : nat -> C) (p : nat -> nat -> C) : option (list (string * C)) :=
  match group_matrix dyad_group
    (flat_map (fun i => map (fun j => (append (fst i) (fst j), p (snd i) (snd j))) [("G", 0%nat); ("A", 1%nat); ("a", 2%nat)]%string)
       [("G", 0%nat); ("A", 1%nat); ("a", 2%nat)]%string) with
  | None => None
  | Some d => group_matrix triad_group (outer (keyed (fun i => Cconj (n1 i))) d)
  end.
