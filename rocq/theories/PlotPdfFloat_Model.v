(** * plot_pdf of the increments: the separations in double precision

    fluidsim/base/output/increments.py 427-431 and 384-393.

    binary64 of Flocq as in Float64_Model.  np.arange(0, n, step) has ceil(n / step) values, which are the rounded i step
    (_arange_safe_ceil_to_intp and the fill function of numpy). *)

From Coq Require Import ZArith List.
From Flocq Require Import Core.Core IEEE754.BinarySingleNaN.
From Verif Require Import Float64_Model.
Import ListNotations.

(** a size as a float *)
Definition of_nat (n : nat) : float := binary_normalize prec emax prec_pos prec_emax mode_NE (Z.of_nat n) 0 false.

(** ceil and astype(int) of a float >= 0 *)
Definition ceil_nat (x : float) : nat :=
  match B2SF x with
  | SpecFloat.S754_finite false m e => Z.to_nat (- ((- (Zpos m * 2 ^ Z.max e 0)) / 2 ^ Z.max (- e) 0))
  | _ => 0
  end.
Definition trunc_nat (x : float) : nat :=
  match B2SF x with
  | SpecFloat.S754_finite false m e => Z.to_nat ((Zpos m * 2 ^ Z.max e 0) / 2 ^ Z.max (- e) 0)
  | _ => 0
  end.

(** 428-431 *)
Definition irx_float (n nb : nat) : list nat :=
  let step := Bdiv mode_NE (of_nat n) (of_nat nb) in
  map (fun i => trunc_nat (Bmult mode_NE (of_nat i) step)) (seq 0 (ceil_nat (Bdiv mode_NE (of_nat n) step))).

(** 390-393 (load_pdf_from_file): valmin[irx], where valmin has n values; None is IndexError *)
Fixpoint read (valmin : list nat) (l : list nat) : option (list nat) :=
  match l with
  | [] => Some []
  | i :: r => match nth_error valmin i, read valmin r with Some v, Some vs => Some (v :: vs) | _, _ => None end
  end.
