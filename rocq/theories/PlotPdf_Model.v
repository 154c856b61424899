(** * plot_pdf of the increments

    fluidsim/base/output/increments.py 427-463.

    Exact reals: np.arange(0, n, n / nb).astype(int) is the list of the integer parts of the nb values k n / nb (the rounding
    of the floats is not modelled here: see PlotPdfFloat_Model for a case where there is one more value).  [load irx] is the averaged pdf of
    load_pdf_from_file for the index irx: the list of the pairs (value of the increment, pdf).  The texts are not modelled. *)

From Coq Require Import Reals List Arith.
Import ListNotations.
Local Open Scope R_scope.

(** ZeroDivisionErr: nb_rx_to_plot = 0, ValueErr: no separation (arange with a step 0), IndexErr: no more colors *)
Inductive error := ZeroDivisionErr | ValueErr | IndexErr.

Inductive color := K | Y | Rd | B | G | M | C.
(** 454 *)
Definition colors : list color := [K; Y; Rd; B; G; M; C].

(** 428-431: n is rxs.size *)
Definition irx_to_plot (n nb : nat) : list nat + error :=
  if (nb =? 0)%nat then inr ZeroDivisionErr
  else if (n =? 0)%nat then inr ValueErr
  else inl (map (fun k => (k * n / nb)%nat) (seq 0 nb)).

Record curve := mkCurve { col : color; irx : nat; points : list (R * R) }.

Section Plot.
Variable load : nat -> list (R * R).

(** 456-463 *)
Definition draw (order : nat) (i : nat) : list (R * R) := map (fun vp => (fst vp, snd vp * fst vp ^ order)) (load i).
Fixpoint loop (order irxp : nat) (l : list nat) : list curve + error :=
  match l with
  | [] => inl []
  | i :: r =>
      match nth_error colors irxp with
      | None => inr IndexErr
      | Some c => match loop order (S irxp) r with inl cs => inl (mkCurve c i (draw order i) :: cs) | inr e => inr e end
      end
  end.

Definition plot_pdf (n order nb : nat) : list curve + error :=
  match irx_to_plot n nb with inr e => inr e | inl l => loop order 0 l end.
End Plot.
