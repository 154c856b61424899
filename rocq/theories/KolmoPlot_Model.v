(** * The figure of the Kolmogorov law of sw1l

    fluidsim/solvers/sw1l/output/increments.py 44-52 (what is saved), 237-344 (plot_Kolmo).

    At one separation: the records between imin_plot and imax_plot are the lists of the three means of products of
    increments; exact numbers; r = rx * deltax.  A curve of the upper axes is the value at this separation (None: the
    separation is not drawn). *)

From Coq Require Import String List QArith Bool.
Import ListNotations.

(** one record: S_uL2JL, S_uT2JL, S_c2h2uL *)
Record saved := mkSaved { uL2JL : Q; uT2JL : Q; c2h2uL : Q; kolmo : Q }.
(** 46-50 *)
Definition save (a b c : Q) : saved := mkSaved a b c (a + b + c).

(** [imin_plot : imax_plot + 1].mean(0) *)
Definition mean (l : list Q) : Q := fold_right Qplus 0 l / inject_Z (Z.of_nat (length l)).
Definition average (f : saved -> Q) (l : list saved) : Q := mean (map f l).

(** 282 *)
Definition theo (r : Q) : Q := - (4) * r.

(** 297-320: the curves of the upper axes in their order, their style *)
Definition curves (l : list saved) (r deltax : Q) : list (string * option Q) :=
  let sK := average kolmo l in let sL := average uL2JL l in let sT := average uT2JL l in let sC := average c2h2uL l in
  [("k"%string, Some (sK / theo r)); ("r"%string, Some ((sL + sT) / theo r)); ("b"%string, Some (sC / theo r));
   ("r--"%string, Some (sL / theo r)); ("r-."%string, Some (sT / theo r)); ("y"%string, Some ((sL + sT + sC) / theo r));
   ("k cubic"%string, if negb (Qle_bool (6 * deltax) r) then Some (1 * (r * r * r) / theo r) else None);
   ("k:"%string, Some 1)].
(** 322: set_ylim *)
Definition ylim : Q * Q := (5 # 100, 15 # 10).

(** 334-344: the lower axes *)
Definition ylabel2 : string := "ratio S_ux3/S_uT2uL".
Definition ratio (l : list saved) : Q := average uL2JL l / average uT2JL l.
