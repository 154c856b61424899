(** * Figures of the correlations of frequencies of plate2d
    (solvers/plate2d/output/correlations_freq.py 388-434 (the norm), 520-565, 590-605 and 705-741) and filters of the
    benchmarks (util/console/bench_analysis.py 42-70)

    Simplifications: exact numbers; the arrays are functions of the indices with their size; a mean without element
    (nan) is None. *)

From Coq Require Import List Arith ZArith Reals Bool.
From Coquelicot Require Import Complex.
From Verif Require Import DFT Correl_Model.
Import ListNotations.
Local Open Scope nat_scope.

(** the indices of a slice lo:hi of an axis of size n, lo >= 0 *)
Definition slice (lo hi n : nat) : list nat := seq lo (Nat.min hi n - lo).

(** np.abs(np.mean(corr4[i1, lo:hi, lo:hi])) *)
Definition abs_mean (corr4 : nat -> nat -> C) (nb lo hi : nat) : option R :=
  match slice lo hi nb with
  | [] => None
  | l => Some (Cmod (lsum l (fun io3 => lsum l (corr4 io3)) / RtoC (INR (length l * length l)))%C)
  end.

(** 520-543: _compute_norm_pick_corr4_from_corr4, for one number of means *)
Definition norm_pick (corr4 : nat -> nat -> C) (nb_omegas io1 delta_io : nat) : option R :=
  let io3 := 4 * io1 in
  let delta := Nat.min delta_io io3 in
  abs_mean corr4 nb_omegas (io3 - delta) (io3 + delta + 1).

(** 554-565: _compute_dnormpickC4_over_dnbmean; the lists are the values for the numbers of means of the file *)
Fixpoint diff (l : list R) : list R :=
  match l with x :: ((y :: _) as l') => (y - x)%R :: diff l' | _ => [] end.
Fixpoint zip4 (f : R -> R -> R -> R -> R) (a b c d : list R) : list R :=
  match a, b, c, d with x :: a', y :: b', z :: c', t :: d' => f x y z t :: zip4 f a' b' c' d' | _, _, _, _ => [] end.
Definition dnormpick (nb_means fcorr4 : list R) : list R :=
  zip4 (fun df dn n f => Rabs (df / dn * n / f)) (diff fcorr4) (diff nb_means) (tl nb_means) (tl fcorr4).

(** 716-728: the value of plot_convergence2 for one frequency and one number of means; zeros of np.zeros otherwise *)
Definition ws : nat := 10.
Definition f_conv (corr4 : nat -> nat -> C) (nb_omegas io1 : nat) : option R :=
  if (2 * io1 + ws <? nb_omegas) && (Z.of_nat io1 <? 2 * Z.of_nat io1 - Z.of_nat ws)%Z
  then abs_mean corr4 nb_omegas (2 * io1 - ws) (2 * io1 + ws + 1)
  else Some 0%R.
(** 737-741: the drawn values of one frequency (the condition of 733-734 is for all the frequencies) *)
Definition normalised (values : list R) : list R :=
  let norm := last values 0%R in
  if Req_EM_T norm 0 then values else map (fun v => (v / norm)%R) values.

(** 595-605: plot_corr2 *)
Definition corr2_norm (corr2 : nat -> nat -> C) (io3 io4 : nat) : C :=
  let low a b := (corr2 a b / RtoC (sqrt (Cmod (corr2 a a * corr2 b b))))%C in
  if io4 <=? io3 then low io3 io4 else Cconj (low io4 io3).

(** 405-421: the norm of compute_corr4_norm *)
Definition norm4 (corr2 : nat -> nat -> C) (nb_omegas io1 io3 io4 : nat) : R :=
  let low a b :=
    let io2 := fst (index2 nb_omegas io1 a b) in
    sqrt (Cmod (corr2 io1 io1 * corr2 a a * corr2 b b * corr2 io2 io2)%C) in
  if io4 <=? io3 then low io3 io4 else low io4 io3.

(** ** bench_analysis.py: a result is its shape (None: the column has no value, nan) and its local shape *)
Record result := mkResult { n0 : Z; n1 : Z; n2 : option Z; n0_loc : Z; n1_loc : Z; n2_loc : option Z }.
Definition eq_opt (a : option Z) (b : Z) : bool := match a with Some x => (x =? b)%Z | None => false end.

(** 42-51 *)
Definition filter_by_shape (df : list result) (m0 m1 : Z) (m2 : option Z) : list result :=
  match m2 with
  | None => filter (fun r => ((n0 r =? m0) && (n1 r =? m1))%Z) df
  | Some m2 => filter (fun r => ((n0 r =? m0) && (n1 r =? m1))%Z && eq_opt (n2 r) m2) df
  end.

(** 54-70 *)
Definition filter_by_shapeloc (df : list result) (m0 m1 : Z) (m2 : option Z) : list result :=
  match m2 with
  | None => filter (fun r => (n0_loc r * n1_loc r =? m0 * m1)%Z) df
  | Some m2 => filter (fun r => eq_opt (option_map (fun x => (n0_loc r * n1_loc r * x)%Z) (n2_loc r)) (m0 * m1 * m2)) df
  end.
