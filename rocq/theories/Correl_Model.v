(** The correlations of frequencies of plate2d.
    Source: solvers/plate2d/output/correlations_freq.py l.26-146 (compute_correl4, compute_correl2), l.296-324 (mean over the windows
    and saving), l.207-218 (restart), l.388-434 (compute_corr4_norm) and l.641-660 (plot_corr4: the subplots).
    Simplifications: exact numbers (in particular log2); the arrays are functions of the indices; the transform in time is external:
    q ix io is its value at the point ix and the frequency io. *)
From Coq Require Import List ZArith Reals Bool Arith.
From Coquelicot Require Import Complex.
From Verif Require Import DFT.
Import ListNotations.
Local Open Scope C_scope.

(** l.57-90: the frequency io2 and whether the conjugate is taken *)
Definition index2 (nb_omegas io1 io3 io4 : nat) : nat * bool :=
  let io2 := (Z.of_nat io3 + Z.of_nat io4 - Z.of_nat io1)%Z in
  if (io2 <? 0)%Z then (Z.to_nat (- io2), true)
  else if (Z.of_nat nb_omegas <=? io2)%Z then (Z.to_nat (2 * Z.of_nat nb_omegas - 1 - io2), true)
  else (Z.to_nat io2, false).
Definition entry4 (q : nat -> nat -> C) (nx nb_omegas io1 io3 io4 : nat) : C :=
  let (io2, conj) := index2 nb_omegas io1 io3 io4 in
  nsum nx (fun ix => q ix io1 * Cconj (q ix io3) * Cconj (q ix io4) * (if conj then Cconj (q ix io2) else q ix io2)).
(** the loops io4 <= io3 and the symmetry *)
Definition correl4_seq (q : nat -> nat -> C) (nx nb_omegas io1 io3 io4 : nat) : C :=
  if (io4 <=? io3)%nat then entry4 q nx nb_omegas io1 io3 io4 else entry4 q nx nb_omegas io1 io4 io3.
(** l.98-122 *)
Definition correl2_seq (q : nat -> nat -> C) (nx io3 io4 : nat) : C :=
  if (io4 <=? io3)%nat then nsum nx (fun ix => q ix io3 * Cconj (q ix io4)) else Cconj (nsum nx (fun ix => q ix io4 * Cconj (q ix io3))).
(** l.125-146 and 198-203: the processes have each their points; the sum is divided by the number of points *)
Definition process := (nat * (nat -> nat -> C))%type.
Definition nb_xs_seq (ps : list process) : nat := fold_right (fun p s => (fst p + s)%nat) 0%nat ps.
Definition correl4 (ps : list process) (nb_omegas io1 io3 io4 : nat) : C :=
  lsum ps (fun p => correl4_seq (snd p) (fst p) nb_omegas io1 io3 io4) / RtoC (INR (nb_xs_seq ps)).
Definition correl2 (ps : list process) (io3 io4 : nat) : C :=
  lsum ps (fun p => correl2_seq (snd p) (fst p) io3 io4) / RtoC (INR (nb_xs_seq ps)).

(** ** l.225-243: the check of omega_1: None is the ValueError *)
Definition omegas (nb_times : nat) (dt_output : R) (io : nat) : R := (2 * PI / (INR nb_times * dt_output) * INR io)%R.
Definition omega_Nyquist (dt_output : R) : R := (PI / dt_output)%R.
Definition checked (nb_times : nat) (dt_output : R) (iomegas1 : list nat) : option (nat -> R) :=
  if Rle_dec (omega_Nyquist dt_output) (2 * PI / (INR nb_times * dt_output) * INR (list_max iomegas1)) then None else Some (omegas nb_times dt_output).

(** ** l.302-324: the mean over the windows, for one element of the arrays, and the saved values *)
Definition has_to_save (nb : nat) : bool :=
  (((Nat.modulo nb 128 =? 0) || (nb =? 2 ^ Nat.log2 nb)) && negb (nb =? 1))%nat.
Record means := { corr : C; nb_means : nat; saved : list (C * nat) }.
Definition new_window (m : means) (new : C) : means :=
  let c := RtoC (1 / INR (nb_means m + 1)%nat)%R * (RtoC (INR (nb_means m)) * corr m + new) in
  let n := (nb_means m + 1)%nat in
  {| corr := c; nb_means := n; saved := if has_to_save n then saved m ++ [(c, n)] else saved m |}.
Definition run (m : means) (windows : list C) : means := fold_left new_window windows m.
Definition first_run : means := {| corr := RtoC 0; nb_means := 0%nat; saved := [] |}.
(** l.207-216: the file exists if something has been saved *)
Definition restart (file : list (C * nat)) : means :=
  match rev file with
  | [] => {| corr := RtoC 0; nb_means := 0%nat; saved := file |}
  | (c, n) :: _ => {| corr := c; nb_means := n; saved := file |}
  end.

(** ** l.388-434: the part of the correlations which is subtracted, for io4 <= io3 *)
Definition tmp12 (corr2 : nat -> nat -> C) (nb_omegas io1 io3 io4 : nat) : C * C :=
  let io2 := fst (index2 nb_omegas io1 io3 io4) in
  (Cconj (corr2 io4 io2) * corr2 io1 io3, corr2 io1 io4 * Cconj (corr2 io3 io2)).
Definition cumulant (corr4 : nat -> nat -> C) (corr2 : nat -> nat -> C) (nb_omegas io1 io3 io4 : nat) : C :=
  let '(a, b) := if (io4 <=? io3)%nat then (io3, io4) else (io4, io3) in
  let (t1, t2) := tmp12 corr2 nb_omegas io1 a b in
  corr4 a b - t1 - t2.

(** ** l.656-657: the subplots: int(sqrt(n)) and int(round(n / vert)), rounding half to even *)
Local Open Scope nat_scope.
Definition round_div (n d : nat) : nat :=
  let q := n / d in
  let r := 2 * (n mod d) in
  if r <? d then q else if d <? r then q + 1 else if Nat.even q then q else q + 1.
Definition subplots (nb : nat) : nat * nat := let vert := Nat.sqrt nb in (vert, round_div nb vert).
