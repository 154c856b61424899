(** * Initial grid of vortices of sw1l *)

(** fluidsim/solvers/sw1l/init_fields.py 100-158 (InitFieldsVortexGrid.vortex_grid_shape and _random_plus_minus_list).
    Simplifications: exact numbers; one process; np.random.shuffle is a function [shuffle] of lists. *)
From Coq Require Import List Reals Arith.
Import ListNotations.
Local Open Scope R_scope.

Section Grid.
Variable shuffle : list R -> list R.

(** 142-158: pm = np.ones(N); pm[::2] = -1; shuffle *)
Definition plus_minus (n : nat) : list R := map (fun i => if Nat.even i then -1 else 1) (seq 0 n).
Definition random_plus_minus_list (n_vort : nat) : list R := shuffle (plus_minus (n_vort * n_vort)).

Inductive result (A : Type) := Ok (a : A) | ValueError.
Arguments Ok {A} _.
Arguments ValueError {A}.

(** np.linspace(0, L, n + 1)[i] + L / n / 2 *)
Definition centre (L : R) (n i : nat) : R := INR i * (L / INR n) + L / INR n / 2.

(** 124-126: wz_gaussian *)
Definition wz_gaussian (amp SD x y sign : R) : R := sign * amp * exp (- (x ^ 2 + y ^ 2) / (2 * SD ^ 2)).

(** 119-121 *)
Definition sd_value (Lx Ly : R) (n : nat) (sd : option R) : R :=
  match sd with Some s => s | None => Rmin (Lx / INR n) (Ly / INR n) / 12 end.

(** 128-135: the loops over i and j *)
Definition omega (Lx Ly amp SD : R) (n : nat) (sign_list : list R) (x y : R) : R :=
  fold_left (fun om i =>
    fold_left (fun om' j => om' + wz_gaussian amp SD (x - centre Lx n i) (y - centre Ly n j) (nth (i * n + j) sign_list 0))
      (seq 0 n) om)
    (seq 0 n) 0.

(** the vorticity as a function of the position *)
Definition vortex_grid_shape (Lx Ly amp : R) (n_vort : nat) (sd : option R) : result (R -> R -> R) :=
  if Nat.odd n_vort then ValueError
  else Ok (omega Lx Ly amp (sd_value Lx Ly n_vort sd) n_vort (random_plus_minus_list n_vort)).
End Grid.
Arguments Ok {A} _.
Arguments ValueError {A}.
