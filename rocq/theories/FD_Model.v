(** * Finite differences: operators and implicit time step

    fluidsim/operators/op_finitediff1d.py, op_finitediff2d.py,
    fluidsim/base/time_stepping/finite_diff.py, fluidsim/solvers/ad1d/solver.py.

    Arrays are functions of the flat index; sparse matrices are lists of entries
    (row, column, value), entries at the same place being added (scipy).  Exact reals.
    The linear solver [spsolve] is external. *)

From Coq Require Import Reals List Arith String.
Import ListNotations.
Open Scope R_scope.

(** ** Sparse matrices *)

Definition entry : Type := nat * nat * R.
Definition matrix : Type := list entry.

Definition row (e : entry) : nat := fst (fst e).
Definition col (e : entry) : nat := snd (fst e).
Definition val (e : entry) : R := snd e.

(** matrix.dot(a) *)
Definition dot (A : matrix) (a : nat -> R) (i : nat) : R :=
  fold_right (fun e s => (if Nat.eqb (row e) i then val e * a (col e) else 0) + s) 0 A.

(** matrix * scalar, matrix / scalar, matrix + matrix, identity *)
Definition scale (c : R) (A : matrix) : matrix :=
  map (fun e => (row e, col e, c * val e)) A.
Definition mdiv (A : matrix) (c : R) : matrix :=
  map (fun e => (row e, col e, val e / c)) A.
Definition msub (A B : matrix) : matrix := A ++ scale (-1) B.
Definition identity (n : nat) : matrix := map (fun i => (i, i, 1)) (seq 0 n).

(** scipy.sparse.diags with constant diagonals: offset [+k] puts the value at (i, i + k) for
    i < n - k ; offset [-k] puts it at (i + k, i). *)
Inductive offset := Up (k : nat) | Down (k : nat).
Definition diag (n : nat) (v : R) (o : offset) : matrix :=
  match o with
  | Up k => map (fun i => (i, (i + k)%nat, v)) (seq 0 (n - k))
  | Down k => map (fun i => ((i + k)%nat, i, v)) (seq 0 (n - k))
  end.
Definition diags (n : nat) (l : list (R * offset)) : matrix :=
  flat_map (fun vo => diag n (fst vo) (snd vo)) l.

(** ** op_finitediff1d.py 23-41 *)
Definition deltax1 (Lx : R) (nx : nat) : R := Lx / INR nx.       (* operators/base.py 101 *)
Definition xs1 (Lx : R) (nx : nat) (i : nat) : R := deltax1 Lx nx * INR i.   (* 102 *)

Definition sparse_px_1d (nx : nat) (dx : R) : matrix :=
  mdiv (diags nx [(-1, Down 1); (1, Up 1); (-1, Up (nx - 1)); (1, Down (nx - 1))]) (2 * dx).

Definition sparse_pxx_1d (nx : nat) (dx : R) : matrix :=
  mdiv (diags nx [(1, Down 1); (-2, Up 0); (1, Up 1); (1, Up (nx - 1)); (1, Down (nx - 1))])
       (dx ^ 2).

(** ** op_finitediff2d.py 26-118 *)
Inductive result (A : Type) := Ok (a : A) | NameError (name : string).
Arguments Ok {A} a. Arguments NameError {A} name.

(** names bound at the top of the module op_finitediff2d.py (lines 12-14) *)
Definition module_names_2d : list string :=
  ["np"%string; "OperatorFiniteDiff1DPeriodic"%string].
(** the same for op_finitediff1d.py (lines 12-19) *)
Definition module_names_1d : list string :=
  ["np"%string; "sparse"%string; "OperatorsBase1D"%string].

Definition lookup (names : list string) (x : string) : bool :=
  existsb (String.eqb x) names.

(** lines 105-118: the entries given to coo_matrix by _create_sparse *)
Definition sparse_entries (size : nat) (values : list R) (func : nat -> nat -> nat) : matrix :=
  flat_map (fun i0 => map (fun iv => (i0, func i0 iv, nth iv values 0)) (seq 0 (List.length values)))
           (seq 0 size).

(** _create_sparse, with the lookup of the global name [sparse] *)
Definition create_sparse (names : list string) (size : nat) (values : list R)
  (func : nat -> nat -> nat) : result matrix :=
  if lookup names "sparse"%string then Ok (sparse_entries size values func)
  else NameError "sparse"%string.

(** (x - 1) % n of Python for 0 <= x: never negative *)
Definition pred_mod (x n : nat) : nat := (x + (n - 1)) mod n.

Definition func_px (nx : nat) (i iv : nat) : nat :=
  let i1 := (i mod nx)%nat in let i0 := (i / nx)%nat in
  match iv with
  | 0%nat => i0 * nx + (i1 + 1) mod nx
  | _ => i0 * nx + pred_mod i1 nx
  end.
Definition func_pxx (nx : nat) (i iv : nat) : nat :=
  let i1 := (i mod nx)%nat in let i0 := (i / nx)%nat in
  match iv with
  | 0%nat => i
  | 1%nat => i0 * nx + (i1 + 1) mod nx
  | _ => i0 * nx + pred_mod i1 nx
  end.
(** ((i0 + 1) * nx) % size + i1 and ((i0 - 1) * nx) % size + i1 *)
Definition func_py (nx size : nat) (i iv : nat) : nat :=
  let i1 := (i mod nx)%nat in let i0 := (i / nx)%nat in
  match iv with
  | 0%nat => ((i0 + 1) * nx) mod size + i1
  | _ => (i0 * nx + (size - nx)) mod size + i1
  end.
Definition func_pyy (nx size : nat) (i iv : nat) : nat :=
  let i1 := (i mod nx)%nat in let i0 := (i / nx)%nat in
  match iv with
  | 0%nat => i
  | 1%nat => ((i0 + 1) * nx) mod size + i1
  | _ => (i0 * nx + (size - nx)) mod size + i1
  end.

Record oper2d := mkOper2d { px2 : matrix; pxx2 : matrix; py2 : matrix; pyy2 : matrix }.

(** __init__ (lines 26-103), sequential: the first NameError stops it *)
Definition init_2d (names : list string) (nx ny : nat) (Lx Ly : R) : result oper2d :=
  let dx := Lx / INR nx in
  let dy := Ly / INR ny in
  let size := (nx * ny)%nat in
  match create_sparse names size (map (fun v => v / (2 * dx)) [1; -1]) (func_px nx) with
  | NameError e => NameError e
  | Ok a =>
  match create_sparse names size (map (fun v => v / dx ^ 2) [-2; 1; 1]) (func_pxx nx) with
  | NameError e => NameError e
  | Ok b =>
  match create_sparse names size (map (fun v => v / (2 * dy)) [1; -1]) (func_py nx size) with
  | NameError e => NameError e
  | Ok c =>
  (* line 102: the values of pyy are divided by dx**2 *)
  match create_sparse names size (map (fun v => v / dx ^ 2) [-2; 1; 1]) (func_pyy nx size) with
  | NameError e => NameError e
  | Ok d => Ok {| px2 := a; pxx2 := b; py2 := c; pyy2 := d |}
  end end end end.

(** line 50: np.linspace(0, Lx, nx) *)
Definition xs2 (Lx : R) (nx : nat) (i : nat) : R := INR i * (Lx / INR (nx - 1)).

(** ** Time step: finite_diff.py 96-137 *)

(** right_hand_side(S, N, dt) *)
Definition right_hand_side (L : matrix) (S N : nat -> R) (dt : R) (i : nat) : R :=
  S i + dt / 2 * dot L S i + dt * N i.

(** lines 119-125: _time_step_RK2; [spsolve A b] is the external solver *)
Definition time_step_RK2 (spsolve : matrix -> (nat -> R) -> (nat -> R)) (n : nat) (L : matrix)
  (tendencies_nonlin : (nat -> R) -> (nat -> R)) (dt : R) (S : nat -> R) : nat -> R :=
  let tendenciesNL_0 := tendencies_nonlin S in
  let rhs_A1dt := right_hand_side L S tendenciesNL_0 dt in
  let A_A1dt := msub (identity n) (scale (dt / 2) L) in
  spsolve A_A1dt rhs_A1dt.

(** ** ad1d: solvers/ad1d/solver.py 79-85: linear_operator *)
Definition linear_operator_ad1d (nu_2 U : R) (nx : nat) (dx : R) : matrix :=
  msub (scale nu_2 (sparse_pxx_1d nx dx)) (scale U (sparse_px_1d nx dx)).
