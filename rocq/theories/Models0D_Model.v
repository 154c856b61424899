(** * The models without space: predator-prey and Lorenz

    Exact real numbers; the state is a pair or a triple of numbers. [math.sqrt] of a negative number raises ValueError:
    [None]. Without forcing. *)

From Coq Require Import Reals.
Local Open Scope R_scope.

(** fluidsim/solvers/models0d/predaprey/solver.py 64-76: the parameters and the attributes Xs, Ys *)
Record pp_params := { pA : R; pB : R; pC : R; pD : R }.

Definition pp_default : pp_params := {| pA := 1; pB := 1; pC := 1; pD := 1 / 2 |}.

Definition pp_Xs (p : pp_params) : R := pC p / pD p.
Definition pp_Ys (p : pp_params) : R := pA p / pB p.

(** solver.py 118-119 (tendencies_nonlin) *)
Definition pp_tend (p : pp_params) (s : R * R) : R * R :=
  let X := fst s in let Y := snd s in
  (pA p * X - pB p * X * Y, - pC p * Y + pD p * X * Y).

(** fluidsim/solvers/models0d/predaprey/output/__init__.py 46-52 (compute_potential) *)
Definition pp_potential (p : pp_params) (s : R * R) : R :=
  pC p * ln (fst s) - pD p * fst s + pA p * ln (snd s) - pB p * snd s.

(** fluidsim/solvers/models0d/lorenz/solver.py 65-77: the parameters and the steady states *)
Record lz_params := { sigma : R; beta : R; rho : R }.

Definition lz_default : lz_params := {| sigma := 10; beta := 8 / 3; rho := 28 |}.

Definition math_sqrt (x : R) : option R := if Rlt_dec x 0 then None else Some (sqrt x).

(** (Xs0, Ys0, Zs0) and (Xs1, Ys1, Zs1); [None] when the constructor raises ValueError *)
Definition lz_steady (p : lz_params) : option ((R * R * R) * (R * R * R)) :=
  let Zs := rho p - 1 in
  match math_sqrt (beta p * Zs) with
  | None => None
  | Some Xs0 => Some ((Xs0, Xs0, Zs), (- Xs0, - Xs0, Zs))
  end.

(** solver.py 118-120 (tendencies_nonlin) *)
Definition lz_tend (p : lz_params) (s : R * R * R) : R * R * R :=
  let X := fst (fst s) in let Y := snd (fst s) in let Z := snd s in
  (sigma p * (Y - X), rho p * X - Y - X * Z, X * Y - beta p * Z).
