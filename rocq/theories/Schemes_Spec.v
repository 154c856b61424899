(** * Time schemes: the documented formulas

    Independent of the buffers, caches and kernels of the code.  An equation
    dS/dt = sigma S + N(S) is advanced by dt; the formulas are those of the
    docstrings of pseudo_spect.py (lines 245-890) and simple.py. *)

From Coq Require Import Reals List.
From Coquelicot Require Import Complex.
From Verif Require Import CExp.
Import ListNotations.
Open Scope C_scope.

Section Doc.

Variable I : Type.
Variable N : (I -> C) -> (I -> C).
Variable sigma : I -> C.
Variable dt : R.

(** e^{sigma dt} and e^{sigma dt/2} *)
Definition E (i : I) : C := cexp (sigma i * RtoC dt).
Definition E2 (i : I) : C := cexp (sigma i * RtoC (dt / 2)).

(** e^{-i phi} N(e^{i phi} S) *)
Definition N_shift (phi : I -> R) (S : I -> C) (i : I) : C :=
  cexp (0, - phi i)%R * N (fun j => cexp (0, phi j)%R * S j) i.

Definition mean (a b : I -> C) (i : I) : C := (a i + b i) / RtoC 2.

(** (S + h T) e^{sigma dt} *)
Definition euler_to (h : R) (S T e : I -> C) (i : I) : C := (S i + RtoC h * T i) * e i.

(** S_0 e^{sigma dt} + dt T e^{sigma dt/2} *)
Definition rk2_final (S0 T : I -> C) (i : I) : C :=
  S0 i * E i + RtoC dt * T i * E2 i.

Definition doc_Euler (S0 : I -> C) : I -> C := euler_to dt S0 (N S0) E.

Definition doc_Euler_phaseshift (phi : I -> R) (S0 : I -> C) : I -> C :=
  euler_to dt S0 (mean (N S0) (N_shift phi S0)) E.

Definition doc_Euler_phaseshift_random (pa pb : I -> R) (S0 : I -> C) : I -> C :=
  euler_to dt S0 (mean (N_shift pa S0) (N_shift pb S0)) E.

Definition doc_RK2 (S0 : I -> C) : I -> C :=
  let S1 := euler_to (dt / 2) S0 (N S0) E2 in
  rk2_final S0 (N S1).

Definition doc_RK2_trapezoid (S0 : I -> C) : I -> C :=
  let S1 := euler_to dt S0 (N S0) E in
  fun i => S0 i * E i + RtoC (dt / 2) * (N S0 i * E i + N S1 i).

Definition doc_RK2_phaseshift (phi : I -> R) (S0 : I -> C) : I -> C :=
  let S1 := euler_to dt S0 (N S0) E in
  rk2_final S0 (mean (N S0) (N_shift phi S1)).

Definition doc_RK2_phaseshift_random (pa pb : I -> R) (S0 : I -> C) : I -> C :=
  let N0a := N_shift pa S0 in
  let S1 := euler_to dt S0 N0a E in
  rk2_final S0 (mean N0a (N_shift pb S1)).

Definition doc_RK2_phaseshift_exact (phi : I -> R) (S0 : I -> C) : I -> C :=
  let Nd0 := mean (N S0) (N_shift phi S0) in
  let S1 := euler_to dt S0 Nd0 E in
  let Nd1 := mean (N S1) (N_shift phi S1) in
  rk2_final S0 (mean Nd0 Nd1).

Definition doc_RK4 (S0 : I -> C) : I -> C :=
  let SA1 := euler_to (dt / 2) S0 (N S0) E2 in
  let SA2 := fun i => S0 i * E2 i + N SA1 i * RtoC (dt / 2) in
  let SA3 := fun i => S0 i * E i + N SA2 i * E2 i * RtoC dt in
  fun i => S0 i * E i + RtoC (dt / 3) *
     (N S0 i * E i / RtoC 2 + N SA1 i * E2 i + N SA2 i * E2 i + N SA3 i / RtoC 2).

(** The pondered average of the four approximations, as in the docstring of
    _time_step_RK4. *)
Definition doc_RK4_average (S0 : I -> C) : I -> C :=
  let SA1h := euler_to (dt / 2) S0 (N S0) E2 in
  let SA1 := euler_to dt S0 (N S0) E in
  let SA2h := fun i => S0 i * E2 i + N SA1h i * RtoC (dt / 2) in
  let SA2 := fun i => S0 i * E i + N SA1h i * E2 i * RtoC dt in
  let SA3 := fun i => S0 i * E i + N SA2h i * E2 i * RtoC dt in
  let SA4 := fun i => S0 i * E i + N SA3 i * RtoC dt in
  fun i => RtoC (1/3) * (RtoC (1/2) * SA1 i + SA2 i + SA3 i + RtoC (1/2) * SA4 i).

End Doc.

(** The time steps of the schemes by name; [phi] is the fixed phase, [pa] and [pb]
    the random phases. *)
Inductive doc_scheme : Set :=
  | D_Euler | D_Euler_phaseshift | D_Euler_phaseshift_random | D_RK2 | D_RK2_trapezoid
  | D_RK2_phaseshift | D_RK2_phaseshift_random | D_RK2_phaseshift_exact | D_RK4.

Definition doc_step (I : Type) (N : (I -> C) -> (I -> C)) (sigma : I -> C)
  (sch : doc_scheme) (dt : R) (phi pa pb : I -> R) : (I -> C) -> (I -> C) :=
  match sch with
  | D_Euler => doc_Euler I N sigma dt
  | D_Euler_phaseshift => doc_Euler_phaseshift I N sigma dt phi
  | D_Euler_phaseshift_random => doc_Euler_phaseshift_random I N sigma dt pa pb
  | D_RK2 => doc_RK2 I N sigma dt
  | D_RK2_trapezoid => doc_RK2_trapezoid I N sigma dt
  | D_RK2_phaseshift => doc_RK2_phaseshift I N sigma dt phi
  | D_RK2_phaseshift_random => doc_RK2_phaseshift_random I N sigma dt pa pb
  | D_RK2_phaseshift_exact => doc_RK2_phaseshift_exact I N sigma dt phi
  | D_RK4 => doc_RK4 I N sigma dt
  end.

(** Several steps, each followed by the truncation of the modes in [mask]. *)
Fixpoint doc_run (I : Type) (N : (I -> C) -> (I -> C)) (sigma : I -> C)
  (sch : doc_scheme) (mask : I -> bool) (phi : I -> R)
  (steps : list (R * ((I -> R) * (I -> R)))) (S0 : I -> C) : I -> C :=
  match steps with
  | [] => S0
  | (dt, (pa, pb)) :: steps' =>
      doc_run I N sigma sch mask phi steps'
        (fun i => if mask i then RtoC 0
                  else doc_step I N sigma sch dt phi pa pb S0 i)
  end.

(** The order of accuracy announced by the name of the scheme. *)
Definition doc_order (sch : doc_scheme) : nat :=
  match sch with
  | D_Euler | D_Euler_phaseshift | D_Euler_phaseshift_random => 1
  | D_RK4 => 4
  | _ => 2
  end.

(** The classical Runge-Kutta methods (Butcher tableaux with explicit stages) for
    dv/dt = F(t, v): stage k uses the row [a] of coefficients of the previous
    slopes, its time c is the sum of the row; [b] are the final weights. *)
Section Classical.

Variable I : Type.
Variable F : R -> (I -> C) -> (I -> C).

Fixpoint comb (row : list R) (ks : list (I -> C)) (i : I) : C :=
  match row, ks with
  | a :: row', k :: ks' => RtoC a * k i + comb row' ks' i
  | _, _ => RtoC 0
  end.

Definition rsum (l : list R) : R := fold_right Rplus 0%R l.

(** [ks]: slopes already computed, in order. *)
Fixpoint slopes (A : list (list R)) (dt : R) (v : I -> C) (ks : list (I -> C)) :
  list (I -> C) :=
  match A with
  | [] => ks
  | row :: A' =>
      let k := F (rsum row * dt) (fun i => v i + RtoC dt * comb row ks i) in
      slopes A' dt v (ks ++ [k])
  end.

Definition rk_step (A : list (list R)) (b : list R) (dt : R) (v : I -> C) : I -> C :=
  fun i => v i + RtoC dt * comb b (slopes A dt v []) i.

End Classical.

(** The tableaux. *)
Definition A_euler : list (list R) := [[]].
Definition b_euler : list R := [1%R].
Definition A_midpoint : list (list R) := [[]; [1/2]]%R.
Definition b_midpoint : list R := [0; 1]%R.
Definition A_heun : list (list R) := [[]; [1]]%R.
Definition b_heun : list R := [1/2; 1/2]%R.
Definition A_rk4 : list (list R) := [[]; [1/2]; [0; 1/2]; [0; 0; 1]]%R.
Definition b_rk4 : list R := [1/6; 1/3; 1/3; 1/6]%R.

(** Order conditions of Butcher for tableaux whose slopes are numbered from 0. *)
Section Order.
Variable A : list (list R).
Variable b : list R.
Definition aij (i j : nat) : R := nth j (nth i A []) 0%R.
Definition bi (i : nat) : R := nth i b 0%R.
Definition ci (i : nat) : R := rsum (nth i A []).
Definition Sum (f : nat -> R) : R := rsum (map f (seq 0 (length A))).

Definition order1 : Prop := Sum bi = 1%R.
Definition order2 : Prop := order1 /\ Sum (fun i => bi i * ci i)%R = (1/2)%R.
Definition order3 : Prop := order2 /\
  Sum (fun i => bi i * (ci i * ci i))%R = (1/3)%R /\
  Sum (fun i => bi i * Sum (fun j => aij i j * ci j))%R = (1/6)%R.
Definition order4 : Prop := order3 /\
  Sum (fun i => bi i * (ci i * ci i * ci i))%R = (1/4)%R /\
  Sum (fun i => bi i * ci i * Sum (fun j => aij i j * ci j))%R = (1/8)%R /\
  Sum (fun i => bi i * Sum (fun j => aij i j * (ci j * ci j)))%R = (1/12)%R /\
  Sum (fun i => bi i * Sum (fun j => aij i j * Sum (fun k => aij j k * ci k)))%R = (1/24)%R.
End Order.
