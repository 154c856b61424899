(** * Time schemes: model of fluidsim/base/time_stepping/pseudo_spect.py and simple.py

    The numpy arrays are functions from an index type [I] (variable and
    wavenumber) to complex numbers.  The arrays which are allocated once and
    written in place are cells of a store; every in-place numpy assignment is one
    [upd] of the store, so that aliasing between the buffers is visible.

    Simplifications: floating point numbers are exact complex/real numbers;
    broadcasting of [diss] and [phaseshift] over the variables is implicit (they are
    functions of the whole index); [compute_tendencies x] is an arbitrary
    function [N] of the content of the array [x], read completely before the
    output array is written (area InPlace studies this for each solver). *)

From Coq Require Import Reals List Lra.
From Coquelicot Require Import Complex.
From Verif Require Import CExp.
Import ListNotations.
Open Scope C_scope.

Section Schemes.

Variable I : Type.
Definition arr := I -> C.

(** ** Cache of the exact linear coefficients *)

(** pseudo_spect.py 103-118 and simple.py 18-35: the attributes of
    ExactLinearCoefs.  [use_cfl] is which method get_updated_coefs is. *)
Record coefs := mkCoefs {
  use_cfl : bool;
  dt_old : R;
  exact : arr;
  exact2 : arr
}.

(** pseudo_spect.py 120-141, simple.py 37-42: compute. *)
Definition coefs_compute (f_lin : arr) (dt : R) (c : coefs) : coefs :=
  {| use_cfl := use_cfl c;
     dt_old := dt;
     exact := (fun i => cexp (- RtoC dt * f_lin i));
     exact2 := (fun i => cexp (- RtoC (dt / 2) * f_lin i)) |}.

(** pseudo_spect.py 106-118, simple.py 21-35: __init__; [garbage] is the content of
    np.empty_like, [deltat] the value of time_stepping.deltat at that time. *)
Definition coefs_init (f_lin : arr) (USE_CFL : bool) (deltat : R)
  (garbage garbage2 : arr) : coefs :=
  let c := {| use_cfl := USE_CFL; dt_old := 0%R;
              exact := garbage; exact2 := garbage2 |} in
  if USE_CFL then c else coefs_compute f_lin deltat c.

(** pseudo_spect.py 143-152, simple.py 44-53: get_updated_coefs_CLF and get_coefs. *)
Definition get_updated_coefs (f_lin : arr) (deltat : R) (c : coefs) :
  coefs * (arr * arr) :=
  if use_cfl c then
    let c' := if Req_EM_T (dt_old c) deltat then c
              else coefs_compute f_lin deltat c in
    (c', (exact c', exact2 c'))
  else (c, (exact c, exact2 c)).

(** The calls for a history of values of deltat, with the returned coefficients. *)
Fixpoint get_coefs_history (f_lin : arr) (dts : list R) (c : coefs) :
  list (arr * arr) :=
  match dts with
  | [] => []
  | dt :: dts' =>
      let (c', r) := get_updated_coefs f_lin dt c in
      r :: get_coefs_history f_lin dts' c'
  end.

(** ** Buffers *)

(** The arrays used by the schemes: the state, the two permanent buffers
    (_state_spect_tmp, _state_spect_tmp1), the arrays allocated during the step by
    np.empty_like (tmp0..tmp3), and the arrays allocated by arithmetic
    expressions or by tendencies_nonlin called without old. *)
Inductive addr : Set :=
  | STATE | TMP | TMP1 | tmp0 | tmp1 | tmp2 | tmp3
  | NEW0 | NEW1 | NEW2 | NEW3 | NEW4.

Definition addr_num (a : addr) : nat :=
  match a with
  | STATE => 0 | TMP => 1 | TMP1 => 2 | tmp0 => 3 | tmp1 => 4 | tmp2 => 5 | tmp3 => 6
  | NEW0 => 7 | NEW1 => 8 | NEW2 => 9 | NEW3 => 10 | NEW4 => 11
  end.

Definition addr_eqb (a b : addr) : bool := Nat.eqb (addr_num a) (addr_num b).

Definition store := addr -> arr.

Definition upd (s : store) (a : addr) (v : arr) : store :=
  fun b => if addr_eqb a b then v else s b.

(** ** Kernels *)

(** pseudo_spect.py 51-56: step_Euler. *)
Definition step_Euler (state : addr) (dt : R) (tend : addr) (diss : arr)
  (output : addr) (s : store) : store :=
  upd s output (fun i => (s state i + RtoC dt * s tend i) * diss i).

(** pseudo_spect.py 59-61: step_Euler_inplace. *)
Definition step_Euler_inplace (state : addr) (dt : R) (tend : addr) (diss : arr)
  (s : store) : store :=
  step_Euler state dt tend diss state s.

(** pseudo_spect.py 64-68: step_like_RK2. *)
Definition step_like_RK2 (state : addr) (dt : R) (tend : addr)
  (diss diss2 : arr) (s : store) : store :=
  upd s state (fun i => s state i * diss i + RtoC dt * diss2 i * s tend i).

(** pseudo_spect.py 71-76: mean_with_phaseshift. *)
Definition mean_with_phaseshift (t0 t1shift : addr) (phaseshift : arr)
  (output : addr) (s : store) : store :=
  upd s output (fun i => RtoC (1/2) * (s t0 i + s t1shift i / phaseshift i)).

(** pseudo_spect.py 79-82: mul. *)
Definition mul (phaseshift : arr) (state output : addr) (s : store) : store :=
  upd s output (fun i => phaseshift i * s state i).

(** pseudo_spect.py 85-88: div_inplace. *)
Definition div_inplace (a : addr) (phaseshift : arr) (s : store) : store :=
  upd s a (fun i => s a i / phaseshift i).

Variable N : arr -> arr.

(** sim.tendencies_nonlin(state, old=out): the result is in [out].  Without [old] the
    caller gives an address that is used nowhere else.  Called without state, it uses
    sim.state (both state_spect and the corresponding state_phys). *)
Definition compute_tendencies (state out : addr) (s : store) : store :=
  upd s out (N (s state)).

Variable dt : R.
Variables diss diss2 : arr.

(** pseudo_spect.py 272-279: _time_step_Euler. *)
Definition time_step_Euler (s : store) : store :=
  let s := compute_tendencies STATE NEW0 s in
  step_Euler_inplace STATE dt NEW0 diss s.

(** pseudo_spect.py 404-419: _time_step_Euler_phaseshift. *)
Definition time_step_Euler_phaseshift (phaseshift : arr) (s : store) : store :=
  let s := compute_tendencies STATE NEW0 s in
  let s := upd s NEW1 (fun i => phaseshift i * s STATE i) in
  let s := compute_tendencies NEW1 NEW2 s in
  let s := upd s NEW2 (fun i => s NEW2 i / phaseshift i) in
  let s := upd s NEW3 (fun i => RtoC (1/2) * (s NEW0 i + s NEW2 i)) in
  step_Euler_inplace STATE dt NEW3 diss s.

(** pseudo_spect.py 451-467: _time_step_Euler_phaseshift_random; the pair of phase
    shifts is the result of _get_phaseshift_random. *)
Definition time_step_Euler_phaseshift_random (alpha beta : arr) (s : store) : store :=
  let s := upd s NEW0 (fun i => alpha i * s STATE i) in
  let s := compute_tendencies NEW0 NEW1 s in
  let s := upd s NEW1 (fun i => s NEW1 i / alpha i) in
  let s := upd s NEW2 (fun i => beta i * s STATE i) in
  let s := compute_tendencies NEW2 NEW3 s in
  let s := upd s NEW3 (fun i => s NEW3 i / beta i) in
  let s := upd s NEW4 (fun i => RtoC (1/2) * (s NEW1 i + s NEW3 i)) in
  step_Euler_inplace STATE dt NEW4 diss s.

(** pseudo_spect.py 503-517: _time_step_RK2. *)
Definition time_step_RK2 (s : store) : store :=
  let tendencies_0 := NEW0 in
  let s := compute_tendencies STATE tendencies_0 s in
  let s := step_Euler STATE (dt / 2) tendencies_0 diss2 TMP s in
  let s := compute_tendencies TMP tendencies_0 s in
  step_like_RK2 STATE dt tendencies_0 diss diss2 s.

(** pseudo_spect.py 554-569: _time_step_RK2_trapezoid. *)
Definition time_step_RK2_trapezoid (s : store) : store :=
  let s := compute_tendencies STATE NEW0 s in
  let s := step_Euler STATE dt NEW0 diss TMP s in
  let s := compute_tendencies TMP NEW1 s in
  upd s STATE (fun i => (s STATE i + RtoC (dt / 2) * s NEW0 i) * diss i
                        + RtoC (dt / 2) * s NEW1 i).

(** pseudo_spect.py 613-639: _time_step_RK2_phaseshift; state_spect_1 and
    tendencies_d are the same buffer. *)
Definition time_step_RK2_phaseshift (phaseshift : arr) (s : store) : store :=
  let s := compute_tendencies STATE NEW0 s in
  let state_spect_1 := TMP in
  let s := step_Euler STATE dt NEW0 diss state_spect_1 s in
  let s := upd s NEW1 (fun i => phaseshift i * s state_spect_1 i) in
  let s := compute_tendencies NEW1 NEW2 s in
  let tendencies_d := TMP in
  let s := upd s tendencies_d
             (fun i => RtoC (1/2) * (s NEW0 i + s NEW2 i / phaseshift i)) in
  step_like_RK2 STATE dt tendencies_d diss diss2 s.

(** pseudo_spect.py 678-710: _time_step_RK2_phaseshift_random; the tendencies are
    computed in the array which contains the state. *)
Definition time_step_RK2_phaseshift_random (alpha beta : arr) (s : store) : store :=
  let state_spect_shift := tmp0 in
  let s := mul alpha STATE state_spect_shift s in
  let tendencies_0 := state_spect_shift in
  let s := compute_tendencies state_spect_shift tendencies_0 s in
  let s := div_inplace tendencies_0 alpha s in
  let state_spect_1 := TMP in
  let s := step_Euler STATE dt tendencies_0 diss state_spect_1 s in
  let state_spect_1_shift := tmp1 in
  let s := mul beta state_spect_1 state_spect_1_shift s in
  let tendencies_1_shift := state_spect_1_shift in
  let s := compute_tendencies state_spect_1_shift tendencies_1_shift s in
  let tendencies_d := TMP in
  let s := mean_with_phaseshift tendencies_0 tendencies_1_shift beta tendencies_d s in
  step_like_RK2 STATE dt tendencies_d diss diss2 s.

(** pseudo_spect.py 751-796: _time_step_RK2_phaseshift_exact. *)
Definition time_step_RK2_phaseshift_exact (phaseshift : arr) (s : store) : store :=
  let s := compute_tendencies STATE tmp0 s in
  let s := mul phaseshift STATE tmp1 s in
  let s := compute_tendencies tmp1 tmp1 s in
  let s := mean_with_phaseshift tmp0 tmp1 phaseshift tmp2 s in
  let s := step_Euler STATE dt tmp2 diss TMP s in
  let s := compute_tendencies TMP tmp0 s in
  let s := mul phaseshift TMP tmp1 s in
  let s := compute_tendencies tmp1 tmp1 s in
  let s := upd s tmp3 (fun i => RtoC (1/2) *
              (s tmp2 i + RtoC (1/2) * (s tmp0 i + s tmp1 i / phaseshift i))) in
  step_like_RK2 STATE dt tmp3 diss diss2 s.

(** pseudo_spect.py 892-984: _time_step_RK4. *)
Definition time_step_RK4 (s : store) : store :=
  let tendencies := NEW0 in
  let s := compute_tendencies STATE tendencies s in
  (* rk4_step0 *)
  let s := step_Euler STATE (dt / 6) tendencies diss TMP s in
  let s := step_Euler STATE (dt / 2) tendencies diss2 TMP1 s in
  let s := compute_tendencies TMP1 tendencies s in
  (* rk4_step1 *)
  let s := upd s TMP (fun i => s TMP i + RtoC (dt / 3) * diss2 i * s tendencies i) in
  let s := upd s TMP1 (fun i => s STATE i * diss2 i + RtoC (dt / 2) * s tendencies i) in
  let s := compute_tendencies TMP1 tendencies s in
  (* rk4_step2 *)
  let s := upd s TMP (fun i => s TMP i + RtoC (dt / 3) * diss2 i * s tendencies i) in
  let s := upd s TMP1 (fun i => s STATE i * diss i
                                + RtoC dt * diss2 i * s tendencies i) in
  let s := compute_tendencies TMP1 tendencies s in
  (* rk4_step3 *)
  upd s STATE (fun i => s TMP i + RtoC (dt / 6) * s tendencies i).

(** simple.py 124-135: _time_step_RK2 (no buffer is written in place). *)
Definition simple_RK2 (S : arr) : arr :=
  let tendencies_n := N S in
  let state_phys_n12 := fun i => (S i + RtoC (dt / 2) * tendencies_n i) * diss2 i in
  let tendencies_phys_n12 := N state_phys_n12 in
  fun i => S i * diss i + RtoC dt * diss2 i * tendencies_phys_n12 i.

(** simple.py 231-266: _time_step_RK4. *)
Definition simple_RK4 (S : arr) : arr :=
  let t0 := N S in
  let temp := fun i => (S i + RtoC (dt / 6) * t0 i) * diss i in
  let approx1 := fun i => (S i + RtoC (dt / 2) * t0 i) * diss2 i in
  let t1 := N approx1 in
  let temp := fun i => temp i + RtoC (dt / 3) * diss2 i * t1 i in
  let approx2 := fun i => S i * diss2 i + RtoC (dt / 2) * t1 i in
  let t2 := N approx2 in
  let temp := fun i => temp i + RtoC (dt / 3) * diss2 i * t2 i in
  let approx3 := fun i => S i * diss i + RtoC dt * diss2 i * t2 i in
  let t3 := N approx3 in
  fun i => temp i + RtoC (dt / 6) * t3 i.

End Schemes.

(** ** One time step with the cache *)

(** The names of the schemes, pseudo_spect.py 199-219 (_init_time_scheme). *)
Inductive scheme : Set :=
  | Euler | Euler_phaseshift | Euler_phaseshift_random | RK2 | RK2_trapezoid
  | RK2_phaseshift | RK2_phaseshift_random | RK2_phaseshift_exact | RK4.

Section OneStep.

Variable I : Type.
Variable N : arr I -> arr I.

(** pseudo_spect.py 199-223: the function _time_step_RK chosen by _init_time_scheme,
    with the coefficients given.  [ps] is the fixed phase shift, [alpha] and [beta]
    the random pair. *)
Definition time_step_RK (sch : scheme) (dt : R) (diss diss2 : arr I)
  (ps alpha beta : arr I) (s : store I) : store I :=
  match sch with
  | Euler => time_step_Euler I N dt diss s
  | Euler_phaseshift => time_step_Euler_phaseshift I N dt diss ps s
  | Euler_phaseshift_random =>
      time_step_Euler_phaseshift_random I N dt diss alpha beta s
  | RK2 => time_step_RK2 I N dt diss diss2 s
  | RK2_trapezoid => time_step_RK2_trapezoid I N dt diss s
  | RK2_phaseshift => time_step_RK2_phaseshift I N dt diss diss2 ps s
  | RK2_phaseshift_random =>
      time_step_RK2_phaseshift_random I N dt diss diss2 alpha beta s
  | RK2_phaseshift_exact => time_step_RK2_phaseshift_exact I N dt diss diss2 ps s
  | RK4 => time_step_RK4 I N dt diss diss2 s
  end.

(** pseudo_spect.py 236-243: one_time_step_computation, without the computation
    of state_phys and the NaN test.  [mask] is oper.where_dealiased (the modes
    set to zero by dealiasing). *)
Definition one_time_step_computation (sch : scheme) (f_lin : arr I)
  (mask : I -> bool) (ps alpha beta : arr I) (dt : R)
  (cs : coefs I * store I) : coefs I * store I :=
  let (c, s) := cs in
  let '(c', (diss, diss2)) := get_updated_coefs I f_lin dt c in
  let s' := time_step_RK sch dt diss diss2 ps alpha beta s in
  (c', upd I s' STATE (fun i => if mask i then RtoC 0 else s' STATE i)).

(** Several steps; each one has its dt and random pair. *)
Fixpoint run_steps (sch : scheme) (f_lin : arr I) (mask : I -> bool) (ps : arr I)
  (steps : list (R * (arr I * arr I))) (cs : coefs I * store I) :
  coefs I * store I :=
  match steps with
  | [] => cs
  | (dt, (alpha, beta)) :: steps' =>
      run_steps sch f_lin mask ps steps'
        (one_time_step_computation sch f_lin mask ps alpha beta dt cs)
  end.

End OneStep.
