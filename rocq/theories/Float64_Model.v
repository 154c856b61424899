(** * Times of a simulation in double precision

    binary64: the numbers and the operations of Flocq (IEEE 754, rounding to the nearest, ties to even), which are those of
    the floats of Python. Fixed time step (USE_CFL False), one process, no stop request. *)

From Coq Require Import ZArith List Bool.
From Flocq Require Import Core.Core IEEE754.BinarySingleNaN.
Import ListNotations.

Definition prec : Z := 53.
Definition emax : Z := 1024.
Global Instance prec_pos : Prec_gt_0 prec := eq_refl.
Global Instance prec_emax : Prec_lt_emax prec emax := eq_refl.

Definition float := binary_float prec emax.
Definition add (x y : float) : float := Bplus mode_NE x y.
Definition sub (x y : float) : float := Bminus mode_NE x y.
(** x < y and x >= y (false with nan) *)
Definition lt (x y : float) : bool := Bltb x y.
Definition ge (x y : float) : bool := Bleb y x.
Definition zero : float := B754_zero false.

(** fluidsim/base/time_stepping/base.py 200-207 and 242-243 (main_loop, one_time_step): while self.t < t_end: self.t += self.deltat,
    self.it += 1. None: not finished after [fuel] steps *)
Fixpoint main_loop (fuel : nat) (deltat t_end t : float) (it : nat) : option (nat * float) :=
  if lt t t_end then
    match fuel with
    | O => None
    | S n => main_loop n deltat t_end (add t deltat) (S it)
    end
  else Some (it, t).

(** the times after each of the first steps *)
Fixpoint time_after (n : nat) (deltat t : float) : float :=
  match n with O => t | S k => add (time_after k deltat t) deltat end.

(** fluidsim/base/output/base.py 598-603 (_online_save): the times which are saved among the times at which it is called;
    the same test is in base/output/{spectra,spectra_multidim,time_signals_fft}.py *)
Fixpoint online_saves (period_save t_last_save : float) (times : list float) : list float :=
  match times with
  | [] => []
  | tsim :: r =>
      if ge (sub tsim t_last_save) period_save then tsim :: online_saves period_save tsim r
      else online_saves period_save t_last_save r
  end.

(** the first time is saved when the file is created (575-596) *)
Definition saves (period_save t0 : float) (times : list float) : list float := t0 :: online_saves period_save t0 times.

(** fmod of the C library for a finite [x] and a finite [y] which is not 0 (exact) *)
Definition fmod (x y : float) : float :=
  match B2SF x, B2SF y with
  | SpecFloat.S754_zero _, SpecFloat.S754_finite _ _ _ => x
  | SpecFloat.S754_finite sx mx ex, SpecFloat.S754_finite _ my ey =>
      let e := Z.min ex ey in
      binary_normalize prec emax prec_pos prec_emax mode_NE
        (cond_Zopp sx ((Zpos mx * 2 ^ (ex - e)) mod (Zpos my * 2 ^ (ey - e)))) e sx
  | _, _ => B754_nan
  end.

Definition one : float := @B754_finite prec emax false 4503599627370496 (-52) eq_refl.
Definition half : float := @B754_finite prec emax false 4503599627370496 (-53) eq_refl.

(** the operator // of the floats of Python (float_floor_div, _float_div_mod; npy_floor_divide for the floats of numpy) for
    x >= 0 and y > 0: mod = fmod(x, y); div = (x - mod) / y; floordiv = floor(div); if div - floordiv > 0.5: floordiv += 1.
    The branch of a remainder whose sign is not the one of y and the sign of zero are not modelled *)
Definition floordiv (x y : float) : float :=
  let div := Bdiv mode_NE (sub x (fmod x y)) y in
  let fl := Bnearbyint mode_DN div in
  if lt half (sub div fl) then add fl one else fl.

(** 1e-15 *)
Definition f1em15 : float := @B754_finite prec emax false 5070602400912918 (-102) eq_refl.

(** fluidsim/base/output/base.py 675-678 (_has_to_online_save); the same test in print_stdout.py 89-91, spatial_means.py 90-92,
    temporal_spectra.py 374-376 and spatiotemporal_spectra.py 443-445 *)
Definition has_to_online_save (t t_last_save period_save : float) : bool :=
  lt (floordiv t_last_save period_save) (floordiv (add t f1em15) period_save).

(** the times which are saved *)
Fixpoint slot_saves (period_save t_last_save : float) (times : list float) : list float :=
  match times with
  | [] => []
  | t :: r =>
      if has_to_online_save t t_last_save period_save then t :: slot_saves period_save t r
      else slot_saves period_save t_last_save r
  end.
