(** * Time signals of Fourier modes

    fluidsim/base/output/time_signals_fft.py (class TimeSignalsK, used by the solvers sw1l) and the
    two functions of fluidsim/solvers/sw1l/output/base.py it calls.  One process; exact arithmetic
    (floats as reals, [np.round] as the nearest integer, halves upwards); the selected wave numbers
    are kept in units of [deltak] when only their order matters. *)

From Coq Require Import List Arith ZArith Reals Bool.
From Coquelicot Require Import Complex.
From Verif Require Import TSpec_Model.
Import ListNotations.
Local Open Scope R_scope.

(** np.round *)
Definition nearest (x : R) : Z := Int_part (x + / 2).

(** time_signals_fft.py 79-90: the modulus of shell [i] over [deltak], before the separation *)
Definition raw_shell (nx coef : R) (ns i : nat) : Z :=
  nearest (exp (ln (nx / 2 * coef) / INR (ns + 3) * INR (i + 3))).

Definition raw_shells (nx coef : R) (ns : nat) : list Z := map (raw_shell nx coef ns) (seq 0 ns).

(** 92-94: the loop which separates equal shells (in place, so that the shell before is the
    modified one) *)
Fixpoint separate (prev : Z) (l : list Z) : list Z :=
  match l with
  | [] => []
  | m :: r => let m' := if Z.eqb prev m then (m + 1)%Z else m in m' :: separate m' r
  end.

Definition kh_shells (l : list Z) : list Z :=
  match l with [] => [] | m :: r => m :: separate m r end.

(** 107-117: the angle of the wave number [i] of a shell *)
Fixpoint angle (nk i : nat) : R :=
  match i with
  | O => - PI / 2
  | S j => angle nk j + PI / INR (nk - 1)
  end.

(** 104-117: the assignments (index, value) in the order of the loops *)
Definition shell_writes (ns nk s : nat) (kh : R) : list (nat * (R * R)) :=
  map (fun i => ((s * ns + i)%nat, (kh * cos (angle nk i), kh * sin (angle nk i)))) (seq 0 nk).

Fixpoint writes_from (ns nk s : nat) (khs : list R) : list (nat * (R * R)) :=
  match khs with
  | [] => []
  | kh :: r => shell_writes ns nk s kh ++ writes_from ns nk (S s) r
  end.

(** an array made by np.empty: [None] is an entry never written *)
Fixpoint put {A} (i : nat) (v : A) (l : list (option A)) : option (list (option A)) :=
  match l, i with
  | [], _ => None
  | _ :: r, O => Some (Some v :: r)
  | x :: r, S j => option_map (cons x) (put j v r)
  end.

(** [None]: IndexError *)
Fixpoint puts {A} (w : list (nat * A)) (l : list (option A)) : option (list (option A)) :=
  match w with
  | [] => Some l
  | (i, v) :: r => match put i v l with None => None | Some l' => puts r l' end
  end.

(** [None]: IndexError or ZeroDivisionError (line 107 with one wave number per shell) *)
Definition select (khs : list R) (nk : nat) : option (list (option (R * R))) :=
  let ns := length khs in
  if Nat.eqb nk 1 then None
  else puts (writes_from ns nk 0 khs) (repeat None (ns * nk)).

(** operators2d.py 401-440 (where_is_wavenumber) for the second direction, then lines 145-147: the wave
    number of the mode which is saved.  [None]: IndexError.  numpy accepts an index from [-ny]. *)
Definition wave_ky (ny : nat) (dky : R) (iky : Z) : option R :=
  let n := Z.of_nat ny in
  let i := if (iky <? 0)%Z then (iky + n)%Z else iky in
  if (i <? 0)%Z || (n <=? i)%Z then None
  else Some (dky * IZR (if (2 * i <=? n)%Z then i else i - n)%Z).

Definition saved_ky (ny : nat) (dky ky_approx : R) : option R :=
  let iky := nearest (ky_approx / dky) in
  wave_ky ny dky (if (iky <? 0)%Z then (Z.of_nat ny + iky)%Z else iky).

(** same for the first direction ([nkx] non-negative wave numbers).  [None]: ValueError *)
Definition saved_kx (nkx : nat) (dkx kx_approx : R) : option R :=
  let ikx := nearest (kx_approx / dkx) in
  if (Z.of_nat nkx <=? ikx)%Z || (ikx <? - Z.of_nat nkx)%Z then None
  else Some (dkx * IZR (if (ikx <? 0)%Z then ikx + Z.of_nat nkx else ikx)%Z).

(** 45-65, 170 and base/output/base.py 524-574: the attribute period_save after __init__.  The
    first assignment is the one of _init_save, the second one of SpecificOutput.__init__, the third
    one for a simulation which does not save. *)
Definition period_save (has_to_save : bool) (param omega_max : R) : R :=
  let param := if has_to_save then param else 0 in
  let p := 0 in
  let p := if Req_EM_T param 0 then p else PI / (8 * omega_max) in
  let p := param in
  if has_to_save then p else 0.

(** The records of time_sigK.h5.  h5py: a resize keeps the first records and completes with the
    fill value ([None]). *)
Definition resized {A} (n : nat) (l : list (option A)) : list (option A) :=
  firstn n l ++ repeat None (n - length l).

(** 177-201 (_init_files): the records and nb_saved_times; [old] are the records of an existing
    file and [now] the record of the current time *)
Definition init_files {A} (old : option (list (option A))) (now : A) : list (option A) * nat :=
  match old with
  | None => ([Some now], 1%nat)
  | Some l => (l, 1%nat)
  end.

(** 203-213 (_online_save when a record is due) and base.py 665-673.  [None]: never, see the
    proofs. *)
Definition add_record {A} (st : list (option A) * nat) (v : A)
  : option (list (option A) * nat) :=
  let (l, n) := st in
  option_map (fun l' => (l', S n)) (put n v (resized (n + 1) l)).

Fixpoint add_records {A} (st : list (option A) * nat) (vs : list A)
  : option (list (option A) * nat) :=
  match vs with
  | [] => Some st
  | v :: r => match add_record st v with None => None | Some st' => add_records st' r end
  end.

(** 386-393: the number of samples of one spectrum.  2 ** int(np.fix(np.log2(Nt / 10))); for less
    than 10 records the exponent is not positive and the value is at most 1 *)
Definition nt_of (Nt : nat) : nat :=
  let nt := (2 ^ Nat.log2 (Nt / 10))%nat in
  let nt := if Nat.ltb nt 2 then 2%nat else nt in
  if Nat.eqb (nt mod 2) 1 then (nt - 1)%nat else nt.

(** 396-397: the transform object is made by the first call only; [None]: the input has not its
    size *)
Definition fft_size (cached : option nat) (Nt : nat) : nat :=
  match cached with None => nt_of Nt | Some n => n end.

Definition compute_sizes (cached : option nat) (Nt : nat) : option nat :=
  let n := fft_size cached Nt in
  if Nat.eqb n (nt_of Nt) then Some n else None.

(** 399-401 *)
Definition deltaomega (t : nat -> R) (nt : nat) : R := 2 * PI / (t (nt - 1)%nat - t 0%nat).

(** 405 *)
Definition omega_axis (t : nat -> R) (nt j : nat) : R := deltaomega t nt * INR j.

(** 407: np.hanning *)
Definition hann (nt n : nat) : R := / 2 - / 2 * cos (2 * PI * INR n / INR (nt - 1)).

(** 359-365, 380: the first indices of the windows *)
Fixpoint windows_from (fuel it0 step nt Nt : nat) : list nat :=
  match fuel with
  | O => []
  | S k => if Nat.ltb (it0 + nt) Nt then it0 :: windows_from k (it0 + step) step nt Nt else []
  end.

Definition windows (nt Nt : nat) : list nat := windows_from Nt 0 (nt / 2) nt Nt.

(** 371-379: the negative frequencies are added to the positive ones *)
Definition folded (nt : nat) (raw : nat -> R) (j : nat) : R :=
  if Nat.eqb (nt mod 2) 0
  then raw j + (if Nat.leb 1 j && Nat.ltb j (nt / 2) then raw (nt - j)%nat else 0)
  else raw j + (if Nat.leb 1 j && Nat.ltb j (nt / 2 + 1) then raw (nt - j)%nat else 0).

(** 367-370.  easypyfft.FFTW1D(nt).fft is the transform divided by nt: its squared modulus is a
    periodogram *)
Definition raw_spectrum (nt : nat) (domega : R) (sig : nat -> C) (k : nat) : R :=
  periodogram nt (fun n => RtoC (hann nt n) * sig n)%C k / 2 / domega.

(** 358-382.  [None]: no window, 0 / 0 *)
Definition time_spectrum (nt Nt : nat) (domega : R) (sig : nat -> C) (j : nat) : option R :=
  match windows nt Nt with
  | [] => None
  | ws =>
      Some (rsum_list ws (fun it0 =>
              folded nt (raw_spectrum nt domega (fun n => sig (it0 + n)%nat)) j)
            / INR (length ws))
  end.

(** solvers/sw1l/output/base.py 17-35 (linear_eigenmode_from_values_1k) *)
Definition eigenmodes (f c2 kx ky : R) (ux uy eta : C) : C * C * C :=
  let div := (Ci * (RtoC kx * ux + RtoC ky * uy))%C in
  let rot := (Ci * (RtoC kx * uy - RtoC ky * ux))%C in
  let q := (rot - RtoC f * eta)%C in
  let k2 := kx ^ 2 + ky ^ 2 in
  let ageo := (RtoC f * rot / RtoC c2 + RtoC k2 * eta)%C in
  (q, div, ageo).

(** sw1l/output/base.py 119-125 *)
Definition omega_from_wavenumber (f c2 k : R) : R := sqrt (f ^ 2 + c2 * k ^ 2).

(** 426-429: the normalisation of the signal of a *)
Definition coef_norm_a (c2 omega : R) : R := c2 / omega.
