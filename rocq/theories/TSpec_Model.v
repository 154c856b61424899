(** * Temporal and spatiotemporal spectra
    (base/output/temporal_spectra.py, base/output/spatiotemporal_spectra.py,
    solvers/ns2d/output/spatiotemporal_spectra.py, solvers/ns3d/output/spatiotemporal_spectra.py)

    Exact arithmetic: the numbers are real and complex numbers. *)

From Coq Require Import Reals ZArith List Bool.
From Coquelicot Require Import Complex.
From Verif Require Import DFT.
Import ListNotations.
Open Scope R_scope.

Fixpoint rsum (n : nat) (f : nat -> R) : R :=
  match n with O => 0 | S m => rsum m f + f m end.
Definition rsum_list {A : Type} (l : list A) (f : A -> R) : R :=
  fold_right (fun a s => f a + s) 0 l.

Definition cnorm2 (z : C) : R := fst z ^ 2 + snd z ^ 2.

(** ** Periodograms *)

(** `scipy.signal.periodogram(data, fs, scaling="spectrum", detrend=False,
    return_onesided=False)` for a series of n instants (boxcar window: |fft|^2 / n^2) and its
    frequencies `fftfreq(n, 1/fs)`. *)
Definition fft_time (n : nat) (x : nat -> C) (k : nat) : C :=
  nsum n (fun j => (x j * chi n (- Z.of_nat k) j)%C).
Definition periodogram (n : nat) (x : nat -> C) (k : nat) : R :=
  cnorm2 (fft_time n x k) / INR n ^ 2.
Definition fftfreq (fs : R) (n k : nat) : R :=
  if (k <? (n + 1) / 2)%nat then INR k * fs / INR n
  else (INR k - INR n) * fs / INR n.

(** The attributes `f_sample` and `domega` of the output object ([None]: not set). *)
Definition attrs : Type := option (R * R).

(** temporal_spectra.py 526-542 and spatiotemporal_spectra.py 643-659, _compute_spectrum:
    frequencies, spectrum and new attributes; [period_save] is the attribute of the first
    file. *)
Definition compute_spectrum (period_save : R) (st : attrs) (n : nat) (x : nat -> C)
  : (nat -> R) * (nat -> R) * attrs :=
  let '(fs, domega) :=
    match st with
    | Some a => a
    | None => (1 / period_save, 2 * PI * (1 / period_save) / INR n)
    end in
  (fftfreq fs n, fun k => periodogram n x k / domega, Some (fs, domega)).

(** One-sided spectra: element m of
    `out[0] = s[0]; out[1:] = s[1:nomega] + s[-1:-nomega:-1]`. *)
Definition onesided (n : nat) (s : nat -> R) (m : nat) : R :=
  match m with O => s O | S _ => s m + s (n - m)%nat end.

(** temporal_spectra.py 544-577, compute_spectra, for one key and the series of the probes:
    number of frequencies, omegas, spectrum and new attributes. *)
Definition temporal_compute_spectra (period_save : R) (st : attrs) (n : nat)
    (probes : list (nat -> C)) : nat * (nat -> R) * (nat -> R) * attrs :=
  let nomega := (n / 2 + 1)%nat in
  let '(freq, _, st') := compute_spectrum period_save st n (fun _ => RtoC 0) in
  let spectrum k :=
    rsum_list probes (fun x => snd (fst (compute_spectrum period_save st n x)) k)
    / INR (length probes) in
  (nomega, fun m => 2 * PI * freq m, onesided n spectrum, st').

(** spatiotemporal_spectra.py 661-685, compute_spectra, for one key and one mode: omegas,
    two-sided spectrum and new attributes. *)
Definition st_compute_spectra (period_save : R) (st : attrs) (n : nat) (x : nat -> C)
  : (nat -> R) * (nat -> R) * attrs :=
  let '(freq, spectrum, st') := compute_spectrum period_save st n x in
  (fun m => 2 * PI * freq m, spectrum, st').

(** spatiotemporal_spectra.py 792 and 1208: `nomegas = (omegas.size + 1) // 2`. *)
Definition st_nomegas (n : nat) : nat := ((n + 1) / 2)%nat.

(** ** Sums over the modes *)

(** A recorded mode: kx, |kz|, kh (with dimensions) and its spectrum for each frequency. *)
Record kmode := mkMode { kx : R; kz : R; kh : R; values : nat -> R }.

(** `int(x)` and `int(round(x))` for x >= 0 (halfway cases rounded up: the code rounds them to
    even, kz is a multiple of deltakz). *)
Definition int_of (x : R) : nat := Z.to_nat (Int_part x).
Definition round_of (x : R) : nat := Z.to_nat (Int_part (x + / 2)).

(** ns3d/output/spatiotemporal_spectra.py 45-71 and the same loop of ns2d 42-64: what one mode
    adds to the element (jz, jh) of the array for the frequency i; [deltakz] and [deltakh] are
    `kzs[1]` and `khs[1]`, and `khs[ikh]` is `deltakh * ikh`. *)
Definition contribution (nkz nkh : nat) (deltakz deltakh : R) (m : kmode) (jz jh i : nat) : R :=
  let v := if Req_EM_T (kx m) 0 then values m i else 2 * values m i in
  let ikh := int_of (kh m / deltakh) in
  let ikz := Nat.min (round_of (kz m / deltakz)) (nkz - 1) in
  if (jz =? ikz)%nat then
    if (nkh - 1 <=? ikh)%nat then
      if (jh =? nkh - 1)%nat then v else 0
    else
      let coef_share := (kh m - deltakh * INR ikh) / deltakh in
      (if (jh =? ikh)%nat then (1 - coef_share) * v else 0)
      + (if (jh =? ikh + 1)%nat then coef_share * v else 0)
  else 0.

(** ns3d/output/spatiotemporal_spectra.py 29-81 (ns2d 27-74), compute_spectrum_kzkhomega, element (jz, jh, m)
    of the result for [n] frequencies; the loops on the modes are the sum on a list. *)
Definition compute_spectrum_kzkhomega (nkz nkh : nat) (deltakz deltakh : R) (n : nat)
    (modes : list kmode) (jz jh m : nat) : R :=
  onesided n (fun i => rsum_list modes (fun q => contribution nkz nkh deltakz deltakh q jz jh i)) m
  / (deltakz * deltakh).

(** ns3d/output/spatiotemporal_spectra.py 84-95 and ns2d 77-87, _sum_wavenumber: element i of
    the sum; the first argument gives the KX of a mode. *)
Definition sum_wavenumber (KX : kmode -> R) (kx_max : R) (modes : list kmode) (i : nat) : R :=
  rsum_list modes (fun q =>
    if Req_EM_T (KX q) 0 then values q i
    else if Req_EM_T (KX q) kx_max then values q i
    else 2 * values q i).

(** spatiotemporal_spectra.py 760-818, the temporal spectrum of save_spectra_kzkhomega: KX has
    its dimension, `kx_max = nx // 2 * deltakx`. *)
Definition tspectrum_saved (nx : nat) (Lx : R) (n : nat) (modes : list kmode) : nat -> R :=
  let deltakx := 2 * PI / Lx in
  onesided n (sum_wavenumber kx (INR (nx / 2) * deltakx) modes).

(** spatiotemporal_spectra.py 1194-1229, compute_temporal_spectra: here KX is the nondimensional
    `K_adim` array, and kx_max has a dimension. *)
Definition tspectrum_computed (nx : nat) (Lx : R) (n : nat) (modes : list kmode) : nat -> R :=
  let deltakx := 2 * PI / Lx in
  onesided n (sum_wavenumber (fun q => kx q / deltakx) (INR (nx / 2) * deltakx) modes).

(** ** The order of the dimensions *)

(** spatiotemporal_spectra.py 526-530: the axis j of the arrays of the series holds the
    physical dimension `dims_order[j]` (0: z, 1: y, 2: x). *)
Definition axis_dim (order : list nat) (j : nat) : nat := nth j order 3%nat.
(** spatiotemporal_spectra.py 762-783: the dimensions used as x, y and z:
    `K{order[-1]}_adim`, `K{order[1]}_adim` and `K{order[0]}_adim` (nb_dim = 3). *)
Definition dims_used (order : list nat) : nat * nat * nat :=
  (axis_dim order (nth 2 order 3%nat), axis_dim order (nth 1 order 3%nat), axis_dim order (nth 0 order 3%nat)).

(** ** Toroidal and poloidal velocities *)

(** ns3d/output/spatiotemporal_spectra.py 130-139: the components ud and ur of the horizontal
    velocity of one mode at one instant. *)
Definition inv_Kh_square_nozero (KX KY : R) : R :=
  let s := KX ^ 2 + KY ^ 2 in 1 / (if Req_EM_T s 0 then 1 / 10 ^ 14 else s).
Definition ud_fft (KX KY : R) (vx vy : C) : C * C :=
  let kdotu := (RtoC KX * vx + RtoC KY * vy)%C in
  let i := inv_Kh_square_nozero KX KY in
  ((kdotu * RtoC KX * RtoC i)%C, (kdotu * RtoC KY * RtoC i)%C).
Definition ur_fft (KX KY : R) (vx vy : C) : C * C :=
  let '(udx, udy) := ud_fft KX KY vx vy in ((vx - udx)%C, (vy - udy)%C).

(** ns3d/output/spatiotemporal_spectra.py 149-161: the spectra Khd and Khr of one mode. *)
Definition spectrum_Kh (domega : R) (n : nat) (ux uy : nat -> C) (k : nat) : R :=
  0 + / 2 * (periodogram n ux k / domega) + / 2 * (periodogram n uy k / domega).
Definition spectrum_Khd (domega KX KY : R) (n : nat) (vx vy : nat -> C) : nat -> R :=
  spectrum_Kh domega n (fun j => fst (ud_fft KX KY (vx j) (vy j))) (fun j => snd (ud_fft KX KY (vx j) (vy j))).
Definition spectrum_Khr (domega KX KY : R) (n : nat) (vx vy : nat -> C) : nat -> R :=
  spectrum_Kh domega n (fun j => fst (ur_fft KX KY (vx j) (vy j))) (fun j => snd (ur_fft KX KY (vx j) (vy j))).
