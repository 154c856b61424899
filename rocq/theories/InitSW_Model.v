(** Model of the initial fields "wave" and "vortex_grid" of sw1l (fluidsim/solvers/sw1l/init_fields.py), "noise" and "harmonic" of plate2d
    (fluidsim/solvers/plate2d/init_fields.py), and "from_file" of every solver (fluidsim/base/init_fields.py).

    Simplifications: exact numbers, one process. The Fourier transforms of these fields are real arrays [iky][ikx] of the half spectrum
    0 <= ikx <= nx/2 (even nx, ny). The random numbers are given. *)
From Coq Require Import String Reals List ZArith Permutation.
From Verif Require Import TSpec_Model Noise_Model.
Import ListNotations.
Local Open Scope R_scope.

Inductive error := ValueError | ZeroDivision | IndexError.

(** ** The arrays of operators2d *)
Section Grid.
Variables (nx ny : nat) (Lx Ly coef : R).
Definition nkx : nat := (nx / 2 + 1)%nat.
Definition deltakx : R := 2 * PI / Lx.
Definition deltaky : R := 2 * PI / Ly.
Definition ky_adim (iky : nat) : Z := if (2 * iky <=? ny)%nat then Z.of_nat iky else (Z.of_nat iky - Z.of_nat ny)%Z.
Definition KX (iky ikx : nat) : R := deltakx * INR ikx.
Definition KY (iky ikx : nat) : R := deltaky * IZR (ky_adim iky).
(** fluidfft operators2d: |KX| > coef * max(KX) or |KY| > coef * max(KY) *)
Definition gtb (a b : R) : bool := if Rlt_dec b a then true else false.
Definition where_dealiased (iky ikx : nat) : bool := orb (gtb (INR ikx) (coef * INR (nx / 2))) (gtb (Rabs (IZR (ky_adim iky))) (coef * INR (ny / 2))).
Definition dealiasing2 (f : nat -> nat -> R) (iky ikx : nat) : R := if where_dealiased iky ikx then 0 else f iky ikx.
(** ifft2 of a real half spectrum at the point (ix, iy): the modes of -kx are not stored, except for ikx = 0 and nx/2 where they are other rows
    (or themselves); the imaginary part of the sum is dropped *)
Definition weight (ikx : nat) : R := if orb (ikx =? 0)%nat (2 * ikx =? nx)%nat then 1 else 2.
Definition phase (iky ikx ix iy : nat) : R := 2 * PI * (INR ikx * INR ix / INR nx + IZR (ky_adim iky) * INR iy / INR ny).
Definition ifft2 (f : nat -> nat -> R) (ix iy : nat) : R :=
  rsum ny (fun iky => rsum nkx (fun ikx => weight ikx * (f iky ikx * cos (phase iky ikx ix iy)))).

(** ** sw1l 50-64: eta_fft[(KX == kx) & (KY == 0)] = eta_max (project_fft_on_realX works in place, on real numbers: nothing to do for the
    row KY = 0) and the state (ux, uy, eta) of init_from_etafft (state.py 188-196) *)
Definition wave_eta_fft (eta_max : R) (ikx_asked : Z) (iky ikx : nat) : R :=
  let kx := deltakx * IZR ikx_asked in
  if Req_EM_T (KX iky ikx) kx then if Req_EM_T (KY iky ikx) 0 then eta_max else 0 else 0.
Definition wave_state (eta_max : R) (ikx_asked : Z) : (nat -> nat -> R) * (nat -> nat -> R) * (nat -> nat -> R) :=
  (ifft2 (dealiasing2 (fun _ _ => 0)), ifft2 (dealiasing2 (fun _ _ => 0)), ifft2 (dealiasing2 (wave_eta_fft eta_max ikx_asked))).

(** ** plate2d 98-118 and state.py 84-88: w_fft[i0, i1] = z_fft[i0, i1] = 1, numpy indices, then dealiasing *)
Definition py_index (n : nat) (i : Z) : nat + error :=
  if (i <? - Z.of_nat n)%Z then inr IndexError else if (i <? 0)%Z then inl (Z.to_nat (i + Z.of_nat n)) else if (i <? Z.of_nat n)%Z then inl (Z.to_nat i) else inr IndexError.
Definition one_mode (j0 j1 iky ikx : nat) : R := if andb (iky =? j0)%nat (ikx =? j1)%nat then 1 else 0.
(** fft2 (ifft2 f): the part of f with the Hermitian symmetry, [hermitian]; the other rows are those of the columns 0 and nx/2 *)
Definition hermitian (f : nat -> nat -> R) (iky ikx : nat) : R :=
  if orb (ikx =? 0)%nat (2 * ikx =? nx)%nat then (f iky ikx + f (if (iky =? 0)%nat then 0 else ny - iky)%nat ikx) / 2 else f iky ikx.
Definition harmonic (i0 i1 : Z) : (nat -> nat -> R) + error :=
  match py_index ny i0, py_index nkx i1 with
  | inl j0, inl j1 => inl (ifft2 (dealiasing2 (hermitian (one_mode j0 j1))))
  | _, _ => inr IndexError
  end.

(** ** sw1l 66-152: the vortex grid; signs is the shuffled list *)
Definition plus_minus (N : nat) : list R := map (fun i => if Nat.even i then -1 else 1) (seq 0 (N * N)).
Definition x_vort (L : R) (N i : nat) : R := INR i * L / INR N + (L / INR N) / 2.
Definition default_sd (N : nat) : R := Rmin (Lx / INR N) (Ly / INR N) / 12.
Definition wz_gaussian (amp SD x y sign : R) : R := sign * amp * exp (- (x ^ 2 + y ^ 2) / (2 * SD ^ 2)).
Definition vortex_grid (omega_max : R) (N : nat) (sd : option R) (signs : list R) (x y : R) : R + error :=
  if negb (N mod 2 =? 0)%nat then inr ValueError else
  if (N =? 0)%nat then inr ZeroDivision else
  let SD := match sd with None => default_sd N | Some s => s end in
  inl (rsum N (fun i => rsum N (fun j => wz_gaussian omega_max SD (x - x_vort Lx N i) (y - x_vort Ly N j) (nth (i * N + j) signs 0)))).
End Grid.

(** ** plate2d 28-76: the pairs (w, z) are vectors without third component *)
Section PlateNoise.
Variables (kvec : nat -> vec) (truncated : nat -> bool) (n : nat) (ifft fft : (nat -> R) -> nat -> R).
Definition plate_filtered (k0 : R) (c : nat -> vec) : nat -> vec := smooth kvec k0 (dealiasing truncated (remove_mean kvec c)).
Definition plate_max (k0 : R) (c : nat -> vec) : R := rmax n (fun j => norm (ifft3 ifft (plate_filtered k0 c) j)).
Definition plate_wz (k0 velo_max : R) (c : nat -> vec) (j : nat) : vec := vscale (velo_max / plate_max k0 c) (ifft3 ifft (plate_filtered k0 c) j).
(** with the dealiasing of init_state_from_wz_fft *)
Definition plate_fft (k0 velo_max : R) (c : nat -> vec) : nat -> vec := dealiasing truncated (fft3 fft (plate_wz k0 velo_max c)).
Definition plate_k0 (length Lx : R) : R := 2 * PI / (if Req_EM_T length 0 then Lx / 4 else length).
End PlateNoise.

(** ** base/init_fields.py 148-291: from_file. The attributes of params.oper by name (the dimensions n? and the lengths L? in one list of
    rationals), the axes of the file, the arrays of the group state_phys *)
Section FromFile.
Context {A : Type} (zero : A).
Definition get {B : Type} (k : string) (l : list (string * B)) : option B := option_map snd (find (fun p => String.eqb k (fst p)) l).
Record file := File { f_oper : list (string * Z); f_axes : list string; f_arrays : list (string * A); f_time : R; f_it : option nat }.
(** 184-212; None: ValueError (the file has its axes and their dimensions; lengths may be missing) *)
Definition check_axis (oper : list (string * Z)) (f : file) (r : string) : bool :=
  match get (String.append "n" r) oper, get (String.append "n" r) (f_oper f) with
  | Some a, Some b => andb (Z.eqb a b)
      (match get (String.append "L" r) (f_oper f) with
       | None => true
       | Some lf => match get (String.append "L" r) oper with Some l => Z.eqb l lf | None => false end
       end)
  | _, _ => false
  end.
Definition load (oper : list (string * Z)) (keys_needed : list string) (f : file) : (list (string * A) * R * nat) + error :=
  if forallb (check_axis oper f) (f_axes f) then
    inl (map (fun k => (k, match get k (f_arrays f) with Some a => a | None => zero end)) keys_needed, f_time f, match f_it f with Some i => i | None => 0%nat end)
  else inr ValueError.
End FromFile.
