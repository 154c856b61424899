(** * The plots of the spectra of plate2d and sw1l and of the spectra (kx, kz) of ns2d.strat

    fluidsim/solvers/plate2d/output/spectra.py, fluidsim/solvers/sw1l/output/spectra.py and
    fluidsim/solvers/ns2d/strat/output/spectra_multidim.py.  Exact numbers; a spectrum is seen at one
    wave number; the figures are the lists of what is drawn.  [closest], [mean], [slice], [range],
    [delta_t_save] are those of [Spec2D_Model] (the same lines of code). *)

From Coq Require Import String QArith Qabs ZArith List Bool Reals.
From Verif Require Import PhysFiles_Model Probes_Model Spec2D_Model.
Import ListNotations.
Local Open Scope Q_scope.

Inductive error := ValueError | OverflowError | UnboundLocalError | Nan.

(** int(np.round(delta_t / delta_t_save)) *)
Definition nb_intervals (times : list Q) (delta_t : Q) : (Q * Z) + error :=
  match delta_t_save times with
  | None => inr ValueError
  | Some d => if Qeq_bool d 0 then inr OverflowError else inl (d, round_even (delta_t / d))
  end.

(** sw1l 173-192, 258-275 and plate2d 170-183, 212-213: the drawn records.  [i]: from the loop
    "for it in range(imin_plot, imax_plot + 1, delta_i_plot)", when delta_t != 0 *)
Definition sw_records (times : list Q) (tmin tmax delta_t : Q) : list nat + error :=
  match nb_intervals times delta_t with
  | inr e => inr e
  | inl (d, i) =>
      let i := if andb (Z.eqb i 0) (negb (Qeq_bool delta_t 0)) then 1%Z else i in
      if Qeq_bool (inject_Z i * d) 0 then inl [] else inl (range (closest times tmin) (closest times tmax) (Z.to_nat i))
  end.

(** plate2d 92-102, 136-140 (plot1d): delta_t is computed before the correction of delta_i_plot *)
Definition plate1d_records (times : list Q) (tmin tmax delta_t : Q) : list nat + error :=
  match nb_intervals times delta_t with
  | inr e => inr e
  | inl (d, i) =>
      let delta_t := d * inject_Z i in
      let i := if Z.eqb i 0 then 1%Z else i in
      if Qeq_bool delta_t 0 then inl [] else inl (range (closest times tmin) (closest times tmax) (Z.to_nat i))
  end.

(** plate2d 150-183 (plot2d): the variable delta_i_plot is not set with only one record and is
    printed *)
Definition plate2d_records (times : list Q) (tmin tmax delta_t : Q) : list nat + error :=
  match length times with
  | O => inr ValueError
  | S O => inr UnboundLocalError
  | _ => sw_records times tmin tmax delta_t
  end.

Definition eps : Q := 1 # 1000000000000000. (** 10e-16 = 1e-15 *)
Definition ltb (a b : Q) : bool := negb (Qle_bool b a).

(** plate2d 215-221: one record *)
Definition plate_record (ek el ee : Q) : Q * Q * Q * Q :=
  let ek := if ltb ek eps then 0 else ek in
  let el := if ltb el eps then 0 else el in
  let ee := if ltb ee eps then 0 else ee in
  (ek + el + ee, ek, el, ee).

(** plate2d 230-235: the means *)
Definition plate_means (ek el ee : Q) : Q * Q * Q :=
  let ek := if ltb ek eps then 0 else ek in
  let el := if ltb ek eps then 0 else el in
  let ee := if ltb ek eps then 0 else ee in
  (ek, el, ee).

(** sw1l 406-431 (_get_field_to_plot) and 307-308: one record *)
Inductive key := Etot | EK | EA | EKr | EKd.
Definition sw_field (k : key) (ek ea ekr : Q) : Q :=
  match k with Etot => ek + ea | EK => ek | EA => ea | EKr => ekr | EKd => ek - ekr end.
Definition sw_record (k : key) (ek ea ekr : Q) : Q :=
  let y := sw_field k ek ea ekr in if ltb y eps then eps else y.

(** sw1l 311-320: the means *)
Definition clip (y : Q) : Q := if ltb (Qabs y) eps then eps else y.
Definition sw_mean (k : key) (ek ea ekr : Q) : Q :=
  let ek := clip ek in let ea := clip ea in let ekr := clip ekr in
  match k with Etot => ek + ea | EK => ek | EA => ea | EKr => ekr | EKd => ek - ekr + eps end.

(** sw1l 322-338: the colours of the means (those of the records are the ones of zip(keys, colors)) *)
Definition sw_mean_color (k : key) (colors : list string) : string :=
  match k with
  | Etot => nth 0 colors ""%string
  | EK => "r"%string
  | EA => "b"%string
  | EKr => "r--"%string
  | EKd => "r:"%string
  end.

(** sw1l 370-392 (plot_diss): the first positive viscosity and the coefficient of the energy; None:
    ValueError *)
Definition diss_nu (nu2 nu4 nu8 : Q) : option (Q * nat) :=
  if ltb 0 nu2 then Some (nu2, 2%nat) else if ltb 0 nu4 then Some (nu4, 4%nat) else if ltb 0 nu8 then Some (nu8, 8%nat) else None.
Definition diss_coef (nu2 nu4 nu8 kh : Q) : option Q :=
  match diss_nu nu2 nu4 nu8 with None => None | Some (nu, order) => Some (2 * nu * kh ^ (Z.of_nat order)) end.

(** ** spectra_multidim.py 57-135: the data of plot at one wave vector *)
Definition key_known (k : option string) : bool :=
  match k with
  | None => true
  | Some k => existsb (String.eqb k) ["EK"; "EA"; "ap_fft"; "am_fft"; ""]%string
  end.
(** the variable text_plot is set for these keys only, and used at the end *)
Definition has_text (k : option string) : bool :=
  match k with
  | None => true
  | Some k => existsb (String.eqb k) ["ap_fft"; "am_fft"; ""]%string
  end.
Definition md_plot (k : option string) (times values : list Q) (tmin tmax : option Q) : Q + error :=
  if negb (key_known k) then inr ValueError else
  let t0 := match tmin with None => nth 0 times 0 | Some t => t end in
  let t1 := match tmax with None => nth (length times - 1) times 0 | Some t => t end in
  let i0 := closest times t0 in
  let data :=
    if Qeq_bool t0 t1 then Some (nth i0 values 0)
    else mean (firstn (closest times t1 - i0) (skipn i0 values)) in
  if has_text k then match data with None => inr Nan | Some d => inl d end else inr UnboundLocalError.

(** 137-139: kz / deltakz = fftfreq(ny) with the sign of the middle one changed (even ny) *)
Definition kz (ny : nat) : list Z :=
  map (fun i => if (2 * i <? ny)%nat then Z.of_nat i else if (2 * i =? ny)%nat then (- (Z.of_nat i - Z.of_nat ny))%Z else (Z.of_nat i - Z.of_nat ny)%Z) (seq 0 ny).
(** 162-181 *)
Definition reorder {A} (ny : nat) (l : list A) : list A := skipn (ny / 2 + 1) l ++ firstn (ny / 2 + 1) l.

(** 197-220: the rectangle (x, z, width, height) *)
Local Open Scope R_scope.
Definition rectangle (deltakx deltakz angle nkmin nkmax : R) : R * R * R * R :=
  let deltak := Rmax deltakx deltakz in
  let x_rect := sin angle * deltak * nkmin in
  let z_rect := cos angle * deltak * nkmin in
  (x_rect, z_rect, Rabs (x_rect - sin angle * deltak * nkmax), Rabs (z_rect - cos angle * deltak * nkmax)).
(** the second one, if kz_negative_enable *)
Definition rectangle_negative (deltakx deltakz angle nkmin nkmax : R) : R * R * R * R :=
  let '(x, z, w, h) := rectangle deltakx deltakz angle nkmin nkmax in (x, - (z + h), w, h).
