(** * Preprocessing of the initial fields, of the forcing rate and of the viscosities
    (base/preprocess/pseudo_spect.py) for the solvers ns2d and ns2d.strat

    Exact arithmetic: real and complex numbers; the powers of positive numbers are [Rpower]
    (0 ** 1.5, which is 0 in the code, is thus not modelled).
    The parameters nkmin_forcing and nkmax_forcing are integers. *)

From Coq Require Import String.
From Coq Require Import Reals ZArith List Bool.
From Coquelicot Require Import Complex.
Import ListNotations.
Open Scope R_scope.

(** A mode: its weight in `oper.sum_wavenumbers` and its wavenumbers. *)
Record pmode := mkPmode { wgt : R; pkx : R; pky : R }.

(** `oper.sum_wavenumbers` *)
Definition sum_wn (ms : list pmode) (f : pmode -> R) : R :=
  fold_right (fun m s => wgt m * f m + s) 0 ms.

Definition cabs2 (z : C) : R := fst z ^ 2 + snd z ^ 2.

(** operators2d.py: K2_not0, vecfft_from_rotfft, rotfft_from_vecfft at one mode. *)
Definition K2_not0 (m : pmode) : R :=
  let K2 := pkx m ^ 2 + pky m ^ 2 in if Req_EM_T K2 0 then / 10 ^ 10 else K2.
Definition vecfft_from_rotfft (m : pmode) (rot : C) : C * C :=
  ((Ci * RtoC (pky m / K2_not0 m) * rot)%C, (- Ci * RtoC (pkx m / K2_not0 m) * rot)%C).
Definition rotfft_from_vecfft (m : pmode) (ux uy : C) : C :=
  (Ci * (RtoC (pkx m) * uy - RtoC (pky m) * ux))%C.

(** The spectral state: the vorticity and, for ns2d.strat ([strat] = true), the buoyancy. *)
Record pstate := mkPstate { rot_fft : pmode -> C; b_fft : pmode -> C }.

(** ns2d/output/__init__.py 109-129 and ns2d/strat/output/__init__.py 85-135: compute_energy
    (with energyA = |b|^2/(2 N^2)) and compute_enstrophy. *)
Definition energyK_fft (m : pmode) (rot : C) : R :=
  let '(ux, uy) := vecfft_from_rotfft m rot in (cabs2 ux + cabs2 uy) / 2.
Definition compute_energy (strat : bool) (N : R) (ms : list pmode) (s : pstate) : R :=
  sum_wn ms (fun m => energyK_fft m (rot_fft s m)
                      + if strat then if Req_EM_T N 0 then 0 else cabs2 (b_fft s m) / (2 * N ^ 2) else 0).
Definition compute_enstrophy (ms : list pmode) (s : pstate) : R :=
  sum_wn ms (fun m => cabs2 (rot_fft s m) / 2).

(** ns2d/state.py 111-115, ns2d/strat/state.py 233-236, init_from_rotfft on the modes kept by the
    dealiasing: the buoyancy is set to zero. *)
Definition init_from_rotfft (rot : pmode -> C) : pstate := mkPstate rot (fun _ => RtoC 0).

(** pseudo_spect.py 78-85 and 180-187: `k_f = deltak * ((nkmax + nkmin) // 2)`. *)
Definition k_f (deltak : R) (nkmax nkmin : Z) : R := deltak * IZR ((nkmax + nkmin) / 2).

(** pseudo_spect.py 41-100, normalize_init_fields.  ns2d and ns2d.strat do not have
    compute_quad_energies nor init_from_uxuyfft: the except branches are taken.  [None]: ValueError. *)
Definition normalize_init_fields (strat : bool) (N : R) (ms : list pmode) (scale : string) (C0 : R)
    (P kf : R) (s : pstate) : option pstate :=
  if String.eqb scale "energy" then
    let Ek := compute_energy strat N ms s in
    let coef := if Req_EM_T Ek 0 then 1 else sqrt (C0 / Ek) in
    let rot m :=
      let '(ux, uy) := vecfft_from_rotfft m (rot_fft s m) in
      rotfft_from_vecfft m (RtoC coef * ux)%C (RtoC coef * uy)%C in
    Some (init_from_rotfft rot)
  else if String.eqb scale "enstrophy" then
    let omega_0 := compute_enstrophy ms s in
    if Req_EM_T omega_0 0 then Some s
    else Some (init_from_rotfft (fun m => (RtoC (sqrt (C0 / omega_0)) * rot_fft s m)%C))
  else if String.eqb scale "enstrophy_forcing" then
    let omega_0 := compute_enstrophy ms s in
    if Req_EM_T omega_0 0 then Some s
    else
      let C_0 := omega_0 / (Rpower P (2 / 3) * Rpower kf (4 / 3)) in
      Some (init_from_rotfft (fun m => (RtoC (sqrt (C0 / C_0)) * rot_fft s m)%C))
  else if String.eqb scale "unity" then Some s
  else None.

(** pseudo_spect.py 160-203, set_forcing_rate: the new forcing_rate. *)
Definition set_forcing_rate (strat : bool) (N : R) (ms : list pmode) (scale : string) (C0 : R)
    (kf : R) (s : pstate) : option R :=
  if String.eqb scale "unity" then Some C0
  else if String.eqb scale "energy" then
    Some (C0 * Rpower (compute_energy strat N ms s) (3 / 2) * kf)
  else if String.eqb scale "enstrophy" then
    Some (C0 * Rpower (compute_enstrophy ms s) (3 / 2) / kf ^ 2)
  else None.

(** `k in viscosity_type` (substring) *)
Fixpoint contains (k s : string) : bool :=
  if String.prefix k s then true
  else match s with EmptyString => false | String _ r => contains k r end.

(** pseudo_spect.py 255-296 : scales of the grid *)
Definition k_max (deltax coef_dealiasing : R) : R := PI / deltax * coef_dealiasing.
Definition length_scale (C0 deltax coef_dealiasing : R) : R := C0 * PI / k_max deltax coef_dealiasing.

(** pseudo_spect.py 298-319: the time scale; [args] are the values given by set_viscosity (lines
    127-142).  [None]: exception. *)
Definition time_scale (viscosity_scale : string) (args : list R) (length large : R) : option R :=
  let t_enstrophy omega_0 := Rpower (Rpower omega_0 (3 / 2)) (- 1 / 3) in
  let t_epsilon epsilon := Rpower epsilon (- 1 / 3) * Rpower length (2 / 3) in
  if String.eqb viscosity_scale "enstrophy" then
    match args with omega_0 :: _ => Some (t_enstrophy omega_0) | _ => None end
  else if String.eqb viscosity_scale "energy" then
    match args with energy_0 :: _ => Some (t_epsilon (energy_0 * (3 / 2) / large)) | _ => None end
  else if String.eqb viscosity_scale "enstrophy_forcing" then
    match args with
    | omega_0 :: epsilon :: _ => Some (Rmin (t_enstrophy omega_0) (t_epsilon epsilon))
    | _ => None
    end
  else if String.eqb viscosity_scale "forcing" then
    match args with epsilon :: _ => Some (t_epsilon epsilon) | _ => None end
  else None.

(** pseudo_spect.py 321-327, dict_visc: key, attribute and order *)
Definition dict_visc : list (string * (string * Z)) :=
  [("laplacian", ("nu_2", 2%Z)); ("hyper4", ("nu_4", 4%Z));
   ("hyper8", ("nu_8", 8%Z)); ("hypo", ("nu_m4", (-4)%Z))]%string.

(** pseudo_spect.py 212-366, calcul_viscosity without the prints: attribute, order and nu. *)
Definition calcul_viscosity (C0 : R) (viscosity_scale viscosity_type : string) (args : list R)
    (deltax deltak coef_dealiasing : R) (nk_f : Z) : option (list (string * Z * R)) :=
  let length := length_scale C0 deltax coef_dealiasing in
  let large := PI / (deltak * IZR nk_f) in
  match time_scale viscosity_scale args length large with
  | None => None
  | Some time =>
      if existsb (fun kv => contains (fst kv) viscosity_type) dict_visc then
        Some (map (fun kv =>
          let '(attr, order) := snd kv in
          (attr, order,
           if contains (fst kv) viscosity_type then powerRZ length order / time else 0)) dict_visc)
      else None
  end.

(** pseudo_spect.py 104-158, set_viscosity: the arguments given to calcul_viscosity. *)
Definition args_viscosity (viscosity_scale : string) (energy enstrophy forcing_rate : R) : option (list R) :=
  if String.eqb viscosity_scale "enstrophy" then Some [enstrophy]
  else if String.eqb viscosity_scale "energy" then Some [energy]
  else if String.eqb viscosity_scale "enstrophy_forcing" then Some [enstrophy; forcing_rate]
  else if String.eqb viscosity_scale "forcing" then Some [forcing_rate]
  else None.

(** pseudo_spect.py 20-39, __call__ with enable = True: state, forcing rate and viscosities. *)
Record pparams := mkPparams {
  forcing_enable : bool;
  init_field_scale : string; init_field_const : R;
  viscosity_type : string; viscosity_scale : string; viscosity_const : R;
  forcing_scale : string; forcing_const : R;
  nkmax_forcing : Z; nkmin_forcing : Z
}.

Definition obind {A B : Type} (x : option A) (f : A -> option B) : option B :=
  match x with Some a => f a | None => None end.

Definition preprocess (strat : bool) (N : R) (ms : list pmode)
    (deltax deltak coef_dealiasing : R) (p : pparams) (forcing_rate : R) (s : pstate)
  : option (pstate * R * list (string * Z * R)) :=
  let kf := k_f deltak (nkmax_forcing p) (nkmin_forcing p) in
  let set_rate s := set_forcing_rate strat N ms (forcing_scale p) (forcing_const p) kf s in
  let normalize P s := normalize_init_fields strat N ms (init_field_scale p) (init_field_const p) P kf s in
  obind
    (if forcing_enable p then
       if contains "forcing" (init_field_scale p) then
         obind (set_rate s) (fun rate => obind (normalize rate s) (fun s' => Some (s', rate)))
       else
         obind (normalize forcing_rate s) (fun s' => obind (set_rate s') (fun rate => Some (s', rate)))
     else obind (normalize forcing_rate s) (fun s' => Some (s', forcing_rate)))
    (fun r =>
      let '(s', rate) := r in
      obind (args_viscosity (viscosity_scale p) (compute_energy strat N ms s') (compute_enstrophy ms s') rate)
        (fun args =>
      obind (calcul_viscosity (viscosity_const p) (viscosity_scale p) (viscosity_type p) args
               deltax deltak coef_dealiasing ((nkmax_forcing p + nkmin_forcing p) / 2))
        (fun visc => Some (s', rate, visc)))).
