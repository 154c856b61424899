(** Model of the values characterizing a simulation: compute_isotropy_velocities and compute_length_scales
    (fluidsim/base/output/spectra3d.py), compute_isotropy_dissipation and compute_fluxes_mean
    (fluidsim/solvers/ns3d/output/spect_energy_budget.py), get_mean_values (fluidsim/base/output/base.py and
    lib/fluidsim_core/output/dataframe_from_paths.py).

    Simplifications: exact numbers; an array is a size and a function of the indices; None is nan or inf (division
    by zero); a file is the list of its records (time, arrays); the text of a float in the name of a file is the float;
    a function given by the user is its source and the function. *)
From Coq Require Import String Reals List Bool.
From Verif Require Import HMeans_Model.
Import ListNotations.
Local Open Scope R_scope.

(** spectra3d.py 350-358, one direction: (l1, l2) *)
Definition length_scales (n : nat) (k e : nat -> R) : option (R * R) :=
  let sum0 := sumn n e in
  let sum1 := sumn n (fun i => e i * k i) in
  let sum2 := sumn n (fun i => e i * k i ^ 2) in
  if Req_EM_T sum1 0 then None else if Req_EM_T sum2 0 then None
  else Some (2 * PI * sum0 / sum1, 2 * PI * sqrt (sum0 / sum2)).

(** a[0] = 0 *)
Definition zero_first (a : nat -> R) : nat -> R := fun i => match i with O => 0 | _ => a i end.

(** spectra3d.py 327-339 *)
Definition isotropy_velocities (n : nat) (kz sx sy sz : nat -> R) : option R :=
  let delta_kz := kz 1%nat in
  let EKx_kz := zero_first (fun i => sx i * delta_kz) in
  let EKy_kz := zero_first (fun i => sy i * delta_kz) in
  let EKz := sumn n (fun i => sz i * delta_kz) in
  let EK := sumn n EKx_kz + sumn n EKy_kz + EKz in
  if Req_EM_T EK 0 then None else Some (3 * EKz / EK).

(** a.sum() *)
Definition sum2 (nz nh : nat) (a : nat -> nat -> R) : R := sumn nz (fun iz => sumn nh (fun ih => a iz ih)).

(** spect_energy_budget.py 353-382; diss_K is diss_Kh + diss_Kz *)
Definition isotropy_dissipation (nu_2 nu_4 : R) (nz nh : nat) (kz kh : nat -> R) (diss_Kh diss_Kz : nat -> nat -> R) : option R :=
  let K2 iz ih := kh ih ^ 2 + kz iz ^ 2 in
  let freq_diss iz ih := match iz, ih with O, O => / 10 ^ 16 | _, _ => nu_2 * K2 iz ih + nu_4 * K2 iz ih ^ 2 end in
  let diss_K iz ih := diss_Kh iz ih + diss_Kz iz ih in
  let EK iz ih := diss_K iz ih / freq_diss iz ih in
  let epsK_kz := sum2 nz nh (fun iz ih => (nu_2 * kz iz ^ 2 + nu_4 * kz iz ^ 4) * EK iz ih) in
  if Req_EM_T (sum2 nz nh diss_K) 0 then None
  else Some ((1 - epsK_kz / sum2 nz nh diss_K) / (1 - 1 / 3)).

(** np.cumsum *)
Definition cumsum (a : nat -> R) : nat -> R := fun i => sumn (S i) a.

(** spect_energy_budget.py 296-311: (hflux, zflux) *)
Definition fluxes (nz nh : nat) (kz kh : nat -> R) (key : string) (spectrum : nat -> nat -> R) : (nat -> R) * (nat -> R) :=
  let deltakz := kz 1%nat in
  let deltakh := kh 1%nat in
  let sign := if String.prefix "transfer" key then -1 else 1 in
  (fun ih => sign * (deltakh * cumsum (fun j => deltakz * sumn nz (fun iz => spectrum iz j)) ih),
   fun iz => sign * (deltakz * cumsum (fun j => deltakh * sumn nh (fun ih => spectrum j ih)) iz)).

(** ** _compute_mean_values *)

(** spectra3d.py 205-219, 239; spect_energy_budget.py 196-206; spatial_means.py 443-451 *)
Definition select {A : Type} (records : list (R * A)) (tmin tmax : option R) : list A :=
  let times := map fst records in
  let imin := match tmin with None => O | Some t => index_time times t end in
  let imax := match tmax with None => (length records - 1)%nat | Some t => index_time times t end in
  map snd (firstn (imax + 1 - imin) (skipn imin records)).
Definition mean {A : Type} (l : list A) (f : A -> R) : R := sum_list (map f l) / INR (length l).

(** the grids and the parameters *)
Record grids := mkGrids { nkx : nat; nky : nat; nkz : nat; nkh : nat; gkx : nat -> R; gky : nat -> R; gkz : nat -> R; gkh : nat -> R; gnu2 : R; gnu4 : R }.
(** the files: spatial means (numbers versus time), 1d spectra, energy budget *)
Record data := mkData { d_means : list (R * (string -> R)); d_spectra : list (R * (string -> nat -> R)); d_budget : list (R * (string -> nat -> nat -> R)) }.
Record values := mkValues { v_means : string -> R; v_velocity : option R; v_lengths : list (option (R * R)); v_dissipation : option R }.

(** base.py 456-498; spect_energy_budget.py 353-354: load_mean(tmin, tmax) with tmax=None *)
Definition compute_mean_values (g : grids) (d : data) (tmin tmax : R) : values :=
  let means := select (d_means d) (Some tmin) (Some tmax) in
  let spectra := select (d_spectra d) (Some tmin) (Some tmax) in
  let budget := select (d_budget d) (Some tmin) None in
  let s key i := mean spectra (fun r => r key i) in
  let b key i j := mean budget (fun r => r key i j) in
  mkValues (fun key => mean means (fun r => r key))
    (isotropy_velocities (nkz g) (gkz g) (s "spectra_vx_kz"%string) (s "spectra_vy_kz"%string) (s "spectra_vz_kz"%string))
    [length_scales (nkx g) (gkx g) (s "spectra_E_kx"%string); length_scales (nky g) (gky g) (s "spectra_E_ky"%string); length_scales (nkz g) (gkz g) (s "spectra_E_kz"%string)]
    (isotropy_dissipation (gnu2 g) (gnu4 g) (nkz g) (nkh g) (gkz g) (gkh g) (b "diss_Kh"%string) (b "diss_Kz"%string)).

(** ** get_mean_values_from_path: dataframe_from_paths.py 38-127 *)

(** tmin, tmax: None, "t_start+...", "t_last-...", other string, number *)
Inductive limit := LNone | LStart (x : R) | LLast (x : R) | LOther | LTime (x : R).

(** 80-91 *)
Definition resolve_min (t_start t_last : R) (l : limit) : option R :=
  match l with LNone => Some t_start | LStart x => Some (t_start + x) | LLast x => Some (t_last - x) | LOther => None | LTime x => Some x end.
(** 93-104 *)
Definition resolve_max (t_start t_last : R) (l : limit) : option R :=
  match l with LNone => Some t_last | LStart x => Some (t_start + x) | LLast x => Some (t_last - x) | LOther => None | LTime x => Some x end.

(** source of the function and the function *)
Definition customize : Type := string * (values -> values).
(** name of the file: tmin, tmax, hash of the source *)
Definition cache_key : Type := R * R * option string.
Definition cache_dir : Type := list (cache_key * values).

Definition same_key (a b : cache_key) : bool :=
  let '(x, y, s) := a in let '(x', y', s') := b in
  (if Req_EM_T x x' then true else false) && (if Req_EM_T y y' then true else false)
  && match s, s' with None, None => true | Some u, Some v => String.eqb u v | _, _ => false end.
Fixpoint cached (c : cache_dir) (k : cache_key) : option values :=
  match c with [] => None | (k', v) :: r => if same_key k k' then Some v else cached r k end.
(** open(cache_file, "w") *)
Fixpoint store (c : cache_dir) (k : cache_key) (v : values) : cache_dir :=
  match c with [] => [(k, v)] | (k', v') :: r => if same_key k k' then (k', v) :: r else (k', v') :: store r k v end.

Definition get_mean_values (g : grids) (d : data) (t_start t_last : R) (c : cache_dir) (tmin tmax : limit) (use_cache : bool) (f : option customize)
  : option (values * cache_dir) :=
  match resolve_min t_start t_last tmin, resolve_max t_start t_last tmax with
  | Some tmin, Some tmax =>
      let k := (tmin, tmax, match f with None => None | Some f => Some (fst f) end) in
      match (if use_cache then cached c k else None) with
      | Some v => Some (v, c)
      | None =>
          let v := compute_mean_values g d tmin tmax in
          let v := match f with None => v | Some f => snd f v end in
          Some (v, store c k v)
      end
  | _, _ => None
  end.
