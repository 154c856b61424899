(** * Forcing region and dissipative scales of plot1d of the spectra of ns3d

    fluidsim/solvers/ns3d/output/spectra.py 312-397 (plot1d, after _plot_ndim).

    Exact reals.  The angles are in radians (ensure_radians).  kf_min and kf_max are nkmin_forcing and nkmax_forcing times
    oper.deltak (323-324), as the kmin and kmax of Aniso_Model.  The vertical extent and the texts are not modelled. *)

From Coq Require Import Reals Bool List.
Import ListNotations.
Local Open Scope R_scope.

Inductive error := NotImplementedErr.
Inductive direction := X | Y | Z.
Definition eqb (a b : direction) : bool := match a, b with X, X | Y, Y | Z, Z => true | _, _ => false end.

(** 337-346: (khmin_forcing, khmax_forcing) and (kvmin_forcing, kvmax_forcing) *)
Definition bounds_h (a : R) (delta : option R) (kf_min kf_max : R) : R * R :=
  match delta with
  | None => (sin a * kf_min, sin a * kf_max)
  | Some d => (sin (a - 0.5 * d) * kf_min, sin (a + 0.5 * d) * kf_max)
  end.
Definition bounds_v (a : R) (delta : option R) (kf_min kf_max : R) : R * R :=
  match delta with
  | None => (cos a * kf_min, cos a * kf_max)
  | Some d => (cos (a + 0.5 * d) * kf_min, cos (a - 0.5 * d) * kf_max)
  end.

(** where = (k > kmin) & (k < kmax) *)
Definition where_band (b : R * R) (k : R) : bool :=
  (if Rlt_dec (fst b) k then true else false) && (if Rlt_dec k (snd b) then true else false).

(** 359-370: for a direction, whether the wave number [k] of its axis is shaded, and the position of its text *)
Definition shaded (directions : list direction) (a : R) (delta : option R) (kf_min kf_max : R) (dir : direction) (k : R) : bool :=
  existsb (eqb dir) directions
  && where_band (match dir with X | Y => bounds_h a delta kf_min kf_max | Z => bounds_v a delta kf_min kf_max end) k.

Definition text_position (a : R) (delta : option R) (kf_min kf_max : R) (dir : direction) : R :=
  let b := match dir with X | Y => bounds_h a delta kf_min kf_max | Z => bounds_v a delta kf_min kf_max end in
  0.5 * (fst b + snd b).

(** 320 and 371-372: only for the forcing tcrandom_anisotropic *)
Definition forcing_bands (is_anisotropic : bool) (directions : list direction) (a : R) (delta : option R) (kf_min kf_max : R)
  : (direction -> R -> bool) + error :=
  if is_anisotropic then inl (shaded directions a delta kf_min kf_max) else inr NotImplementedErr.

(** 374-397: the positive viscosities (None: the attribute is None), for a positive forcing rate Pf *)
Definition kd (nu Pf den : R) : R := 1 / Rpower (nu / Rpower Pf (1 / 3)) (3 / den).
Definition one_scale (nu : option R) (Pf den : R) : list R :=
  match nu with None => [] | Some n => if Req_EM_T n 0 then [] else [kd n Pf den] end.
Definition dissipative_scales (nu_2 nu_4 nu_8 : option R) (Pf : R) : list R :=
  one_scale nu_2 Pf 4 ++ one_scale nu_4 Pf 10 ++ one_scale nu_8 Pf 22.
