(** * plot_temporal_spectra of the spatiotemporal spectra

    fluidsim/base/output/spatiotemporal_spectra.py 1256-1449, after the loading (1280-1294), with the names of the spectra of
    compute_temporal_spectra (1204-1248) and get_info of the milestone forcing (fluidsim/base/forcing/milestone.py 127-141).

    Exact reals, a natural coef_compensate.  [spectrum name io] is the loaded spectrum.  The angles are in radians
    (ensure_radians).  The attribute params.N is an option.  The texts, the styles and ylim (as xlim) are not modelled. *)

From Coq Require Import String List Reals Bool Arith.
Import ListNotations.
Local Open Scope string_scope.
Local Open Scope R_scope.

(** KeyErr: unknown key_field, spectrum not in the file or no period *)
Inductive error := KeyErr.

Inductive projection := PNone | Poloidal | Toroidal.
(** the period is given for the movement periodic_uniform only *)
Inductive movement := Uniform | Sinusoidal | PeriodicUniform (period : R).
Inductive forcing := Watu (omega_f : R) | Milestone (m : movement) | Anisotropic (angle : R) (delta_angle : option R) | OtherForcing.

(** milestone.py 127-141: info.get("period") *)
Definition period_info (m : movement) : option R := match m with PeriodicUniform p => Some p | _ => None end.

Definition mem (x : string) (l : list string) : bool := existsb (String.eqb x) l.

Section Plot.
Variables (is3d : bool) (keys_fields : list string) (omegas : list R) (spectrum : string -> nat -> R) (N : option R).

(** 1204-1248: names of the spectra, without "spectrum_" *)
Definition saved : list string :=
  keys_fields ++ (if is3d then ["Khd"; "Khr"] else []) ++ ["K"] ++ (match N with Some _ => ["A"] | None => [] end).

(** 1269-1276 *)
Definition keys_plot : list string := keys_fields ++ (if is3d then ["Khd"; "Khr"; "Kp"] else []).
Definition choose_key (key_field : option string) : string + error :=
  let key := match key_field with Some k => k | None => hd "" keys_plot end in
  if mem key keys_plot then inl key else inr KeyErr.

(** 1299-1305 and the divisions by norm; None: nan *)
Definition compensated (c : nat) (E : nat -> R) (io : nat) : option R :=
  if (c =? 0)%nat then Some (E io / 1) else if (io =? 0)%nat then None else Some (E io / / (nth io omegas 0 ^ c)).

(** abs(omegas / N - 1).argmin() *)
Fixpoint argmin_from (best : R) (ibest i : nat) (l : list R) : nat :=
  match l with
  | [] => ibest
  | x :: r => if Rlt_dec x best then argmin_from x i (S i) r else argmin_from best ibest (S i) r
  end.
Definition argmin (l : list R) : nat := match l with [] => 0%nat | x :: r => argmin_from x 0 1 r end.
Definition index_N (n : R) : nat := argmin (map (fun o => Rabs (o / n - 1)) omegas).

(** 1330-1358 *)
Definition EKp (io : nat) : R := spectrum "Khd" io + 0.5 * spectrum "vz" io.
Definition EKhr (io : nat) : R := spectrum "Khr" io.
Definition EK (io : nat) : R := if is3d then EKhr io + EKp io else spectrum "K" io.
Definition curves_N (c : nat) (proj : projection) : list (string * (nat -> option R)) :=
  [("EK", compensated c EK)]
  ++ (if is3d then
        (match proj with Poloidal => [] | _ => [("toro", compensated c EKhr)] end)
        ++ (match proj with Toroidal => [] | _ => [("polo", compensated c EKp)] end)
      else [])
  ++ [("EA", compensated c (spectrum "A"))].

(** 1370-1385 *)
Definition modes (aspect_ratio : R) (nx nz : nat) : R := sqrt (INR nx ^ 2 / (INR nx ^ 2 + aspect_ratio ^ 2 * INR nz ^ 2)).
(** 1387-1393: the line of slope -2, at omega / N = w *)
Definition scaling (ek_n : R) (c : nat) (w : R) : R := ek_n * (w ^ c / w ^ 2).

(** 1402-1436: in units of N *)
Inductive guide := Vline (w : R) | Band (lo hi : R).
Definition guides (n : R) (f : forcing) : list guide + error :=
  match f with
  | Watu o => inl [Vline (o / n)]
  | Milestone m => match period_info m with Some p => inl [Vline (2 * PI / p / n)] | None => inr KeyErr end
  | Anisotropic a None => inl [Vline (n * sin a / n)]
  | Anisotropic a (Some d) => inl [Band (n * sin (a - 0.5 * d) / n) (n * sin (a + 0.5 * d) / n)]
  | OtherForcing => inl []
  end.

Record figure := mkF {
  axis : list R; curves : list (string * (nat -> option R)); resonant : list R * list R;
  slope : R -> option R; marks : list guide; limits : option (R * R) }.

Definition plot_temporal_spectra (key_field : option string) (xlim : option (R * R)) (c : nat) (plot_resonant_modes : bool)
  (proj : projection) (aspect_ratio : R) (f : forcing) : figure + error :=
  match choose_key key_field with
  | inr e => inr e
  | inl key =>
      match N with
      | None => if mem key saved
          then inl (mkF omegas [(key, compensated c (spectrum key))] ([], []) (fun _ => None) [] None) else inr KeyErr
      | Some n =>
          match guides n f with
          | inr e => inr e
          | inl g =>
              let ek_n := compensated c EK (index_N n) in
              let nxs := seq 1 10 in
              inl (mkF (map (fun o => o / n) omegas) (curves_N c proj)
                (if plot_resonant_modes then (map (fun nx => modes aspect_ratio nx 1) nxs, map (fun nx => modes aspect_ratio nx 2) nxs) else ([], []))
                (fun w => match ek_n with Some e => Some (scaling e c w) | None => None end)
                (Vline 1 :: g) xlim)
          end
      end
  end.
End Plot.
