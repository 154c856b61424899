(** * plot_forcing_region of tcrandom_anisotropic

    fluidsim/base/forcing/anisotropic.py 237-494, with the attributes set at 78-105 and 165-167, the default parameters
    at 38-45 and 508-511, ensure_radians (fluidsim/util/util.py 722-732) and kmin_forcing, kmax_forcing
    (fluidsim/base/forcing/specific.py 179-182).

    Exact reals.  The forced modes are those of Aniso_Model (cond_no_forcing).  The texts of the labels, the colors and
    the dotted and dashed arcs (only decoration) are not modelled.  A string which is not a number followed by the degree
    symbol is not modelled (ValueError at the construction of the forcing). *)

From Coq Require Import Reals Bool Arith ZArith List.
From Verif Require Import Aniso_Model.
Import ListNotations.
Local Open Scope R_scope.

(** a value of params.forcing.tcrandom_anisotropic.angle or delta_angle: None, a float, a string like "10°" *)
Inductive angle_param := NoneP | Num (x : R) | Deg (x : R).

Definition radians (x : R) : R := x * PI / 180.
Definition degrees (x : R) : R := x * 180 / PI.

(** util.py 722-732 *)
Definition ensure_radians (a : angle_param) : option R :=
  match a with NoneP => None | Num x => Some x | Deg x => Some (radians x) end.

(** 38-45 and 508-511 *)
Definition default_delta_angle_2d : angle_param := NoneP.
Definition default_delta_angle_3d : angle_param := Deg 10.

(** specific.py 179-182: oper.deltak is the largest of the steps of the directions *)
Definition deltak_2d (dx dy : R) : R := Rmax dx dy.
Definition deltak_3d (dx dy dz : R) : R := Rmax (Rmax dx dy) dz.

(** the forcing maker of the parameters: 3D if [is3d] *)
Definition forcing_maker (is3d : bool) (nkmin nkmax a : R) (delta : angle_param) (neg : bool) (dx dy dz : R) : aniso :=
  let deltak := if is3d then deltak_3d dx dy dz else deltak_2d dx dy in
  mkAniso (deltak * nkmin) (deltak * nkmax) a (ensure_radians delta) neg dx dy dz.

(** 92-105 and 166-167 *)
Definition khmin_forcing (p : aniso) : R :=
  match delta_angle p with None => sin (angle p) * kmin p | Some d => sin (angle p - 0.5 * d) * kmin p end.
Definition kvmin_forcing (p : aniso) : R :=
  match delta_angle p with None => cos (angle p) * kmin p | Some d => cos (angle p + 0.5 * d) * kmin p end.

Inductive error := TypeErr.

(** a rectangle (corner, width, height); an arc of circle around the origin (diameter, angles in degrees from the
    horizontal axis); a segment *)
Inductive drawing :=
| Rectangle (x y width height : R)
| Arc (diameter theta1 theta2 : R)
| Segment (x0 y0 x1 y1 : R).

Record figure := mkF {
  region : list drawing; xlim : R * R; ylim : R * R; xtick : R; ytick : R;
  title_kmin : R; title_kmax : R; markers : list (R * R) }.

(** np.argwhere(COND_NO_F == False) *)
Definition argwhere2 (n0 n1 : nat) (cond : nat -> nat -> bool) : list (nat * nat) :=
  filter (fun ij => negb (cond (fst ij) (snd ij))) (list_prod (seq 0 n0) (seq 0 n1)).
Definition argwhere3 (n0 n1 n2 : nat) (cond : nat -> nat -> nat -> bool) : list (nat * (nat * nat)) :=
  filter (fun i => negb (cond (fst i) (fst (snd i)) (snd (snd i)))) (list_prod (seq 0 n0) (list_prod (seq 0 n1) (seq 0 n2))).

Section Plot.
Variable grid_size : nat -> nat.

(** 263-273 and 474-491; the arrays KX, KY (2D), Kx, Ky, Kz (3D) of oper_coarse *)
Definition markers_2d (p : aniso) : list (R * R) :=
  let Kh (i0 i1 : nat) := deltakx p * INR i1 in
  let Kv (i0 i1 : nat) := deltaky p * IZR (wavenumber (ny_coarse_2d grid_size p) i0) in
  map (fun i => (Kh 0%nat (snd i), Kv (fst i) 0%nat))
    (argwhere2 (ny_coarse_2d grid_size p) (nkx_coarse grid_size p) (cond_no_forcing_2d grid_size p)).

Definition markers_3d (p : aniso) : list (R * R) :=
  let Kx (i0 i1 i2 : nat) := deltakx p * INR i2 in
  let Ky (i0 i1 i2 : nat) := deltaky p * IZR (wavenumber (ny_coarse_3d grid_size p) i1) in
  let Kh (i0 i1 i2 : nat) := sqrt (Kx i0 i1 i2 * Kx i0 i1 i2 + Ky i0 i1 i2 * Ky i0 i1 i2) in
  let Kv (i0 i1 i2 : nat) := deltakz p * IZR (wavenumber (nz_coarse_3d grid_size p) i0) in
  map (fun i => (Kh 0%nat (fst (snd i)) (snd (snd i)), Kv (fst i) 0%nat 0%nat))
    (argwhere3 (nz_coarse_3d grid_size p) (ny_coarse_3d grid_size p) (nkx_coarse grid_size p) (cond_no_forcing_3d grid_size p)).

(** 308-350 and 363-444 *)
Definition draw_rectangle (p : aniso) : list drawing :=
  [Rectangle (khmin_forcing p) (kvmin_forcing p) (khmax_forcing p - khmin_forcing p) (kvmax_forcing p - kvmin_forcing p)].

Definition draw_sector (p : aniso) (d : R) : list drawing :=
  let theta1 := 90 - degrees (angle p) - 0.5 * degrees d in
  let theta2 := 90 - degrees (angle p) + 0.5 * degrees d in
  [ Arc (2 * kmin p) theta1 theta2; Arc (2 * kmax p) theta1 theta2;
    Segment (khmin_forcing p) (kmin p * cos (angle p - 0.5 * d)) (kmax p * sin (angle p - 0.5 * d)) (kvmax_forcing p);
    Segment (kmin p * sin (angle p + 0.5 * d)) (kvmin_forcing p) (khmax_forcing p) (kmax p * cos (angle p + 0.5 * d)) ].

(** [delta] is the parameter, which is not given to ensure_radians in this method: degrees("10°") is a TypeError *)
Definition plot_forcing_region (is3d : bool) (nkmin nkmax a : R) (delta : angle_param) (neg : bool) (dx dy dz : R) : figure + error :=
  let p := forcing_maker is3d nkmin nkmax a delta neg dx dy dz in
  let deltakv := if is3d then dz else dy in
  let lim := (0, 1.2 * kmax p) in
  let fig r := mkF r lim lim deltakv deltakv (nkmin * deltakv) (nkmax * deltakv)
    (if is3d then markers_3d p else markers_2d p) in
  match delta with
  | NoneP => inl (fig (draw_rectangle p))
  | Num d => inl (fig (draw_sector p d))
  | Deg _ => inr TypeErr
  end.
End Plot.
