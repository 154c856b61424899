(** Model of the figure of the normalised energies of ns2d.strat: plot_energy
    (fluidsim/solvers/ns2d/strat/output/spatial_means.py 359-396).

    The numbers are reals; the rate of the forcing and the sizes are positive, [Rpower] is ** for a positive number.
    The record [forcing] is the one of Dimless_Model.v (params.forcing); the colours, the labels of the curves and the
    layout are not modelled, the labels of the axes are strings. *)
From Coq Require Import Ascii String List Reals.
From Verif Require Import Dimless_Model.
Import ListNotations.
Local Open Scope R_scope.

(** 370-375 *)
Definition k_f (f : forcing) (Lx Ly : R) : R :=
  (nkmax f + nkmin f) / 2 * Rmax (2 * PI / Lx) (2 * PI / Ly).

(** 377-383 *)
Definition E_f (f : forcing) (Lx Ly : R) : R :=
  let ap := match key_forced f with Some k => String.eqb k "ap_fft" | None => false end in
  if ap then Rpower (forcing_rate f) (2 / 7) * Rpower (2 * PI / k_f f Lx Ly) (10 / 7)
  else Rpower (forcing_rate f) (2 / 3) * (2 * PI / k_f f Lx Ly) ^ 2.

Record figure := mkFigure { xlabel : string; ylabel : string; curves : list (string * list (R * R)) }.

(** ax.plot(t[1:], q[1:] / E_f) *)
Definition curve (t q : list R) (e : R) : list (R * R) := combine (tl t) (map (fun x => x / e) (tl q)).

(** 385-390 *)
Definition plot_energy (f : forcing) (Lx Ly : R) (t E EK EA : list R) : figure :=
  let e := E_f f Lx Ly in
  mkFigure "$t/t_f$" "$E/E_f$" [("E"%string, curve t E e); ("EK"%string, curve t EK e); ("EA"%string, curve t EA e)].

(** plot_energy_shear_modes 286-309 *)
Definition plot_energy_shear_modes (t E Eshear : list R) : list (string * list (R * R)) :=
  [("$E_{total}$"%string, combine t E); ("$E_{shear}$"%string, combine t Eshear);
   ("$E_{total} - E_{shear}$"%string, combine t (map (fun p => fst p - snd p) (combine E Eshear)))].
