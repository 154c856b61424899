(** * Transfers by the rotational and divergent velocities (fluidsim/base/output/spect_energy_budget.py 121-135)

    Same conventions as Seb_Model.v. *)

From Coq Require Import Reals ZArith List Bool.
From Coquelicot Require Import Complex.
From Verif Require Import CExp DFT Alias_Model Oper_Model Budget_Model Seb_Model.
Import ListNotations.
Local Open Scope R_scope.

Section FnlUrUd.
Variable o : oper.
Variable ms : list mode.
Variable dea : mode -> bool.

(** fnonlinfft_from_uruddivfunc *)
Definition fnonlin_urud (urx ury udx udy div : gfield) (func_fft : field) (func : gfield) : field * field :=
  let px_func := ifft o ms (px_fft o func_fft) in
  let py_func := ifft o ms (py_fft o func_fft) in
  let Frf := gsub (gmul (gopp urx) px_func) (gmul ury py_func) in
  let Fdf := gsub (gsub (gmul (gopp udx) px_func) (gmul udy py_func)) (fun jx jy jz => div jx jy jz * func jx jy jz / RtoC 2)%C in
  (dealiasing dea (fft o Frf), dealiasing dea (fft o Fdf)).
End FnlUrUd.
