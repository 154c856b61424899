(** * Change of the resolution of a state

    Arrays are functions of indices. A Python index [-i] (0 < i) of an axis of [n] points is [n - i]. *)

From Coq Require Import List Arith ZArith Bool.
From Verif Require Import Oper_Model.
Import ListNotations.
Local Open Scope nat_scope.

Section Fill.
Context {V : Type}.

(** fluidsim/base/init_fields.py 300-314 (fill_field_fft_2d); axes y (0) and x (1) *)
Definition fill_field_fft_2d (n0_in n1_in n0_out n1_out : nat) (field_in field_out : nat -> nat -> V) : nat -> nat -> V :=
  let nk0_min := min n0_out n0_in in
  let nk1_min := min n1_out n1_in in
  let out := loop nk1_min (fun ik1 out =>
      set2 (set2 out 0 ik1 (field_in 0 ik1)) (nk0_min / 2) ik1 (field_in (nk0_min / 2) ik1)) field_out in
  loop_from 1 (nk0_min / 2) (fun ik0 => loop nk1_min (fun ik1 out =>
      set2 (set2 out ik0 ik1 (field_in ik0 ik1)) (n0_out - ik0) ik1 (field_in (n0_in - ik0) ik1))) out.

(** 317-337 (fill_field_fft_3d) with the sequential layout (z, y, x): kadim_from_ik012rank of the input operator,
    set_value_spect of the output operator (operators3d.py 1105-1116) *)
Definition fill_field_fft_3d (n0_in n1_in n2_in n0_out n1_out n2_out : nat) (field_in field_out : nat -> nat -> nat -> V) :
  nat -> nat -> nat -> V :=
  loop (min n0_out n0_in) (fun ik0 => loop (min n1_out n1_in) (fun ik1 => loop (min n2_out n2_in) (fun ik2 out =>
    let '(i0, i1, i2) := ik012_from_kadim (Z.of_nat n1_out) (Z.of_nat n0_out)
        (kadim_from_ik012 (Z.of_nat n1_in) (Z.of_nat n0_in) (Z.of_nat ik0, Z.of_nat ik1, Z.of_nat ik2)) in
    set3 out (Z.to_nat i0) (Z.to_nat i1) (Z.to_nat i2) (field_in ik0 ik1 ik2)))) field_out.

(** fluidsim/util/mini_oper_modif_resol.py 26-55 (fill_field_fft_3d of MiniOperModifResol) *)
Definition mini_fill_field_fft_3d (n0_in n1_in n2_in n0_out n1_out n2_out : nat) (field_in field_out : nat -> nat -> nat -> V) :
  nat -> nat -> nat -> V :=
  let nk0_min := min n0_out n0_in in
  let nk1_min := min n1_out n1_in in
  let nk2_min := min n2_out n2_in in
  loop (nk0_min / 2 + 1) (fun ik0 => loop (nk1_min / 2 + 1) (fun ik1 => loop nk2_min (fun ik2 out =>
    let neg0 := (0 <? ik0) && (ik0 <? nk0_min / 2) in
    let neg1 := (0 <? ik1) && (ik1 <? nk1_min / 2) in
    let out := set3 out ik0 ik1 ik2 (field_in ik0 ik1 ik2) in
    let out :=
      if neg0 then
        let out := set3 out (n0_out - ik0) ik1 ik2 (field_in (n0_in - ik0) ik1 ik2) in
        if neg1 then set3 out (n0_out - ik0) (n1_out - ik1) ik2 (field_in (n0_in - ik0) (n1_in - ik1) ik2) else out
      else out in
    if neg1 then set3 out ik0 (n1_out - ik1) ik2 (field_in ik0 (n1_in - ik1) ik2) else out))) field_out.

(** init_fields.py 346-362 (_make_state_spect_2d): a copy if the resolutions are the same, otherwise zeros filled *)
Definition make_state_spect_2d (zero : V) (nx_in ny_in nx ny : nat) (field_in : nat -> nat -> V) : nat -> nat -> V :=
  if (nx =? nx_in) && (ny =? ny_in) then field_in
  else fill_field_fft_2d ny_in (nx_in / 2 + 1) ny (nx / 2 + 1) field_in (fun _ _ => zero).

(** 364-384 (_make_state_spect_3d) *)
Definition make_state_spect_3d (zero : V) (nx_in ny_in nz_in nx ny nz : nat) (field_in : nat -> nat -> nat -> V) : nat -> nat -> nat -> V :=
  if (nx =? nx_in) && (ny =? ny_in) && (nz =? nz_in) then field_in
  else fill_field_fft_3d nz_in ny_in (nx_in / 2 + 1) nz ny (nx / 2 + 1) field_in (fun _ _ _ => zero).
End Fill.
