(** * The movements and the field of the milestone forcing (fluidsim/base/forcing/milestone.py)

    Exact real numbers; a Python function which reaches its end returns None. Speeds and periods which are 0 (division by
    zero) are excluded by the hypotheses of the theorems. *)

From Coq Require Import Reals List Bool.
From Coq Require Import Rtrigo_def.
Import ListNotations.
Local Open Scope R_scope.

Definition rle (x y : R) : bool := if Rle_dec x y then true else false.
Definition rlt (x y : R) : bool := if Rlt_dec x y then true else false.

(** np.sign *)
Definition sign (x : R) : R := if rlt 0 x then 1 else if rlt x 0 then - 1 else 0.

(** Python's % with a positive second number *)
Definition pymod (x p : R) : R := x - p * IZR (Int_part (x / p)).

(** 28-46 (PeriodicUniform.__init__) *)
Record periodic_uniform := {
  speed_max : R; acc : R; period : R; t_1 : R; t_2 : R; t_3 : R; t_4 : R; x_0 : R; x_1 : R; x_2 : R; x_3 : R; x_4 : R }.

Definition make_periodic_uniform (speed_max length length_acc lx : R) : periodic_uniform :=
  let sg := sign speed_max in
  let x_uni := length - 2 * length_acc in
  let t_uni := x_uni / Rabs speed_max in
  let acc := sg * speed_max ^ 2 / (2 * length_acc) in
  let t_a := speed_max / acc in
  let t_2 := t_a + t_uni in
  let t_3 := t_2 + 2 * t_a in
  let x_0 := lx / 2 - sg * length / 2 in
  let x_1 := x_0 + sg * length_acc in
  let x_2 := x_0 + sg * (length_acc + x_uni) in
  {| speed_max := speed_max; acc := acc; period := 4 * t_a + 2 * t_uni; t_1 := t_a; t_2 := t_2; t_3 := t_3; t_4 := t_3 + t_uni;
     x_0 := x_0; x_1 := x_1; x_2 := x_2; x_3 := x_2; x_4 := x_1 |}.

(** 48-74 (get_speed) *)
Definition get_speed (p : periodic_uniform) (time : R) : option R :=
  let time := pymod time (period p) in
  if rle time (t_1 p) then Some (acc p * time)
  else if rlt (t_1 p) time && rle time (t_2 p) then Some (speed_max p)
  else if rlt (t_2 p) time && rle time (t_3 p) then
    let t := time - t_2 p in Some (speed_max p - acc p * t)
  else if rlt (t_3 p) time && rle time (t_4 p) then Some (- speed_max p)
  else if rlt (t_4 p) time then
    let t := time - t_4 p in Some (- speed_max p + acc p * t)
  else None.

(** 76-102 (get_locations) *)
Definition get_location (p : periodic_uniform) (time : R) : option R :=
  let time := pymod time (period p) in
  if rle time (t_1 p) then Some (x_0 p + acc p / 2 * time ^ 2)
  else if rlt (t_1 p) time && rle time (t_2 p) then Some (x_1 p + speed_max p * (time - t_1 p))
  else if rlt (t_2 p) time && rle time (t_3 p) then
    let t := time - t_2 p in Some (x_2 p + speed_max p * t - acc p / 2 * t ^ 2)
  else if rlt (t_3 p) time && rle time (t_4 p) then Some (x_3 p - speed_max p * (time - t_3 p))
  else if rlt (t_4 p) time then
    let t := time - t_4 p in Some (x_4 p - speed_max p * t + acc p / 2 * t ^ 2)
  else None.

(** 121-126: default parameters of the movement: length = 1, length_acc = 1, speed = 1 *)
Definition default_periodic_uniform (lx : R) : periodic_uniform := make_periodic_uniform 1 1 1 lx.

(** 292-308 and 229-232: the other movements *)
Definition location_uniform (speed lx time : R) : R := pymod (speed * time) lx.
Definition speed_uniform (speed time : R) : R := speed.
Definition location_sinusoidal (length per lx time : R) : R := lx / 2 + length / 2 * sin (2 * PI / per * time - PI / 2).
Definition speed_sinusoidal (length per time : R) : R := length / 2 * (2 * PI / per) * cos (2 * PI / per * time - PI / 2).

(** 216-218: the coordinates y of the objects *)
Definition y_coors (ly : R) (number : nat) : list R :=
  map (fun i => ly / INR number * (1 / 2 + INR i)) (seq 0 number).

(** 23-24 (step); np.tanh *)
Definition tanh (x : R) : R := (exp x - exp (- x)) / (exp x + exp (- x)).
Definition step (x limit smoothness : R) : R := 1 / 2 * (tanh ((- x + limit) / smoothness) + 1).

(** 266-290 (get_solid_field) at the point (px, py) of the grid *)
Definition solid_at (lx diameter width : R) (centers : list (R * R)) (px py : R) : R :=
  fold_left (fun s c =>
    fold_left (fun s i =>
      let x_center := fst c + i * lx in
      s + step (sqrt ((px - x_center) ^ 2 + (py - snd c) ^ 2)) (diameter / 2) width) [- 1; 0; 1] s) centers 0.

(** 207-214: sigma *)
Definition gamma : R := 2.
Definition n_dt : R := 4.
Definition sigma (deltat_max : R) : R := gamma / n_dt / deltat_max.

(** 421-437 (compute): the force at a point *)
Definition force_x (deltat_max solid speed ux : R) : R := sigma deltat_max * solid * (speed - ux).
Definition force_y (deltat_max solid uy : R) : R := - sigma deltat_max * solid * uy.
