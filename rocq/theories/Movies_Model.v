(** Model of lib/fluidsim_core/output/movies.py (times of the frames, player, repetitions, vectors) and of the time average
    of fluidsim/base/output/phys_fields3d.py (plot_mean).

    Simplifications: exact numbers; matplotlib's FuncAnimation is what it is given: the number of frames and whether it begins
    again at the end; the quiver plot refuses positions and components of different sizes; one direction of the arrays. *)
From Coq Require Import QArith Qround ZArith List Bool.
From Verif Require Probes_Model.
Import ListNotations.

Inductive error := ValueError | ZeroDivisionError | IndexError.
Definition Qltb (a b : Q) : bool := negb (Qle_bool b a).

(** ** The times of the frames *)

(** np.arange(tmin, tmax, dt) *)
Definition arange (tmin tmax dt : Q) : list Q + error :=
  if Qeq_bool dt 0 then inr ZeroDivisionError else inl (Probes_Model.arange tmin tmax dt).

(** 137-158 (_init_ani_times): the arguments after their default values *)
Definition init_ani_times (tmin tmax dt : Q) : list Q + error :=
  if Qltb tmax tmin then inr ValueError
  else if Qltb tmax dt then inl [tmin; tmax]
  else arange tmin tmax dt.

(** 590-634 (MoviesBasePhysFields.init_animation): the times of the files, at least one *)
Definition last_time (times : list Q) : Q := last times 0%Q.
Definition first_time (times : list Q) : Q := hd 0%Q times.
Definition max_time (times : list Q) : Q := fold_right (fun a b => if Qle_bool a b then b else a) (first_time times) times.
Definition phys_ani_times (times : list Q) (tmin tmax dt : Q) : list Q + error :=
  if Qltb (max_time times) tmax then inr ValueError
  else match init_ani_times tmin tmax dt with
  | inr e => inr e
  | inl ani =>
      let dt_file := ((last_time times - first_time times) / inject_Z (Z.of_nat (length times)))%Q in
      if Qltb dt (dt_file / 4) then inr ValueError
      else if Qltb ((tmax - tmin) / 2) dt then inr ValueError
      else inl ani
  end.

(** 602-604: the default step, half the median of the intervals between the files (np.median, np.diff) *)
Fixpoint insert_q (x : Q) (l : list Q) : list Q := match l with [] => [x] | y :: r => if Qle_bool x y then x :: l else y :: insert_q x r end.
Definition sort_q (l : list Q) : list Q := fold_right insert_q [] l.
Definition median (l : list Q) : Q := let s := sort_q l in let n := length s in ((nth ((n - 1) / 2) s 0 + nth (n / 2) s 0) / 2)%Q.
Fixpoint diff (l : list Q) : list Q := match l with x :: (y :: _) as r => (y - x)%Q :: diff r | _ => [] end.
Definition default_dt (times : list Q) : Q := (median (diff times) / 2)%Q.
Definition min_time (times : list Q) : Q := fold_right (fun a b => if Qle_bool a b then a else b) (first_time times) times.
(** no argument is given *)
Definition phys_ani_times_default (times : list Q) : list Q + error := phys_ani_times times (min_time times) (max_time times) (default_dt times).

(** 538, 697, 808: self.ani_times[frame % len(self.ani_times)] *)
Definition time_of_frame (ani : list Q) (frame : nat) : Q + error :=
  match length ani with O => inr ZeroDivisionError | n => inl (nth (Nat.modulo frame n) ani 0%Q) end.

(** ** Repetitions *)

(** the argument repeat *)
Inductive repeat_arg := RBool (b : bool) | RInt (n : Z).
(** isinstance(repeat, int) and repeat: the booleans are integers *)
Definition as_int (r : repeat_arg) : Z := match r with RBool true => 1 | RBool false => 0 | RInt n => n end.
(** 305-326: the number of frames and the argument repeat given to FuncAnimation *)
Definition animate (repeat : repeat_arg) (ani : list Q) : Z * bool :=
  let nb_repeat := if negb (Z.eqb (as_int repeat) 0) then as_int repeat else 1%Z in
  ((nb_repeat * Z.of_nat (length ani))%Z, false).

(** ** The player *)

Record player := mkPlayer { index : Z; forwards : bool; paused : bool }.
Section Player.
Variables imin imax : Z.
(** self._forwards - (not self._forwards) *)
Definition direction (p : player) : Z := if forwards p then 1%Z else (-1)%Z.
(** 341-351 (_frames_iterative), one turn of the loop (not paused): the frame is the index *)
Definition next_frame (p : player) : player :=
  let i := (index p + direction p)%Z in
  if (i <? imin)%Z then mkPlayer imax (forwards p) (paused p)
  else if (imax <? i)%Z then mkPlayer imin (forwards p) (paused p)
  else if (i =? imax)%Z || (i =? imin)%Z then mkPlayer i (forwards p) true
  else mkPlayer i (forwards p) (paused p).
(** 353-369 (onestep) *)
Definition onestep (p : player) : player :=
  let i := index p in
  let i' :=
    if (imin <? i)%Z && (i <? imax)%Z then (i + direction p)%Z
    else if (i =? imin)%Z then (if forwards p then (i + 1)%Z else imax)
    else if (i =? imax)%Z then (if negb (forwards p) then (i - 1)%Z else imin)
    else i in
  mkPlayer i' (forwards p) true.
(** 123-129 *)
Definition one_forward (p : player) : player := onestep (mkPlayer (index p) true (paused p)).
Definition one_backward (p : player) : player := onestep (mkPlayer (index p) false (paused p)).
End Player.

(** ** The vectors *)

(** number of elements of a[::k] *)
Definition strided (n k : nat) : nat := ((n + (k - 1)) / k)%nat.
(** a component of the vectors in the first figure (_init_fig 660-684, phys_fields2d.py 394-437): the keyword
    normalize_vectors, {} (false) when it is not given; the step of the positions is applied before skip *)
Definition init_vectors (normalize : option bool) (n step skip : nat) (vmax : Q) (v : nat -> Q) : (nat -> Q) + error :=
  let norm := match normalize with None => false | Some b => b end in
  if Nat.eqb (strided (strided n step) skip) (strided n skip)
  then inl (fun i => let x := v (i * skip)%nat in if norm then (x / vmax)%Q else x)
  else inr ValueError.
(** in the next frames (update_animation 695-718) *)
Definition update_vectors (skip : nat) (vmax : Q) (v : nat -> Q) : nat -> Q := fun i => (v (i * skip)%nat / vmax)%Q.

(** ** The time average (phys_fields3d.py 318-379): a file is its time and the field (one point) *)
Definition files : Type := list (Q * Q).
Definition qsum (l : list Q) : Q := fold_right Qplus 0%Q l.
Definition plot_mean (fs : files) (tmin tmax : option Q) : Q + error :=
  let times := map fst fs in
  let tmin := match tmin with None => min_time times | Some t => t end in
  let tmax := match tmax with None => max_time times | Some t => t end in
  let sel := filter (fun f => Qle_bool tmin (fst f) && Qle_bool (fst f) tmax) fs in
  match sel with [] => inr IndexError | _ => inl (qsum (map snd sel) / inject_Z (Z.of_nat (length sel)))%Q end.
