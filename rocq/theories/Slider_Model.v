(** * The interactive movie and the file of a movie
    (lib/fluidsim_core/output/movies.py 380-474 interact, 476-499 _ani_save)

    Simplifications: exact numbers; the widget FloatSlider of ipywidgets is modelled by its positions min + k step (not larger
    than max); the drawing is the index of the frame given to update_animation; the import of ipywidgets and the check of
    Jupyter succeed; the expansion of the path and the metadata are not modelled. *)

From Coq Require Import String List QArith Qabs ZArith.
Import ListNotations.
Local Open Scope Q_scope.

Inductive error := IndexError | ValueError | ZeroDivisionError.

(** np.argmin: the first index of the smallest value *)
Fixpoint argmin_from (best : Q) (ibest i : nat) (l : list Q) : nat :=
  match l with
  | [] => ibest
  | x :: r => if Qle_bool best x then argmin_from best ibest (S i) r else argmin_from x i (S i) r
  end.
Definition argmin (l : list Q) : nat := match l with [] => O | x :: r => argmin_from x 0 1 r end.

(** 449-462: the slider; the times of the animation are not empty *)
Record slider := mkSlider { s_min : Q; s_max : Q; s_step : Q; s_value : Q }.
Definition make_slider (times : list Q) (tmin tmax dt : option Q) : slider + error :=
  match times with
  | [] => inr IndexError
  | t0 :: r =>
      let tmin := match tmin with Some t => t | None => t0 end in
      let tmax := match tmax with Some t => t | None => last times 0 end in
      match dt with
      | Some d => inl (mkSlider tmin tmax d tmin)
      | None => match r with [] => inr IndexError | t1 :: _ => inl (mkSlider tmin tmax (t1 - t0) tmin) end
      end
  end.
(** the positions of the slider *)
Definition position (s : slider) (k : nat) : Q := s_min s + inject_Z (Z.of_nat k) * s_step s.
(** 464-467: widget_update *)
Definition widget_update (times : list Q) (time : Q) : nat := argmin (map (fun t => Qabs (t - time)) times).

(** 476-499: the codec and the number of frames per second *)
Definition ani_save (writers : list string) (codec : string) (dt_frame : Q) : (string * Q) + error :=
  match writers with
  | [] => inr ValueError
  | w :: _ =>
      let codec := if existsb (String.eqb codec) writers then codec else w in
      if Qeq_bool dt_frame 0 then inr ZeroDivisionError else inl (codec, 1 / dt_frame)
  end.
