(** The cross sections of the physical fields and the choice of what is plotted.
    Source: base/output/phys_fields.py l.77-93 (get_key_field_to_plot), l.203-283 (get_field_to_plot, get_field_to_plot_from_state),
    l.286-324 (_get_axis_data), l.346-384 (_get_field_to_plot_from_file); base/output/phys_fields2d.py l.142-158 (get_vector_for_plot),
    l.167-216 (online plot), l.218-318 (plot); base/output/phys_fields1d.py l.38-66 (plot); base/output/phys_fields3d.py l.24-38, l.63-84, l.129-205 (plot), l.311-378 (plot_mean);
    operators/operators3d.py l.1040-1049 (get_grid1d_seq).
    Simplifications: eval of the text after the sign = is external (an integer for iz=, a number for z=); the arrays are functions of
    the indices with their shape; one process; exact rational numbers; math.isclose is a parameter. *)
From Coq Require Import String List ZArith QArith Qabs Bool Arith.
From Verif Require Import PhysFiles_Model.
Import ListNotations.
Local Open Scope nat_scope.

Inductive error := IndexError | NotImplemented | ValueError | FileNotFound.
Inductive result (A : Type) := Done (a : A) | Error (e : error).
Arguments Done {A}. Arguments Error {A}.

Definition startswith (s prefix : string) : bool := String.prefix prefix s.
Definition after (s prefix : string) : string := String.substring (String.length prefix) (String.length s - String.length prefix) s.

(** Python index of an axis with n points *)
Definition py_index (n : nat) (i : Z) : option nat :=
  if (0 <=? i)%Z && (i <? Z.of_nat n)%Z then Some (Z.to_nat i)
  else if (- Z.of_nat n <=? i)%Z && (i <? 0)%Z then Some (Z.to_nat (Z.of_nat n + i))
  else None.

Inductive axis := X | Y | Z_.
Record operator := { n_of : axis -> nat; length_of : axis -> Q; only_coarse : bool }.
(** operators3d.py 1040-1049: x_seq is the grid of the simulation; with ONLY_COARSE_OPER np.linspace(0, L, n) *)
Definition grid1d (o : operator) (a : axis) : list Q :=
  map (fun i => if only_coarse o then (if n_of o a =? 1 then 0 else length_of o a * inject_Z (Z.of_nat i) / inject_Z (Z.of_nat (n_of o a) - 1))%Q
                else (length_of o a * inject_Z (Z.of_nat i) / inject_Z (Z.of_nat (n_of o a)))%Q) (seq 0 (n_of o a)).
(** abs(grid - z).argmin() *)
Definition nearest (grid : list Q) (z : Q) : Z := Z.of_nat (argmin (map (fun s => Qabs (s - z)) grid)).

Section Sections.
Context {V : Type} (eval_index : string -> Z) (eval_coord : string -> Q).
Record array2 := { rows : nat; cols : nat; at2 : nat -> nat -> V }.
Record array3 := { size0 : nat; size1 : nat; size2 : nat; at3 : nat -> nat -> nat -> V }.
Definition cut0 (f : array3) (i : Z) : result array2 :=
  match py_index (size0 f) i with Some k => Done {| rows := size1 f; cols := size2 f; at2 := fun a b => at3 f k a b |} | None => Error IndexError end.
Definition cut1 (f : array3) (i : Z) : result array2 :=
  match py_index (size1 f) i with Some k => Done {| rows := size0 f; cols := size2 f; at2 := fun a b => at3 f a k b |} | None => Error IndexError end.
Definition cut2 (f : array3) (i : Z) : result array2 :=
  match py_index (size2 f) i with Some k => Done {| rows := size0 f; cols := size1 f; at2 := fun a b => at3 f a b k |} | None => Error IndexError end.
(** phys_fields.py 254-281, for three axes *)
Definition cross_section_state (o : operator) (equation : string) (f : array3) : result array2 :=
  if startswith equation "iz=" then cut0 f (eval_index (after equation "iz="))
  else if startswith equation "z=" then cut0 f (nearest (grid1d o Z_) (eval_coord (after equation "z=")))
  else if startswith equation "iy=" then cut1 f (eval_index (after equation "iy="))
  else if startswith equation "y=" then cut1 f (nearest (grid1d o Y) (eval_coord (after equation "y=")))
  else if startswith equation "ix=" then cut2 f (eval_index (after equation "ix="))
  else if startswith equation "x=" then cut2 f (nearest (grid1d o X) (eval_coord (after equation "x=")))
  else Error NotImplemented.
(** phys_fields.py 346-384, for a data set with three axes *)
Definition cross_section_file (o : operator) (equation : string) (f : array3) : result array2 :=
  if startswith equation "iz=" then cut0 f (eval_index (after equation "iz="))
  else if startswith equation "z=" then cut0 f (nearest (grid1d o Z_) (eval_coord (after equation "z=")))
  else if startswith equation "iy=" then cut1 f (eval_index (after equation "iy="))
  else if startswith equation "y=" then cut1 f (nearest (grid1d o Y) (eval_coord (after equation "y=")))
  else if startswith equation "ix=" then cut2 f (eval_index (after equation "ix="))
  else if startswith equation "x=" then cut2 f (nearest (grid1d o X) (eval_coord (after equation "x=")))
  else Error NotImplemented.
(** what is given to the figure: a 2D array or the whole 3D field *)
Inductive picture := Flat (a : array2) | Whole (f : array3).
Definition field_from_state (o : operator) (equation : option string) (f : array3) : result picture :=
  match equation with
  | None => Done (Whole f)
  | Some e => match cross_section_state o e f with Done a => Done (Flat a) | Error e => Error e end
  end.
(** phys_fields2d.py 142-158, inherited in 3D, and 167-172: the online plot *)
Definition vector_for_plot (from_state : bool) (o : operator) (equation : string) (fx fy : array3) : result (picture * picture) :=
  let get f := if from_state then field_from_state o None f else field_from_state o (Some equation) f in
  match get fx, get fy with Done a, Done b => Done (a, b) | Error e, _ => Error e | _, Error e => Error e end.
Definition online_field (o : operator) (equation : string) (f : array3) : result picture := field_from_state o None f.
(** 2D simulation: the state (254) and the files (352-384): the cuts of a data set with two axes *)
Definition field2_from_state (equation : option string) (f : array2) : result array2 := Done f.
Definition cross_section_file2 (o : operator) (equation : option string) (f : array2) : result (array2 + (nat -> V)) :=
  match equation with
  | None => Done (inl f)
  | Some e =>
      if startswith e "iz=" then
        match py_index (rows f) (eval_index (after e "iz=")) with Some k => Done (inr (fun b => at2 f k b)) | None => Error IndexError end
      else if startswith e "z=" then Error ValueError
      else if startswith e "iy=" || startswith e "y=" then Error IndexError
      else if startswith e "ix=" then
        match py_index (cols f) (eval_index (after e "ix=")) with Some k => Done (inr (fun a => at2 f a k)) | None => Error IndexError end
      else if startswith e "x=" then
        match py_index (cols f) (nearest (grid1d o X) (eval_coord (after e "x="))) with Some k => Done (inr (fun a => at2 f a k)) | None => Error IndexError end
      else Error NotImplemented
  end.
End Sections.

(** phys_fields.py 301-322 *)
Definition axis_data (equation : option string) : result (axis * axis) :=
  match equation with
  | None => Done (X, Y)
  | Some e =>
      if startswith e "iz=" || startswith e "z=" then Done (X, Y)
      else if startswith e "iy=" || startswith e "y=" then Done (X, Z_)
      else if startswith e "ix=" || startswith e "x=" then Done (Y, Z_)
      else Error NotImplemented
  end.
(** phys_fields3d.py 24-38 *)
Definition xylabels (e : string) : result (string * string) :=
  if startswith e "iz=" || startswith e "z=" then Done ("x", "y")%string
  else if startswith e "iy=" || startswith e "y=" then Done ("x", "z")%string
  else if startswith e "ix=" || startswith e "x=" then Done ("y", "z")%string
  else Error NotImplemented.
(** phys_fields3d.py 63-84: the new equation and the keys of the vectors *)
Definition set_equation (e : string) : result (string * (string * string)) :=
  if startswith e "iz=" || startswith e "z=" then Done (e, ("vx", "vy"))%string
  else if startswith e "iy=" || startswith e "y=" then Done (e, ("vx", "vz"))%string
  else if startswith e "ix=" || startswith e "x=" then Done (e, ("vy", "vz"))%string
  else Error NotImplemented.

(** ** What is plotted *)
Record simul := { keys_phys : list string; keys_computable : list string; field_to_plot : string; coarse_only : bool; t_sim : Q }.
Definition mem (k : string) (l : list string) : bool := existsb (String.eqb k) l.
(** phys_fields.py 77-93 *)
Definition key_to_plot (s : simul) (forbid_compute : bool) (prefered : option string) : string :=
  let key := match prefered with Some k => k | None => field_to_plot s end in
  let keys_ok := keys_phys s ++ (if negb (coarse_only s) && negb forbid_compute then keys_computable s else []) in
  if mem key keys_ok then key
  else fold_left (fun k c => if mem c keys_ok then c else k) ["q"; "rot"; "rotz"]%string (hd ""%string (keys_phys s)).
Inductive argument := NoField | Array | Key (k : string).
Inductive source := FromState (key : string) (t : Q) | FromFile (key : string) (t : option Q).
Section Plot.
Variable isclose : Q -> Q -> bool.
(** phys_fields.py 214-234, for a key *)
Definition get_field (s : simul) (key : string) (time : option Q) : source :=
  if negb (coarse_only s) && match time with None => true | Some t => isclose t (t_sim s) end then FromState key (t_sim s) else FromFile key time.
Definition key_of (s : simul) (field : argument) (time : option Q) : string :=
  match field with
  | NoField => key_to_plot s (match time with Some _ => true | None => false end) None
  | Array => "given array"
  | Key k => k
  end.
(** phys_fields3d.py 135-189; "given array" could not be the name of a variable *)
Definition plot3d (s : simul) (field : argument) (time : option Q) : result source :=
  let key := key_of s field time in
  match time, field with
  | None, NoField | None, Key _ =>
      if negb (coarse_only s) then Done (get_field s key (Some (t_sim s)))
      else if mem key (keys_phys s) then Done (get_field s key None) else Error ValueError
  | _, _ => if mem key (keys_phys s) then Done (get_field s key time) else Error ValueError
  end.
(** phys_fields2d.py 257-307; times: the times of the files *)
Definition largest (times : list Q) : Q := fold_right (fun t m => if Qle_bool m t then t else m) (hd 0%Q times) times.
Definition plot2d (s : simul) (times : list Q) (field : argument) (time : option Q) : result source :=
  let key := key_of s field time in
  let from_file :=
    match times with
    | [] => Error IndexError
    | _ =>
        let tmax := largest times in
        let t := match time with None => tmax | Some t => if Qle_bool t tmax then t else tmax end in
        if mem key (keys_phys s) then Done (get_field s key (Some t)) else Error ValueError
    end in
  match time, field with
  | None, NoField | None, Key _ => if negb (coarse_only s) then Done (FromState key (t_sim s)) else from_file
  | _, _ => from_file
  end.
(** phys_fields1d.py 38-63 *)
Definition plot1d (s : simul) (field : argument) (time : option Q) : result source :=
  let key := key_of s field time in
  match time, field with
  | None, NoField | None, Key _ => Done (FromState key (t_sim s))
  | _, _ => if mem key (keys_phys s) then Done (get_field s key time) else Error ValueError
  end.
End Plot.

(** ** phys_fields3d.py 324-378 (plot_mean), for one value of the field: the files with their times *)
Definition closest_file (files : list (Q * Q)) (t : Q) : Q := snd (nth (argmin (map (fun f => Qabs (fst f - t)) files)) files (0, 0)%Q).
Definition smallest (times : list Q) : Q := fold_right (fun t m => if Qle_bool t m then t else m) (hd 0%Q times) times.
Definition plot_mean (files : list (Q * Q)) (tmin tmax : option Q) : result Q :=
  let times := map fst files in
  let lo := match tmin with Some t => t | None => smallest times end in
  let hi := match tmax with Some t => t | None => largest times end in
  let avg := filter (fun t => Qle_bool lo t && Qle_bool t hi) times in
  match avg with
  | [] => Error IndexError
  | _ => Done (fold_left (fun acc t => acc + closest_file files t) avg 0 / inject_Z (Z.of_nat (List.length avg)))%Q
  end.
