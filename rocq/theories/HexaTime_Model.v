(** * The time of the figures of hexahedral files

    lib/fluidsim_core/hexa_files.py 212-221 (read_hexadata_from_time), 433-439, 441-475 (plot_hexa: the chosen time and the two
    sets of files), 540-550 (get_key_field_to_plot).

    A set of files is the list of its files in the order of the paths: the time and the content of each file.  Exact numbers.
    The set of the given prefix is an argument (None: no prefix).  The drawing of the elements is in HexaMesh_Model and
    HexaRead_Model. *)

From Coq Require Import String List QArith Qabs Bool.
Import ListNotations.

Inductive error := ValueErr | IndexErr.

Section Files.
Variable content : Type.

Definition files := list (Q * content).
Definition times (s : files) : list Q := map fst s.

(** list.index *)
Fixpoint index (l : list Q) (t : Q) : option nat :=
  match l with [] => None | x :: r => if Qeq_bool x t then Some O else option_map S (index r t) end.

(** 212-221: ValueError if there is no file at this time *)
Definition read_hexadata_from_time (s : files) (t : Q) : content + error :=
  match index (times s) t with
  | None => inr ValueErr
  | Some i => match nth_error s i with Some f => inl (snd f) | None => inr IndexErr end
  end.

(** times[abs(times - time).argmin()]: the first of the nearest times; numpy raises ValueError for an empty array *)
Fixpoint nearest_from (best : Q) (l : list Q) (t : Q) : Q :=
  match l with
  | [] => best
  | x :: r => nearest_from (if negb (Qle_bool (Qabs (best - t)) (Qabs (x - t))) then x else best) r t
  end.
Definition nearest (l : list Q) (t : Q) : Q + error :=
  match l with [] => inr ValueErr | x :: r => inl (nearest_from x r t) end.

(** times_color[-1] *)
Definition last_time (l : list Q) : Q + error := match l with [] => inr IndexErr | x :: r => inl (last r x) end.

(** 454-469: the time of the title, the content for the arrows and the mesh, the content for the colors *)
Definition plot_hexa (own : files) (color : option files) (time : option Q) : (Q * content * content) + error :=
  let sof_color := match color with None => own | Some s => s end in
  match (match time with None => last_time (times sof_color) | Some t => nearest (times sof_color) t end) with
  | inr e => inr e
  | inl t =>
      if negb (existsb (Qeq_bool t) (times own)) then inr ValueErr
      else match read_hexadata_from_time own t with
           | inr e => inr e
           | inl d =>
               match color with
               | None => inl (t, d, d)
               | Some s => match read_hexadata_from_time s t with inr e => inr e | inl c => inl (t, d, c) end
               end
           end
  end.
End Files.

(** 540-550: the variables of the header of the first file of the set *)
Definition key_field (variables : list string) (key : option string) : string :=
  match key with
  | Some k => k
  | None => if existsb (String.eqb "T") variables then "temperature"
            else if existsb (String.eqb "P") variables then "pressure" else "scalar"
  end%string.
