(** * Representations of a simulation (name of the run and summary) *)

From Coq Require Import Ascii String List Bool Arith ZArith.
Import ListNotations.
Local Open Scope nat_scope.

(** str: list of characters *)
Notation text := (list ascii).

Definition txt (s : string) : text := list_ascii_of_string s.

Definition has (c : ascii) (t : text) : bool := existsb (Ascii.eqb c) t.

Fixpoint drop_while (c : ascii) (t : text) : text :=
  match t with
  | [] => []
  | x :: r => if Ascii.eqb x c then drop_while c r else t
  end.

(** str.rstrip(c) *)
Definition rstrip_char (c : ascii) (t : text) : text := rev (drop_while c (rev t)).

(** str.endswith(c) for a character *)
Definition ends_with (c : ascii) (t : text) : bool :=
  match rev t with [] => false | x :: _ => Ascii.eqb x c end.

(** str.replace(ab, a) for two characters *)
Fixpoint remove_after (a b : ascii) (t : text) : text :=
  match t with
  | x :: ((y :: r) as s) => if Ascii.eqb x a && Ascii.eqb y b then x :: remove_after a b r else x :: remove_after a b s
  | _ => t
  end.

(** ab in str *)
Fixpoint has2 (a b : ascii) (t : text) : bool :=
  match t with
  | x :: ((y :: _) as s) => (Ascii.eqb x a && Ascii.eqb y b) || has2 a b s
  | _ => false
  end.

(** lib/fluidsim_core/output/base.py 64-69 (SimReprMakerCore._make_list_repr): the text of a
    parameter; [formatted] is ("{:" + fmt + "}").format(parameter) *)
Definition clean (fmt formatted : text) : text :=
  let s1 :=
    if match rev fmt with [] => false | c :: _ => Ascii.eqb c "e" || Ascii.eqb c "g" end && has2 "e" "+" formatted
    then remove_after "e" "+" formatted else formatted in
  let s2 := if negb (has "e" s1) && has "." s1 then rstrip_char "0" s1 else s1 in
  if ends_with "." s2 then removelast s2 else s2.

(** ** The maker, 22-45: the words and the parameters in order *)

Inductive key := KWord (w : text) | KParam (name : text).

Section Maker.
(** the values of the parameters *)
Variable P : Type.
Variable is_float : P -> bool.
(** ("{:" + fmt + "}").format(parameter) *)
Variable format : text -> P -> text.

Record maker := { ordered_keys : list key; parameters : list (text * P); formats : list (text * text) }.

Definition text_eq_dec : forall a b : text, {a = b} + {a <> b} := list_eq_dec ascii_dec.

Fixpoint lookup {A} (d : list (text * A)) (k : text) : option A :=
  match d with
  | [] => None
  | (k', v) :: r => if text_eq_dec k k' then Some v else lookup r k
  end.

(** dict.update: the new values hide the previous ones *)
Definition update {A} (d new : list (text * A)) : list (text * A) := rev new ++ d.

(** list.insert(i, x) for i >= 0 *)
Definition insert (i : nat) (x : key) (l : list key) : list key := firstn i l ++ x :: skipn i l.

(** 29-31 *)
Definition add_word (w : text) (m : maker) : maker :=
  match w with
  | [] => m
  | _ => {| ordered_keys := ordered_keys m ++ [KWord w]; parameters := parameters m; formats := formats m |}
  end.

(** 33-43; the argument formats can be empty or None: [] *)
Definition add_parameters (new : list (text * P)) (fmts : list (text * text)) (indices : list (text * nat)) (m : maker) : maker :=
  {| ordered_keys :=
       fold_left (fun l kv => match lookup indices (fst kv) with
                              | Some i => insert i (KParam (fst kv)) l
                              | None => l ++ [KParam (fst kv)]
                              end) new (ordered_keys m);
     parameters := update (parameters m) new;
     formats := update (formats m) fmts |}.

Inductive item := IWord (w : text) | IParam (name value : text).

(** 45-74 (_make_list_repr); None: KeyError *)
Fixpoint list_repr_of (m : maker) (keys : list key) : option (list item) :=
  match keys with
  | [] => Some []
  | k :: r =>
      let it :=
        match k with
        | KWord w => Some (IWord w)
        | KParam name =>
            match lookup (parameters m) name with
            | None => None
            | Some p =>
                let default_fmt := if is_float p then txt ".3f" else [] in
                let fmt := match lookup (formats m) name with Some f => f | None => default_fmt end in
                Some (IParam name (clean fmt (format fmt p)))
            end
        end in
      match it, list_repr_of m r with
      | Some i, Some l => Some (i :: l)
      | _, _ => None
      end
  end.
End Maker.

(** ** Names *)

(** sep.join(l) *)
Fixpoint join (sep : text) (l : list text) : text :=
  match l with
  | [] => []
  | [x] => x
  | x :: r => x ++ sep ++ join sep r
  end.

(** str.split(c) *)
Fixpoint split (c : ascii) (t : text) : list text :=
  match t with
  | [] => [[]]
  | x :: r =>
      if Ascii.eqb x c then [] :: split c r
      else match split c r with [] => [[x]] | w :: l => (x :: w) :: l end
  end.

(** l[-n:] *)
Definition last_n {A} (n : nat) (l : list A) : list A := skipn (length l - n) l.

(** 81-84 (time_from_path_run); for a Path the name, for a str the full text *)
Definition time_from_path_run (path_run : text) : text := join (txt "_") (last_n 2 (split "_" path_run)).

(** str.replace(c, s) *)
Definition replace (c : ascii) (s t : text) : text := flat_map (fun x => if Ascii.eqb x c then s else [x]) t.

Definition for_name (i : item) : text := match i with IWord w => w | IParam n v => n ++ v end.
Definition for_summary (i : item) : text :=
  match i with IWord w => replace "_" (txt ", ") w | IParam n v => n ++ txt "=" ++ v end.

(** 93-115 (make_representations) *)
Definition make_representations (l : list item) (time : text) : text * text :=
  let l' := l ++ [IWord time] in
  (join (txt "_") (map for_name l'), join (txt ", ") (map for_summary l')).

(** 86-91 (get_time_as_str) *)
Definition get_time_as_str (new_dir_results : bool) (path_run now : text) : text :=
  if new_dir_results then now else time_from_path_run path_run.

(** the name of the run of the object output, 306-315 (_init_name_run) *)
Definition name_run (new_dir_results : bool) (path_run now : text) (l : list item) : text :=
  fst (make_representations l (get_time_as_str new_dir_results path_run now)).
