(** What the output files should contain *)

From Coq Require Import String List Arith Bool QArith Qround ZArith.
From Verif Require Import OutFiles_Model.
Import ListNotations.
Local Open Scope nat_scope.

Arguments Fill {V}.
Arguments Time {V} t.
Arguments Val {V} v.
Arguments Create {V} k c.
Arguments Resize {V} k n.
Arguments Write {V} k i c.
Arguments find {V} f k.
Arguments set {V} f k l.
Arguments resized {V} n l.
Arguments write_at {V} i c l.
Arguments exec {V} f o.
Arguments exec_all {V} f os.
Arguments create_ops {V} t dict.
Arguments add_ops {V} n t dict.
Arguments interrupted {V} stop os.
Arguments init_files {V} stop t dict d.
Arguments online_save {V} stop t dict d.
Arguments online_all {V} l d.
Arguments simul {V} run d.
Arguments simuls {V} runs d.

Notation save V := (Q * list (string * V))%type.

Section Spec.

Variable V : Type.

Definition keys_ok (ks : list string) : Prop := NoDup ks /\ ~ In "times"%string ks.

Fixpoint assoc (d : list (string * V)) (k : string) : option V :=
  match d with [] => None | (k', v) :: r => if String.eqb k k' then Some v else assoc r k end.

(** the values of a variable for a list of saves *)
Definition column (k : string) (hs : list (save V)) : dataset V :=
  map (fun s => match assoc (snd s) k with Some v => Val v | None => Fill end) hs.

(** the file contains exactly these saves: record i of "times" and of each variable is the one of
    the save number i *)
Definition is_table (ks : list string) (hs : list (save V)) (f : file V) : Prop :=
  find f "times" = Some (map (fun s => Time (fst s)) hs)
  /\ forall k, In k ks -> find f k = Some (column k hs).

Definition saves_of (run : save V * list (save V)) : list (save V) := fst run :: snd run.

(** a history of saves on the same file, each one possibly interrupted; the saves which went to
    their end are returned *)
Definition event := (option nat * save V)%type.

Fixpoint events (es : list event) (d : disk V) : disk V * list (save V) :=
  match es with
  | [] => (d, [])
  | (stop, s) :: r =>
      let (d1, _) := init_files stop (fst s) (snd s) d in
      let (d2, done) := events r d1 in
      (d2, match stop with None => s :: done | Some _ => done end)
  end.

(** the rows of the file: those of completed saves contain their time and values; nothing is said
    of the others *)
Definition rows_ok (ks : list string) (rows : list (option (save V))) (f : file V) : Prop :=
  (exists lt, find f "times" = Some lt /\ length lt = length rows
    /\ forall i s, nth_error rows i = Some (Some s) -> nth_error lt i = Some (Time (fst s)))
  /\ (forall k, In k ks -> exists l, find f k = Some l /\ length l <= length rows
    /\ forall i s v, nth_error rows i = Some (Some s) -> In (k, v) (snd s) ->
         nth_error l i = Some (Val v)).

Definition completed (rows : list (option (save V))) : list (save V) :=
  flat_map (fun r => match r with Some s => [s] | None => [] end) rows.

(** the saves which should be made by the probes: one per slot of the period *)
Variable teps rnd : Q -> Q.

Definition step_save (period : Q) (st : Q * list (Q * V)) (c : Q * V) : Q * list (Q * V) :=
  if (Qfloor (fst st / period) <? Qfloor (teps (fst c) / period))%Z
  then (fst c, snd st ++ [c]) else st.

Definition saves_of_calls (period tl0 : Q) (calls : list (Q * V)) : Q * list (Q * V) :=
  fold_left (step_save period) calls (tl0, []).

Definition rounded (l : list (Q * V)) : list (Q * V) := map (fun c => (rnd (fst c), snd c)) l.

End Spec.

Arguments assoc {V} d k.
Arguments column {V} k hs.
Arguments is_table {V} ks hs f.
Arguments saves_of {V} run.
Arguments events {V} es d.
Arguments rows_ok {V} ks rows f.
Arguments completed {V} rows.
