(** Specification for the parameters, the restarts and the extensions (C44, C45, C48, C55, C74, C75) *)

From Coq Require Import String List Arith Bool ZArith QArith Qabs Ascii.
From Verif Require Import Params_Model.
Import ListNotations.
Local Open Scope nat_scope.

(** ** The value of params.a.b.key *)
Fixpoint node (path : list string) (t : tree) : option tree :=
  match path with
  | [] => Some t
  | k :: p => match assoc k (children_of t) with Some c => node p c | None => None end
  end.

Definition get (path : list string) (key : string) (t : tree) : option value :=
  match node path t with Some n => assoc key (attribs_of n) | None => None end.

(** the names of the children are distinct, at all the levels *)
Inductive wf : tree -> Prop :=
| wf_node : forall a c, NoDup (map fst c) -> (forall k t, In (k, t) c -> wf t) -> wf (Node a c).

(** ** The parameters changed for a restart *)
Definition restart_keys : list (list string * string) :=
  [([], "path_run"); ([], "NEW_DIR_RESULTS"); (["init_fields"], "type"); (["init_fields"; "from_file"], "path");
   (["init_fields"], "modif_after_init"); (["preprocess"], "enable")]%string.

(** those of old versions of the parameters *)
Definition old_keys : list (list string * string) :=
  [(["forcing"], "enable"); (["oper"], "NO_SHEAR_MODES")]%string.

(** ** Time of a file name: the time rounded to 3 decimals *)
Definition rounded (t time_name : Q) : Prop := (Qabs (time_name - t) <= 1 # 2000)%Q.

(** the loop of time steps would do nothing from this state *)
Definition completed (t : Q) (it : Z) (p : tparams) : bool :=
  if use_t_end p then Qle_bool (t_end p) t else Z.leb (it_end p) it.

(** ** Classes: a parent is older than its children, the lists exist *)
Definition wf_world {E : Type} (w : @world E) : Prop :=
  forall c k, nth_error (classes w) c = Some k ->
    (forall p, parent k = Some p -> p < c) /\ (forall r, own k = Some r -> r < List.length (heap w)).

Fixpoint no_dot (s : string) : bool :=
  match s with EmptyString => true | String c r => negb (Ascii.eqb c "."%char) && no_dot r end.
