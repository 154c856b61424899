(** * Properties of the command fluidsim *)

From Coq Require Import Ascii String List Bool.
From Verif Require Import ConsoleMain_Model.
Import ListNotations.
Local Open Scope string_scope.

(** ** Specification *)

Definition has_char (c : ascii) (s : string) : Prop := exists n, String.get n s = Some c.
(** t is s with a dash instead of each underscore *)
Definition dashed (s t : string) : Prop :=
  String.length s = String.length t /\
  forall n c, String.get n s = Some c -> String.get n t = Some (if ascii_dec c "_" then "-"%char else c).

(** ** Lemmas *)

Lemma app_assoc_s : forall a b c : string, (a ++ b) ++ c = a ++ (b ++ c).
Proof. induction a as [|x a IH]; intros b c; simpl; [reflexivity | rewrite IH; reflexivity]. Qed.

Lemma app_nil_s : forall a : string, a ++ "" = a.
Proof. induction a as [|x a IH]; simpl; [reflexivity | rewrite IH; reflexivity]. Qed.

Lemma last_part_nodot : forall s acc, ~ has_char "." s -> last_part acc s = acc ++ s.
Proof.
  induction s as [|c s IH]; intros acc H; simpl; [rewrite app_nil_s; reflexivity|].
  destruct (Ascii.eqb c ".") eqn:E.
  - exfalso. apply H. exists 0%nat. apply Ascii.eqb_eq in E. subst. reflexivity.
  - rewrite IH. + rewrite app_assoc_s. reflexivity. + intros [n G]. apply H. exists (S n). exact G.
Qed.

Lemma last_part_dot : forall p s acc, ~ has_char "." s -> last_part acc (p ++ String "." s) = s.
Proof.
  induction p as [|c p IH]; intros s acc H; simpl.
  - rewrite last_part_nodot by exact H. reflexivity.
  - destruct (Ascii.eqb c "."); apply IH; exact H.
Qed.

Lemma dashes_spec : forall s, dashed s (dashes s).
Proof.
  induction s as [|c s [L G]].
  - split; [reflexivity|]. intros n c H. destruct n; discriminate H.
  - split; [simpl; rewrite L; reflexivity|]. intros [|n] d H; simpl in *.
    + inversion H; subst. f_equal. destruct (ascii_dec d "_") as [E | N].
      * subst. reflexivity.
      * destruct (Ascii.eqb d "_") eqn:Q; [apply Ascii.eqb_eq in Q; contradiction | reflexivity].
    + apply G. exact H.
Qed.

(** ** C294 *)

(** the subcommand is the last part of the name of the module, with dashes *)
Theorem c294_name : forall package base, ~ has_char "." base ->
  dashed base (compute_name_command (package ++ String "." base)) /\ dashed base (compute_name_command base).
Proof.
  intros p b H. unfold compute_name_command. rewrite last_part_dot, last_part_nodot by exact H.
  split; apply dashes_spec.
Qed.

(** each subcommand runs its module and no other, whatever the other arguments *)
Theorem c294_run : forall fails rest,
  (fails "fluidsim.util.console.bench" = false -> run fails ("bench" :: rest) = Call (Run "fluidsim.util.console.bench")) /\
  (fails "fluidsim.util.console.bench_analysis" = false -> run fails ("bench-analysis" :: rest) = Call (Run "fluidsim.util.console.bench_analysis")) /\
  (fails "fluidsim.util.console.profile" = false -> run fails ("profile" :: rest) = Call (Run "fluidsim.util.console.profile")) /\
  run fails ("version" :: rest) = Call Version /\ run fails [] = Call Help /\
  run fails ("-V" :: rest) = ShowVersion /\ run fails ("--version" :: rest) = ShowVersion /\
  run fails ("-h" :: rest) = ShowHelp /\ run fails ("--help" :: rest) = ShowHelp.
Proof.
  intros fails rest. unfold run. simpl. unfold add_subparser.
  repeat split; try reflexivity; intros H; rewrite H; reflexivity.
Qed.

Theorem c294_unknown : forall fails a rest,
  ~ In a ["bench"; "bench-analysis"; "profile"; "version"; "-V"; "--version"; "-h"; "--help"] -> run fails (a :: rest) = Exit2.
Proof.
  intros fails a rest H. assert (N : forall x, In x ["bench"; "bench-analysis"; "profile"; "version"; "-V"; "--version"; "-h"; "--help"] -> String.eqb x a = false).
  { intros x Hx. apply String.eqb_neq. intros E. subst. contradiction. }
  assert (N' : forall x, In x ["bench"; "bench-analysis"; "profile"; "version"; "-V"; "--version"; "-h"; "--help"] -> String.eqb a x = false).
  { intros x Hx. rewrite String.eqb_sym. apply N. exact Hx. }
  unfold run. cbn [existsb]. rewrite !N' by (simpl; tauto). cbn [orb].
  change (subparsers fails) with [("bench", if fails "fluidsim.util.console.bench" then None else Some (Run "fluidsim.util.console.bench"));
    ("bench-analysis", if fails "fluidsim.util.console.bench_analysis" then None else Some (Run "fluidsim.util.console.bench_analysis"));
    ("profile", if fails "fluidsim.util.console.profile" then None else Some (Run "fluidsim.util.console.profile")); ("version", Some Version)].
  cbn [lookup]. rewrite !N by (simpl; tauto). reflexivity.
Qed.

(** a subcommand whose parser cannot be made prints the help instead of an error *)
Theorem c294_broken_refuted : exists fails rest, run fails ("bench" :: rest) = Call Help /\ run fails ("profile" :: rest) <> Call Help.
Proof.
  exists (String.eqb "fluidsim.util.console.bench"), []. split; [reflexivity | discriminate].
Qed.

(** the printed versions *)
Theorem c294_version : forall v l, print_verbose_version v l = ("fluidsim " ++ v) :: (if string_dec l v then [] else ["local version: " ++ l]).
Proof.
  intros v l. unfold print_verbose_version. destruct (string_dec l v) as [E | N].
  - subst. rewrite String.eqb_refl. reflexivity.
  - apply String.eqb_neq in N. rewrite N. reflexivity.
Qed.

(** the messages of the separate commands do not name the command *)
Theorem c294_prog_refuted : exists script module, In (script, module) scripts /\ prog module <> script.
Proof. exists "fluidsim-bench", "fluidsim.util.console.bench". split; [right; left; reflexivity | discriminate]. Qed.

Theorem c294_prog_partial : forall script module, In (script, module) scripts ->
  script = "fluidsim-" ++ compute_name_command module /\ prog module = "fluidsim" ++ compute_name_command module /\ prog module <> script.
Proof.
  intros script module H. simpl in H.
  destruct H as [H | [H | [H | []]]]; inversion H; subst; (split; [reflexivity | split; [reflexivity | discriminate]]).
Qed.

Example c294_example : ~ has_char "." "bench_analysis" /\ compute_name_command "fluidsim.util.console.bench_analysis" = "bench-analysis".
Proof.
  split; [|reflexivity]. intros [n H]. do 14 (destruct n as [|n]; [discriminate H|]). destruct n; discriminate H.
Qed.

Print Assumptions c294_name.
Print Assumptions c294_run.
Print Assumptions c294_unknown.
Print Assumptions c294_broken_refuted.
Print Assumptions c294_version.
Print Assumptions c294_prog_refuted.
Print Assumptions c294_prog_partial.
