(** * The commands of IPython: C277, C278 *)

From Coq Require Import Ascii String List Bool QArith Lia.
From Verif Require Import Magic_Model.
Import ListNotations.
Local Open Scope string_scope.

(** ** Specification *)
(** a variable which the user has defined (and not None) *)
Definition has (ns : namespace) (k : string) : Prop := exists n, ns k = Some (Obj n).
(** the same variables *)
Definition same (a b : namespace) : Prop := forall k, a k = b k.

(** decidable equality of the representations *)
Lemma Q_repr_dec (a b : Q) : {a = b} + {a <> b}.
Proof.
  destruct a as [n d], b as [m e]. destruct (Z.eq_dec n m) as [->|N]; [|right; congruence].
  destruct (Pos.eq_dec d e) as [->|N]; [left; reflexivity|right; congruence].
Qed.

Lemma is_defined_spec ns k : is_defined ns k = true <-> has ns k.
Proof.
  unfold is_defined, has. destruct (ns k) as [[|n]|]; split; try discriminate; try (intros [m E]; discriminate); [eauto|reflexivity].
Qed.

Section Commands.
  Variable import_cls_simul : string -> option nat.
  Variable default_params : nat -> option nat.
  Variable load_state_phys_file : option string -> option Q -> bool -> option nat.
  Variable load_sim_for_plot : option string -> bool -> option nat.
  Variable type_of params_of : nat -> nat.
  Variable float : string -> option Q.
  Notation magic := (fluidsim import_cls_simul default_params).
  Notation magic_load := (fluidsim_load load_state_phys_file load_sim_for_plot type_of params_of float).
  Notation arguments := (parse float).

  (** ** C277 *)
  (** %fluidsim: the user is asked exactly when params or Simul would be overwritten without -f; nothing else than the answer
      yes or the option allows it; otherwise, or with an error, nothing is changed *)
  Theorem c277_fluidsim : forall solver force answer ns,
    let r := magic solver force answer ns in
    (asked r = true <-> solver <> "" /\ force = false /\ (has ns "params" \/ has ns "Simul"))
    /\ (asked r = true -> answer = false -> same (after r) ns)
    /\ (raised r = true -> same (after r) ns)
    /\ (solver = "" -> same (after r) ns)
    /\ (solver <> "" -> raised r = false -> (asked r = true -> answer = true) ->
        exists Simul params, import_cls_simul solver = Some Simul /\ default_params Simul = Some params
          /\ after r "Simul" = Some (Obj Simul) /\ after r "params" = Some (Obj params)
          /\ forall k, k <> "Simul" -> k <> "params" -> after r k = ns k).
  Proof.
    intros solver force answer ns r. unfold r, fluidsim. destruct (String.eqb_spec solver "") as [->|NE].
    { cbn. repeat split; try discriminate; try tauto. }
    set (ask := negb force && (is_defined ns "params" || is_defined ns "Simul")).
    assert (A : ask = true <-> solver <> "" /\ force = false /\ (has ns "params" \/ has ns "Simul")).
    { unfold ask. rewrite andb_true_iff, orb_true_iff, !is_defined_spec, negb_true_iff. tauto. }
    destruct (ask && negb answer) eqn:Q.
    { apply andb_true_iff in Q. destruct Q as [Q1 Q2]. cbn [asked raised after]. rewrite <- A, Q1.
      split; [tauto|]. split; [intros _ _ k; reflexivity|]. split; [discriminate|]. split; [contradiction|].
      intros _ _ H. specialize (H eq_refl). subst answer. discriminate. }
    destruct (import_cls_simul solver) as [S|] eqn:E1.
    2: { cbn [asked raised after]. repeat split; try tauto; try discriminate; try apply A; tauto. }
    destruct (default_params S) as [p|] eqn:E2.
    2: { cbn [asked raised after]. repeat split; try tauto; try discriminate; try apply A; tauto. }
    cbn [asked raised after]. split; [exact A|]. split.
    { intros H ->. rewrite H in Q. discriminate. }
    split; [discriminate|]. split; [contradiction|]. intros _ _ _. exists S, p. split; [reflexivity|]. split; [exact E2|].
    split; [reflexivity|]. split; [reflexivity|]. intros k K1 K2. unfold set.
    destruct (String.eqb_spec k "params"); [contradiction|]. destruct (String.eqb_spec k "Simul"); [contradiction|]. reflexivity.
  Qed.

  (** %fluidsim_load: the same for the variable sim only *)
  Theorem c277_load_partial : forall line answer ns,
    let r := magic_load line answer ns in
    (asked r = true -> answer = false -> same (after r) ns)
    /\ (raised r = true -> same (after r) ns)
    /\ (forall a, arguments line default_args = Some a ->
        (asked r = true <-> force_overwrite a = false /\ has ns "sim")
        /\ (raised r = false -> (asked r = true -> answer = true) ->
            exists sim, (if state_phys a then load_state_phys_file (directory a) (t_approx a) (merge a)
                         else load_sim_for_plot (directory a) (merge a)) = Some sim
              /\ after r "sim" = Some (Obj sim) /\ after r "params" = Some (Obj (params_of sim))
              /\ after r "Simul" = Some (Obj (type_of sim))
              /\ forall k, k <> "sim" -> k <> "Simul" -> k <> "params" -> after r k = ns k)).
  Proof.
    intros line answer ns r. unfold r, fluidsim_load. destruct (arguments line default_args) as [a|] eqn:P.
    2: { cbn. split; [discriminate|]. split; [intros _ k; reflexivity|]. discriminate. }
    set (ask := negb (force_overwrite a) && is_defined ns "sim").
    assert (A : ask = true <-> force_overwrite a = false /\ has ns "sim").
    { unfold ask. rewrite andb_true_iff, !is_defined_spec, negb_true_iff. tauto. }
    destruct (ask && negb answer) eqn:Q.
    { apply andb_true_iff in Q. destruct Q as [Q1 Q2]. cbn [asked raised after].
      split; [intros _ _ k; reflexivity|]. split; [discriminate|]. intros a' E. injection E as <-. rewrite <- A, Q1. split; [tauto|].
      intros _ H. specialize (H eq_refl). subst answer. discriminate. }
    unfold load. destruct (if state_phys a then _ else _) as [s|] eqn:L; cbn [asked raised after].
    - split; [intros H ->; rewrite H in Q; discriminate|]. split; [discriminate|]. intros a' E. injection E as <-. split; [exact A|].
      intros _ _. exists s. split; [exact L|]. split; [reflexivity|]. split; [reflexivity|]. split; [reflexivity|].
      intros k K1 K2 K3. unfold set. destruct (String.eqb_spec k "sim"); [contradiction|].
      destruct (String.eqb_spec k "params"); [contradiction|]. destruct (String.eqb_spec k "Simul"); [contradiction|]. reflexivity.
    - split; [intros _ _ k; reflexivity|]. split; [intros _ k; reflexivity|]. intros a' E. injection E as <-. split; [exact A|discriminate].
  Qed.

  (** the options are set by their words, in any order *)
  Theorem c277_options : forall l a b, arguments l a = Some b ->
    (force_overwrite b = true <-> force_overwrite a = true \/ In "-f" l \/ In "--force-overwrite" l)
    /\ (state_phys b = true <-> state_phys a = true \/ In "-s" l \/ In "--state-phys" l)
    /\ (merge b = true <-> merge a = true \/ In "-m" l \/ In "--merge-missing-params" l)
    /\ (forall w, directory a = Some w -> directory b = Some w)
    /\ (forall w, directory a = None -> directory b = Some w -> In w l /\ dash w = false)
    /\ (t_approx b <> t_approx a -> exists w t, In w l /\ float w = Some t /\ t_approx b = Some t).
  Proof.
    Local Ltac one_word := split; [intros [?|[?|?]]; auto|intros [?|[[?|?]|[?|?]]]; auto; discriminate].
    Local Ltac other_word := split; [intros [?|[?|?]]; auto|intros [?|[[?|?]|[?|?]]]; auto; contradiction].
    Local Ltac two_words := split; [intros [?|[?|?]]; auto|intros [?|[[?|[?|?]]|[?|[?|?]]]]; auto; contradiction].
    Local Ltac flag IH H :=
      apply IH in H; [|lia]; cbn [force_overwrite state_phys t_approx merge directory] in H;
      destruct H as (H1 & H2 & H3 & H4 & H5 & H6); cbn [In];
      split; [rewrite H1; clear; one_word|]; split; [rewrite H2; clear; one_word|];
      split; [rewrite H3; clear; one_word|]; split; [exact H4|];
      split; [intros w' W1 W2; destruct (H5 w' W1 W2) as [W3 W4]; split; [right; exact W3|exact W4]|];
      let T := fresh in intros T; destruct (H6 T) as (x & t & X & Y); exists x, t; split; [right; exact X|exact Y].
    assert (IND : forall n l a b, (List.length l <= n)%nat -> arguments l a = Some b ->
      (force_overwrite b = true <-> force_overwrite a = true \/ In "-f" l \/ In "--force-overwrite" l)
      /\ (state_phys b = true <-> state_phys a = true \/ In "-s" l \/ In "--state-phys" l)
      /\ (merge b = true <-> merge a = true \/ In "-m" l \/ In "--merge-missing-params" l)
      /\ (forall w, directory a = Some w -> directory b = Some w)
      /\ (forall w, directory a = None -> directory b = Some w -> In w l /\ dash w = false)
      /\ (t_approx b <> t_approx a -> exists w t, In w l /\ float w = Some t /\ t_approx b = Some t)).
    2: { intros l a b. apply (IND (List.length l)). apply Nat.le_refl. }
    induction n as [|n IH]; intros l a b L H.
    { destruct l; [|cbn in L; lia]. cbn in H. injection H as <-. cbn. repeat split; try tauto; intros; congruence. }
    destruct l as [|w r]; [cbn in H; injection H as <-; cbn; repeat split; try tauto; intros; congruence|].
    cbn [List.length] in L. cbn [parse] in H. destruct (dash w) eqn:D.
    - destruct (String.eqb_spec w "-f") as [->|N1]; [|destruct (String.eqb_spec w "--force-overwrite") as [->|N2]]; cbn [orb] in H.
      + flag IH H.
      + flag IH H.
      + destruct (String.eqb_spec w "-s") as [->|N3]; [|destruct (String.eqb_spec w "--state-phys") as [->|N4]]; cbn [orb] in H.
        * flag IH H.
        * flag IH H.
        * destruct (String.eqb_spec w "-m") as [->|N5]; [|destruct (String.eqb_spec w "--merge-missing-params") as [->|N6]]; cbn [orb] in H.
          -- flag IH H.
          -- flag IH H.
          -- destruct (String.eqb w "-t" || String.eqb w "--t-approx"); [|discriminate]. destruct r as [|x r]; [discriminate|].
             destruct (dash x) eqn:DX; [discriminate|]. destruct (float x) as [t|] eqn:FX; [|discriminate]. cbn [List.length] in L.
             apply IH in H; [|lia]. cbn [force_overwrite state_phys t_approx merge directory] in H. destruct H as (H1 & H2 & H3 & H4 & H5 & H6).
             assert (NX : forall s, dash s = true -> x <> s) by (intros s Hs ->; congruence).
             pose proof (NX "-f" eq_refl). pose proof (NX "--force-overwrite" eq_refl). pose proof (NX "-s" eq_refl).
             pose proof (NX "--state-phys" eq_refl). pose proof (NX "-m" eq_refl). pose proof (NX "--merge-missing-params" eq_refl).
             cbn [In]. split; [rewrite H1; two_words|]. split; [rewrite H2; two_words|].
             split; [rewrite H3; two_words|]. split; [exact H4|].
             split; [intros w' W1 W2; destruct (H5 w' W1 W2); tauto|].
             intros T. destruct (t_approx b) as [tb|] eqn:TB.
             ++ destruct (Q_repr_dec tb t) as [E|E].
                ** subst tb. exists x, t. tauto.
                ** destruct H6 as (y & u & Y1 & Y2 & Y3); [congruence|]. exists y, u. tauto.
             ++ destruct H6 as (y & u & Y1 & Y2 & Y3); [congruence|discriminate].
    - assert (NW : forall s, dash s = true -> w <> s) by (intros s Hs ->; congruence).
      destruct (directory a) eqn:DA; [discriminate|]. apply IH in H; [|lia].
      cbn [force_overwrite state_phys t_approx merge directory] in H. destruct H as (H1 & H2 & H3 & H4 & H5 & H6).
      pose proof (NW "-f" eq_refl). pose proof (NW "--force-overwrite" eq_refl). pose proof (NW "-s" eq_refl).
      pose proof (NW "--state-phys" eq_refl). pose proof (NW "-m" eq_refl). pose proof (NW "--merge-missing-params" eq_refl).
      cbn [In]. split; [rewrite H1; other_word|]. split; [rewrite H2; other_word|].
      split; [rewrite H3; other_word|]. split; [discriminate|]. split.
      + intros w' _ W. rewrite (H4 w eq_refl) in W. injection W as <-. split; [left; reflexivity|exact D].
      + intros T; destruct (H6 T) as (x & t & X & Y); exists x, t; tauto.
  Qed.
End Commands.

(** %fluidsim_reset: the three variables are not defined any more, the other ones are unchanged *)
Theorem c277_reset : forall ns,
  (forall k, k = "sim" \/ k = "params" \/ k = "Simul" -> ~ has (fluidsim_reset ns) k /\ (has ns k -> fluidsim_reset ns k = None))
  /\ forall k, k <> "sim" -> k <> "params" -> k <> "Simul" -> fluidsim_reset ns k = ns k.
Proof.
  assert (ONE : forall ns k x, (if is_defined ns k then del ns k else ns) x
    = if String.eqb x k then (match ns k with Some (Obj _) => None | v => v end) else ns x).
  { intros ns k x. unfold is_defined, del. destruct (String.eqb_spec x k) as [->|N]; destruct (ns k) as [[|n]|] eqn:E; rewrite ?E, ?String.eqb_refl; try reflexivity.
    destruct (String.eqb_spec x k); [contradiction|reflexivity]. }
  assert (R : forall ns x, fluidsim_reset ns x
    = if String.eqb x "sim" || String.eqb x "params" || String.eqb x "Simul" then match ns x with Some (Obj _) => None | v => v end else ns x).
  { intros ns x. unfold fluidsim_reset. cbn [fold_left]. rewrite !ONE. cbn [String.eqb Ascii.eqb Bool.eqb].
    destruct (String.eqb_spec x "Simul") as [->|N1]; [reflexivity|]. destruct (String.eqb_spec x "params") as [->|N2]; [reflexivity|].
    destruct (String.eqb_spec x "sim") as [->|N3]; reflexivity. }
  intros ns. split.
  - intros k K. unfold has. rewrite R.
    assert (E : String.eqb k "sim" || String.eqb k "params" || String.eqb k "Simul" = true) by (destruct K as [-> | [-> | ->]]; reflexivity).
    rewrite E. split; [intros [n H]; destruct (ns k) as [[|]|]; discriminate|]. intros [n ->]. reflexivity.
  - intros k K1 K2 K3. rewrite R. destruct (String.eqb_spec k "sim"); [contradiction|].
    destruct (String.eqb_spec k "params"); [contradiction|]. destruct (String.eqb_spec k "Simul"); [contradiction|]. reflexivity.
Qed.

(** %fluidsim_load without -f overwrites params and Simul of the user without a question *)
Theorem c277_refuted : exists ns (p q : nat), p <> q /\ ns "params" = Some (Obj p)
  /\ let r := fluidsim_load (fun _ _ _ => None) (fun _ _ => Some 1%nat) (fun _ => 2%nat) (fun _ => q) (fun _ => None) [] false ns in
     asked r = false /\ raised r = false /\ after r "params" = Some (Obj q).
Proof.
  exists (fun k => if String.eqb k "params" then Some (Obj 7) else None), 7%nat, 3%nat. repeat split. discriminate.
Qed.
(** the example of the documentation, %fluidsim_load -f -s -t -m, is an error for all simulations *)
Theorem c277_example_refuted : exists line, line = ["-f"; "-s"; "-t"; "-m"]
  /\ forall l1 l2 t p f answer ns, raised (fluidsim_load l1 l2 t p f line answer ns) = true.
Proof. eexists. split; [reflexivity|]. reflexivity. Qed.
(** with a time, it is not *)
Theorem c277_example_partial : forall l1 l2 t p f answer ns w x sim, dash w = false -> f w = Some x -> l1 None (Some x) true = Some sim ->
  let r := fluidsim_load l1 l2 t p f ["-f"; "-s"; "-t"; w; "-m"] answer ns in
  asked r = false /\ raised r = false /\ after r "sim" = Some (Obj sim).
Proof.
  intros l1 l2 t p f answer ns w x sim D F L r.
  assert (P : parse f ["-f"; "-s"; "-t"; w; "-m"] default_args = Some (mkArgs true true (Some x) true None)).
  { change (parse f ["-f"; "-s"; "-t"; w; "-m"] default_args) with
      (if dash w then None else match f w with None => None | Some t => parse f ["-m"] (mkArgs true true (Some t) false None) end).
    rewrite D, F. reflexivity. }
  unfold r, fluidsim_load. rewrite P. cbn [force_overwrite negb andb]. unfold load. cbn [state_phys directory t_approx merge]. rewrite L.
  split; [reflexivity|]. split; reflexivity.
Qed.

(** ** C278: fluidsim-ipy-load *)
(** *** Specification: a string of Python between simple quotes, without the escape sequences *)
Fixpoint literal (s : string) : option (string * string) :=
  match s with
  | EmptyString => None
  | String c r =>
      if Ascii.eqb c "'" then Some (EmptyString, r)
      else if Ascii.eqb c "\" || Ascii.eqb c (ascii_of_nat 10) then None
      else match literal r with Some (a, b) => Some (String c a, b) | None => None end
  end.
(** s without the prefix p *)
Fixpoint after_prefix (p s : string) : option string :=
  match p, s with
  | EmptyString, _ => Some s
  | String a p', String b s' => if Ascii.eqb a b then after_prefix p' s' else None
  | _, EmptyString => None
  end.
(** the code changes the directory to path, then executes rest; None is a SyntaxError *)
Definition chdir_then (code : string) : option (string * string) :=
  match after_prefix "import os; os.chdir('" code with
  | None => None
  | Some r =>
      match literal r with
      | None => None
      | Some (path, r2) => match after_prefix "); " r2 with Some rest => Some (path, rest) | None => None end
      end
  end.
Definition plain (s : string) : Prop :=
  forall c, In c (list_ascii_of_string s) -> c <> "'"%char /\ c <> "\"%char /\ c <> ascii_of_nat 10.

Lemma literal_plain : forall s r, plain s -> literal (s ++ "'" ++ r) = Some (s, r).
Proof.
  induction s as [|c s IH]; intros r H; [reflexivity|]. cbn [append literal]. destruct (H c ltac:(left; reflexivity)) as (H1 & H2 & H3).
  destruct (Ascii.eqb_spec c "'"); [contradiction|]. destruct (Ascii.eqb_spec c "\"); [contradiction|].
  destruct (Ascii.eqb_spec c (ascii_of_nat 10)); [contradiction|]. cbn [orb]. change (String "'" r) with ("'" ++ r).
  rewrite IH; [reflexivity|]. intros d D. apply H. right. exact D.
Qed.
Lemma append_assoc' : forall a b c : string, (a ++ b) ++ c = a ++ (b ++ c).
Proof. induction a as [|x a IH]; intros b c; [reflexivity|]. cbn. rewrite IH. reflexivity. Qed.

(** the simulation is loaded from the directory, by the same code as without argument *)
Theorem c278_chdir_partial : forall load_import path, plain path ->
  chdir_then (code load_import (Some path)) = Some (path, code load_import None).
Proof.
  intros l p H. unfold code, lines, chdir_line. cbn [String.concat]. rewrite !append_assoc'. unfold chdir_then.
  cbn [append after_prefix Ascii.eqb Bool.eqb]. change (String "'" ?x) with ("'" ++ x).
  rewrite literal_plain by exact H. reflexivity.
Qed.
(** the code without argument *)
Theorem c278_code : forall load_import, code load_import None =
  "import numpy as np; import matplotlib.pyplot as plt; import pandas as pd; " ++ load_import
  ++ "; print(""Loading simulation""); sim = load(); params = sim.params; print(""`sim`, `params`, `np`, `plt` and `pd` variables are available"")".
Proof. intros l. unfold code, lines. cbn [String.concat]. rewrite ?append_assoc'. reflexivity. Qed.
(** a directory with a quote in its name is a syntax error *)
Theorem c278_refuted : exists path, forall load_import, chdir_then (code load_import (Some path)) = None.
Proof. exists "/data/Rossby's waves". reflexivity. Qed.

Example c277_ex : exists ns, has ns "sim" /\ ~ has ns "params".
Proof.
  exists (fun k => if String.eqb k "sim" then Some (Obj 1) else None). split; [exists 1%nat; reflexivity|]. intros [n H]. discriminate.
Qed.
Example c278_ex : plain "/data/sim_2026".
Proof.
  intros c H. repeat (destruct H as [<-|H]; [repeat split; discriminate|]). destruct H.
Qed.

Print Assumptions c277_fluidsim.
Print Assumptions c277_load_partial.
Print Assumptions c277_options.
Print Assumptions c277_reset.
Print Assumptions c277_refuted.
Print Assumptions c277_example_refuted.
Print Assumptions c277_example_partial.
Print Assumptions c278_chdir_partial.
Print Assumptions c278_code.
Print Assumptions c278_refuted.
