(** C282: the runs of fluidsim bench and fluidsim profile; C283: the options of fluidsim profile. *)
From Coq Require Import Ascii String List ZArith Bool Lia.
From Verif Require Import ShortName_Model ShortName_Props RunAll_Model.
Import ListNotations.

(** ** Specification *)
Definition created (l : list event) : list fft := flat_map (fun e => match e with Create t => [t] | _ => [] end) l.
Definition cleaned (l : list event) : list fft := flat_map (fun e => match e with Clean t => [t] | _ => [] end) l.
Definition finished (l : list event) : list fft := flat_map (fun e => match e with Run t => [t] | _ => [] end) l.
Definition warned (l : list event) : list fft := flat_map (fun e => match e with Warn t => [t] | _ => [] end) l.

(** the elements before the first one which is not good, and with it *)
Inductive before {A} (good : A -> Prop) : list A -> list A -> Prop :=
| before_nil : before good [] []
| before_bad t l : ~ good t -> before good (t :: l) []
| before_good t l p : good t -> before good l p -> before good (t :: l) (t :: p).
Inductive until {A} (good : A -> Prop) : list A -> list A -> Prop :=
| until_nil : until good [] []
| until_bad t l : ~ good t -> until good (t :: l) [t]
| until_good t l p : good t -> until good l p -> until good (t :: l) (t :: p).

Lemma flat_app {A B} (f : A -> list B) l1 l2 : flat_map f (l1 ++ l2) = flat_map f l1 ++ flat_map f l2.
Proof. apply flat_map_app. Qed.

Section Runs.
Variables (simul_ok run_ok : fft -> bool) (testing : bool).
Notation bench := (bench simul_ok run_ok testing).
Notation profile := (profile simul_ok run_ok testing).

(** the directory of each created simulation is removed, in the same order, before the next one is created *)
Definition clean_pairs (l : list event) : Prop :=
  created l = cleaned l /\ forall l1 t l2, l = l1 ++ Create t :: l2 -> created l1 = cleaned l1.

Lemma pairs_app l1 l2 : clean_pairs l1 -> clean_pairs l2 -> clean_pairs (l1 ++ l2).
Proof.
  intros [A1 B1] [A2 B2]; split.
  - unfold created, cleaned in *; rewrite !flat_app; congruence.
  - intros l t r E; revert l E; clear A2; intros l E.
    assert (D : (exists r1, l1 = l ++ Create t :: r1) \/ exists m, l = l1 ++ m /\ l2 = m ++ Create t :: r).
    { clear -E; revert l E; induction l1 as [| x l1 IH]; intros l E.
      - right; exists l; auto.
      - destruct l as [| y l]; cbn in E.
        + injection E as -> E; left; exists l1; reflexivity.
        + injection E as -> E; destruct (IH _ E) as [(r1 & ->) | (m & -> & ->)]; [left; exists r1; reflexivity | right; exists m; auto]. }
    destruct D as [(r1 & ->) | (m & -> & ->)].
    + apply (B1 l t r1); auto.
    + unfold created, cleaned in *; rewrite !flat_app; rewrite (B2 m t r eq_refl); congruence.
Qed.

Lemma pairs_nil : clean_pairs [].
Proof. split; auto; intros [] t l2; discriminate. Qed.

Lemma pairs_each one : (forall t, clean_pairs (fst (one t))) -> forall l, clean_pairs (fst (each one l)).
Proof.
  intros H; induction l as [| t l IH]; cbn [each]; [apply pairs_nil |].
  specialize (H t); destruct (one t) as [e ok]; destruct ok; auto.
  destruct (each one l) as [e' ok']; apply pairs_app; auto.
Qed.

Lemma pairs_3 t x : created [x] = [] -> cleaned [x] = [] -> clean_pairs [Create t; x; Clean t].
Proof.
  intros X1 X2; split.
  - destruct x; try discriminate; reflexivity.
  - intros [| a [| b [| c [| d l]]]] u l2 E; cbn in E; try discriminate E; auto;
      first [injection E as <- -> _; discriminate X1 | injection E as _ _ _ E; discriminate E].
Qed.
Lemma pairs_2 t : clean_pairs [Create t; Clean t].
Proof.
  split; auto; intros [| a [| b [| c l]]] u l2 E; cbn in E; try discriminate E; auto; injection E as _ _ E; discriminate E.
Qed.

Theorem c282_clean : forall dim t classes, clean_pairs (fst (bench t classes)) /\ clean_pairs (fst (profile dim t classes)).
Proof.
  intros dim t classes.
  assert (B : forall u, clean_pairs (fst (bench_one simul_ok run_ok testing u))).
  { intros u; unfold bench_one; destruct (simul_ok u), (run_ok u), testing; cbn [fst]; auto using pairs_3, pairs_2, pairs_nil. }
  assert (P : forall u, clean_pairs (fst (profile_one simul_ok run_ok testing dim u))).
  { intros u; unfold profile_one; destruct (String.eqb dim "2d" || String.eqb dim "3d"); cbn [fst]; auto using pairs_nil.
    destruct (simul_ok u), (run_ok u), testing; cbn [fst]; auto using pairs_3, pairs_2, pairs_nil. }
  unfold RunAll_Model.bench, RunAll_Model.profile, drive; destruct (is_all t); auto using pairs_each.
Qed.

(** "all" (in any case): the available classes, in their order *)
Inductive available : list (string * bool) -> list fft -> Prop :=
| available_nil : available [] []
| available_yes n r l : available r l -> available ((n, true) :: r) (Some n :: l)
| available_no n r l : available r l -> available ((n, false) :: r) l.

Lemma available_filter classes : available classes (map (fun c => Some (fst c)) (filter snd classes)).
Proof. induction classes as [| [n []] r IH]; cbn; constructor; auto. Qed.

(** bench -t all: without the tests, an error of a run is a warning and the next classes are run; an error of the
    creation of a simulation stops *)
Theorem c282_bench_all_partial : forall (s : string) classes, Bench_Model.lower s = "all"%string -> testing = false ->
  exists l p, available classes l /\ before (fun t => simul_ok t = true) l p
    /\ created (fst (bench (Some s) classes)) = p
    /\ finished (fst (bench (Some s) classes)) = filter run_ok p
    /\ warned (fst (bench (Some s) classes)) = filter (fun t => negb (run_ok t)) p
    /\ (snd (bench (Some s) classes) = true <-> forall t, In t l -> simul_ok t = true).
Proof.
  intros s classes Sl Ht; unfold RunAll_Model.bench, drive, is_all; rewrite Sl; cbn [String.eqb Ascii.eqb Bool.eqb].
  exists (map (fun c => Some (fst c)) (filter snd classes)).
  set (l := map (fun c : string * bool => Some (fst c)) (filter snd classes)).
  assert (G : exists p, before (fun t => simul_ok t = true) l p
    /\ created (fst (each (bench_one simul_ok run_ok testing) l)) = p
    /\ finished (fst (each (bench_one simul_ok run_ok testing) l)) = filter run_ok p
    /\ warned (fst (each (bench_one simul_ok run_ok testing) l)) = filter (fun t => negb (run_ok t)) p
    /\ (snd (each (bench_one simul_ok run_ok testing) l) = true <-> forall t, In t l -> simul_ok t = true)).
  { generalize l; clear l; induction l as [| t l (p & P1 & P2 & P3 & P4 & P5)].
    - exists []; cbn; repeat (split; [constructor || reflexivity |]); split; auto; intros _ t [].
    - cbn [each]; unfold bench_one at 1 3 5 7; rewrite Ht; destruct (simul_ok t) eqn:E.
      + rewrite Ht in *; exists (t :: p); split; [constructor; auto |].
        unfold created, finished, warned in *; cbn [filter].
        destruct (run_ok t) eqn:R; destruct (each (bench_one simul_ok run_ok false) l) as [e ok]; cbn [fst snd] in *; rewrite !flat_app; cbn [flat_map app negb]; rewrite P2, P3, P4;
          (split; [reflexivity |]; split; [reflexivity |]; split; [reflexivity |]);
          (split; [intros K u [<- | I]; auto; apply P5; auto | intros K; apply P5; intros u I; apply K; right; auto]).
      + exists []; cbn; split; [constructor; congruence |]; split; auto; split; auto; split; auto; split; [discriminate |].
        intros K; rewrite K in E; auto; discriminate. }
  destruct G as (p & G); exists p; split; [apply available_filter | exact G].
Qed.

(** profile -t all: the first error stops, also an error of a run *)
Theorem c282_profile_all_partial : forall dim s classes, Bench_Model.lower s = "all"%string -> dim = "2d"%string \/ dim = "3d"%string ->
  exists l p q, available classes l
    /\ until (fun t => simul_ok t = true /\ run_ok t = true) l p /\ before (fun t => simul_ok t = true /\ run_ok t = true) l q
    /\ created (fst (profile dim (Some s) classes)) = filter simul_ok p
    /\ finished (fst (profile dim (Some s) classes)) = q
    /\ (snd (profile dim (Some s) classes) = true <-> q = l).
Proof.
  intros dim s classes Sl D; unfold RunAll_Model.profile, drive, is_all; rewrite Sl; cbn [String.eqb Ascii.eqb Bool.eqb].
  assert (Ed : (String.eqb dim "2d" || String.eqb dim "3d")%bool = true) by (destruct D as [-> | ->]; reflexivity).
  exists (map (fun c => Some (fst c)) (filter snd classes)).
  set (l := map (fun c : string * bool => Some (fst c)) (filter snd classes)).
  assert (G : exists p q, until (fun t => simul_ok t = true /\ run_ok t = true) l p /\ before (fun t => simul_ok t = true /\ run_ok t = true) l q
    /\ created (fst (each (profile_one simul_ok run_ok testing dim) l)) = filter simul_ok p
    /\ finished (fst (each (profile_one simul_ok run_ok testing dim) l)) = q
    /\ (snd (each (profile_one simul_ok run_ok testing dim) l) = true <-> q = l)).
  { generalize l; clear l; induction l as [| t l (p & q & P1 & P2 & P3 & P4 & P5)].
    - exists [], []; cbn; split; [constructor |]; split; [constructor |]; split; auto; split; auto; split; auto.
    - cbn [each]; unfold profile_one at 1 3 5; rewrite Ed; destruct (simul_ok t) eqn:E; [destruct (run_ok t) eqn:R |].
      + exists (t :: p), (t :: q); split; [constructor; auto |]; split; [constructor; auto |].
        unfold created, finished in *; cbn [filter]; rewrite E.
        destruct (each (profile_one simul_ok run_ok testing dim) l) as [e ok]; cbn [fst snd] in *; rewrite !flat_app; cbn [flat_map app].
        split; [f_equal; exact P3 |]; split; [f_equal; exact P4 |]; rewrite P5; split; [intros ->; reflexivity |]; intros K; injection K; auto.
      + exists [t], []; split; [constructor; intros [_ K]; congruence |]; split; [constructor; intros [_ K]; congruence |].
        cbn [filter]; rewrite E; destruct testing; cbn; split; auto; split; auto; split; discriminate.
      + exists [t], []; split; [constructor; intros [K _]; congruence |]; split; [constructor; intros [K _]; congruence |].
        cbn [filter]; rewrite E; cbn; split; auto; split; auto; split; discriminate. }
  destruct G as (p & q & G); exists p, q; split; [apply available_filter | exact G].
Qed.

(** another type: one simulation *)
Theorem c282_one : forall dim t classes, match t with Some s => Bench_Model.lower s <> "all"%string | None => True end ->
  created (fst (bench t classes)) = (if simul_ok t then [t] else [])
  /\ (snd (bench t classes) = true <-> simul_ok t = true /\ (run_ok t = true \/ testing = false))
  /\ (snd (profile dim t classes) = true <-> (dim = "2d"%string \/ dim = "3d"%string) /\ simul_ok t = true /\ run_ok t = true).
Proof.
  intros dim t classes H.
  assert (E : is_all t = false).
  { unfold is_all; destruct t as [s |]; auto; apply String.eqb_neq; auto. }
  unfold RunAll_Model.bench, RunAll_Model.profile, drive; rewrite E; unfold bench_one, profile_one.
  split; [destruct (simul_ok t), (run_ok t), testing; reflexivity |]; split.
  - destruct (simul_ok t), (run_ok t), testing; cbn; (split; [try discriminate; auto | intros [A [B | B]]; auto; discriminate]).
  - destruct (String.eqb_spec dim "2d") as [-> | N2]; [| destruct (String.eqb_spec dim "3d") as [-> | N3]]; cbn [orb].
    + destruct (simul_ok t), (run_ok t), testing; cbn; (split; [try discriminate; auto | intros (_ & A & B); auto; discriminate]).
    + destruct (simul_ok t), (run_ok t), testing; cbn; (split; [try discriminate; auto | intros (_ & A & B); auto; discriminate]).
    + cbn; split; [discriminate | intros ([A | A] & _); contradiction].
Qed.
End Runs.

(** the classes after a class whose simulation cannot be created are not run; with profile also after a run with an
    error, although bench goes on *)
Theorem c282_refuted : exists simul_ok run_ok classes a b c,
  a <> b /\ b <> c /\ a <> c /\ classes = [(a, true); (b, true); (c, true)] /\ simul_ok (Some c) = true /\ run_ok (Some c) = true
  /\ ~ In (Some c) (finished (fst (bench simul_ok run_ok false (Some "all"%string) classes)))
  /\ (forall ok, In (Some c) (finished (fst (bench (fun _ => true) ok false (Some "all"%string) classes))) <-> ok (Some c) = true)
  /\ exists ok, ok (Some c) = true /\ ~ In (Some c) (finished (fst (profile (fun _ => true) ok false "2d"%string (Some "all"%string) classes))).
Proof.
  exists (fun t => match t with Some s => negb (String.eqb s "b") | None => true end), (fun _ => true),
    [("a"%string, true); ("b"%string, true); ("c"%string, true)], "a"%string, "b"%string, "c"%string.
  split; [discriminate |]; split; [discriminate |]; split; [discriminate |]; split; auto; split; auto; split; auto.
  split; [cbn; intros [K | []]; discriminate K |]; split.
  - intros ok; unfold bench, drive, is_all, bench_one; cbn -[In].
    destruct (ok (Some "a"%string)), (ok (Some "b"%string)), (ok (Some "c"%string)); cbn;
      (split; [intros K; try reflexivity; repeat (destruct K as [K | K]; [discriminate K |]); destruct K
              | intros K; first [discriminate K | repeat (first [left; reflexivity | right])]]).
  - exists (fun t => match t with Some s => negb (String.eqb s "b") | None => true end); split; auto; cbn; intros [K | []]; discriminate K.
Qed.

(** ** C283 *)

(** the number of iterations *)
Theorem c283_iterations : forall dim n, dim = "2d"%string \/ dim = "3d"%string ->
  bench_it dim (Some n) = Some n /\ bench_it dim None = Some (if String.eqb dim "2d" then 20 else 10)%Z
  /\ profile_it dim (profile_option_it (Some n)) = Some n /\ profile_it dim (profile_option_it None) = Some 10%Z.
Proof. intros dim n [-> | ->]; repeat (split; [reflexivity |]); reflexivity. Qed.

Lemma split_cons sep l n cur : exists x r, split sep l n cur = x :: r.
Proof.
  revert n cur; induction l as [| y l IH]; intros n cur; cbn [split]; [eauto |].
  destruct n; auto; destruct (prefixb _ _); eauto.
Qed.
Lemma split_last_char c l r : ~ In c r -> split_last [c] (l ++ [c] ++ r) = r.
Proof.
  intros N; unfold split_last.
  assert (G : forall cur, last (split [c] (l ++ [c] ++ r) 0 cur) [] = r); [| apply G].
  assert (O : ~ occurs [c] r) by (intros O; apply N; apply (occurs_in _ _ c O); left; reflexivity).
  induction l as [| d l IH]; intros cur.
  - cbn [app split prefixb]; rewrite Ascii.eqb_refl; cbn [andb length Nat.sub]; rewrite (split_no [c] r [] O); reflexivity.
  - cbn [app split]; destruct (prefixb [c] (d :: l ++ c :: r)); cbn [length Nat.sub]; [| apply IH].
    specialize (IH []); cbn [app] in IH; destruct (split_cons [c] (l ++ c :: r) 0 []) as (x & q & Es); rewrite Es in *; exact IH.
Qed.

(** the solver is found again from the name of the file of the profile *)
Theorem c283_solver_partial : forall dir key rest, ~ In "_"%char key -> ~ In "/"%char key -> ~ In "/"%char rest ->
  ~ occurs (of_string "result_profile_") (key ++ of_string "_" ++ rest ++ of_string ".pstats") ->
  solver_of_file (profile_file dir key rest) = key.
Proof.
  intros dir key rest K1 K2 K3 K4; unfold solver_of_file, profile_file.
  set (tail := key ++ of_string "_" ++ rest ++ of_string ".pstats") in *.
  assert (Nt : ~ In "/"%char (of_string "result_profile_" ++ tail)).
  { unfold tail; intros I; repeat (apply in_app_or in I; destruct I as [I | I]); auto;
      cbn in I; repeat (destruct I as [I | I]; [discriminate I |]); exact I. }
  assert (E1 : split_last (of_string "/") (dir ++ of_string "/" ++ of_string "result_profile_" ++ tail) = of_string "result_profile_" ++ tail).
  { apply (split_last_char "/"%char); exact Nt. }
  rewrite E1.
  assert (E2 : split_last (of_string "result_profile_") (of_string "result_profile_" ++ tail) = tail).
  { apply (split_last_at (of_string "result_profile_") [] tail); auto; [discriminate |].
    intros (a & b & Eq); apply (f_equal (@length ascii)) in Eq; rewrite !app_length in Eq; cbn in Eq; lia. }
  rewrite E2; unfold tail; clear -K1; unfold split_first; change (of_string "_") with ["_"%char].
  assert (G : forall l cur r, ~ In "_"%char l -> hd [] (split ["_"%char] (l ++ ["_"%char] ++ r) 0 cur) = rev cur ++ l).
  { induction l as [| c l IH]; intros cur r N; cbn [app].
    - cbn [split prefixb Ascii.eqb Bool.eqb andb hd]; rewrite app_nil_r; reflexivity.
    - cbn [split prefixb]; destruct (Ascii.eqb "_" c) eqn:E.
      + exfalso; apply Ascii.eqb_eq in E; apply N; left; auto.
      + cbn [andb]; change ("_"%char :: r) with (["_"%char] ++ r); rewrite IH; [| intros I; apply N; right; auto].
        cbn [rev]; rewrite <- app_assoc; reflexivity. }
  apply (G key []); auto.
Qed.

(** the key written in the name is short_name.lower(): the key of the solver for these solvers only *)
Theorem c283_short_name : forall key name, In (key, name) short_names ->
  (Bench_Model.lower name = key <-> In key ["ns2d"; "ns2d.strat"; "ns2d.bouss"; "ns3d"; "ns3d.strat"; "ns3d.bouss"; "sw1l"; "plate2d"; "waves2d"; "nl1d"; "burgers1d"; "ad1d"]%string).
Proof.
  intros key name I; cbn in I; repeat (destruct I as [I | I]; [injection I as <- <-; vm_compute; intuition congruence |]); destruct I.
Qed.

(** the processes other than the first write other files *)
Theorem c283_ranks : forall stem r1 r2, rank_file stem r1 false = rank_file stem r2 false -> r1 = r2.
Proof.
  intros stem r1 r2 H; unfold rank_file in H; apply app_inv_head in H; apply app_inv_head in H; apply app_inv_tail in H; auto.
Qed.
Theorem c283_rank0 : forall stem r, rank_file stem r false <> rank_file stem r true.
Proof.
  intros stem r H; unfold rank_file in H; apply app_inv_head in H; apply (f_equal (@length ascii)) in H; rewrite !app_length in H; cbn in H; lia.
Qed.

(** the option -p is used with a file of a profile only *)
Theorem c283_plot_partial : forall f plot, run_plot (Some f) plot = plot.
Proof. reflexivity. Qed.
Theorem c283_refuted : (exists plot, plot = true /\ run_plot None plot = false)
  /\ (forall dim, profile_it dim None = None) /\ (exists name, solver_of_file name <> of_string "ns2d" /\ name = of_string "/tmp/ns2d.pstats")
  /\ exists key name, In (key, name) short_names /\ forall dir rest, ~ In "/"%char rest ->
       ~ occurs (of_string "result_profile_") (of_string (Bench_Model.lower name) ++ of_string "_" ++ rest ++ of_string ".pstats") ->
       solver_of_file (profile_file dir (of_string (Bench_Model.lower name)) rest) <> of_string key.
Proof.
  split; [exists true; auto |]; split; [reflexivity |].
  split; [exists (of_string "/tmp/ns2d.pstats"); split; auto; intros K; vm_compute in K; discriminate K |].
  exists "sw1l.exactlin"%string, "SW1Lexlin"%string; split; [cbn; tauto |]; intros dir rest R O.
  rewrite c283_solver_partial; auto; [vm_compute; discriminate | |];
    intros I; vm_compute in I; repeat (destruct I as [I | I]; [discriminate I |]); exact I.
Qed.

(** the hypotheses are met *)
Example ex_c282 : Bench_Model.lower "ALL" = "all"%string
  /\ bench (fun _ => true) (fun _ => true) false (Some "ALL"%string) [("x"%string, true); ("y"%string, false)]
     = ([Create (Some "x"%string); Run (Some "x"%string); Clean (Some "x"%string)], true).
Proof. split; reflexivity. Qed.
Example ex_c283 : let key := of_string "ns2d.strat" in let rest := of_string "64x64_np=1" in
  ~ In "_"%char key /\ ~ In "/"%char key /\ ~ In "/"%char rest
  /\ ~ occurs (of_string "result_profile_") (key ++ of_string "_" ++ rest ++ of_string ".pstats")
  /\ solver_of_file (profile_file (of_string "/tmp/a_b") key rest) = key.
Proof.
  split; [| split; [| split; [| split; [rewrite <- contains_spec; vm_compute; discriminate | reflexivity]]]]; intros I; cbn in I; repeat (destruct I as [I | I]; [discriminate I |]); exact I.
Qed.

Print Assumptions c282_clean.
Print Assumptions c282_bench_all_partial.
Print Assumptions c282_profile_all_partial.
Print Assumptions c282_one.
Print Assumptions c282_refuted.
Print Assumptions c283_iterations.
Print Assumptions c283_solver_partial.
Print Assumptions c283_short_name.
Print Assumptions c283_ranks.
Print Assumptions c283_rank0.
Print Assumptions c283_plot_partial.
Print Assumptions c283_refuted.
