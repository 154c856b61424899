(** * Loading of the parameters, directories of results, parameters of the benchmarks: C252, C253, C254 *)

From Coq Require Import Ascii String List Bool Arith ZArith QArith Lia Sorting.Permutation Sorting.Sorted.
From Verif Require Import Info_Model Info_Props Bench_Model LoadParams_Model.
Import ListNotations.
Local Open Scope nat_scope.

(** ** C252 *)
Section Load.
Variables P I : Type.

(** the first state file of a directory in the order of the names *)
Definition first_state (entries : list (string * content P I)) (k : string) (c : content P I) : Prop :=
  In (k, c) entries /\ String.prefix "state_" k = true
  /\ forall k' c', In (k', c') entries -> String.prefix "state_" k' = true -> String.leb k k' = true.

Definition no_state (entries : list (string * content P I)) : Prop :=
  forall k c, In (k, c) entries -> String.prefix "state_" k = false.

Lemma state_files_none entries : no_state entries -> state_files P I entries = [].
Proof.
  intros H. unfold state_files. replace (filter _ entries) with (@nil (string * content P I)); [reflexivity|].
  symmetry. induction entries as [|[k c] l IH]; [reflexivity|]. cbn [filter fst].
  rewrite (H k c (or_introl eq_refl)). apply IH. intros k' c' H'. apply (H k' c'). right. exact H'.
Qed.

Lemma NoDup_fst {A} (l : list (string * A)) k x y : NoDup (map fst l) -> In (k, x) l -> In (k, y) l -> x = y.
Proof.
  induction l as [|[k0 z] l IH]; intros N A1 A2; [destruct A1|]. cbn in N. inversion N as [|? ? N1 N2]; subst.
  destruct A1 as [E1|A1], A2 as [E2|A2].
  - congruence.
  - injection E1 as -> ->. exfalso. apply N1. apply (in_map fst) in A2. exact A2.
  - injection E2 as -> ->. exfalso. apply N1. apply (in_map fst) in A1. exact A1.
  - apply IH; assumption.
Qed.

Lemma state_files_first entries k c : NoDup (map fst entries) -> first_state entries k c ->
  exists r, state_files P I entries = (k, c) :: r.
Proof.
  intros N (A & B & C). unfold state_files. set (l := filter _ entries).
  assert (M : In (k, c) l) by (apply filter_In; split; [exact A|exact B]).
  pose proof (sorted_perm l) as HP. pose proof (sorted_sorted l) as HS.
  destruct (sorted_items l) as [|[k1 c1] r] eqn:E.
  - apply Permutation_nil in HP. rewrite HP in M. destruct M.
  - exists r. f_equal.
    assert (M1 : In (k1, c1) l) by (apply (Permutation_in _ HP); left; reflexivity).
    apply filter_In in M1 as [A1 B1]. cbn in B1.
    assert (L1 : String.leb k k1 = true) by (apply (C k1 c1); assumption).
    assert (L2 : String.leb k1 k = true).
    { apply (Permutation_in _ (Permutation_sym HP)) in M. destruct M as [M|M].
      - injection M as <- <-. exact L1.
      - inversion HS as [|? ? _ F]; subst. rewrite Forall_forall in F. exact (F _ M). }
    pose proof (leb_antisym _ _ L1 L2) as Ek. subst k1. f_equal. eapply NoDup_fst; eassumption.
Qed.

Notation load := (load_params_seq P I).

(** a directory: the file params_simul.xml, or else the first state file; no dependence on the order of the files *)
Theorem c252_directory : forall name entries, NoDup (map fst entries) ->
  (forall p, find entries "params_simul.xml" = Some (XmlParams P I p) -> load name (Dir P I entries) = Loaded P p)
  /\ (forall k p i, find entries "params_simul.xml" = None -> first_state entries k (H5 P I p i) -> load name (Dir P I entries) = Loaded P p)
  /\ (find entries "params_simul.xml" = None -> no_state entries -> load name (Dir P I entries) = ValueError P).
Proof.
  intros name entries N. split; [|split].
  - intros p E. unfold load_params_seq. rewrite E. reflexivity.
  - intros k p i E F. unfold load_params_seq. rewrite E.
    destruct (state_files_first entries k _ N F) as [r ->]. reflexivity.
  - intros E F. unfold load_params_seq. rewrite E, (state_files_none entries F). reflexivity.
Qed.

(** a file: its own parameters; a path which does not exist: ValueError *)
Theorem c252_file : forall name,
  (forall p, ends_with_xml name = true -> load name (File P I (XmlParams P I p)) = Loaded P p)
  /\ (forall p i, ends_with_xml name = false -> load name (File P I (H5 P I p i)) = Loaded P p)
  /\ load name (Missing P I) = ValueError P.
Proof.
  intros name. unfold load_params_seq. split; [|split].
  - intros p E. rewrite E. reflexivity.
  - intros p i E. rewrite E. reflexivity.
  - destruct (ends_with_xml name); reflexivity.
Qed.

(** with only_mpi_rank0 = False all the processes have the parameters of the process 0; otherwise each process reads *)
Theorem c252_mpi : forall nb_proc rank name node_of, rank < nb_proc ->
  load_params P I nb_proc rank false name node_of = load name (node_of 0)
  /\ load_params P I nb_proc rank true name node_of = load name (node_of rank).
Proof.
  intros nb_proc rank name node_of H. unfold load_params. cbn [negb]. rewrite andb_false_r, andb_true_r. split; [|reflexivity].
  destruct (Nat.ltb_spec 1 nb_proc); [reflexivity|]. replace rank with 0 by lia. reflexivity.
Qed.

Theorem c252_info : forall entries, NoDup (map fst entries) ->
  (forall i, find entries "info_solver.xml" = Some (XmlInfo P I i) -> load_info P I (Dir P I entries) = Loaded I i)
  /\ (forall k p i, find entries "info_solver.xml" = None -> first_state entries k (H5 P I p i) -> load_info P I (Dir P I entries) = Loaded I i)
  /\ (find entries "info_solver.xml" = None -> no_state entries -> load_info P I (Dir P I entries) = ValueError I)
  /\ (forall c, load_info P I (File P I c) = ValueError I) /\ load_info P I (Missing P I) = ValueError I.
Proof.
  intros entries N. split; [|split; [|split; [|split; reflexivity]]].
  - intros i E. unfold load_info. rewrite E. reflexivity.
  - intros k p i E F. unfold load_info. rewrite E. destruct (state_files_first entries k _ N F) as [r ->]. reflexivity.
  - intros E F. unfold load_info. rewrite E, (state_files_none entries F). reflexivity.
Qed.
End Load.

Example c252_ex : let d := [("stdout.txt"%string, Garbage nat nat); ("state_phys_t0002.000.nc"%string, H5 nat nat 2 7); ("state_phys_t0001.000.nc"%string, H5 nat nat 1 6)] in
  NoDup (map fst d) /\ first_state nat nat d "state_phys_t0001.000.nc" (H5 nat nat 1 6) /\ find d "params_simul.xml" = None
  /\ load_params_seq nat nat "dir" (Dir nat nat d) = Loaded nat 1.
Proof.
  split; [repeat constructor; cbn; intuition discriminate|]. split; [|split; reflexivity].
  split; [cbn; auto|]. split; [reflexivity|]. intros k c H S. destruct H as [H|[H|[H|[]]]]; injection H as <- <-.
  - discriminate.
  - reflexivity.
  - reflexivity.
Qed.

(** the files which are xml files *)
Lemma substring_tail : forall (a b : string), substring (String.length a) (String.length b) (a ++ b) = b.
Proof.
  induction a as [|x a IH]; intros b; [|exact (IH b)]. cbn. induction b as [|y b IH]; [reflexivity|]. cbn. rewrite IH. reflexivity.
Qed.
Lemma split_string : forall (n : nat) (s : string), n <= String.length s -> exists a b, s = (a ++ b)%string /\ String.length a = n.
Proof.
  induction n as [|n IH]; intros s H; [exists ""%string, s; split; reflexivity|].
  destruct s as [|x s]; [cbn in H; lia|]. cbn in H. destruct (IH s) as (a & b & E & L); [lia|].
  exists (String x a), b. rewrite E. split; [reflexivity|cbn; rewrite L; reflexivity].
Qed.
Lemma length_app : forall (a b : string), String.length (a ++ b) = String.length a + String.length b.
Proof. induction a as [|x a IH]; intros b; [reflexivity|]. cbn. rewrite IH. reflexivity. Qed.
Theorem c252_names : forall name, ends_with_xml name = true <-> exists r, name = (r ++ ".xml")%string.
Proof.
  intros name. unfold ends_with_xml. rewrite String.eqb_eq. split.
  - intros H. destruct (split_string (String.length name - 4) name) as (a & b & E & L); [lia|].
    exists a. rewrite E at 1. f_equal.
    assert (G : 4 <= String.length name).
    { destruct (Nat.le_gt_cases 4 (String.length name)) as [|G]; [assumption|]. exfalso.
      replace (String.length name - 4) with 0 in H by lia.
      do 4 (destruct name as [|? name]; [discriminate H|]). cbn in G. lia. }
    assert (B : String.length b = 4) by (rewrite E, length_app in G, L; lia).
    rewrite <- L, <- B in H. rewrite E in H. rewrite substring_tail in H. exact H.
  - intros (r & ->). rewrite length_app. cbn [String.length]. rewrite Nat.add_sub. exact (substring_tail r ".xml").
Qed.

Example c252_ex_names : ends_with_xml "params_simul.xml" = true /\ ends_with_xml "state_phys_t0.nc" = false /\ ends_with_xml "a" = false
  /\ no_state nat nat [("stdout.txt"%string, Garbage nat nat)].
Proof. repeat split. intros k c [H|[]]. injection H as <- <-. reflexivity. Qed.

(** ** C253 *)
(** the path which is found is an existing directory and, if the working directory and FLUIDSIM_PATH are absolute, it is
    absolute *)
Theorem c253_found : forall dirs cwd results thing p, dirs cwd = true -> absolute cwd = true -> absolute results = true ->
  find_path_result_dir dirs cwd results thing = Found p -> dirs p = true /\ absolute p = true.
Proof.
  intros dirs cwd results thing p D A B H. unfold find_path_result_dir, is_dir, join_path in H.
  destruct thing as [q|]; [|injection H as <-; auto].
  destruct (absolute q) eqn:E; cbn [absolute] in *.
  - rewrite E in H. destruct (dirs q) eqn:F; [injection H as <-; auto|]. discriminate.
  - destruct (dirs _) eqn:F in H.
    + injection H as <-. cbn. auto.
    + rewrite B in H. cbn in H. destruct (dirs (mkPath true (parts results ++ parts q))) eqn:G in H; [|discriminate].
      injection H as <-. rewrite ?B. cbn. auto.
Qed.

(** the directory of the working directory has the precedence over the one of FLUIDSIM_PATH; otherwise the latter *)
Theorem c253_precedence : forall dirs cwd results q, absolute cwd = true -> absolute results = true -> absolute q = false ->
  (dirs (mkPath true (parts cwd ++ parts q)) = true ->
     find_path_result_dir dirs cwd results (Some q) = Found (mkPath true (parts cwd ++ parts q)))
  /\ (dirs (mkPath true (parts cwd ++ parts q)) = false -> dirs (mkPath true (parts results ++ parts q)) = true ->
     find_path_result_dir dirs cwd results (Some q) = Found (mkPath true (parts results ++ parts q)))
  /\ (dirs (mkPath true (parts cwd ++ parts q)) = false -> dirs (mkPath true (parts results ++ parts q)) = false ->
     find_path_result_dir dirs cwd results (Some q) = NoSuchDirectory).
Proof.
  intros dirs cwd results q A B C. unfold find_path_result_dir, is_dir, join_path. rewrite C, A, B. cbn [absolute parts].
  split; [|split].
  - intros H. rewrite H. reflexivity.
  - intros H G. rewrite H, G. reflexivity.
  - intros H G. rewrite H, G. reflexivity.
Qed.

(** an absolute path is found if and only if it is a directory; without argument, the working directory *)
Theorem c253_absolute : forall dirs cwd results q, absolute q = true ->
  find_path_result_dir dirs cwd results (Some q) = (if dirs q then Found q else NoSuchDirectory)
  /\ find_path_result_dir dirs cwd results None = Found cwd.
Proof.
  intros dirs cwd results q H. split; [|reflexivity]. unfold find_path_result_dir, is_dir, join_path. rewrite !H.
  destruct (dirs q); reflexivity.
Qed.

Example c253_ex : find_path_result_dir (fun p => Nat.eqb (length (parts p)) 1 || match parts p with [a; b] => String.eqb a "sim" && String.eqb b "run1" | _ => false end)
  (mkPath true ["home"%string]) (mkPath true ["sim"%string]) (Some (mkPath false ["run1"%string])) = Found (mkPath true ["sim"; "run1"]%string).
Proof. reflexivity. Qed.

(** ** C254 *)
(** the parameters of a benchmark: [it_end] time steps of fixed size, nothing saved nor printed, and the sizes of the grid
    are the arguments in the order of the axes of the arrays *)
Theorem c254_params : forall p n0 n1 n2 name fft it,
  (forall p', modif_params2d p n0 n1 name fft it = Some p' ->
     ny p' = n0 /\ nx p' = match n1 with Some n => n | None => n0 end /\ nz p' = nz p
     /\ short_name p' = name /\ use_cfl p' = false /\ use_t_end p' = false /\ it_end p' = it /\ has_to_save p' = false
     /\ (period_print p' == 0)%Q /\ (deltat0 p' == 1 # 1000000)%Q /\ nu_8 p' = Some 1%Q
     /\ size p' = modif_box_size (size p) n0 (match n1 with Some n => n | None => n0 end) None)
  /\ (forall p', modif_params3d p n0 n1 n2 name fft it = Some p' ->
     nz p' = n0 /\ ny p' = match n1 with Some n => n | None => n0 end /\ nx p' = match n2 with Some n => n | None => n0 end
     /\ short_name p' = name /\ use_cfl p' = false /\ use_t_end p' = false /\ it_end p' = it /\ has_to_save p' = false
     /\ (period_print p' == 0)%Q /\ (deltat0 p' == 1 # 10000)%Q /\ nu_8 p' = Some 1%Q
     /\ size p' = modif_box_size (size p) n0 (match n1 with Some n => n | None => n0 end) (Some (match n2 with Some n => n | None => n0 end))).
Proof.
  intros p n0 n1 n2 name fft it.
  split; intros p'; unfold modif_params2d, modif_params3d, modif_common; destruct (nu_8 p); intros H; try discriminate; injection H as <-;
    cbn [nz ny nx short_name use_cfl use_t_end it_end has_to_save period_print deltat0 nu_8 size];
    repeat (split; [reflexivity|]); reflexivity.
Qed.

(** the parameters which a solver does not have are not created; the fields are random if this type is available *)
Theorem c254_physics : forall p n0 n1 name fft it p', modif_params2d p n0 n1 name fft it = Some p' ->
  (f p' = None <-> f p = None) /\ (c2 p' = None <-> c2 p = None) /\ (N p' = None <-> N p = None)
  /\ (In "noise"%string (available_types p) -> init_type p' = "noise"%string)
  /\ (~ In "noise"%string (available_types p) -> init_type p' = init_type p)
  /\ type_fft p' = match fft with Some t => t | None => type_fft p end.
Proof.
  intros p n0 n1 name fft it p'. unfold modif_params2d, modif_common. destruct (nu_8 p); intros H; [|discriminate].
  injection H as <-. cbn [f c2 N init_type type_fft available_types].
  split; [destruct (f p); cbn; split; congruence|].
  split; [destruct (f p), (c2 p); cbn; split; congruence|].
  split; [destruct (N p); split; congruence|].
  assert (E : existsb (String.eqb "noise") (available_types p) = true <-> In "noise"%string (available_types p)).
  { rewrite existsb_exists. split.
    - intros (x & Hx & Ex). apply String.eqb_eq in Ex. subst. exact Hx.
    - intros Hx. exists "noise"%string. split; [exact Hx|apply String.eqb_refl]. }
  split; [|split; [|reflexivity]]; intros H.
  - apply E in H. match goal with |- (if ?b then _ else _) = _ => change b with (existsb (String.eqb "noise") (available_types p)) end.
    rewrite H. reflexivity.
  - match goal with |- (if ?b then _ else _) = _ => change b with (existsb (String.eqb "noise") (available_types p)) end.
    destruct (existsb _ _); [destruct (H (proj1 E eq_refl))|reflexivity].
Qed.

Definition ex_params : bench_params :=
  mkBench "" 48 48 1 {| Lx := 8; Ly := 8; Lz := 8 |} "default" "constant" ["constant"; "noise"]%string (Some 0%Q) (Some 0%Q) None (Some 2%Q)
    (1 # 5) true 10 true 1 true.

(** the documentation: n0 is the number of points of the x axis and n1 (and n2) of the y axis (and z) *)
Theorem c254_axes_refuted : exists p2 p3,
  modif_params2d ex_params 64 (Some 32%Z) "profile" None 20 = Some p2
  /\ nx p2 = 32%Z /\ ny p2 = 64%Z
  /\ modif_params3d ex_params 64 (Some 32%Z) (Some 16%Z) "profile" None 10 = Some p3
  /\ nx p3 = 16%Z /\ ny p3 = 32%Z /\ nz p3 = 64%Z.
Proof. eexists _, _. split; [reflexivity|]. split; [reflexivity|]. split; [reflexivity|]. split; [reflexivity|]. repeat split. Qed.

Example c254_ex : exists p', modif_params2d ex_params 64 None "profile" None 20 = Some p' /\ f p' = Some 1%Q /\ c2 p' = None.
Proof. eexists. split; [reflexivity|]. split; reflexivity. Qed.

Print Assumptions c252_directory.
Print Assumptions c252_file.
Print Assumptions c252_mpi.
Print Assumptions c252_info.
Print Assumptions c253_found.
Print Assumptions c253_precedence.
Print Assumptions c253_absolute.
Print Assumptions c254_params.
Print Assumptions c254_physics.
Print Assumptions c254_axes_refuted.
Print Assumptions c252_names.
