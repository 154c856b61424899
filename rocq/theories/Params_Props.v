(** Theorems on the parameters, the restarts and the extensions (C44, C45, C48, C55, C74, C75) *)

From Coq Require Import String List Arith Bool ZArith QArith Qabs Lia Lqa.
From Verif Require Import Params_Model Params_Spec Params_Proofs.
Import ListNotations.
Local Open Scope nat_scope.

(** ** C44: params |= other *)

Theorem c44_values :
  forall p1 p2 path key, wf p2 ->
  get path key (merge p1 p2) = match get path key p1 with Some v => Some v | None => get path key p2 end.
Proof. intros p1 p2 path key W. apply get_merge, W. Qed.
Print Assumptions c44_values.

Theorem c44_children :
  forall p1 p2 path, wf p2 ->
  node path (merge p1 p2) <> None <-> node path p1 <> None \/ node path p2 <> None.
Proof. intros p1 p2 path W. apply node_merge, W. Qed.
Print Assumptions c44_children.

Theorem c44_idempotent :
  forall p1 p2, wf p2 -> merge (merge p1 p2) p2 = merge p1 p2.
Proof. intros p1 p2 W. apply merge_sub, sub_merge, W. Qed.
Print Assumptions c44_idempotent.

(** merge_params: the first container which has a value gives it; only oper.type_fft can be replaced *)
Theorem c44_merge_params :
  forall p others path key, Forall wf others -> (path, key) <> (["oper"], "type_fft")%string ->
  get path key (merge_params p others)
  = fold_left (fun a q => match a with Some v => Some v | None => get path key q end) others (get path key p).
Proof.
  intros p others path key W N. unfold merge_params.
  transitivity (get path key (fold_left merge others p)).
  - unfold fix_type_fft. destruct (assoc "oper" (children_of (fold_left merge others p))) as [oper|]; [|reflexivity].
    destruct (assoc "type_fft" (attribs_of oper)) as [[m| | |]|]; try reflexivity.
    destruct (fft_kept m); [reflexivity|]. rewrite try_assign_get.
    destruct (path_eqb path ["oper"%string] && String.eqb key "type_fft") eqn:B; [|reflexivity].
    exfalso. apply andb_prop in B. destruct B as [B1 B2]. apply String.eqb_eq in B2. subst key.
    unfold path_eqb in B1. destruct (list_eq_dec string_dec path ["oper"%string]) as [->|]; [|discriminate].
    apply N. reflexivity.
  - clear N. revert p. induction W as [|q others Wq W IH]; intro p; [reflexivity|]. cbn [fold_left].
    rewrite IH, get_merge by exact Wq. reflexivity.
Qed.
Print Assumptions c44_merge_params.

(** the method of the merged parameters is kept if it is a fluidfft one, otherwise "default" *)
Theorem c44_type_fft :
  forall p others m,
  get ["oper"%string] "type_fft" (fold_left merge others p) = Some (VStr m) ->
  get ["oper"%string] "type_fft" (merge_params p others) = Some (VStr (if fft_kept m then m else "default")).
Proof.
  intros p others m H. unfold merge_params, fix_type_fft.
  remember (fold_left merge others p) as t. clear Heqt.
  assert (H' := H). unfold get in H'. cbn [node] in H'.
  destruct (assoc "oper" (children_of t)) as [oper|]; [|discriminate]. rewrite H'.
  destruct (fft_kept m); [exact H|]. rewrite try_assign_get, H. reflexivity.
Qed.
Print Assumptions c44_type_fft.

Theorem c44_fft_kept :
  forall m, m = "default"%string \/ (exists r, m = String.append "fft2d." r) \/ (exists r, m = String.append "fft3d." r)
            \/ (exists r, m = String.append "fluidfft." r) -> fft_kept m = true.
Proof.
  intros m [-> | [[r ->] | [[r ->] | [r ->]]]]; [reflexivity| | |]; unfold fft_kept; cbn; destruct r; reflexivity.
Qed.
Print Assumptions c44_fft_kept.

Example c44_example :
  (let p1 := Node [("a", VNum 1)] [("oper", Node [("nx", VNum 48)] [])] in
  let p2 := Node [("a", VNum 2); ("b", VBool true)]
              [("oper", Node [("nx", VNum 32); ("type_fft", VStr "default")] []);
               ("output", Node [("n", VNum 3)] [("spectra", Node [("HAS", VBool true)] [])])] in
  merge p1 p2 = Node [("a", VNum 1); ("b", VBool true)]
                  [("oper", Node [("nx", VNum 48); ("type_fft", VStr "default")] []);
                   ("output", Node [("n", VNum 3)] [("spectra", Node [("HAS", VBool true)] [])])])%string.
Proof. reflexivity. Qed.

Example c44_wf_example : wf (Node [("a", VNum 2)] [("oper", Node [("nx", VNum 32)] [])])%string.
Proof.
  constructor; [repeat constructor; intros []|]. intros k t [[= <- <-]|[]].
  constructor; [constructor|intros ? ? []].
Qed.

(** ** C55: load_for_restart *)

Lemma fix_old_other t path key :
  ~ In (path, key) old_keys -> get path key (fix_old_params t) = get path key t.
Proof.
  intro N. unfold fix_old_params.
  set (t1 := match assoc "FORCING" (attribs_of t) with
             | Some v => match assoc "forcing" (children_of t) with
                         | Some f => Node (attribs_of t) (set_assoc "forcing" (set_attrib "enable" v f) (children_of t))
                         | None => t end
             | None => t end).
  assert (E1 : get path key t1 = get path key t).
  { unfold t1. destruct (assoc "FORCING" (attribs_of t)) as [v|]; [|reflexivity].
    destruct (assoc "forcing" (children_of t)) as [f|] eqn:F; [|reflexivity].
    destruct path as [|k path]; [reflexivity|]. unfold get. cbn [node children_of]. rewrite assoc_set.
    destruct (String.eqb_spec k "forcing") as [->|M]; [|reflexivity]. unfold has. rewrite F.
    unfold set_attrib. destruct (has "enable" (attribs_of f)) eqn:He.
    - destruct path as [|q path]; cbn [node attribs_of children_of]; [|reflexivity]. rewrite assoc_set.
      destruct (String.eqb_spec key "enable") as [->|]; [|reflexivity]. exfalso. apply N. left. reflexivity.
    - destruct path as [|q path]; cbn [node attribs_of children_of]; [|reflexivity]. rewrite assoc_app. cbn [assoc].
      destruct (String.eqb_spec key "enable") as [->|]; [exfalso; apply N; left; reflexivity|].
      destruct (assoc key (attribs_of f)); reflexivity. }
  rewrite <- E1. destruct (assoc "NO_SHEAR_MODES" (attribs_of t1)) as [v|]; [|reflexivity].
  rewrite try_assign_get. destruct (path_eqb path ["oper"%string] && String.eqb key "NO_SHEAR_MODES") eqn:B; [|reflexivity].
  exfalso. apply andb_prop in B. destruct B as [B1 B2]. apply String.eqb_eq in B2. subst key.
  unfold path_eqb in B1. destruct (list_eq_dec string_dec path ["oper"%string]) as [->|]; [|discriminate].
  apply N. right. left. reflexivity.
Qed.

Definition merged (d : option tree) (p : tree) : tree :=
  match d with Some d => merge_params p [d] | None => p end.

Lemma load_steps dir file d p p' : load_for_restart dir file d p = Some p' ->
  exists p1 p2 p3 p4 p5,
    assign [] "path_run" (VStr dir) (merged d p) = Some p1
    /\ assign [] "NEW_DIR_RESULTS" (VBool false) p1 = Some p2
    /\ assign ["init_fields"%string] "type" (VStr "from_file") p2 = Some p3
    /\ assign ["init_fields"; "from_file"]%string "path" (VStr file) p3 = Some p4
    /\ assign ["init_fields"%string] "modif_after_init" (VBool false) p4 = Some p5
    /\ p' = fix_old_params (try_assign ["preprocess"%string] "enable" (VBool false) p5).
Proof.
  unfold load_for_restart. fold (merged d p). intro H.
  destruct (assign [] "path_run" _ _) as [p1|] eqn:E1; [|discriminate].
  destruct (assign [] "NEW_DIR_RESULTS" _ _) as [p2|] eqn:E2; [|discriminate].
  destruct (assign _ "type" _ _) as [p3|] eqn:E3; [|discriminate].
  destruct (assign _ "path" _ _) as [p4|] eqn:E4; [|discriminate].
  destruct (assign _ "modif_after_init" _ _) as [p5|] eqn:E5; [|discriminate].
  injection H as <-. exists p1, p2, p3, p4, p5. repeat split; assumption.
Qed.

Ltac step :=
  match goal with |- context [path_eqb ?a ?b && String.eqb ?c ?d] =>
    let v := eval vm_compute in (path_eqb a b && String.eqb c d) in
    change (path_eqb a b && String.eqb c d) with v; cbn iota end.

(** the parameters load the chosen file and write in its directory *)
Theorem c55_restart_values :
  forall dir file d p p', load_for_restart dir file d p = Some p' ->
  get [] "path_run" p' = Some (VStr dir)
  /\ get [] "NEW_DIR_RESULTS" p' = Some (VBool false)
  /\ get ["init_fields"%string] "type" p' = Some (VStr "from_file")
  /\ get ["init_fields"; "from_file"]%string "path" p' = Some (VStr file)
  /\ get ["init_fields"%string] "modif_after_init" p' = Some (VBool false)
  /\ (get ["preprocess"%string] "enable" p' <> None -> get ["preprocess"%string] "enable" p' = Some (VBool false)).
Proof.
  intros dir file d p p' H. destruct (load_steps _ _ _ _ _ H) as (p1 & p2 & p3 & p4 & p5 & E1 & E2 & E3 & E4 & E5 & ->).
  assert (Hold : forall path key, ~ In (path, key) old_keys ->
    get path key (fix_old_params (try_assign ["preprocess"%string] "enable" (VBool false) p5))
    = get path key (try_assign ["preprocess"%string] "enable" (VBool false) p5)).
  { intros. apply fix_old_other. assumption. }
  assert (No : forall path key, (path = [] \/ path = ["init_fields"%string] \/ path = ["init_fields"; "from_file"]%string
                                 \/ path = ["preprocess"%string]) -> ~ In (path, key) old_keys).
  { intros path key D [[= <- <-]|[[= <- <-]|[]]]; destruct D as [D|[D|[D|D]]]; discriminate. }
  repeat split.
  - rewrite Hold by (apply No; auto). rewrite try_assign_get. step. rewrite (assign_get _ _ _ _ _ E5). step. rewrite (assign_get _ _ _ _ _ E4). step. rewrite (assign_get _ _ _ _ _ E3). step. rewrite (assign_get _ _ _ _ _ E2). step. rewrite (assign_get _ _ _ _ _ E1). step. reflexivity.
  - rewrite Hold by (apply No; auto). rewrite try_assign_get. step. rewrite (assign_get _ _ _ _ _ E5). step. rewrite (assign_get _ _ _ _ _ E4). step. rewrite (assign_get _ _ _ _ _ E3). step. rewrite (assign_get _ _ _ _ _ E2). step. reflexivity.
  - rewrite Hold by (apply No; auto). rewrite try_assign_get. step. rewrite (assign_get _ _ _ _ _ E5). step. rewrite (assign_get _ _ _ _ _ E4). step. rewrite (assign_get _ _ _ _ _ E3). step. reflexivity.
  - rewrite Hold by (apply No; auto). rewrite try_assign_get. step. rewrite (assign_get _ _ _ _ _ E5). step. rewrite (assign_get _ _ _ _ _ E4). step. reflexivity.
  - rewrite Hold by (apply No; auto). rewrite try_assign_get. step. rewrite (assign_get _ _ _ _ _ E5). step. reflexivity.
  - rewrite Hold by (apply No; auto). rewrite try_assign_get. step.
    destruct (get ["preprocess"%string] "enable" p5); [reflexivity|contradiction].
Qed.
Print Assumptions c55_restart_values.

(** all the other parameters are those of the file (completed by the default ones if asked) *)
Theorem c55_others_kept :
  forall dir file d p p' path key, load_for_restart dir file d p = Some p' ->
  ~ In (path, key) restart_keys -> ~ In (path, key) old_keys ->
  get path key p' = get path key (match d with Some d => merge_params p [d] | None => p end).
Proof.
  intros dir file d p p' path key H N1 N2. destruct (load_steps _ _ _ _ _ H) as (p1 & p2 & p3 & p4 & p5 & E1 & E2 & E3 & E4 & E5 & ->).
  fold (merged d p). rewrite fix_old_other by exact N2.
  assert (No : forall q k, In (q, k) restart_keys -> path_eqb path q && String.eqb key k = false).
  { intros q k I. destruct (path_eqb path q && String.eqb key k) eqn:B; [|reflexivity]. exfalso. apply N1.
    apply andb_prop in B. destruct B as [B1 B2]. apply String.eqb_eq in B2. subst k.
    unfold path_eqb in B1. destruct (list_eq_dec string_dec path q) as [->|]; [exact I|discriminate]. }
  rewrite try_assign_get, No by (cbn; tauto).
  rewrite (assign_get _ _ _ _ _ E5), No by (cbn; tauto).
  rewrite (assign_get _ _ _ _ _ E4), No by (cbn; tauto).
  rewrite (assign_get _ _ _ _ _ E3), No by (cbn; tauto).
  rewrite (assign_get _ _ _ _ _ E2), No by (cbn; tauto).
  rewrite (assign_get _ _ _ _ _ E1), No by (cbn; tauto). reflexivity.
Qed.
Print Assumptions c55_others_kept.

(** the parameters of old versions: only when params.FORCING or params.NO_SHEAR_MODES exist *)
Theorem c55_old_parameters :
  forall dir file d p p', load_for_restart dir file d p = Some p' ->
  let q := match d with Some d => merge_params p [d] | None => p end in
  (get ["forcing"%string] "enable" p'
   = match get [] "FORCING" q, node ["forcing"%string] q with
     | Some v, Some _ => Some v
     | _, _ => get ["forcing"%string] "enable" q
     end)
  /\ (get ["oper"%string] "NO_SHEAR_MODES" p'
      = match get [] "NO_SHEAR_MODES" q, get ["oper"%string] "NO_SHEAR_MODES" q with
        | Some v, Some _ => Some v
        | _, o => o
        end).
Proof.
  intros dir file d p p' H q. fold (merged d p) in q.
  destruct (load_steps _ _ _ _ _ H) as (p1 & p2 & p3 & p4 & p5 & E1 & E2 & E3 & E4 & E5 & ->).
  set (r := try_assign ["preprocess"%string] "enable" (VBool false) p5).
  assert (K : forall path key, ~ In (path, key) restart_keys -> get path key r = get path key q).
  { intros path key N1.
    assert (No : forall q k, In (q, k) restart_keys -> path_eqb path q && String.eqb key k = false).
    { intros q0 k I. destruct (path_eqb path q0 && String.eqb key k) eqn:B; [|reflexivity]. exfalso. apply N1.
      apply andb_prop in B. destruct B as [B1 B2]. apply String.eqb_eq in B2. subst k.
      unfold path_eqb in B1. destruct (list_eq_dec string_dec path q0) as [->|]; [exact I|discriminate]. }
    unfold r. rewrite try_assign_get, No by (cbn; tauto).
    rewrite (assign_get _ _ _ _ _ E5), No by (cbn; tauto).
    rewrite (assign_get _ _ _ _ _ E4), No by (cbn; tauto).
    rewrite (assign_get _ _ _ _ _ E3), No by (cbn; tauto).
    rewrite (assign_get _ _ _ _ _ E2), No by (cbn; tauto).
    rewrite (assign_get _ _ _ _ _ E1), No by (cbn; tauto). reflexivity. }
  assert (No : forall path key, (path = ["forcing"%string] \/ path = ["oper"%string]) -> ~ In (path, key) restart_keys).
  { intros path key [->| ->] I; cbn in I; destruct I as [I|[I|[I|[I|[I|[I|[]]]]]]]; discriminate. }
  assert (Nr : forall key, (key = "FORCING" \/ key = "NO_SHEAR_MODES")%string -> ~ In ([], key) restart_keys).
  { intros key [->| ->] I; cbn in I; destruct I as [I|[I|[I|[I|[I|[I|[]]]]]]]; discriminate. }
  (* existence of the child forcing *)
  assert (Fn : forall a b path key v k c, assign path key v a = Some b -> assoc k (children_of a) = c ->
               (match assoc k (children_of b) with Some _ => true | None => false end)
               = (match c with Some _ => true | None => false end)).
  { clear. intros a b path key v k c A <-. destruct path as [|k0 path]; cbn [assign] in A.
    - destruct (has key (attribs_of a)); [|discriminate]. injection A as <-. reflexivity.
    - destruct (assoc k0 (children_of a)) as [c0|] eqn:E; [|discriminate].
      destruct (assign path key v c0) as [c1|]; [|discriminate]. injection A as <-. cbn [children_of].
      rewrite assoc_set. destruct (String.eqb_spec k k0) as [->|]; [|reflexivity]. unfold has. rewrite E. reflexivity. }
  assert (Nf : (match assoc "forcing" (children_of r) with Some _ => true | None => false end)
               = (match assoc "forcing" (children_of q) with Some _ => true | None => false end)).
  { unfold r, try_assign.
    transitivity (match assoc "forcing" (children_of p5) with Some _ => true | None => false end).
    - destruct (assign ["preprocess"%string] "enable" (VBool false) p5) eqn:E6; [|reflexivity].
      exact (Fn _ _ _ _ _ _ _ E6 eq_refl).
    - rewrite (Fn _ _ _ _ _ _ _ E5 eq_refl), (Fn _ _ _ _ _ _ _ E4 eq_refl), (Fn _ _ _ _ _ _ _ E3 eq_refl),
        (Fn _ _ _ _ _ _ _ E2 eq_refl), (Fn _ _ _ _ _ _ _ E1 eq_refl). reflexivity. }
  pose proof (K ["forcing"%string] "enable"%string (No _ _ (or_introl eq_refl))) as KF.
  pose proof (K ["oper"%string] "NO_SHEAR_MODES"%string (No _ _ (or_intror eq_refl))) as KN.
  pose proof (K [] "FORCING"%string (Nr _ (or_introl eq_refl))) as KF0.
  pose proof (K [] "NO_SHEAR_MODES"%string (Nr _ (or_intror eq_refl))) as KN0.
  clearbody r. rewrite <- KF, <- KN, <- KF0, <- KN0. clear KF KN KF0 KN0 K No Nr Fn.
  cbn [node]. unfold fix_old_params.
  set (t1 := match assoc "FORCING" (attribs_of r) with
             | Some v => match assoc "forcing" (children_of r) with
                         | Some f => Node (attribs_of r) (set_assoc "forcing" (set_attrib "enable" v f) (children_of r))
                         | None => r end
             | None => r end).
  assert (T1 : get ["forcing"%string] "enable" t1
    = match assoc "FORCING" (attribs_of r), assoc "forcing" (children_of r) with
      | Some v, Some _ => Some v | _, _ => get ["forcing"%string] "enable" r end).
  { unfold t1. destruct (assoc "FORCING" (attribs_of r)) as [v|]; [|reflexivity].
    destruct (assoc "forcing" (children_of r)) as [f|] eqn:F; [|reflexivity].
    unfold get. cbn [node children_of]. rewrite assoc_set, String.eqb_refl. unfold has. rewrite F.
    unfold set_attrib. destruct (has "enable" (attribs_of f)) eqn:He; cbn [attribs_of].
    - rewrite assoc_set, String.eqb_refl, He. reflexivity.
    - rewrite assoc_app. unfold has in He. destruct (assoc "enable" (attribs_of f)); [discriminate|]. reflexivity. }
  assert (T2 : get ["oper"%string] "NO_SHEAR_MODES" t1 = get ["oper"%string] "NO_SHEAR_MODES" r
               /\ assoc "NO_SHEAR_MODES" (attribs_of t1) = assoc "NO_SHEAR_MODES" (attribs_of r)).
  { unfold t1. destruct (assoc "FORCING" (attribs_of r)) as [v|]; [|auto].
    destruct (assoc "forcing" (children_of r)) as [f|]; [|auto]. split; [|reflexivity].
    unfold get. cbn [node children_of]. rewrite assoc_set. reflexivity. }
  destruct T2 as [T2 T3].
  change (get [] "FORCING" r) with (assoc "FORCING" (attribs_of r)).
  change (get [] "NO_SHEAR_MODES" r) with (assoc "NO_SHEAR_MODES" (attribs_of r)).
  split.
  - transitivity (get ["forcing"%string] "enable" t1).
    + destruct (assoc "NO_SHEAR_MODES" (attribs_of t1)); [|reflexivity]. rewrite try_assign_get. step. reflexivity.
    + rewrite T1. destruct (assoc "FORCING" (attribs_of r)) as [v|]; [|reflexivity].
      destruct (assoc "forcing" (children_of r)); destruct (assoc "forcing" (children_of q)); try discriminate; reflexivity.
  - rewrite <- T2. rewrite <- T3. destruct (assoc "NO_SHEAR_MODES" (attribs_of t1)) as [v|]; [|reflexivity].
    rewrite try_assign_get. step. reflexivity.
Qed.
Print Assumptions c55_old_parameters.

(** it succeeds exactly when these parameters exist in the file *)
Theorem c55_loads :
  forall dir file p,
  (exists p', load_for_restart dir file None p = Some p')
  <-> forall path key, In (path, key) (firstn 5 restart_keys) -> get path key p <> None.
Proof.
  intros dir file p. split.
  - intros [p' H] path key I. destruct (load_steps _ _ _ _ _ H) as (p1 & p2 & p3 & p4 & p5 & E1 & E2 & E3 & E4 & E5 & _).
    cbn [merged] in E1.
    assert (G : forall q k v a b, assign q k v a = Some b -> forall path key, get path key b <> None -> get path key a <> None).
    { intros q k v a b A path0 key0 Hn. rewrite (assign_get _ _ _ _ _ A) in Hn.
      destruct (path_eqb path0 q && String.eqb key0 k) eqn:B; [|exact Hn].
      apply andb_prop in B. destruct B as [B1 B2]. apply String.eqb_eq in B2. subst k.
      unfold path_eqb in B1. destruct (list_eq_dec string_dec path0 q) as [->|]; [|discriminate].
      apply (assign_some q key0 v). eauto. }
    assert (A1 := proj1 (assign_some _ _ _ _) (ex_intro _ _ E1)).
    assert (A2 := proj1 (assign_some _ _ _ _) (ex_intro _ _ E2)).
    assert (A3 := proj1 (assign_some _ _ _ _) (ex_intro _ _ E3)).
    assert (A4 := proj1 (assign_some _ _ _ _) (ex_intro _ _ E4)).
    assert (A5 := proj1 (assign_some _ _ _ _) (ex_intro _ _ E5)).
    cbn in I. destruct I as [[= <- <-]|[[= <- <-]|[[= <- <-]|[[= <- <-]|[[= <- <-]|[]]]]]].
    + exact A1.
    + exact (G _ _ _ _ _ E1 _ _ A2).
    + exact (G _ _ _ _ _ E1 _ _ (G _ _ _ _ _ E2 _ _ A3)).
    + exact (G _ _ _ _ _ E1 _ _ (G _ _ _ _ _ E2 _ _ (G _ _ _ _ _ E3 _ _ A4))).
    + exact (G _ _ _ _ _ E1 _ _ (G _ _ _ _ _ E2 _ _ (G _ _ _ _ _ E3 _ _ (G _ _ _ _ _ E4 _ _ A5)))).
  - intro H.
    assert (G : forall q k v a b, assign q k v a = Some b -> forall path key, get path key a <> None -> get path key b <> None).
    { intros q k v a b A path0 key0 Hn. rewrite (assign_get _ _ _ _ _ A).
      destruct (path_eqb path0 q && String.eqb key0 k); [discriminate|exact Hn]. }
    unfold load_for_restart.
    destruct (proj2 (assign_some [] "path_run" (VStr dir) p) (H _ _ (or_introl eq_refl))) as [p1 E1]. rewrite E1.
    destruct (proj2 (assign_some [] "NEW_DIR_RESULTS" (VBool false) p1)) as [p2 E2].
    { apply (G _ _ _ _ _ E1), H. cbn. tauto. } rewrite E2.
    destruct (proj2 (assign_some ["init_fields"%string] "type" (VStr "from_file") p2)) as [p3 E3].
    { apply (G _ _ _ _ _ E2), (G _ _ _ _ _ E1), H. cbn. tauto. } rewrite E3.
    destruct (proj2 (assign_some ["init_fields"; "from_file"]%string "path" (VStr file) p3)) as [p4 E4].
    { apply (G _ _ _ _ _ E3), (G _ _ _ _ _ E2), (G _ _ _ _ _ E1), H. cbn. tauto. } rewrite E4.
    destruct (proj2 (assign_some ["init_fields"%string] "modif_after_init" (VBool false) p4)) as [p5 E5].
    { apply (G _ _ _ _ _ E4), (G _ _ _ _ _ E3), (G _ _ _ _ _ E2), (G _ _ _ _ _ E1), H. cbn. tauto. } rewrite E5.
    eauto.
Qed.
Print Assumptions c55_loads.

Example c55_example :
  (load_for_restart "dir" "dir/state_phys_t1.nc" None
    (Node [("path_run", VStr "old"); ("NEW_DIR_RESULTS", VBool true); ("nu_2", VNum 1)]
       [("init_fields", Node [("type", VStr "noise"); ("modif_after_init", VBool true)] [("from_file", Node [("path", VStr "")] [])])])
  = Some (Node [("path_run", VStr "dir"); ("NEW_DIR_RESULTS", VBool false); ("nu_2", VNum 1)]
       [("init_fields", Node [("type", VStr "from_file"); ("modif_after_init", VBool false)]
                          [("from_file", Node [("path", VStr "dir/state_phys_t1.nc")] [])])]))%string.
Proof. reflexivity. Qed.

(** ** C75: the directory of a restarted run *)

Theorem c75_directory_partial :
  forall new_dir has_to_save nx ny nz,
  choose_directory new_dir true has_to_save nx ny nz
  = if new_dir || (has_to_save && (match nx with Some false => true | _ => false end
                                   || match ny with Some false => true | _ => false end
                                   || match nz with Some false => true | _ => false end))
    then NewDirectory else SameDirectory.
Proof.
  intros [|] [|] [[|]|] [[|]|] [[|]|]; reflexivity.
Qed.
Print Assumptions c75_directory_partial.

Theorem c75_no_path_run_refuted :
  exists has_to_save nx ny nz, choose_directory false false has_to_save nx ny nz <> NewDirectory.
Proof. exists true, (Some true), (Some true), None. discriminate. Qed.
Print Assumptions c75_no_path_run_refuted.

(** ** C48: fluidsim-restart *)

(** the options of t_end; --add-to-it_end *)
Theorem c48_time_options_partial :
  forall a p,
  (forall x, arg_t_end a = Some x -> t_end (set_time_stepping a p) = x)
  /\ (forall x, arg_t_end a = None -> add_to_t_end a = Some x -> t_end (set_time_stepping a p) = (t_end p + x)%Q)
  /\ (arg_t_end a = None -> add_to_t_end a = None -> t_end (set_time_stepping a p) = t_end p)
  /\ (forall x, arg_it_end a = None -> add_to_it_end a = Some x -> it_end (set_time_stepping a p) = (it_end p + x)%Z)
  /\ (arg_it_end a = None -> add_to_it_end a = None -> it_end (set_time_stepping a p) = it_end p)
  /\ use_t_end (set_time_stepping a p) = use_t_end p.
Proof.
  intros a p. unfold set_time_stepping. cbn [t_end it_end use_t_end].
  split; [intros x ->; reflexivity|]. split; [intros x -> ->; reflexivity|]. split; [intros -> ->; reflexivity|].
  split; [intros x -> ->; reflexivity|]. split; [intros -> ->; reflexivity|]. reflexivity.
Qed.
Print Assumptions c48_time_options_partial.

(** --it_end N adds N instead *)
Theorem c48_it_end_refuted :
  exists a p N, arg_it_end a = Some N /\ add_to_it_end a = None /\ it_end (set_time_stepping a p) <> N.
Proof.
  exists (mkArgs false false false None None None (Some 30%Z) None), (mkT 0 20 false true false None), 30%Z.
  split; [reflexivity|]. split; [reflexivity|]. discriminate.
Qed.
Print Assumptions c48_it_end_refuted.

(** it is right only if the stored value is 0 *)
Theorem c48_it_end_adds :
  forall a p N, arg_it_end a = Some N -> add_to_it_end a = None ->
  it_end (set_time_stepping a p) = (it_end p + N)%Z.
Proof. intros a p N H1 H2. unfold set_time_stepping. rewrite H1, H2. reflexivity. Qed.
Print Assumptions c48_it_end_adds.

(** The simulation is started (or initialised) only if the check passes; nothing is saved with
    --only-check and --only-init (if the code of --modify-params does not change this). *)
Theorem c48_flow :
  forall a modify tn itf p,
  match restart a modify tn itf p with
  | OnlyCheck _ => only_check a = true
  | Refused q => only_check a = false /\ nothing_to_do tn itf q = true
  | OnlyInit q => only_check a = false /\ only_init a = true /\ nothing_to_do tn itf q = false
  | Started q => only_check a = false /\ only_init a = false /\ nothing_to_do tn itf q = false
  end.
Proof.
  intros a modify tn itf p. unfold restart. destruct (only_check a) eqn:C; [reflexivity|].
  destruct (nothing_to_do tn itf _) eqn:N; [auto|]. destruct (only_init a) eqn:O; auto.
Qed.
Print Assumptions c48_flow.

Definition params_of (r : restart_result) : tparams :=
  match r with OnlyCheck p | Refused p | OnlyInit p | Started p => p end.

Theorem c48_parameters :
  forall a tn itf p, let q := params_of (restart a (fun p => p) tn itf p) in
  new_dir q = new_dir_results a
  /\ has_to_save q = (if only_check a || only_init a then false else has_to_save p)
  /\ max_elapsed q = (match arg_max_elapsed a with Some m => Some m | None => max_elapsed p end)
  /\ t_end q = t_end (set_time_stepping a p) /\ it_end q = it_end (set_time_stepping a p)
  /\ use_t_end q = use_t_end p.
Proof.
  intros a tn itf p q. subst q. unfold restart.
  destruct (only_check a); destruct (only_init a); cbn [orb]; destruct (arg_max_elapsed a);
    repeat match goal with |- context [if nothing_to_do ?x ?y ?z then _ else _] => destruct (nothing_to_do x y z) end;
    cbn; repeat split.
Qed.
Print Assumptions c48_parameters.

(** A run with nothing to compute is refused and another one is accepted: with iterations always,
    with times if t_end is not within the precision of the file names. *)
Theorem c48_refused_partial :
  forall t it tn p, rounded t tn ->
  (use_t_end p = true -> (Qabs (t_end p - t) > 1 # 2000)%Q) ->
  nothing_to_do tn it p = completed t it p.
Proof.
  intros t it tn p R H. unfold nothing_to_do, completed. destruct (use_t_end p); [|reflexivity].
  specialize (H eq_refl). unfold rounded in R.
  apply Qabs_Qle_condition in R. destruct R as [R1 R2].
  destruct (Qle_bool (t_end p) t) eqn:E.
  - apply Qle_bool_iff in E. apply Qle_bool_iff.
    rewrite Qabs_neg in H by lra. lra.
  - destruct (Qle_bool (t_end p) tn) eqn:F; [|reflexivity]. apply Qle_bool_iff in F.
    assert (t < t_end p)%Q. { apply Qnot_le_lt. intro X. apply Qle_bool_iff in X. congruence. }
    rewrite Qabs_pos in H by lra. lra.
Qed.
Print Assumptions c48_refused_partial.

(** the time of the file name is rounded: nothing to compute but accepted *)
Theorem c48_not_refused_refuted :
  exists t it tn p, rounded t tn /\ completed t it p = true /\ nothing_to_do tn it p = false.
Proof.
  exists (10004 # 10000)%Q, 0%Z, 1%Q, (mkT (10002 # 10000) 0 true true false None).
  split; [unfold rounded; apply Qabs_Qle_condition; split; lra|]. split; reflexivity.
Qed.
Print Assumptions c48_not_refused_refuted.

(** something to compute but refused *)
Theorem c48_refused_refuted :
  exists t it tn p, rounded t tn /\ completed t it p = false /\ nothing_to_do tn it p = true.
Proof.
  exists (10006 # 10000)%Q, 0%Z, (1001 # 1000)%Q, (mkT (10008 # 10000) 0 true true false None).
  split; [unfold rounded; apply Qabs_Qle_condition; split; lra|]. split; reflexivity.
Qed.
Print Assumptions c48_refused_refuted.

Example c48_example :
  restart (mkArgs false false false (Some 2%Q) None None None None) (fun p => p) 1%Q 10%Z (mkT 1 0 true true false None)
  = Started (mkT (1 + 2) 0 true true false None).
Proof. reflexivity. Qed.

(** ** C45: extension of the classes *)

Section C45.
Context {E : Type}.

Lemma wf_parents (w : @world E) : wf_world w ->
  forall c k, nth_error (classes w) c = Some k -> forall p, parent k = Some p -> p < c.
Proof. intros W c k N. exact (proj1 (W c k N)). Qed.

(** the new class has the extensions of its parent and the new ones *)
Theorem c45_new_class :
  forall (w : @world E) c x, wf_world w -> c < List.length (classes w) ->
  extenders_of (extend_simul_class w c x) (List.length (classes w)) = (extenders_of w c ++ x)%list.
Proof.
  intros w c x W L. unfold extend_simul_class.
  assert (N : forall a, nth_error (classes w ++ [a]) (List.length (classes w)) = Some a).
  { intro a. rewrite nth_error_app2, Nat.sub_diag by lia. reflexivity. }
  destruct (find_ref w c) as [r|] eqn:F.
  - assert (G : find_ref (mkW (classes w ++ [mkCls None (Some c)]) (append_at r x (heap w))) (List.length (classes w)) = Some r).
    { unfold find_ref in *. cbn [classes]. cbn [lookup]. rewrite N. cbn [own parent].
      rewrite (lookup_app _ _ _ _ (wf_parents w W) L).
      rewrite (lookup_fuel _ (wf_parents w W) _ _ (S c)) by lia. exact F. }
    unfold extenders_of. rewrite G, F. cbn [heap]. rewrite nth_append_at, Nat.eqb_refl.
    destruct (Nat.ltb_spec r (List.length (heap w))); [reflexivity|].
    pose proof (lookup_bound w W _ _ _ F). lia.
  - unfold extenders_of. rewrite F. unfold find_ref. cbn [classes lookup heap]. rewrite N. cbn [own].
    rewrite app_nth2, Nat.sub_diag by lia. reflexivity.
Qed.

(** the first extension of a class: all the other classes are unchanged *)
Theorem c45_others_unchanged_partial :
  forall (w : @world E) c x, wf_world w -> find_ref w c = None ->
  forall c', c' < List.length (classes w) ->
  extenders_of (extend_simul_class w c x) c' = extenders_of w c'.
Proof.
  intros w c x W F c' L. unfold extend_simul_class. rewrite F. unfold extenders_of, find_ref. cbn [classes heap].
  rewrite (lookup_app _ _ _ _ (wf_parents w W) L).
  destruct (lookup (S c') (classes w) c') as [r|] eqn:G; [|reflexivity].
  apply app_nth1. exact (lookup_bound w W _ _ _ G).
Qed.

(** extension of an extended class: it is changed too, and the classes which do not share its list
    are not *)
Theorem c45_extended_class_changed :
  forall (w : @world E) c x r, wf_world w -> c < List.length (classes w) -> find_ref w c = Some r ->
  extenders_of (extend_simul_class w c x) c = (extenders_of w c ++ x)%list
  /\ forall c', c' < List.length (classes w) -> find_ref w c' <> Some r ->
     extenders_of (extend_simul_class w c x) c' = extenders_of w c'.
Proof.
  intros w c x r W L F. unfold extend_simul_class. rewrite F.
  assert (K : forall c', c' < List.length (classes w) ->
    find_ref (mkW (classes w ++ [mkCls None (Some c)]) (append_at r x (heap w))) c' = find_ref w c').
  { intros c' L'. unfold find_ref. cbn [classes]. apply lookup_app; [exact (wf_parents w W)|exact L']. }
  split.
  - unfold extenders_of. rewrite K, F by exact L. cbn [heap]. rewrite nth_append_at, Nat.eqb_refl.
    destruct (Nat.ltb_spec r (List.length (heap w))); [reflexivity|].
    pose proof (lookup_bound w W _ _ _ F). lia.
  - intros c' L' N. unfold extenders_of. rewrite K by exact L'. destruct (find_ref w c') as [q|]; [|reflexivity].
    cbn [heap]. rewrite nth_append_at. destruct (Nat.eqb_spec q r); [congruence|reflexivity].
Qed.

(** the hypotheses are kept by the extensions *)
Theorem c45_wf :
  forall (w : @world E) c x, wf_world w -> c < List.length (classes w) -> wf_world (extend_simul_class w c x).
Proof.
  intros w c x W L. unfold extend_simul_class. destruct (find_ref w c) as [r|] eqn:F; intros c' k N; cbn [classes heap] in *.
  - rewrite append_at_length. destruct (Nat.lt_ge_cases c' (List.length (classes w))) as [L'|L'].
    + rewrite nth_error_app1 in N by exact L'. exact (W c' k N).
    + rewrite nth_error_app2 in N by exact L'. destruct (c' - List.length (classes w)) eqn:D; cbn in N.
      * injection N as <-. cbn [parent own]. split; [intros p [= <-]; lia|discriminate].
      * destruct n; discriminate.
  - rewrite app_length. cbn [List.length]. destruct (Nat.lt_ge_cases c' (List.length (classes w))) as [L'|L'].
    + rewrite nth_error_app1 in N by exact L'. destruct (W c' k N) as [W1 W2]. split; [exact W1|].
      intros r O. specialize (W2 r O). lia.
    + rewrite nth_error_app2 in N by exact L'. destruct (c' - List.length (classes w)) eqn:D; cbn in N.
      * injection N as <-. cbn [parent own]. split; [intros p [= <-]; lia|intros r [= <-]; lia].
      * destruct n; discriminate.
Qed.
End C45.
Print Assumptions c45_new_class.
Print Assumptions c45_others_unchanged_partial.
Print Assumptions c45_extended_class_changed.
Print Assumptions c45_wf.

(** class 0: a solver; class 1: extended with A; class 2: class 1 extended with B: class 1 has B too;
    class 3 extended from class 1 with C: class 2 also gets C *)
Theorem c45_original_unchanged_refuted :
  exists w0 : @world string,
  let w1 := extend_simul_class w0 0 ["A"%string] in
  let w2 := extend_simul_class w1 1 ["B"%string] in
  let w3 := extend_simul_class w2 1 ["C"%string] in
  wf_world w0 /\ extenders_of w1 1 = ["A"%string] /\ extenders_of w2 1 = ["A"; "B"]%string
  /\ extenders_of w2 2 = ["A"; "B"]%string /\ extenders_of w3 2 = ["A"; "B"; "C"]%string.
Proof.
  exists (mkW [mkCls None None] []). cbv zeta. split.
  - intros c k N. destruct c as [|c]; cbn in N; [injection N as <-; split; discriminate|destruct c; discriminate].
  - repeat split; reflexivity.
Qed.
Print Assumptions c45_original_unchanged_refuted.

Example c45_example :
  let w := extend_simul_class (mkW [mkCls None None] []) 0 ["A"%string] in
  extenders_of w 0 = [] /\ extenders_of w 1 = ["A"%string].
Proof. split; reflexivity. Qed.

(** ** C74: the extensions of a saved simulation are found again *)

Theorem c74_extenders_from_names :
  forall can_import l, Forall (fun e => no_dot (snd e) = true) l ->
  extenders_from_names can_import (map full_name l) = Some (filter can_import l).
Proof.
  intros can_import l H. induction H as [|e l H _ IH]; [reflexivity|].
  cbn [map extenders_from_names filter]. rewrite (rsplit_full_name e H), IH. destruct (can_import e); reflexivity.
Qed.
Print Assumptions c74_extenders_from_names.

Theorem c74_same_extenders :
  forall can_import l, Forall (fun e => no_dot (snd e) = true) l -> (forall e, In e l -> can_import e = true) ->
  extenders_from_names can_import (map full_name l) = Some l.
Proof.
  intros can_import l H C. rewrite c74_extenders_from_names by exact H. f_equal.
  induction l as [|e l IH]; [reflexivity|]. cbn [filter]. rewrite (C e (or_introl eq_refl)). f_equal. apply IH.
  - inversion H; assumption.
  - intros e' I. apply C. right. exact I.
Qed.
Print Assumptions c74_same_extenders.

Example c74_example :
  rsplit_dot "fluidsim.base.turb_model.smagorinsky.SmagorinskyModel" = Some ("fluidsim.base.turb_model.smagorinsky", "SmagorinskyModel")%string.
Proof. reflexivity. Qed.
