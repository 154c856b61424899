(** Theorems on the files of the spatial means (C53, C67, C68) *)

From Coq Require Import String Ascii List Arith Bool Lia.
From Verif Require Import SpatialMeans_Model SpatialMeans_Spec SpatialMeans_Proofs.
Import ListNotations.
Local Open Scope nat_scope.

(** values used in the examples: 1.00000e+00 for all the numbers except some *)
Definition ex_word : bytes := lit "1.00000e+00".
Definition ex (l : list (string * string)) : values :=
  fun x => match find (fun kv => String.eqb (fst kv) x) l with
           | Some (_, w) => (0, lit w)
           | None => (0, ex_word)
           end.

Lemma ex_ok l : Forall (fun kv => word_ok (lit (snd kv))) l -> values_ok (ex l).
Proof.
  intros H x. unfold ex. destruct (find _ l) as [[k w]|] eqn:E.
  - apply find_some in E. rewrite Forall_forall in H. apply (H _ (proj1 E)).
  - split; [discriminate|reflexivity].
Qed.

(** ** C53: the last saved time *)

(** text files: the word of the time of the last record, whatever is before it in the file *)
Theorem c53_last_time_text :
  forall s f pre r, values_ok r -> widths_ok s r ->
  time_last_saved (pre ++ render r (lines_of s f)) = Some (snd (r "t"%string)).
Proof.
  intros s f pre r V W.
  assert (E : pre ++ render r (lines_of s f)
              = ((pre ++ lit "####") ++ [nl]) ++ time_line r ++ render r (rest_of s f)).
  { rewrite lines_of_split, render_app. rewrite <- !app_assoc. f_equal.
    unfold render at 1, time_line. cbn [header flat_map]. rewrite app_nil_r, <- !app_assoc. reflexivity. }
  rewrite E. destruct (rest_of_ok s f) as [R1 R2].
  apply time_last_general; auto.
  pose proof (render_length s r (skipn 1 (lines_of s f)) W) as H.
  pose proof (bound_all s f) as B. apply Nat.leb_le in B.
  rewrite lines_of_split in H at 1.
  change (skipn 1 (header ++ rest_of s f)) with ([[L "time = "; N "t"]] ++ rest_of s f) in H.
  rewrite render_app in H. unfold render at 1 in H. cbn [flat_map] in H. rewrite app_nil_r in H.
  eapply Nat.le_trans; [exact H|exact B].
Qed.
Print Assumptions c53_last_time_text.

Theorem c53_last_time_of_the_records :
  forall s f r rs, Forall (fun r => values_ok r /\ widths_ok s r) (rs ++ [r]) ->
  time_last_saved (file_of s (same f (rs ++ [r]))) = Some (snd (r "t"%string)).
Proof.
  intros s f r rs H. apply Forall_app in H. destruct H as [_ H]. inversion H as [|? ? [H1 H2] _]; subst.
  unfold same, file_of. rewrite map_app, flat_map_app. cbn [map flat_map fst snd].
  rewrite app_nil_r. apply c53_last_time_text; auto.
Qed.
Print Assumptions c53_last_time_of_the_records.

Example c53_last_time_example :
  let r0 := ex [("t", "0.00000e+00")]%string in let r1 := ex [("t", "2.50000e-01")]%string in
  Forall (fun r => values_ok r /\ widths_ok NS3DStrat r) ([r0] ++ [r1])
  /\ time_last_saved (file_of NS3DStrat (same (mkF true true true) ([r0] ++ [r1])))
     = Some (lit "2.50000e-01").
Proof.
  cbn zeta. split; [|vm_compute; reflexivity].
  assert (H : forall w, length (lit w) <= 13 -> word_ok (lit w) ->
    values_ok (ex [("t"%string, w)]) /\ widths_ok NS3DStrat (ex [("t"%string, w)])).
  { intros w Hl Hw. split; [apply ex_ok; repeat constructor; apply Hw|].
    intros x. unfold text, ex. cbn [find fst]. destruct (String.eqb "t" x); [exact Hl|cbn; lia]. }
  constructor; [|constructor; [|constructor]]; apply H;
    first [cbn; lia | split; [discriminate|reflexivity]].
Qed.

(** JSON files: the argument of json.loads is the last record if it has less than 1000 bytes *)
Theorem c53_json_partial :
  forall rs r, items_ok r -> length (json_dump r) < 1000 ->
  json_last (json_file (rs ++ [r])) = Some (json_dump r ++ [nl]).
Proof.
  intros rs r OK LE. unfold json_file. rewrite flat_map_app. cbn [flat_map]. rewrite app_nil_r.
  apply json_last_general; [|apply json_dump_no_nl; auto|lia].
  apply ended_flat. intros. right. eexists; reflexivity.
Qed.
Print Assumptions c53_json_partial.

Lemma json_items_length n l : Forall (fun kv => length (snd kv) <= n) l ->
  length (json_items l) <= fold_right (fun kv m => length (lit (fst kv)) + 6 + n + m) 0 l.
Proof.
  induction 1 as [|kv l H _ IH]; [reflexivity|]. cbn [json_items fold_right].
  assert (J : length (json_item kv) <= length (lit (fst kv)) + 4 + n).
  { cbn beta in H. unfold json_item. rewrite !app_length. change (length (lit ": ")) with 2. cbn [length]. lia. }
  destruct l as [|kv' l]; [lia|].
  rewrite !app_length. change (length (lit ", ")) with 2. lia.
Qed.

(** without forcing the records of sw1l are short enough for all doubles (at most 24 characters);
    with forcing, if the numbers have at most 18 characters (20 for sw1l.modified) *)
Theorem c53_json_sw1l_partial :
  forall sw1l f n rs r,
  n = (match sw1l, f with _, false => 24 | true, true => 18 | false, true => 20 end) ->
  map fst r = keys_sw1l sw1l f ->
  Forall (fun kv => no_nl (snd kv) /\ length (snd kv) <= n) r ->
  json_last (json_file (rs ++ [r])) = Some (json_dump r ++ [nl]).
Proof.
  intros sw1l f n rs r Hn K F. apply c53_json_partial.
  - unfold items_ok. rewrite Forall_forall in *. intros kv Hk. split; [|apply (F kv Hk)].
    assert (I : In (fst kv) (keys_sw1l sw1l f)) by (rewrite <- K; apply in_map; auto).
    assert (A : forallb (fun k => forallb (fun c => negb (Ascii.eqb c nl)) (lit k)) (keys_sw1l sw1l f) = true)
      by (destruct sw1l, f; reflexivity).
    rewrite forallb_forall in A. apply (A _ I).
  - unfold json_dump. rewrite !app_length. change (length (lit "{")) with 1. change (length (lit "}")) with 1.
    assert (G : Forall (fun kv : string * bytes => length (snd kv) <= n) r)
      by (eapply Forall_impl; [|exact F]; cbn; tauto).
    pose proof (json_items_length n r G) as H.
    assert (S : forall l : list (string * bytes),
      fold_right (fun kv m => length (lit (fst kv)) + 6 + n + m) 0 l
      = fold_right (fun k m => length (lit k) + 6 + n + m) 0 (map fst l)).
    { induction l as [|a l IH]; [reflexivity|]. cbn [fold_right map]. rewrite IH. reflexivity. }
    rewrite S, K in H. subst n.
    destruct sw1l, f; cbn -[Nat.add] in H; lia.
Qed.
Print Assumptions c53_json_sw1l_partial.

Example c53_json_sw1l_example :
  let r := map (fun k => (k, lit "0.01234567890123456")) (keys_sw1l false true) in
  map fst r = keys_sw1l false true
  /\ Forall (fun kv => no_nl (snd kv) /\ length (snd kv) <= 20) r
  /\ json_last (json_file ([r] ++ [r])) = Some (json_dump r ++ [nl]).
Proof.
  cbn zeta. split; [reflexivity|]. split; [|vm_compute; reflexivity].
  apply Forall_forall. intros kv H. apply in_map_iff in H. destruct H as (k & <- & _).
  split; [reflexivity|cbn; lia].
Qed.

(** FINDING: with forcing a record of sw1l has 33 numbers; with the usual 20 characters of a double
    it has more than 1000 bytes: json.loads gets the end of the record and raises
    JSONDecodeError *)
Theorem c53_json_refuted :
  exists r : list (string * bytes),
  map fst r = keys_sw1l true true
  /\ Forall (fun kv => snd kv = lit "0.012345678901234567") r
  /\ forall rs, exists a x, json_last (json_file (rs ++ [r])) = Some x
     /\ a <> [] /\ json_dump r ++ [nl] = a ++ x /\ startswith (lit "{") x = false.
Proof.
  set (r := map (fun k => (k, lit "0.012345678901234567")) (keys_sw1l true true)).
  exists r. split; [reflexivity|]. split.
  { apply Forall_forall. intros kv H. apply in_map_iff in H. destruct H as (k & <- & _). reflexivity. }
  intros rs. set (j := json_dump r ++ [nl]).
  assert (LJ : length j = 1056) by (vm_compute; reflexivity).
  exists (firstn 56 j), (skipn 56 j).
  assert (E : tail_of (json_file (rs ++ [r])) = skipn 56 j).
  { unfold json_file. rewrite flat_map_app. cbn [flat_map]. rewrite app_nil_r. fold j.
    unfold tail_of. rewrite app_length, LJ. set (p := flat_map _ rs).
    replace (length p + 1056 - Nat.min (length p + 1056) 1000) with (length p + 56) by lia.
    rewrite skipn_app. replace (length p + 56 - length p) with 56 by lia.
    rewrite skipn_all2 by lia. reflexivity. }
  unfold json_last. rewrite E. split; [vm_compute; reflexivity|].
  split; [discriminate|]. split; [symmetry; apply firstn_skipn|vm_compute; reflexivity].
Qed.
Print Assumptions c53_json_refuted.

(** ** C67: load gives back what was written *)

(** all the records of runs with the same parameters *)
Theorem c67_load_partial :
  forall s f rs, Forall values_ok rs -> rs <> [] -> s <> NS2DStrat \/ forcing f = false ->
  load s (forcing f) (file_of s (same f rs)) = Some (table (names s f) rs).
Proof.
  intros s f rs V NE H. rewrite load_file by auto. f_equal. unfold table. apply map_ext_in.
  intros x Hx. f_equal. apply map_ext. intros r.
  destruct H as [H|H]; [destruct s; try reflexivity; congruence|].
  destruct s; try reflexivity. unfold source. destruct (String.eqb_spec x "PA2"); [|reflexivity].
  subst x. exfalso. unfold names in Hx. rewrite H in Hx. cbn in Hx.
  repeat (destruct Hx as [Hx|Hx]; [discriminate|]). exact Hx.
Qed.
Print Assumptions c67_load_partial.

(** ns2d.strat (and ns2d.bouss): all the quantities except PA2, which is PA1 *)
Theorem c67_load_ns2d_strat_partial :
  forall f rs, Forall values_ok rs -> rs <> [] -> forcing f = true ->
  exists res, load NS2DStrat true (file_of NS2DStrat (same f rs)) = Some res
  /\ map fst res = names NS2DStrat f
  /\ forall x l, In (x, l) res ->
     l = map (fun r : values => snd (r (if String.eqb x "PA2" then "PA1"%string else x))) rs.
Proof.
  intros f rs V NE H. pose proof (load_file NS2DStrat f rs V NE) as E. rewrite H in E.
  eexists. split; [exact E|]. clear E. split.
  - rewrite map_map. apply map_id.
  - intros x l I. apply in_map_iff in I. destruct I as (y & E & _). injection E as <- <-. reflexivity.
Qed.
Print Assumptions c67_load_ns2d_strat_partial.

Example c67_load_example :
  let r := ex [("t", "2.50000e-01"); ("Ey", "-3.0000e-02")]%string in
  Forall values_ok [r]
  /\ load NS3D false (file_of NS3D (same (mkF false true false) [r]))
     = Some (table ["t"; "E"; "Ex"; "Ey"; "Ez"; "epsK"; "epsK_hypo"; "epsK_tot"; "epsK4"]%string [r]).
Proof.
  cbn zeta. split; [|vm_compute; reflexivity]. constructor; [|constructor].
  apply ex_ok. repeat constructor; try discriminate.
Qed.

(** FINDING: the injection PA2 of ns2d.strat is lost: PA1 is printed in its place (while PA_tot is
    PA1 + PA2) *)
Theorem c67_pa2_refuted :
  exists f (r : values) res, values_ok r
  /\ load NS2DStrat (forcing f) (file_of NS2DStrat (same f [r])) = Some res
  /\ In "PA2"%string (map fst res) /\ ~ In ("PA2"%string, [snd (r "PA2"%string)]) res.
Proof.
  exists (mkF true false false), (ex [("PA2", "7.00000e-02")]%string).
  eexists. split; [apply ex_ok; repeat constructor; discriminate|].
  split; [vm_compute; reflexivity|]. split; [cbn; tauto|].
  intros H. cbn in H. repeat (destruct H as [H|H]; [discriminate|]). exact H.
Qed.
Print Assumptions c67_pa2_refuted.

(** FINDING: after a restart with the forcing (or nu_4 for ns3d) switched on, load raises
    IndexError *)
Theorem c67_restart_refuted :
  forall s, exists f1 f2 (r : values), values_ok r
  /\ load s (forcing f1) (file_of s [(f1, r); (f1, r)]) <> None
  /\ load s (forcing f2) (file_of s [(f1, r); (f1, r); (f2, r)]) = None.
Proof.
  intros s. exists (mkF false false false), (mkF true false false), (ex []).
  split; [apply ex_ok; constructor|].
  destruct s; (split; [vm_compute; discriminate|vm_compute; reflexivity]).
Qed.
Print Assumptions c67_restart_refuted.

(** FINDING: ns3d does not raise when each run has one record, but gives at the first time the
    injection rate of the second one *)
Theorem c67_restart_wrong_refuted :
  exists f1 f2 (r1 r2 : values) res, values_ok r1 /\ values_ok r2
  /\ load NS3D (forcing f2) (file_of NS3D [(f1, r1); (f2, r2)]) = Some res
  /\ snd (r1 "t"%string) <> snd (r2 "t"%string)
  /\ In ("t"%string, [snd (r1 "t"%string)]) res /\ In ("PK1"%string, [snd (r2 "PK1"%string)]) res.
Proof.
  exists (mkF false false false), (mkF true false false).
  exists (ex [("t", "0.00000e+00")]%string), (ex [("t", "2.00000e+00"); ("PK1", "5.00000e+00")]%string).
  eexists. split; [apply ex_ok; repeat constructor; discriminate|].
  split; [apply ex_ok; repeat constructor; discriminate|].
  split; [vm_compute; reflexivity|]. split; [discriminate|]. split; cbn; tauto.
Qed.
Print Assumptions c67_restart_wrong_refuted.

Theorem c67_restart_nu4_refuted :
  forall s, s = NS3D \/ s = NS3DStrat -> exists (r : values), values_ok r
  /\ load s false (file_of s [(mkF false false false, r); (mkF false false false, r);
                             (mkF false true false, r)]) = None.
Proof.
  intros s [-> | ->]; exists (ex []); (split; [apply ex_ok; constructor|vm_compute; reflexivity]).
Qed.
Print Assumptions c67_restart_nu4_refuted.

(** a last record of which only some lines have been written: it is ignored by ns3d and ns3d.strat *)
Theorem c67_incomplete_partial :
  forall s f rs r k, s = NS3D \/ s = NS3DStrat ->
  Forall values_ok rs -> values_ok r -> rs <> [] -> k < length (lines_of s f) ->
  load s (forcing f) (file_of s (same f rs) ++ render r (firstn k (lines_of s f)))
  = Some (table (names s f) rs).
Proof.
  intros s f rs r k HS V VR NE K.
  change (file_of s (same f rs) ++ render r (firstn k (lines_of s f))) with (partial_file s f rs r k).
  rewrite load_partial; auto.
  - apply c67_load_partial; auto. left. destruct HS; subst; discriminate.
  - destruct HS; subst; reflexivity.
Qed.
Print Assumptions c67_incomplete_partial.

Example c67_incomplete_example :
  3 < length (lines_of NS3D (mkF false false false))
  /\ load NS3D false (file_of NS3D (same (mkF false false false) [ex []])
       ++ render (ex []) (firstn 3 (lines_of NS3D (mkF false false false))))
     = Some (table (names NS3D (mkF false false false)) [ex []]).
Proof. split; [cbn; lia|vm_compute; reflexivity]. Qed.

(** FINDING: for the other solvers load raises IndexError; and a line cut in the middle of a number
    gives a wrong value without error (1.00000e-0 instead of 1.00000e-03) *)
Theorem c67_incomplete_refuted :
  (forall s, s = NS2D \/ s = NS2DStrat \/ s = Plate2D -> exists f (r : values) k,
     values_ok r /\ k < length (lines_of s f)
     /\ load s (forcing f) (file_of s (same f [r]) ++ render r (firstn k (lines_of s f))) = None)
  /\ exists f (r : values) n res, values_ok r
     /\ snd (r "epsK_tot"%string) = lit "1.00000e-03"
     /\ load NS3D (forcing f) (firstn n (file_of NS3D (same f [r; r]))) = Some res
     /\ In ("epsK_tot"%string, [lit "1.00000e-03"; lit "1.00000e-0"]) res.
Proof.
  split.
  - intros s H. exists (mkF false false false), (ex []), 2.
    split; [apply ex_ok; constructor|].
    destruct H as [-> | [-> | ->]]; (split; [cbn; lia|vm_compute; reflexivity]).
  - exists (mkF false false false), (ex [("epsK_tot", "1.00000e-03")]%string).
    exists (length (file_of NS3D (same (mkF false false false)
              [ex [("epsK_tot", "1.00000e-03")]%string; ex [("epsK_tot", "1.00000e-03")]%string])) - 3).
    eexists. split; [apply ex_ok; repeat constructor; discriminate|].
    split; [reflexivity|]. split; [vm_compute; reflexivity|]. cbn. tauto.
Qed.
Print Assumptions c67_incomplete_refuted.

(** ** C68: the first saved time *)

Theorem c68_first_time_partial :
  forall s f r rs fuel, Forall values_ok (r :: rs) -> 2 <= fuel ->
  time_first_saved fuel (file_of s (same f (r :: rs))) = Some (snd (r "t"%string)).
Proof.
  intros s f r rs fuel V F. unfold time_first_saved. rewrite readlines_file by auto.
  rewrite lines_of_split. cbn [flat_map header map app].
  destruct fuel as [|[|fuel]]; try lia. cbn [first_loop].
  change (startswith (lit "time =") []) with false.
  change (startswith (lit "time =") (render_line r [L "####"] ++ [nl])) with false. cbn iota.
  inversion V; subst.
  set (tl := render_line r [L "time = "; N "t"] ++ [nl]).
  assert (T : startswith (lit "time =") tl = true) by (apply starts_render; reflexivity).
  assert (E : forall n rest, first_loop n tl rest = Some tl) by (intros [|n] rest; cbn [first_loop]; rewrite T; reflexivity).
  rewrite E. unfold tl. rewrite split_line by auto. reflexivity.
Qed.
Print Assumptions c68_first_time_partial.

Example c68_first_time_example :
  time_first_saved 2 (file_of NS2D (same (mkF true false false) [ex [("t", "0.00000e+00")]; ex []]%string))
  = Some (lit "0.00000e+00").
Proof. vm_compute. reflexivity. Qed.

(** FINDING: on a file without any time (empty: created but not yet written) the loop on readline
    never ends *)
Theorem c68_endless_refuted :
  exists file, forall fuel, time_first_saved fuel file = None
  /\ first_loop fuel [] (readlines file) = None.
Proof.
  exists []. intros fuel. unfold time_first_saved.
  assert (H : first_loop fuel [] (readlines []) = None).
  { apply first_loop_never; reflexivity. }
  rewrite H. split; reflexivity.
Qed.
Print Assumptions c68_endless_refuted.

Theorem c68_json_first :
  forall r rs, items_ok r -> json_first (json_file (r :: rs)) = json_dump r ++ [nl].
Proof.
  intros r rs H. unfold json_first, json_file. cbn [flat_map]. rewrite <- app_assoc. cbn [app].
  rewrite readlines_cons by (apply json_dump_no_nl; auto). reflexivity.
Qed.
Print Assumptions c68_json_first.

Example c68_json_first_example :
  items_ok [("t", lit "0.5")]%string /\ json_dump [("t", lit "0.5")]%string = lit "{""t"": 0.5}".
Proof. split; [repeat constructor|reflexivity]. Qed.
