(** Properties of the loading of stdout.txt (C209) and of the figure of the
    clock times (C210). *)
From Coq Require Import String Ascii List ZArith QArith Bool Lia.
From Verif Require Import PrintOut_Model LogLoad_Model.
From Coq Require Import Qfield Lqa.
Import ListNotations.
Local Open Scope string_scope.

(** * C209 *)
(** ** words *)
Lemma words_aux_app : forall a cur b, words_aux cur (a ++ String " " b) = (words_aux cur a ++ words b)%list.
Proof.
  induction a as [|c a IH]; intros cur b; cbn [append words_aux].
  - change (is_space " ") with true. cbn match. destruct cur; reflexivity.
  - destruct (is_space c); [|apply IH]. destruct cur; cbn [app]; now rewrite IH.
Qed.
Lemma words_app : forall a b, words (a ++ String " " b) = (words a ++ words b)%list.
Proof. intros a b. apply words_aux_app. Qed.
Lemma append_nil : forall a : string, a ++ "" = a.
Proof. induction a as [|c a IH]; cbn; [reflexivity|now rewrite IH]. Qed.

Section C209.
Variable fmt : string -> Q -> string.
Variable parse : string -> option Q.
(** the value of a printed number *)
Variable rnd : string -> Q -> Q.
Definition good_formats : Prop := forall spec x, exists w, words (fmt spec x) = [w] /\ parse w = Some (rnd spec x).
(** ** what should be loaded *)
Definition expected (s : solver) (r : record) : list (string * Q) :=
  let v := val (r_vals r) in
  ([("it", rnd "6d" (r_it r)); ("t", rnd "12.6g" (r_t r)); ("deltat", rnd "10.5g" (r_dt r))] ++
   match s with
   | NS3D => [("E", rnd "9.3e" (v 0%nat)); ("deltaE", rnd "+9.3e" (v 1%nat))]
   | NS2DStrat => [("E", rnd "9.3e" (v 2%nat)); ("deltaE", rnd "+9.3e" (v 3%nat)); ("EK", rnd "9.3e" (v 0%nat)); ("EA", rnd "9.3e" (v 1%nat))]
   | SW1L => [("E", rnd "9.3e" (v 0%nat)); ("deltaE", rnd "+9.3e" (v 1%nat)); ("E_K", rnd "9.3e" (v 2%nat)); ("E_A", rnd "9.3e" (v 3%nat))]
   | Lorenz => [("X", rnd "9.3e" (v 0%nat)); ("Y", rnd "+9.3e" (v 1%nat)); ("Z", rnd "+9.3e" (v 2%nat))]
   | PredaPrey => [("P", rnd "9.3e" (v 2%nat)); ("deltaP", rnd "+9.3e" (v 3%nat)); ("X", rnd "9.3e" (v 0%nat)); ("Y", rnd "+9.3e" (v 1%nat))]
   end)%list.
(** a line which is not one of the lines of the records *)
Definition neutral (line : string) : Prop :=
  prefix "it =" line = false /\ prefix "              energy" line = false /\ prefix "              X =" line = false /\ prefix "              potential =" line = false.
(** the file: other lines, complete records, and the end *)
Definition file_of (s : solver) (header : list string) (recs : list (record * string)) (tail : list string) : list string :=
  (header ++ concat (map (fun rd => write_record fmt s (fst rd) (snd rd)) recs) ++ tail)%list.

Lemma prefix_weaken : forall p q s, prefix (p ++ q) s = true -> prefix p s = true.
Proof.
  induction p as [|c p IH]; intros q s H; [now destruct s|]. destruct s as [|d s]; [discriminate|]. cbn in H |- *.
  destruct (ascii_dec c d); [now apply (IH q)|discriminate].
Qed.
Lemma neutral_pattern : forall s p line, In p (all_patterns s) -> neutral line -> prefix (fst p) line = false.
Proof.
  intros s p line H [A [B [C D]]].
  assert (W : forall q, prefix ("              energy" ++ q) line = false).
  { intros q. destruct (prefix ("              energy" ++ q) line) eqn:E; [|reflexivity]. apply prefix_weaken in E. congruence. }
  destruct H as [<-|H]; [exact A|].
  destruct s; cbn in H; repeat (destruct H as [<-|H]; [first [exact (W " =") | exact (W "  =") | exact (W "K =") | exact (W "A =") | exact C | exact D]|]); contradiction.
Qed.
Lemma filter_neutral : forall s p l, In p (all_patterns s) -> Forall neutral l -> filter (prefix (fst p)) l = [].
Proof.
  intros s p l Hp H. induction H as [|x l Hx _ IH]; [reflexivity|]. cbn [filter]. rewrite (neutral_pattern s p x Hp Hx). exact IH.
Qed.
Definition own (s : solver) (p : string) (r : record) : list string := filter (prefix p) (line_it fmt r :: lines_of fmt s (r_vals r)).
Definition one_line (s : solver) (p : string) (r : record) : string := hd "" (own s p r).
Lemma own_one : forall s p r, In p (all_patterns s) -> own s (fst p) r = [one_line s (fst p) r].
Proof.
  intros s p r H. destruct H as [<-|H]; [destruct s; reflexivity|].
  destruct s; cbn in H; repeat (destruct H as [<-|H]; [reflexivity|]); contradiction.
Qed.
Lemma filter_record : forall s p rd, In p (all_patterns s) -> neutral (snd rd) -> filter (prefix (fst p)) (write_record fmt s (fst rd) (snd rd)) = [one_line s (fst p) (fst rd)].
Proof.
  intros s p rd Hp Hn. unfold write_record. rewrite app_comm_cons, filter_app. cbn [filter]. rewrite (neutral_pattern s p _ Hp Hn), app_nil_r.
  now apply own_one.
Qed.
Lemma filter_records : forall s p recs, In p (all_patterns s) -> Forall (fun rd => neutral (snd rd)) recs ->
  filter (prefix (fst p)) (concat (map (fun rd => write_record fmt s (fst rd) (snd rd)) recs)) = map (fun rd => one_line s (fst p) (fst rd)) recs.
Proof.
  intros s p recs Hp H. induction H as [|rd recs Hn _ IH]; [reflexivity|]. cbn [map concat]. rewrite filter_app, IH, filter_record by assumption. reflexivity.
Qed.
Lemma filter_file : forall s p header recs tail, In p (all_patterns s) -> Forall neutral header -> Forall (fun rd => neutral (snd rd)) recs ->
  filter (prefix (fst p)) (file_of s header recs tail) = (map (fun rd => one_line s (fst p) (fst rd)) recs ++ filter (prefix (fst p)) tail)%list.
Proof.
  intros s p header recs tail Hp Hh Hr. unfold file_of. rewrite !filter_app, (filter_neutral s p header Hp Hh), (filter_records s p recs Hp Hr). reflexivity.
Qed.
Lemma read_pattern_file : forall s p header recs tail il rd, In p (all_patterns s) -> Forall neutral header -> Forall (fun rd => neutral (snd rd)) recs ->
  nth_error recs il = Some rd -> read_pattern parse (file_of s header recs tail) il p = read_words parse (one_line s (fst p) (fst rd)) (snd p).
Proof.
  intros s p header recs tail il rd Hp Hh Hr Hn. unfold read_pattern. rewrite (filter_file s p header recs tail Hp Hh Hr).
  rewrite nth_error_app1 by (rewrite map_length; apply nth_error_Some; congruence).
  rewrite (map_nth_error (fun rd => one_line s (fst p) (fst rd)) il recs Hn). reflexivity.
Qed.
End C209.

Section C209b.
Variable fmt : string -> Q -> string.
Variable parse : string -> option Q.
Variable rnd : string -> Q -> Q.
Hypothesis G : good_formats fmt parse rnd.
Lemma words_cons : forall c s, c = " "%char -> words (String c s) = words s.
Proof. intros c s ->. reflexivity. Qed.
Lemma read_one : forall s r, option_map (@concat _) (collect (map (fun p => read_words parse (one_line fmt s (fst p) r) (snd p)) (all_patterns s))) = Some (expected rnd s r).
Proof.
  intros s r.
  destruct (G "6d" (r_it r)) as [w1 [E1 P1]]. destruct (G "12.6g" (r_t r)) as [w2 [E2 P2]]. destruct (G "10.5g" (r_dt r)) as [w3 [E3 P3]].
  set (v := val (r_vals r)).
  assert (L : words (line_it fmt r) = ["it"; "="; w1; ";"; "t"; "="; w2; ";"; "deltat"; "="; w3]).
  { unfold line_it. change (words ("it = " ++ ?x)) with ("it" :: "=" :: words x)%list.
    change (" ; t = " ++ ?x) with (String " " ("; t = " ++ x)). rewrite words_app, E1.
    change (words ("; t = " ++ ?x)) with (";" :: "t" :: "=" :: words x)%list.
    change (" ; deltat  = " ++ ?x) with (String " " ("; deltat  = " ++ x)). rewrite words_app, E2.
    change (words ("; deltat  = " ++ ?x)) with (";" :: "deltat" :: "=" :: words x)%list. rewrite E3. reflexivity. }
  assert (RI : read_words parse (line_it fmt r) [("it", 2); ("t", 6); ("deltat", 10)]%nat = Some [("it", rnd "6d" (r_it r)); ("t", rnd "12.6g" (r_t r)); ("deltat", rnd "10.5g" (r_dt r))]).
  { unfold read_words. rewrite L. cbn [fold_right snd fst nth_error]. now rewrite P1, P2, P3. }
  assert (I : one_line fmt s "it =" r = line_it fmt r) by (destruct s; reflexivity).
  unfold all_patterns. cbn [map fst snd]. rewrite I, RI. unfold expected. fold v.
  destruct s; cbn [patterns map fst snd].
  - change (one_line fmt NS3D (sp14 ++ "energy =") r) with ("              energy = " ++ fmt "9.3e" (v 0%nat) ++ " ; Delta energy = " ++ fmt "+9.3e" (v 1%nat)).
    destruct (G "9.3e" (v 0%nat)) as [a [Ea Pa]]. destruct (G "+9.3e" (v 1%nat)) as [b [Eb Pb]]. unfold read_words.
    change (words ("              energy = " ++ ?x)) with ("energy" :: "=" :: words x)%list.
    change (" ; Delta energy = " ++ ?x) with (String " " ("; Delta energy = " ++ x)). rewrite words_app, Ea.
    change (words ("; Delta energy = " ++ ?x)) with (";" :: "Delta" :: "energy" :: "=" :: words x)%list. rewrite Eb.
    cbn [fold_right snd fst nth_error app]. rewrite Pa, Pb. reflexivity.
  - change (one_line fmt NS2DStrat (sp14 ++ "energy  =") r) with ("              energy  = " ++ fmt "9.3e" (v 2%nat) ++ " ; Delta energy = " ++ fmt "+9.3e" (v 3%nat)).
    change (one_line fmt NS2DStrat (sp14 ++ "energyK =") r) with ("              energyK = " ++ fmt "9.3e" (v 0%nat)).
    change (one_line fmt NS2DStrat (sp14 ++ "energyA =") r) with ("              energyA = " ++ fmt "9.3e" (v 1%nat)).
    destruct (G "9.3e" (v 0%nat)) as [a [Ea Pa]]. destruct (G "9.3e" (v 1%nat)) as [b [Eb Pb]]. destruct (G "9.3e" (v 2%nat)) as [c [Ec Pc]]. destruct (G "+9.3e" (v 3%nat)) as [d [Ed Pd]]. unfold read_words.
    change (words ("              energy  = " ++ ?x)) with ("energy" :: "=" :: words x)%list.
    change (words ("              energyK = " ++ ?x)) with ("energyK" :: "=" :: words x)%list.
    change (words ("              energyA = " ++ ?x)) with ("energyA" :: "=" :: words x)%list.
    change (" ; Delta energy = " ++ ?x) with (String " " ("; Delta energy = " ++ x)). rewrite words_app, Ea, Eb, Ec.
    change (words ("; Delta energy = " ++ ?x)) with (";" :: "Delta" :: "energy" :: "=" :: words x)%list. rewrite Ed.
    cbn [fold_right snd fst nth_error app]. rewrite Pa, Pb, Pc, Pd. reflexivity.
  - change (one_line fmt SW1L (sp14 ++ "energy  =") r) with ("              energy  = " ++ fmt "9.3e" (v 0%nat) ++ " ; Delta energy = " ++ fmt "+9.3e" (v 1%nat)).
    change (one_line fmt SW1L (sp14 ++ "energyK =") r) with ("              energyK = " ++ fmt "9.3e" (v 2%nat) ++ " ; energyA      = " ++ fmt "9.3e" (v 3%nat)).
    destruct (G "9.3e" (v 0%nat)) as [a [Ea Pa]]. destruct (G "+9.3e" (v 1%nat)) as [b [Eb Pb]]. destruct (G "9.3e" (v 2%nat)) as [c [Ec Pc]]. destruct (G "9.3e" (v 3%nat)) as [d [Ed Pd]]. unfold read_words.
    change (words ("              energy  = " ++ ?x)) with ("energy" :: "=" :: words x)%list.
    change (words ("              energyK = " ++ ?x)) with ("energyK" :: "=" :: words x)%list.
    change (" ; Delta energy = " ++ ?x) with (String " " ("; Delta energy = " ++ x)).
    change (" ; energyA      = " ++ ?x) with (String " " ("; energyA      = " ++ x)). rewrite !words_app, Ea, Ec.
    change (words ("; Delta energy = " ++ ?x)) with (";" :: "Delta" :: "energy" :: "=" :: words x)%list. 
    change (words ("; energyA      = " ++ ?x)) with (";" :: "energyA" :: "=" :: words x)%list. rewrite Eb, Ed.
    cbn [fold_right snd fst nth_error app]. rewrite Pa, Pb, Pc, Pd. reflexivity.
  - change (one_line fmt Lorenz (sp14 ++ "X =") r) with ("              X = " ++ fmt "9.3e" (v 0%nat) ++ " ; Y = " ++ fmt "+9.3e" (v 1%nat) ++ " ; Z = " ++ fmt "+9.3e" (v 2%nat)).
    destruct (G "9.3e" (v 0%nat)) as [a [Ea Pa]]. destruct (G "+9.3e" (v 1%nat)) as [b [Eb Pb]]. destruct (G "+9.3e" (v 2%nat)) as [c [Ec Pc]]. unfold read_words.
    change (words ("              X = " ++ ?x)) with ("X" :: "=" :: words x)%list.
    change (" ; Y = " ++ ?x) with (String " " ("; Y = " ++ x)). change (" ; Z = " ++ ?x) with (String " " ("; Z = " ++ x)). rewrite words_app, Ea.
    change (words ("; Y = " ++ ?x)) with (";" :: "Y" :: "=" :: words x)%list. rewrite words_app, Eb.
    change (words ("; Z = " ++ ?x)) with (";" :: "Z" :: "=" :: words x)%list. rewrite Ec.
    cbn [fold_right snd fst nth_error app]. rewrite Pa, Pb, Pc. reflexivity.
  - change (one_line fmt PredaPrey (sp14 ++ "X =") r) with ("              X = " ++ fmt "9.3e" (v 0%nat) ++ " ; Y = " ++ fmt "+9.3e" (v 1%nat)).
    change (one_line fmt PredaPrey (sp14 ++ "potential =") r) with ("              potential = " ++ fmt "9.3e" (v 2%nat) ++ " ; Delta pot = " ++ fmt "+9.3e" (v 3%nat)).
    destruct (G "9.3e" (v 0%nat)) as [a [Ea Pa]]. destruct (G "+9.3e" (v 1%nat)) as [b [Eb Pb]]. destruct (G "9.3e" (v 2%nat)) as [c [Ec Pc]]. destruct (G "+9.3e" (v 3%nat)) as [d [Ed Pd]]. unfold read_words.
    change (words ("              X = " ++ ?x)) with ("X" :: "=" :: words x)%list.
    change (words ("              potential = " ++ ?x)) with ("potential" :: "=" :: words x)%list.
    change (" ; Y = " ++ ?x) with (String " " ("; Y = " ++ x)). change (" ; Delta pot = " ++ ?x) with (String " " ("; Delta pot = " ++ x)). rewrite !words_app, Ea, Ec.
    change (words ("; Y = " ++ ?x)) with (";" :: "Y" :: "=" :: words x)%list.
    change (words ("; Delta pot = " ++ ?x)) with (";" :: "Delta" :: "pot" :: "=" :: words x)%list. rewrite Eb, Ed.
    cbn [fold_right snd fst nth_error app]. rewrite Pa, Pb, Pc, Pd. reflexivity.
Qed.
Lemma load_one_ok : forall s header recs tail il rd, Forall neutral header -> Forall (fun rd => neutral (snd rd)) recs ->
  nth_error recs il = Some rd -> load_one parse s (file_of fmt s header recs tail) il = Some (expected rnd s (fst rd)).
Proof.
  intros s header recs tail il rd Hh Hr Hn. unfold load_one. rewrite <- read_one. f_equal. f_equal. apply map_ext_in. intros p Hp.
  now apply read_pattern_file.
Qed.
Lemma collect_some : forall {A} (l : list A), collect (map Some l) = Some l.
Proof. induction l as [|x l IH]; cbn; [reflexivity|now rewrite IH]. Qed.
Lemma load_n : forall s header recs tail, Forall neutral header -> Forall (fun rd => neutral (snd rd)) recs ->
  forall n, (n <= length recs)%nat -> collect (map (load_one parse s (file_of fmt s header recs tail)) (seq 0 n)) = Some (map (fun rd => expected rnd s (fst rd)) (firstn n recs)).
Proof.
  intros s header recs tail Hh Hr n Hn. rewrite <- collect_some. f_equal. apply nth_ext with (d := None) (d' := None).
  - rewrite !map_length, seq_length, firstn_length. lia.
  - rewrite map_length, seq_length. intros i Hi.
    destruct (nth_error recs i) as [rd|] eqn:E; [|apply nth_error_None in E; lia].
    rewrite nth_indep with (d' := load_one parse s (file_of fmt s header recs tail) 0%nat) by (rewrite map_length, seq_length; exact Hi).
    rewrite map_nth, seq_nth by exact Hi. cbn [plus]. rewrite (load_one_ok s header recs tail i rd Hh Hr E).
    symmetry. rewrite !map_map. rewrite nth_indep with (d' := Some (expected rnd s (fst rd))) by (rewrite map_length, firstn_length; lia).
    rewrite (map_nth (fun rd => Some (expected rnd s (fst rd))) (firstn n recs) rd i). f_equal. f_equal.
    rewrite <- (firstn_skipn n recs) in E. rewrite nth_error_app1 in E by (rewrite firstn_length; lia). now rewrite (nth_error_nth _ _ _ E).
Qed.
Lemma nb_file : forall s header recs tail, Forall neutral header -> Forall (fun rd => neutral (snd rd)) recs ->
  nb_loaded (file_of fmt s header recs tail) = let nt := (length recs + length (filter (prefix "it =") tail))%nat in if (1 <? nt)%nat then (nt - 1)%nat else nt.
Proof.
  intros s header recs tail Hh Hr. unfold nb_loaded. change (prefix "it =") with (prefix (fst ("it =", [("it", 2); ("t", 6); ("deltat", 10)]%nat))). rewrite (filter_file fmt s ("it =", [("it", 2); ("t", 6); ("deltat", 10)]%nat) header recs tail) by (try assumption; now left).
  rewrite app_length, map_length. reflexivity.
Qed.
(** complete records: all of them but the last are loaded, with the printed values *)
Theorem c209_complete_partial : forall s header recs tail, Forall neutral header -> Forall (fun rd => neutral (snd rd)) recs -> Forall neutral tail ->
  load parse s (file_of fmt s header recs tail) = Some (map (fun rd => expected rnd s (fst rd)) (match recs with [rd] => [rd] | _ => removelast recs end)).
Proof.
  intros s header recs tail Hh Hr Ht. unfold load. rewrite (nb_file s header recs tail Hh Hr).
  rewrite (filter_neutral s ("it =", [("it", 2); ("t", 6); ("deltat", 10)]%nat) tail (or_introl eq_refl) Ht : filter (prefix "it =") tail = []). cbn [length]. rewrite Nat.add_0_r. cbn zeta.
  destruct recs as [|r1 [|r2 recs]]; [reflexivity|exact (load_n s header [r1] tail Hh Hr 1%nat (le_n 1))|].
  set (l := r1 :: r2 :: recs) in *. change (1 <? length l)%nat with true. cbn match. rewrite (load_n s header l tail Hh Hr) by lia.
  f_equal. f_equal. rewrite removelast_firstn_len. replace (Nat.pred (length l)) with (length l - 1)%nat by lia. reflexivity.
Qed.
(** a last record which has been cut after one of its lines: all the complete records are loaded *)
Theorem c209_cut : forall s header recs r d k, Forall neutral header -> Forall (fun rd => neutral (snd rd)) recs -> neutral d -> recs <> [] -> (1 <= k)%nat ->
  load parse s (file_of fmt s header recs (firstn k (write_record fmt s r d))) = Some (map (fun rd => expected rnd s (fst rd)) recs).
Proof.
  intros s header recs r d k Hh Hr Hd Hne Hk. unfold load. rewrite (nb_file s header recs _ Hh Hr).
  assert (E : length (filter (prefix "it =") (firstn k (write_record fmt s r d))) = 1%nat).
  { destruct k as [|k]; [lia|]. unfold write_record. cbn [firstn filter]. change (prefix "it =" (line_it fmt r)) with true. cbn match. cbn [length]. f_equal.
    replace (filter _ _) with (@nil string); [reflexivity|]. symmetry.
    destruct Hd as [Hd _]. assert (A : forall l, Forall (fun x => prefix "it =" x = false) l -> forall k, filter (prefix "it =") (firstn k l) = []).
    { intros l H. induction H as [|x l Hx _ IH]; intros [|j]; try reflexivity. cbn [firstn filter]. rewrite Hx. apply IH. }
    apply A. apply Forall_app. split; [destruct s; cbn [lines_of]; repeat constructor|repeat constructor; exact Hd]. }
  rewrite E. cbn zeta. assert (L : (1 <= length recs)%nat) by (destruct recs; [contradiction|cbn; lia]).
  destruct (Nat.ltb_spec 1 (length recs + 1)) as [l|l]; [|lia]. replace (length recs + 1 - 1)%nat with (length recs) by lia.
  rewrite (load_n s header recs _ Hh Hr) by lia. now rewrite firstn_all.
Qed.
End C209b.
(** the lines of the remaining duration are neutral *)
Theorem c209_duration : forall n, neutral (duration_line n) /\ neutral "".
Proof.
  intros n. split; [|split; [reflexivity|split; [reflexivity|split; reflexivity]]]. unfold neutral, duration_line.
  split; [reflexivity|]. split; [reflexivity|]. split; reflexivity.
Qed.
(** ** an example of formats *)
Definition fmt_ex (spec : string) (x : Q) : string := if Qle_bool x 0 then " 0" else if Qle_bool x 1 then "1" else "2".
Definition parse_ex (w : string) : option Q := if String.eqb w "0" then Some 0%Q else if String.eqb w "1" then Some 1%Q else Some 2%Q.
Definition rnd_ex (spec : string) (x : Q) : Q := if Qle_bool x 0 then 0 else if Qle_bool x 1 then 1 else 2.
Example c209_formats_ex : good_formats fmt_ex parse_ex rnd_ex.
Proof.
  intros spec x. unfold fmt_ex, rnd_ex. destruct (Qle_bool x 0); [now exists "0"|]. destruct (Qle_bool x 1); [now exists "1"|now exists "2"].
Qed.
Definition rec_ex (i : Q) : record := {| r_it := i; r_t := i; r_dt := 1; r_vals := [2; 1; 1; 0; 0] |}.
Example c209_ex : load parse_ex SW1L (file_of fmt_ex SW1L ["header"] [(rec_ex 0, ""); (rec_ex 1, "")] []) = Some [[("it", 0); ("t", 0); ("deltat", 1); ("E", 2); ("deltaE", 1); ("E_K", 1); ("E_A", 0)]%Q].
Proof. vm_compute. reflexivity. Qed.
(** the last record of a complete file (two records or more) is left out *)
Theorem c209_last_refuted : exists s recs, Forall (fun rd => neutral (snd rd)) recs /\ (forall fmt parse rnd, good_formats fmt parse rnd ->
  exists l, load parse s (file_of fmt s [] recs []) = Some l /\ (length l < length recs)%nat).
Proof.
  exists NS3D, [(rec_ex 0, ""); (rec_ex 1, "")]. split.
  - repeat constructor; exact (proj2 (c209_duration 0%N)).
  - intros fmt parse rnd G. eexists. split.
    + apply (c209_complete_partial fmt parse rnd G); [constructor| |constructor]. repeat constructor; exact (proj2 (c209_duration 0%N)).
    + cbn. lia.
Qed.
(** a single record which has been cut is an error *)
Theorem c209_cut_refuted : exists s r d, neutral d /\ forall fmt parse rnd, good_formats fmt parse rnd -> load parse s (file_of fmt s [] [] (firstn 1 (write_record fmt s r d))) = None.
Proof.
  exists NS3D, (rec_ex 0), "". split; [exact (proj2 (c209_duration 0%N))|]. intros fmt parse rnd G. unfold file_of, write_record. cbn [map concat app firstn].
  unfold load. change (nb_loaded [line_it fmt (rec_ex 0)]) with 1%nat. cbn [seq map collect]. unfold load_one. cbn [all_patterns patterns map].
  unfold read_pattern at 2. cbn [fst snd]. change (filter (prefix (sp14 ++ "energy =")) [line_it fmt (rec_ex 0)]) with (@nil string). cbn [nth_error collect].
  destruct (read_pattern parse [line_it fmt (rec_ex 0)] 0 _); reflexivity.
Qed.
(** a record which has been cut and a restart in the same file: the energies are shifted *)
Theorem c209_restart_refuted : exists s r d recs1 recs2, neutral d /\ Forall (fun rd => neutral (snd rd)) (recs1 ++ recs2) /\
  (exists l, load parse_ex s (file_of fmt_ex s [] recs1 (firstn 1 (write_record fmt_ex s r d) ++ file_of fmt_ex s [] recs2 []))%list = Some l
   /\ nth_error l 1 = Some [("it", 1); ("t", 1); ("deltat", 1); ("E", 0); ("deltaE", 0)]%Q)
  /\ val (r_vals r) 0 == 2 /\ r_it r == 1.
Proof.
  exists NS3D, (rec_ex 1), "", [(rec_ex 0, "")], [({| r_it := 2; r_t := 2; r_dt := 1; r_vals := [0; 0] |}, ""); (rec_ex 2, "")].
  split; [exact (proj2 (c209_duration 0%N))|]. split; [repeat constructor; exact (proj2 (c209_duration 0%N))|].
  split; [|split; reflexivity]. eexists. split; [vm_compute; reflexivity|reflexivity].
Qed.

(** * C210: the figure of the clock times *)
Local Open Scope Q_scope.
Lemma nth_map_seq : forall {A} (f : nat -> A) n i d, (i < n)%nat -> nth i (map f (seq 0 n)) d = f i.
Proof.
  intros A f n i d H. rewrite nth_indep with (d' := f 0%nat) by (rewrite map_length, seq_length; exact H). rewrite map_nth, seq_nth by exact H. reflexivity.
Qed.
(** the curve is a step function: the clock time per step of the i-th record, between the time before and the time of the record *)
Theorem c210_steps : forall start ts vs xs ys, length ts = length vs -> 0 < last vs 0 -> clock_figure start ts vs = Some (xs, ys) ->
  length xs = (2 * length ts)%nat /\ length ys = (2 * length ts)%nat
  /\ forall i, (i < length ts)%nat ->
       nth (2 * i) xs 0 = (match i with O => start | S j => nth j ts 0 end) /\ nth (2 * i + 1) xs 0 = nth i ts 0
       /\ nth (2 * i) ys 0 = nth i vs 0 /\ nth (2 * i + 1) ys 0 = nth i vs 0.
Proof.
  intros start ts vs xs ys L P H. unfold clock_figure, last_removed in H.
  destruct (Qle_bool (last vs 0) 0) eqn:E; [apply Qle_bool_iff in E; lra|]. unfold times2 in H. destruct ts as [|t0 ts0] eqn:Et; [discriminate|]. rewrite <- Et in *.
  assert (Hx : xs = map (fun i => if (i =? 0)%nat then start else if Nat.even i then nth (i / 2 - 1) ts 0 else nth (i / 2) ts 0) (seq 0 (2 * length ts))) by congruence.
  assert (Hy : ys = values2 vs) by congruence. rewrite Hx, Hy. clear H Hx Hy. unfold values2. rewrite !map_length, !seq_length. split; [reflexivity|]. split; [lia|].
  intros i Hi. rewrite !nth_map_seq by lia.
  assert (D0 : (2 * i / 2 = i)%nat) by (rewrite Nat.mul_comm; apply Nat.div_mul; lia).
  assert (D1 : ((2 * i + 1) / 2 = i)%nat) by (symmetry; apply Nat.div_unique with 1%nat; lia).
  assert (V0 : Nat.even (2 * i) = true) by (rewrite Nat.even_mul; reflexivity).
  assert (V1 : Nat.even (2 * i + 1) = false) by (rewrite Nat.even_add, V0; reflexivity).
  rewrite D0, D1, V0, V1. split; [|split; [|split; reflexivity]].
  - destruct i as [|i]; [reflexivity|]. destruct (Nat.eqb_spec (2 * S i) 0) as [e|_]; [lia|]. f_equal. lia.
  - destruct (Nat.eqb_spec (2 * i + 1) 0) as [e|_]; [lia|reflexivity].
Qed.
Example c210_ex : clock_figure 0 [1; 2] [5; 6] = Some ([0; 1; 1; 2], [5; 5; 6; 6]).
Proof. reflexivity. Qed.
(** a last value which is not positive is left out *)
Theorem c210_last_removed : forall start ts vs t v, length ts = length vs -> v <= 0 -> 0 < last vs 0 -> clock_figure start (ts ++ [t]) (vs ++ [v]) = clock_figure start ts vs.
Proof.
  intros start ts vs t v L Hv P. unfold clock_figure, last_removed. rewrite last_last, !removelast_last.
  assert (A : Qle_bool v 0 = true) by now apply Qle_bool_iff. assert (B : Qle_bool (last vs 0) 0 = false).
  { destruct (Qle_bool (last vs 0) 0) eqn:E; [apply Qle_bool_iff in E; lra|reflexivity]. }
  rewrite A, B. reflexivity.
Qed.
(** the printed mean of the curve is the mean of the values *)
Lemma sum_values2 : forall vs, fold_right Qplus 0 (values2 vs) == 2 * fold_right Qplus 0 vs.
Proof.
  assert (G : forall n (f : nat -> Q), fold_right Qplus 0 (map (fun i => f (i / 2)%nat) (seq 0 (2 * n))) == 2 * fold_right Qplus 0 (map f (seq 0 n))).
  { induction n as [|n IH]; intros f; [reflexivity|]. replace (2 * S n)%nat with (2 * n + 2)%nat by lia. rewrite seq_app, map_app, (seq_S n 0), (map_app f).
    assert (A : forall l m, fold_right Qplus 0 (l ++ m)%list == fold_right Qplus 0 l + fold_right Qplus 0 m) by (induction l as [|x l IHl]; intros m; cbn; [ring|rewrite IHl; ring]).
    rewrite !A, IH. change (seq (0 + 2 * n) 2) with [(2 * n)%nat; S (2 * n)]. cbn [map fold_right]. change (0 + n)%nat with n.
    assert (D0 : (2 * n / 2 = n)%nat) by (rewrite Nat.mul_comm; apply Nat.div_mul; lia).
    assert (D1 : (S (2 * n) / 2 = n)%nat) by (symmetry; apply Nat.div_unique with 1%nat; lia). rewrite D0, D1. ring. }
  intros vs. unfold values2. rewrite (G (length vs) (fun i => nth i vs 0)). 
  assert (E : map (fun i => nth i vs 0) (seq 0 (length vs)) = vs).
  { apply nth_ext with (d := 0) (d' := 0); [now rewrite map_length, seq_length|]. rewrite map_length, seq_length. intros i Hi. now rewrite nth_map_seq. }
  now rewrite E.
Qed.
Theorem c210_mean : forall vs, vs <> [] -> mean (values2 vs) == mean vs.
Proof.
  intros vs H. unfold mean. rewrite sum_values2. unfold values2. rewrite map_length, seq_length.
  assert (P : 0 < inject_Z (Z.of_nat (length vs))) by (change 0 with (inject_Z 0); rewrite <- Zlt_Qlt; destruct vs; [contradiction|cbn; lia]).
  rewrite Nat2Z.inj_mul, inject_Z_mult. change (inject_Z (Z.of_nat 2)) with 2. field. lra.
Qed.
(** a single estimation which is not positive is an IndexError *)
Theorem c210_refuted : exists start ts vs, ts <> [] /\ length ts = length vs /\ clock_figure start ts vs = None.
Proof. exists 0, [1], [0]. split; [discriminate|]. split; reflexivity. Qed.

(** a line with a word which is not a number, or without enough words, is an error *)
Theorem c209_line : forall (parse : string -> option Q) line keys,
  (exists key i, In (key, i) keys /\ match nth_error (words line) i with Some w => parse w = None | None => True end)
  <-> read_words parse line keys = None.
Proof.
  intros parse line keys; unfold read_words; induction keys as [| [key i] keys IH]; cbn [fold_right].
  - split; [intros (? & ? & [] & _) | discriminate].
  - cbn [snd fst]; split.
    + intros (key' & i' & [E | E] & H).
      * injection E as -> ->; destruct (fold_right _ _ keys); auto; destruct (nth_error (words line) i'); auto; rewrite H; auto.
      * rewrite (proj1 IH); auto; eauto.
    + intros H; destruct (fold_right _ _ keys) as [l |].
      * exists key, i; split; [left; reflexivity |]; destruct (nth_error (words line) i) as [w |]; auto; destruct (parse w); auto; discriminate.
      * destruct (proj2 IH eq_refl) as (key' & i' & I & H'); exists key', i'; split; [right; auto | auto].
Qed.

Print Assumptions c209_complete_partial.
Print Assumptions c209_cut.
Print Assumptions c209_duration.
Print Assumptions c209_last_refuted.
Print Assumptions c209_cut_refuted.
Print Assumptions c209_restart_refuted.
Print Assumptions c210_steps.
Print Assumptions c210_last_removed.
Print Assumptions c210_mean.
Print Assumptions c210_refuted.
Print Assumptions c209_line.
