From Coq Require Import String Ascii List Arith Bool Lia.
From Verif Require Import SpatialMeans_Model SpatialMeans_Spec.
Import ListNotations.
Local Open Scope nat_scope.

(** ** lines *)

Definition no_nl (l : bytes) : Prop := forallb (fun c => negb (Ascii.eqb c nl)) l = true.

Lemma no_nl_app a b : no_nl a -> no_nl b -> no_nl (a ++ b).
Proof. unfold no_nl. rewrite forallb_app. intros -> ->. reflexivity. Qed.

Lemma readlines_cons a b : no_nl a -> readlines (a ++ nl :: b) = (a ++ [nl]) :: readlines b.
Proof.
  unfold no_nl. induction a as [|c a IH]; simpl; intros H; [reflexivity|].
  apply andb_true_iff in H. destruct H as [H1 H2].
  destruct (Ascii.eqb c nl); [discriminate|]. rewrite IH by auto. reflexivity.
Qed.

Lemma readlines_app_nl a b : readlines ((a ++ [nl]) ++ b) = readlines (a ++ [nl]) ++ readlines b.
Proof.
  induction a as [|c a IH]; [reflexivity|]. cbn [app readlines].
  destruct (Ascii.eqb c nl) eqn:E.
  - rewrite IH. reflexivity.
  - rewrite IH. destruct (readlines (a ++ [nl])) eqn:F; [|reflexivity].
    exfalso. destruct a as [|d a]; cbn in F; [discriminate|].
    destruct (Ascii.eqb d nl); [discriminate|]. destruct (readlines (a ++ [nl])); discriminate.
Qed.

(** the file is empty or its last byte is a newline *)
Definition ended (l : bytes) : Prop := l = [] \/ exists a, l = a ++ [nl].

Lemma ended_app a b : ended a -> ended b -> ended (a ++ b).
Proof.
  intros Ha [->|[c ->]]; [rewrite app_nil_r; auto|]. right. exists (a ++ c). apply app_assoc.
Qed.

Lemma readlines_app a b : ended a -> readlines (a ++ b) = readlines a ++ readlines b.
Proof. intros [->|[c ->]]; [reflexivity|]. apply readlines_app_nl. Qed.

Lemma ended_flat {A} (g : A -> bytes) l : (forall x, In x l -> ended (g x)) -> ended (flat_map g l).
Proof.
  induction l as [|x l IH]; intros H; [left; reflexivity|]. cbn.
  apply ended_app; [apply H; left; auto|apply IH; intros; apply H; right; auto].
Qed.

Lemma readlines_flat {A} (g : A -> bytes) l : (forall x, In x l -> ended (g x)) ->
  readlines (flat_map g l) = flat_map (fun x => readlines (g x)) l.
Proof.
  induction l as [|x l IH]; intros H; [reflexivity|]. cbn.
  rewrite readlines_app by (apply H; left; auto). f_equal. apply IH. intros; apply H; right; auto.
Qed.

(** ** rendering *)

Definition lit_ok (p : piece) : bool :=
  match p with L s => forallb (fun c => negb (Ascii.eqb c nl)) (lit s) | N _ => true end.

Lemma word_no_nl w : word_ok w -> no_nl w.
Proof.
  intros [_ H]. unfold no_nl. rewrite forallb_forall in *. intros c Hc. specialize (H c Hc).
  destruct (Ascii.eqb_spec c nl); [subst; discriminate|reflexivity].
Qed.

Lemma text_no_nl v : word_ok (snd v) -> no_nl (text v).
Proof.
  intros H. apply no_nl_app; [|apply word_no_nl; auto].
  unfold no_nl. induction (fst v); simpl; auto.
Qed.

Lemma line_no_nl r l : values_ok r -> forallb lit_ok l = true -> no_nl (render_line r l).
Proof.
  intros V. induction l as [|p l IH]; simpl; intros H; [reflexivity|].
  apply andb_true_iff in H. destruct H as [H1 H2]. apply no_nl_app; [|apply IH; auto].
  destruct p as [s|x]; [exact H1|apply text_no_nl; auto].
Qed.

Lemma render_ended r ls : ended (render r ls).
Proof. apply ended_flat. intros. right. eexists; reflexivity. Qed.

Lemma render_lines r ls : values_ok r -> forallb (forallb lit_ok) ls = true ->
  readlines (render r ls) = map (fun l => render_line r l ++ [nl]) ls.
Proof.
  intros V. unfold render. induction ls as [|l ls IH]; simpl; intros H; [reflexivity|].
  apply andb_true_iff in H. destruct H as [H1 H2]. rewrite <- app_assoc. cbn [app].
  rewrite readlines_cons by (apply line_no_nl; auto). rewrite IH by auto. reflexivity.
Qed.

(** ** prefixes *)

(** [p] compared with the first literal of the line, which must be at least as long *)
Definition starts (p : string) (l : list piece) : bool :=
  match l with L s :: _ => startswith (lit p) (lit s) | _ => false end.

Definition decided (p : string) (l : list piece) : bool :=
  match l with
  | L s :: _ => startswith (lit p) (lit s) || negb (startswith (firstn (length (lit s)) (lit p)) (lit s))
  | _ => false
  end.

Lemma startswith_app p a b : startswith p a = true -> startswith p (a ++ b) = true.
Proof.
  revert a. induction p as [|c p IH]; intros [|d a]; simpl; auto; try discriminate.
  rewrite !andb_true_iff. intros [H1 H2]; auto.
Qed.

Lemma startswith_app_not p a b :
  startswith (firstn (length a) p) a = false -> startswith p (a ++ b) = false.
Proof.
  revert a. induction p as [|c p IH]; intros [|d a]; simpl; auto; try discriminate.
  rewrite !andb_false_iff. intros [H1|H2]; auto.
Qed.

Lemma starts_render p r l b : decided p l = true ->
  startswith (lit p) (render_line r l ++ b) = starts p l.
Proof.
  destruct l as [|[s|x] l]; cbn [decided starts]; try discriminate. intros H.
  unfold render_line. cbn [flat_map render_piece]. rewrite <- app_assoc.
  destruct (startswith (lit p) (lit s)) eqn:E; [apply startswith_app; auto|].
  cbn [orb] in H. apply startswith_app_not.
  destruct (startswith (firstn _ _) _); [discriminate|reflexivity].
Qed.

Lemma lines_with_render p r ls : forallb (decided p) ls = true ->
  lines_with p (map (fun l => render_line r l ++ [nl]) ls)
  = map (fun l => render_line r l ++ [nl]) (filter (starts p) ls).
Proof.
  unfold lines_with. induction ls as [|l ls IH]; simpl; intros H; [reflexivity|].
  apply andb_true_iff in H. destruct H as [H1 H2]. rewrite starts_render by auto.
  rewrite IH by auto. destruct (starts p l); reflexivity.
Qed.

Lemma lines_with_app p a b : lines_with p (a ++ b) = lines_with p a ++ lines_with p b.
Proof. apply filter_app. Qed.

Lemma lines_with_flat {A} p (g : A -> list bytes) l :
  lines_with p (flat_map g l) = flat_map (fun x => lines_with p (g x)) l.
Proof. induction l; simpl; auto. rewrite lines_with_app. f_equal; auto. Qed.

(** ** words *)

Lemma split_from_word w cur : forallb (fun c => negb (is_space c)) w = true ->
  forall b, split_from cur (w ++ b) = split_from (cur ++ w) b.
Proof.
  revert cur. induction w as [|c w IH]; intros cur H b; [rewrite app_nil_r; reflexivity|].
  cbn in H. apply andb_true_iff in H. destruct H as [H1 H2]. cbn [app split_from].
  destruct (is_space c); [discriminate|]. rewrite IH by auto. rewrite <- app_assoc. reflexivity.
Qed.

(** after a white space the words start again *)
Lemma split_from_app a c b cur : is_space c = true ->
  split_from cur (a ++ c :: b) = split_from cur a ++ split b.
Proof.
  intros S. revert cur. induction a as [|d a IH]; intros cur; cbn [app split_from].
  - rewrite S. destruct cur; reflexivity.
  - destruct (is_space d); rewrite IH; [rewrite app_assoc|]; reflexivity.
Qed.

Lemma split_spaces n b : split (repeat sp n ++ b) = split b.
Proof. induction n; [reflexivity|]. cbn [repeat app]. unfold split in *. cbn. exact IHn. Qed.

(** the words of a literal followed by a number: it must end with a space *)
Definition ends_space (l : bytes) : bool :=
  match rev l with c :: _ => is_space c | [] => false end.

Definition begins_space (l : bytes) : bool := match l with c :: _ => is_space c | [] => false end.

Inductive token := W (w : bytes) | V (x : string).

Definition eval (r : values) (t : token) : bytes := match t with W w => w | V x => snd (r x) end.

(** a line is [L s1; N x1; L s2; N x2; ...]; [s1] ends with a space, the following begin and end
    with one, the last one is empty or begins with one *)
Fixpoint tokens (l : list piece) : list token :=
  match l with
  | [] => []
  | L s :: r => map W (split (lit s)) ++ tokens r
  | N x :: r => V x :: tokens r
  end.

Fixpoint shaped (l : list piece) : bool :=
  match l with
  | [] => true
  | N x :: r =>
      match r with
      | [] => true
      | L s :: r' => (Nat.eqb (length (lit s)) 0 || begins_space (lit s)) && shaped r
      | N _ :: _ => false
      end
  | L s :: r =>
      match r with
      | [] => true
      | N _ :: _ => ends_space (lit s) && shaped r
      | L _ :: _ => false
      end
  end.

Lemma ends_space_inv l : ends_space l = true -> exists a c, l = a ++ [c] /\ is_space c = true.
Proof.
  unfold ends_space. intros H. destruct (rev l) as [|c a] eqn:E; [discriminate|].
  exists (rev a), c. split; auto. rewrite <- (rev_involutive l), E. reflexivity.
Qed.

Lemma split_end a c b : is_space c = true -> split ((a ++ [c]) ++ b) = split (a ++ [c]) ++ split b.
Proof.
  intros S. rewrite <- app_assoc. cbn [app]. unfold split at 1. rewrite split_from_app by auto.
  unfold split at 2. rewrite split_from_app by auto. cbn. rewrite app_nil_r. reflexivity.
Qed.

Lemma split_nl l : split (l ++ [nl]) = split l.
Proof. unfold split. rewrite split_from_app by reflexivity. cbn. apply app_nil_r. Qed.

Lemma split_line r l : values_ok r -> shaped l = true ->
  split (render_line r l ++ [nl]) = map (eval r) (tokens l).
Proof.
  intros VO. induction l as [|p l IH]; intros H; [reflexivity|].
  unfold render_line in *. cbn [flat_map]. rewrite <- app_assoc. destruct p as [s|x].
  - cbn [render_piece tokens]. rewrite map_app, map_map. cbn [eval].
    replace (map (fun x => x) (split (lit s))) with (split (lit s)) by (symmetry; apply map_id).
    destruct l as [|[s'|x'] l].
    + cbn [flat_map app tokens map]. rewrite split_nl, app_nil_r. reflexivity.
    + discriminate.
    + cbn [shaped] in H. apply andb_true_iff in H. destruct H as [H1 H2].
      destruct (ends_space_inv _ H1) as (a & c & E & S). rewrite E, split_end by auto.
      f_equal. apply IH. exact H2.
  - cbn [render_piece tokens map eval]. unfold text. rewrite <- app_assoc, split_spaces.
    destruct (VO x) as [NE NS]. unfold split. rewrite split_from_word by auto. cbn [app].
    assert (F : flush (snd (r x)) = [snd (r x)]) by (destruct (snd (r x)); [congruence|reflexivity]).
    destruct l as [|[s'|x'] l]; [|cbn [shaped] in H; apply andb_true_iff in H; destruct H as [H1 H2]|discriminate].
    + cbn. rewrite F. reflexivity.
    + specialize (IH H2). cbn [flat_map render_piece] in *.
      destruct (lit s') as [|c q] eqn:E.
      * cbn [app] in *. destruct l as [|[|] l]; cbn [shaped] in H2.
        -- cbn. change (is_space nl) with true. cbn. rewrite F, E. reflexivity.
        -- discriminate.
        -- cbn in H2. discriminate.
      * cbn [begins_space length Nat.eqb orb] in H1. cbn [app] in IH |- *.
        cbn [split_from]. rewrite H1, F. cbn [app]. f_equal. rewrite <- IH.
        unfold split. cbn [split_from]. rewrite H1. reflexivity.
Qed.

(** ** the file *)

Definition good_lines (ls : list (list piece)) : bool :=
  forallb (forallb lit_ok) ls && forallb shaped ls.

Lemma good_all s f : good_lines (lines_of s f) = true.
Proof. destruct s, f as [[] [] []]; reflexivity. Qed.

Definition prefixes (s : solver) : list string :=
  "time ="%string :: match checked_of s with Some l => l | None => [] end
  ++ map prefix (cols_of s true).

Lemma decided_all s f p : In p (prefixes s) -> forallb (decided p) (lines_of s f) = true.
Proof.
  revert p. apply Forall_forall. destruct s, f as [[] [] []]; repeat constructor.
Qed.

Lemma readlines_file s f rs : Forall values_ok rs ->
  readlines (file_of s (same f rs))
  = flat_map (fun r => map (fun l => render_line r l ++ [nl]) (lines_of s f)) rs.
Proof.
  intros V. unfold file_of, same. induction rs as [|r rs IH]; [reflexivity|]. inversion V; subst.
  cbn. rewrite readlines_app by apply render_ended. rewrite IH by auto.
  rewrite render_lines; auto. pose proof (good_all s f) as G. apply andb_true_iff in G. tauto.
Qed.

Lemma lines_with_file s f rs p : Forall values_ok rs -> In p (prefixes s) ->
  lines_with p (readlines (file_of s (same f rs)))
  = flat_map (fun r => map (fun l => render_line r l ++ [nl]) (filter (starts p) (lines_of s f))) rs.
Proof.
  intros V P. rewrite readlines_file by auto. rewrite lines_with_flat.
  induction rs as [|r rs IH]; [reflexivity|]. inversion V; subst. cbn. rewrite IH by auto.
  f_equal. apply lines_with_render. apply decided_all; auto.
Qed.

Lemma flat_map_single {A B} (g : A -> B) (l : list A) : flat_map (fun x => [g x]) l = map g l.
Proof. induction l; simpl; congruence. Qed.

Lemma flat_map_nil {A B} (l : list A) : flat_map (fun _ : A => @nil B) l = [].
Proof. induction l; simpl; auto. Qed.

(** what [load] finds for a column *)
Definition col_line (s : solver) (f : flags) (c : col) : option (list piece) :=
  match filter (starts (prefix c)) (lines_of s f) with [l] => Some l | _ => None end.

Lemma cell_at_file s f rs c l x : Forall values_ok rs -> In (prefix c) (prefixes s) ->
  col_line s f c = Some l -> nth_error (tokens l) (idx c) = Some (V x) ->
  forall il r, nth_error rs il = Some r ->
  cell_at c (readlines (file_of s (same f rs))) il = Some (snd (r x)).
Proof.
  intros VO P CL T il r Hr. unfold cell_at. rewrite lines_with_file by auto.
  unfold col_line in CL.
  assert (F : filter (starts (prefix c)) (lines_of s f) = [l]).
  { destruct (filter _ _) as [|a [|b q]]; try discriminate. congruence. }
  rewrite F. cbn [map]. rewrite (flat_map_single (fun r => render_line r l ++ [nl])).
  rewrite nth_error_map, Hr. cbn [option_map].
  assert (G : shaped l = true).
  { pose proof (good_all s f) as G. apply andb_true_iff in G. destruct G as [_ G].
    rewrite forallb_forall in G. apply G. assert (I : In l [l]) by (left; auto).
    rewrite <- F in I. apply filter_In in I. tauto. }
  rewrite split_line; auto.
  - rewrite nth_error_map, T. reflexivity.
  - rewrite Forall_forall in VO. apply VO. eapply nth_error_In; eauto.
Qed.

Lemma collect_some {A B} (g : A -> option B) (h : A -> B) l :
  (forall x, In x l -> g x = Some (h x)) -> collect (map g l) = Some (map h l).
Proof.
  induction l as [|x l IH]; intros H; [reflexivity|]. cbn. rewrite H by (left; auto).
  rewrite IH by (intros; apply H; right; auto). reflexivity.
Qed.

Lemma collect_nth {A} (g : nat -> option A) (l : list A) :
  (forall i a, nth_error l i = Some a -> g i = Some a) ->
  collect (map g (seq 0 (length l))) = Some l.
Proof.
  revert g. induction l as [|a l IH]; intros g H; [reflexivity|].
  cbn [length seq map collect]. rewrite (H 0 a) by reflexivity.
  rewrite <- seq_shift, map_map. rewrite (IH (fun i => g (S i))); [reflexivity|].
  intros i b Hb. apply H. exact Hb.
Qed.

Lemma length_lines_with s f rs p n : Forall values_ok rs -> In p (prefixes s) ->
  length (filter (starts p) (lines_of s f)) = n ->
  length (lines_with p (readlines (file_of s (same f rs)))) = length rs * n.
Proof.
  intros V P E. rewrite lines_with_file by auto. induction rs as [|r rs IH]; [reflexivity|].
  inversion V; subst. specialize (IH ltac:(assumption)). cbn [flat_map length].
  rewrite app_length, map_length. rewrite IH. lia.
Qed.

(** checks on the finite list of templates *)
Definition count (s : solver) (f : flags) (p : string) : nat :=
  length (filter (starts p) (lines_of s f)).

Lemma count_time s f : count s f "time =" = 1.
Proof. destruct s, f as [[] [] []]; reflexivity. Qed.

Lemma count_checked s f ps : checked_of s = Some ps ->
  forallb (fun p => Nat.leb (count s f p) 1) ps = true.
Proof. destruct s, f as [[] [] []]; intros H; inversion H; reflexivity. Qed.

Lemma nb_points_file s f rs : Forall values_ok rs ->
  nb_points (checked_of s) (readlines (file_of s (same f rs))) = length rs.
Proof.
  intros V. unfold nb_points.
  rewrite (length_lines_with s f rs "time =" 1); [|auto|left; auto|apply count_time].
  rewrite Nat.mul_1_r. destruct (checked_of s) as [ps|] eqn:E; [|reflexivity].
  assert (F : forallb (fun p => let n := length (lines_with p (readlines (file_of s (same f rs)))) in
                Nat.eqb n 0 || Nat.eqb n (length rs)) ps = true).
  { apply forallb_forall. intros p Hp. cbn zeta.
    pose proof (count_checked s f ps E) as C. rewrite forallb_forall in C. specialize (C p Hp).
    apply Nat.leb_le in C.
    rewrite (length_lines_with s f rs p (count s f p)); auto.
    2:{ unfold prefixes. rewrite E. right. apply in_or_app. left; auto. }
    destruct (count s f p) as [|[|k]]; [rewrite Nat.mul_0_r; reflexivity| |lia].
    rewrite Nat.mul_1_r, Nat.eqb_refl. apply orb_true_r. }
  match goal with |- (if ?b then _ else _) = _ => replace b with true by (symmetry; exact F) end.
  reflexivity.
Qed.

(** the column is present, and the word read is the value of [x] *)
Definition reads (s : solver) (f : flags) (c : col) (x : string) : Prop :=
  exists l, col_line s f c = Some l /\ nth_error (tokens l) (idx c) = Some (V x).

Definition cols_here (s : solver) (f : flags) : list col :=
  filter (fun c => negb (optional c) || negb (Nat.eqb (count s f (prefix c)) 0))
         (cols_of s (forcing f)).

Lemma prefixes_cols s f c : In c (cols_of s f) -> In (prefix c) (prefixes s).
Proof.
  assert (H : forallb (fun c => existsb (String.eqb (prefix c)) (prefixes s)) (cols_of s f) = true)
    by (destruct s, f; reflexivity).
  rewrite forallb_forall in H. intros Hc. specialize (H c Hc). apply existsb_exists in H.
  destruct H as (p & Hp & E). apply String.eqb_eq in E. congruence.
Qed.

Lemma cols_here_spec s f : map cname (cols_here s f) = names s f.
Proof. destruct s, f as [[] [] []]; reflexivity. Qed.

Definition source (s : solver) (x : string) : string :=
  match s with NS2DStrat => if String.eqb x "PA2" then "PA1"%string else x | _ => x end.

Lemma cols_here_read s f : Forall (fun c => reads s f c (source s (cname c))) (cols_here s f).
Proof.
  destruct s, f as [[] [] []]; repeat (constructor; [eexists; split; reflexivity|]); constructor.
Qed.

Lemma load_file s f rs : Forall values_ok rs -> rs <> [] ->
  load s (forcing f) (file_of s (same f rs))
  = Some (map (fun x => (x, map (fun r : values => snd (r (source s x))) rs)) (names s f)).
Proof.
  intros VO NE. unfold load. rewrite nb_points_file by auto.
  set (lines := readlines _).
  assert (G : match s with
    | NS3DStrat => Nat.eqb (length (lines_with "EA   =" lines)) 0 | _ => false end = false).
  { destruct s; auto. unfold lines.
    rewrite (length_lines_with NS3DStrat f rs "EA   =" 1); auto.
    - destruct rs; [congruence|reflexivity].
    - cbn; tauto.
    - destruct f as [[] [] []]; reflexivity. }
  rewrite G.
  assert (P : filter (fun c => present c lines) (cols_of s (forcing f)) = cols_here s f).
  { unfold cols_here. apply filter_ext_in. intros c Hc. unfold present. f_equal. f_equal.
    unfold lines. rewrite (length_lines_with s f rs (prefix c) (count s f (prefix c))); auto.
    2:{ eapply prefixes_cols; eauto. }
    destruct rs as [|r rs]; [congruence|]. cbn [length]. destruct (count s f (prefix c)); cbn.
    - rewrite Nat.mul_0_r. reflexivity.
    - reflexivity. }
  rewrite P, <- cols_here_spec, map_map.
  apply (collect_some _ (fun c => (cname c, map (fun r : values => snd (r (source s (cname c)))) rs))).
  intros c Hc. pose proof (cols_here_read s f) as R. rewrite Forall_forall in R.
  destruct (R c Hc) as (l & CL & T).
  replace (length rs) with (length (map (fun r : values => snd (r (source s (cname c)))) rs))
    by apply map_length.
  rewrite collect_nth; [reflexivity|]. intros i a Hi. rewrite nth_error_map in Hi.
  destruct (nth_error rs i) as [r|] eqn:E; [|discriminate]. injection Hi as <-.
  eapply cell_at_file; eauto. apply (prefixes_cols s (forcing f)).
  unfold cols_here in Hc. apply filter_In in Hc. tauto.
Qed.

(** ** the last time *)

Definition time_line (r : values) : bytes := render_line r [L "time = "; N "t"] ++ [nl].

Lemma last_fold (ls : list bytes) acc :
  forallb (fun l => negb (startswith (lit "time =") l)) ls = true ->
  fold_left (fun acc line => if startswith (lit "time =") line then Some line else acc) ls acc = acc.
Proof.
  induction ls as [|l ls IH]; cbn -[startswith]; intros H; [reflexivity|].
  apply andb_true_iff in H. destruct H as [H1 H2].
  destruct (startswith _ l); [discriminate|]. auto.
Qed.

Lemma skipn_app_ended (pre b : bytes) n : n <= length (pre ++ [nl]) ->
  exists x, skipn n ((pre ++ [nl]) ++ b) = x ++ b /\ ended x.
Proof.
  intros H. exists (skipn n (pre ++ [nl])). split.
  - rewrite skipn_app. f_equal. replace (n - length (pre ++ [nl])) with 0 by lia. reflexivity.
  - destruct (Nat.eq_dec n (length (pre ++ [nl]))) as [->|].
    + left. apply skipn_all.
    + right. rewrite app_length in *. cbn in *. exists (skipn n pre).
      rewrite skipn_app. replace (n - length pre) with 0 by lia. reflexivity.
Qed.

Lemma time_last_general pre r body :
  values_ok r -> forallb (forallb lit_ok) body = true ->
  forallb (fun l => decided "time =" l && negb (starts "time =" l)) body = true ->
  length (time_line r ++ render r body) <= 1000 ->
  time_last_saved ((pre ++ [nl]) ++ time_line r ++ render r body) = Some (snd (r "t"%string)).
Proof.
  intros V GO NT LE. unfold time_last_saved, tail_of. set (file := (pre ++ [nl]) ++ _ ++ _).
  assert (LF : length file = length (pre ++ [nl]) + length (time_line r ++ render r body))
    by (unfold file; apply app_length).
  destruct (skipn_app_ended pre (time_line r ++ render r body)
              (length file - Nat.min (length file) 1000)) as (x & E & EN); [lia|].
  fold file in E. rewrite E.
  assert (Q : readlines (x ++ time_line r ++ render r body)
              = readlines x ++ [time_line r] ++ map (fun l => render_line r l ++ [nl]) body).
  { rewrite readlines_app by auto. f_equal. unfold time_line at 1. rewrite <- app_assoc. cbn [app].
    rewrite readlines_cons.
    - rewrite render_lines by auto. reflexivity.
    - apply line_no_nl; auto. }
  rewrite Q, fold_left_app, fold_left_app. cbn [fold_left].
  replace (startswith (lit "time =") (time_line r)) with true.
  2:{ symmetry. unfold time_line. apply starts_render. reflexivity. }
  rewrite last_fold.
  - unfold time_line. rewrite split_line by auto. reflexivity.
  - apply forallb_forall. intros l Hl. apply in_map_iff in Hl. destruct Hl as (p & <- & Hp).
    rewrite forallb_forall in NT. specialize (NT p Hp). apply andb_true_iff in NT.
    destruct NT as [D N]. rewrite starts_render by auto. exact N.
Qed.

Definition rest_of (s : solver) (f : flags) : list (list piece) := skipn 2 (lines_of s f).

Lemma lines_of_split s f : lines_of s f = header ++ rest_of s f.
Proof. destruct s; reflexivity. Qed.

Lemma rest_of_ok s f : forallb (forallb lit_ok) (rest_of s f) = true
  /\ forallb (fun l => decided "time =" l && negb (starts "time =" l)) (rest_of s f) = true.
Proof. destruct s, f as [[] [] []]; split; reflexivity. Qed.

Lemma render_app r a b : render r (a ++ b) = render r a ++ render r b.
Proof. apply flat_map_app. Qed.

(** number of bytes of a record *)
Definition piece_bound (s : solver) (p : piece) : nat :=
  match p with L x => length (lit x) | N x => width s x end.

Definition line_bound (s : solver) (l : list piece) : nat :=
  fold_right (fun p n => piece_bound s p + n) 1 l.

Definition bound (s : solver) (ls : list (list piece)) : nat :=
  fold_right (fun l n => line_bound s l + n) 0 ls.

Lemma line_length s r l : widths_ok s r -> length (render_line r l ++ [nl]) <= line_bound s l.
Proof.
  intros H. unfold render_line. induction l as [|p l IH]; [reflexivity|].
  cbn [flat_map line_bound fold_right]. rewrite <- app_assoc, app_length. fold (line_bound s l).
  destruct p as [x|x]; cbn [render_piece piece_bound]; [|specialize (H x)]; lia.
Qed.

Lemma render_length s r ls : widths_ok s r -> length (render r ls) <= bound s ls.
Proof.
  intros H. unfold render, bound. induction ls as [|l ls IH]; [reflexivity|].
  cbn [flat_map fold_right]. rewrite app_length.
  pose proof (line_length s r l H). lia.
Qed.

Lemma bound_all s f : Nat.leb (bound s (skipn 1 (lines_of s f))) 1000 = true.
Proof. destruct s, f as [[] [] []]; reflexivity. Qed.

(** ** incomplete last record *)

Definition partial_file (s : solver) (f : flags) (rs : list values) (r : values) (k : nat) : bytes :=
  file_of s (same f rs) ++ render r (firstn k (lines_of s f)).

Lemma forallb_firstn {A} (g : A -> bool) k l : forallb g l = true -> forallb g (firstn k l) = true.
Proof.
  revert l. induction k as [|k IH]; intros [|a l]; simpl; auto.
  rewrite !andb_true_iff. intros [H1 H2]; auto.
Qed.

Lemma file_ended s rs : ended (file_of s rs).
Proof. apply ended_flat. intros. apply render_ended. Qed.

Lemma lines_with_partial s f rs r k p : Forall values_ok rs -> values_ok r -> In p (prefixes s) ->
  lines_with p (readlines (partial_file s f rs r k))
  = lines_with p (readlines (file_of s (same f rs)))
    ++ map (fun l => render_line r l ++ [nl]) (filter (starts p) (firstn k (lines_of s f))).
Proof.
  intros V VR P. unfold partial_file. rewrite readlines_app by apply file_ended.
  rewrite lines_with_app. f_equal.
  pose proof (good_all s f) as G. apply andb_true_iff in G. destruct G as [G _].
  rewrite render_lines by (auto using forallb_firstn). apply lines_with_render.
  apply forallb_firstn. apply decided_all; auto.
Qed.

Definition count_k (s : solver) (f : flags) (k : nat) (p : string) : nat :=
  length (filter (starts p) (firstn k (lines_of s f))).

Lemma length_partial s f rs r k p : Forall values_ok rs -> values_ok r -> In p (prefixes s) ->
  length (lines_with p (readlines (partial_file s f rs r k)))
  = length rs * count s f p + count_k s f k p.
Proof.
  intros. rewrite lines_with_partial by auto. rewrite app_length, map_length.
  erewrite length_lines_with by eauto. reflexivity.
Qed.

(** some checked line is missing in an incomplete record which has its time *)
Definition missing (s : solver) (f : flags) (k : nat) : bool :=
  match checked_of s with
  | None => false
  | Some ps => existsb (fun p => Nat.eqb (count s f p) 1 && Nat.eqb (count_k s f k p) 0) ps
  end.

Definition checks (s : solver) : bool := match checked_of s with None => false | _ => true end.

Lemma missing_all s f k : checks s = true -> 2 <= k < length (lines_of s f) -> missing s f k = true.
Proof.
  intros C H. destruct s; try discriminate; destruct f as [[] [] []]; cbn in H;
    do 12 (destruct k as [|k]; [try reflexivity; lia|]); lia.
Qed.

Lemma count_k_time s f k : 2 <= k -> count_k s f k "time =" = 1.
Proof.
  intros H. destruct k as [|[|k]]; try lia. unfold count_k. rewrite lines_of_split.
  cbn [firstn header app]. change (starts "time =" [L "####"]) with false.
  cbn [filter starts]. change (startswith (lit "time =") (lit "####")) with false.
  change (startswith (lit "time =") (lit "time = ")) with true. cbn [length]. f_equal.
  destruct (rest_of_ok s f) as [_ R].
  apply (forallb_firstn _ k) in R. revert R. generalize (firstn k (rest_of s f)).
  induction l as [|a l IH]; cbn [forallb filter]; intros R; [reflexivity|].
  apply andb_true_iff in R. destruct R as [R1 R2]. apply andb_true_iff in R1. destruct R1 as [_ R1].
  destruct (starts "time =" a); [discriminate|auto].
Qed.

Lemma nb_points_partial s f rs r k : Forall values_ok rs -> values_ok r -> rs <> [] ->
  checks s = true -> k < length (lines_of s f) ->
  nb_points (checked_of s) (readlines (partial_file s f rs r k)) = length rs.
Proof.
  intros V VR NE CH K. assert (IT : In "time ="%string (prefixes s)) by (left; auto).
  assert (IP : forall ps p, checked_of s = Some ps -> In p ps -> In p (prefixes s)).
  { intros ps p E Hp. unfold prefixes. rewrite E. right. apply in_or_app; auto. }
  unfold nb_points. rewrite length_partial by auto. rewrite count_time.
  destruct (checked_of s) as [ps|] eqn:E; [|unfold checks in CH; rewrite E in CH; discriminate].
  destruct (Nat.lt_ge_cases k 2) as [K2|K2].
  - (* nothing but #### *)
    assert (Z : forall p, In p (prefixes s) -> count_k s f k p = 0).
    { intros p Hp. unfold count_k. rewrite lines_of_split.
      assert (N : starts p [L "####"] = false).
      { clear - Hp. revert p Hp. apply Forall_forall. destruct s; repeat constructor. }
      destruct k as [|[|]]; [reflexivity| |lia]. cbn [header app firstn filter]. rewrite N. reflexivity. }
    rewrite Z by auto. rewrite Nat.add_0_r, Nat.mul_1_r.
    assert (F : forallb (fun p => let n := length (lines_with p (readlines (partial_file s f rs r k))) in
                Nat.eqb n 0 || Nat.eqb n (length rs)) ps = true).
    { apply forallb_forall. intros p Hp. cbn zeta. rewrite length_partial by eauto.
      rewrite Z by eauto. pose proof (count_checked s f ps E) as C. rewrite forallb_forall in C.
      specialize (C p Hp). apply Nat.leb_le in C.
      destruct (count s f p) as [|[|j]]; [rewrite Nat.mul_0_r; reflexivity| |lia].
      rewrite Nat.mul_1_r, Nat.add_0_r, Nat.eqb_refl. apply orb_true_r. }
    match goal with |- (if ?b then _ else _) = _ => replace b with true by (symmetry; exact F) end.
    reflexivity.
  - rewrite count_k_time by auto.
    assert (F : forallb (fun p => let n := length (lines_with p (readlines (partial_file s f rs r k))) in
                Nat.eqb n 0 || Nat.eqb n (length rs * 1 + 1)) ps = false).
    { pose proof (missing_all s f k CH (conj K2 K)) as M. unfold missing in M. rewrite E in M.
      apply existsb_exists in M. destruct M as (p & Hp & M). apply andb_true_iff in M.
      destruct M as [M1 M2]. apply Nat.eqb_eq in M1, M2.
      destruct (forallb _ ps) eqn:FB; [|reflexivity]. rewrite forallb_forall in FB.
      specialize (FB p Hp). cbn zeta in FB. rewrite length_partial in FB by eauto.
      rewrite M1, M2 in FB. destruct rs as [|r0 rs]; [congruence|]. cbn [length] in FB.
      apply orb_true_iff in FB. destruct FB as [FB|FB]; apply Nat.eqb_eq in FB; lia. }
    match goal with |- (if ?b then _ else _) = _ => replace b with false by (symmetry; exact F) end.
    lia.
Qed.

Lemma count_k_le s f k p : count_k s f k p <= count s f p.
Proof.
  unfold count_k, count. rewrite <- (firstn_skipn k (lines_of s f)) at 2.
  rewrite filter_app, app_length. lia.
Qed.

Lemma load_partial s f rs r k : Forall values_ok rs -> values_ok r -> rs <> [] ->
  checks s = true -> k < length (lines_of s f) ->
  load s (forcing f) (partial_file s f rs r k) = load s (forcing f) (file_of s (same f rs)).
Proof.
  intros V VR NE CH K. unfold load. rewrite nb_points_partial, nb_points_file by auto.
  assert (PZ : forall p, In p (prefixes s) ->
    Nat.eqb (length (lines_with p (readlines (partial_file s f rs r k)))) 0
    = Nat.eqb (length (lines_with p (readlines (file_of s (same f rs))))) 0).
  { intros p Hp. rewrite length_partial by auto. rewrite (length_lines_with s f rs p (count s f p)) by auto.
    pose proof (count_k_le s f k p). destruct rs as [|r0 rs]; [congruence|]. cbn [length].
    destruct (count s f p); [replace (count_k s f k p) with 0 by lia; rewrite Nat.add_0_r|]; reflexivity. }
  replace (match s with NS3DStrat => Nat.eqb (length (lines_with "EA   =" (readlines (partial_file s f rs r k)))) 0
    | _ => false end) with (match s with NS3DStrat => Nat.eqb (length (lines_with "EA   =" (readlines (file_of s (same f rs))))) 0
    | _ => false end).
  2:{ destruct s; auto. rewrite PZ; [reflexivity|]. cbn; tauto. }
  destruct (match s with NS3DStrat => _ | _ => false end); [reflexivity|].
  f_equal.
  assert (FE : filter (fun c => present c (readlines (partial_file s f rs r k))) (cols_of s (forcing f))
             = filter (fun c => present c (readlines (file_of s (same f rs)))) (cols_of s (forcing f))).
  { apply filter_ext_in. intros c Hc. unfold present. rewrite PZ; [reflexivity|]. eapply prefixes_cols; eauto. }
  rewrite FE. apply map_ext_in. intros c Hc. apply filter_In in Hc. destruct Hc as [Hc HP].
  assert (HH : In c (cols_here s f)).
  { apply filter_In. split; auto. unfold present in HP.
    rewrite (length_lines_with s f rs (prefix c) (count s f (prefix c))) in HP; auto.
    2:{ eapply prefixes_cols; eauto. }
    destruct (optional c); cbn in *; auto.
    destruct (count s f (prefix c)); [rewrite Nat.mul_0_r in HP; discriminate|reflexivity]. }
  assert (CE : map (cell_at c (readlines (partial_file s f rs r k))) (seq 0 (length rs))
             = map (cell_at c (readlines (file_of s (same f rs)))) (seq 0 (length rs))).
  { apply map_ext_in. intros i Hi. apply in_seq in Hi. unfold cell_at.
    rewrite lines_with_partial by (auto; eapply prefixes_cols; eauto).
    rewrite nth_error_app1; [reflexivity|].
    rewrite (length_lines_with s f rs (prefix c) (count s f (prefix c))); auto.
    2:{ eapply prefixes_cols; eauto. }
    pose proof (cols_here_read s f) as R. rewrite Forall_forall in R.
    destruct (R c HH) as (l & CL & _). unfold count. unfold col_line in CL.
    destruct (filter (starts (prefix c)) (lines_of s f)) as [|a [|b q]]; try discriminate. cbn. lia. }
  rewrite CE. reflexivity.
Qed.

(** ** first time *)

Lemma first_loop_never rest : forallb (fun l => negb (startswith (lit "time =") l)) rest = true ->
  forall fuel line, startswith (lit "time =") line = false -> first_loop fuel line rest = None.
Proof.
  intros H fuel. revert rest H. induction fuel as [|n IH]; intros rest H line E;
    cbn [first_loop]; rewrite E; [reflexivity|].
  destruct rest as [|l r]; [apply IH; auto|]. cbn [forallb] in H. apply andb_true_iff in H.
  destruct H as [H1 H2]. apply IH; auto. destruct (startswith _ l); [discriminate|reflexivity].
Qed.

(** ** JSON *)

Lemma fold_last {A} (l : list A) (a : A) acc :
  fold_left (fun _ x => Some x) (l ++ [a]) acc = Some a.
Proof. rewrite fold_left_app. reflexivity. Qed.

Lemma json_last_general pre j : ended pre -> no_nl j -> length j + 1 <= 1000 ->
  json_last (pre ++ j ++ [nl]) = Some (j ++ [nl]).
Proof.
  intros [->|[p ->]] NN LE.
  - cbn [app]. unfold json_last, tail_of. rewrite app_length. cbn [length].
    replace (Nat.min (length j + 1) 1000) with (length j + 1) by lia.
    rewrite Nat.sub_diag. cbn [skipn]. rewrite readlines_cons by auto. reflexivity.
  - unfold json_last, tail_of. set (file := (p ++ [nl]) ++ j ++ [nl]).
    assert (LF : length file = length (p ++ [nl]) + length (j ++ [nl])) by (unfold file; apply app_length).
    destruct (skipn_app_ended p (j ++ [nl]) (length file - Nat.min (length file) 1000)) as (x & E & EN).
    { rewrite app_length in LF. rewrite (app_length j) in LF. cbn [length] in *. rewrite app_length. cbn [length]. lia. }
    fold file in E. rewrite E, readlines_app by auto. rewrite readlines_cons by auto.
    cbn [readlines]. apply fold_last.
Qed.

Lemma lit_no_nl_check s : forallb (fun c => negb (Ascii.eqb c nl)) (lit s) = true -> no_nl (lit s).
Proof. auto. Qed.

Definition items_ok (r : list (string * bytes)) : Prop :=
  Forall (fun kv => no_nl (lit (fst kv)) /\ no_nl (snd kv)) r.

Lemma json_item_no_nl kv : no_nl (lit (fst kv)) -> no_nl (snd kv) -> no_nl (json_item kv).
Proof. intros. unfold json_item. repeat apply no_nl_app; auto; reflexivity. Qed.

Lemma json_dump_no_nl r : items_ok r -> no_nl (json_dump r).
Proof.
  intros H. unfold json_dump. apply no_nl_app; [reflexivity|]. apply no_nl_app; [|reflexivity].
  induction H as [|kv r [H1 H2] H IH]; [reflexivity|].
  cbn [json_items]. destruct r as [|kv' r]; [apply json_item_no_nl; auto|].
  apply no_nl_app; [apply json_item_no_nl; auto|]. apply no_nl_app; [reflexivity|exact IH].
Qed.
