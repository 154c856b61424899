(** C167: the edges of the cells; C168: the cross sections; C169: the positions of the vectors. *)
From Coq Require Import String Ascii QArith Qabs Qround ZArith List Bool Lia Lqa Arith Sorted.
From Verif Require Import Hexa_Model.
From Verif Require PhysFiles_Proofs.
Import ListNotations.
Local Open Scope Q_scope.

(** ** C167 *)

Theorem c167_corners : forall (ny nx : nat) (v : arr2), (1 <= ny)%nat -> (1 <= nx)%nat ->
  get_edges_2d ny nx v 0%nat 0%nat = v 0%nat 0%nat /\ get_edges_2d ny nx v ny 0%nat = v (ny - 1)%nat 0%nat
  /\ get_edges_2d ny nx v 0%nat nx = v 0%nat (nx - 1)%nat /\ get_edges_2d ny nx v ny nx = v (ny - 1)%nat (nx - 1)%nat.
Proof.
  intros ny nx v Hy Hx. unfold get_edges_2d. rewrite !Nat.eqb_refl.
  replace (ny =? 0)%nat with false by (symmetry; apply Nat.eqb_neq; lia). replace (nx =? 0)%nat with false by (symmetry; apply Nat.eqb_neq; lia).
  rewrite !orb_true_r. cbn [orb andb]. repeat split.
Qed.

(** no edge out of the points *)
Theorem c167_bounds : forall (ny nx : nat) (v : arr2) (a b : Q), (1 <= ny)%nat -> (1 <= nx)%nat ->
  (forall iy ix, (iy < ny)%nat -> (ix < nx)%nat -> a <= v iy ix <= b) ->
  forall iy ix, (iy <= ny)%nat -> (ix <= nx)%nat -> a <= get_edges_2d ny nx v iy ix <= b.
Proof.
  intros ny nx v a b Hy Hx B iy ix Iy Ix. unfold get_edges_2d.
  destruct (Nat.eqb_spec iy 0), (Nat.eqb_spec iy ny), (Nat.eqb_spec ix 0), (Nat.eqb_spec ix nx); cbn [orb andb]; try lia; try (apply B; lia);
  try (assert (H1 := B (iy - 1)%nat 0%nat ltac:(lia) ltac:(lia)); assert (H2 := B iy 0%nat ltac:(lia) ltac:(lia)); lra);
  try (assert (H1 := B (iy - 1)%nat (nx - 1)%nat ltac:(lia) ltac:(lia)); assert (H2 := B iy (nx - 1)%nat ltac:(lia) ltac:(lia)); lra);
  try (assert (H1 := B 0%nat (ix - 1)%nat ltac:(lia) ltac:(lia)); assert (H2 := B 0%nat ix ltac:(lia) ltac:(lia)); lra);
  try (assert (H1 := B (ny - 1)%nat (ix - 1)%nat ltac:(lia) ltac:(lia)); assert (H2 := B (ny - 1)%nat ix ltac:(lia) ltac:(lia)); lra).
  assert (H1 := B (iy - 1)%nat (ix - 1)%nat ltac:(lia) ltac:(lia)). assert (H2 := B iy ix ltac:(lia) ltac:(lia)).
  assert (H3 := B iy (ix - 1)%nat ltac:(lia) ltac:(lia)). assert (H4 := B (iy - 1)%nat ix ltac:(lia) ltac:(lia)). lra.
Qed.

Lemma edges_x ny nx v x : (1 <= ny)%nat -> (1 <= nx)%nat -> (forall iy ix, (iy < ny)%nat -> (ix < nx)%nat -> v iy ix == x ix) ->
  forall iy ix, (iy <= ny)%nat -> (ix <= nx)%nat ->
  get_edges_2d ny nx v iy ix == (if Nat.eqb ix 0 then x 0%nat else if Nat.eqb ix nx then x (nx - 1)%nat else (1 # 2) * (x (ix - 1)%nat + x ix)).
Proof.
  intros Hy Hx E iy ix Iy Ix. unfold get_edges_2d.
  destruct (Nat.eqb_spec iy 0), (Nat.eqb_spec iy ny), (Nat.eqb_spec ix 0), (Nat.eqb_spec ix nx); cbn [orb andb]; try lia; rewrite ?E by lia; ring.
Qed.

(** a rectangular element: each point is in its cell; the edges are in the middle of the points *)
Theorem c167_cells : forall (ny nx : nat) (v : arr2) (x : nat -> Q), (1 <= ny)%nat -> (1 <= nx)%nat ->
  (forall iy ix, (iy < ny)%nat -> (ix < nx)%nat -> v iy ix == x ix) -> (forall i j, (i < j < nx)%nat -> x i < x j) ->
  forall iy, (iy <= ny)%nat ->
    get_edges_2d ny nx v iy 0%nat == x 0%nat /\ get_edges_2d ny nx v iy nx == x (nx - 1)%nat
    /\ (forall ix, (ix < nx)%nat -> get_edges_2d ny nx v iy ix <= x ix <= get_edges_2d ny nx v iy (S ix))
    /\ (forall ix, (1 <= ix < nx)%nat -> get_edges_2d ny nx v iy ix == (x (ix - 1)%nat + x ix) / 2).
Proof.
  intros ny nx v x Hy Hx E I iy Iy. pose proof (edges_x ny nx v x Hy Hx E iy) as G. split; [|split; [|split]].
  - rewrite G by lia. reflexivity.
  - rewrite G by lia. rewrite Nat.eqb_refl. destruct (Nat.eqb_spec nx 0); [lia|reflexivity].
  - intros ix Hix. rewrite !G by lia. destruct (Nat.eqb_spec (S ix) 0); [lia|].
    replace (S ix - 1)%nat with ix by lia.
    assert (M : forall j, (ix < j < nx)%nat -> x ix < x j) by (intros; apply I; lia). assert (P : forall j, (j < ix)%nat -> x j < x ix) by (intros; apply I; lia).
    split.
    + destruct (Nat.eqb_spec ix 0) as [->|]; [lra|]. destruct (Nat.eqb_spec ix nx); [lia|]. specialize (P (ix - 1)%nat ltac:(lia)). lra.
    + destruct (Nat.eqb_spec (S ix) nx) as [<-|]; [replace (S ix - 1)%nat with ix by lia; lra|]. specialize (M (S ix) ltac:(lia)). lra.
  - intros ix Hix. rewrite G by lia. destruct (Nat.eqb_spec ix 0), (Nat.eqb_spec ix nx); try lia. field.
Qed.
Example c167_example : get_edges_2d 1 3 (fun _ ix => inject_Z (Z.of_nat ix)) 0%nat 1%nat == 1 # 2. Proof. reflexivity. Qed.

(** ** C168 *)

Lemma argmin_range l : l <> [] -> (argmin l < length l)%nat. Proof. apply PhysFiles_Proofs.argmin_lt. Qed.
Lemma existsb_flat e f (p : Q -> bool) : existsb p (all_values e f) = true <-> exists iz iy ix, (iz < nz e)%nat /\ (iy < ny e)%nat /\ (ix < nx e)%nat /\ p (f iz iy ix) = true.
Proof.
  rewrite existsb_exists. unfold all_values. split.
  - intros (v & Hv & P). apply in_flat_map in Hv as (iz & H1 & Hv). apply in_flat_map in Hv as (iy & H2 & Hv). apply in_map_iff in Hv as (ix & <- & H3).
    apply in_seq in H1, H2, H3. exists iz, iy, ix. repeat (split; [lia|]). exact P.
  - intros (iz & iy & ix & H1 & H2 & H3 & P). exists (f iz iy ix). split; [|exact P]. apply in_flat_map. exists iz. split; [apply in_seq; lia|].
    apply in_flat_map. exists iy. split; [apply in_seq; lia|]. apply in_map_iff. exists ix. split; [reflexivity|apply in_seq; lia].
Qed.

(** the element has points on both sides *)
Definition has_both_sides (e : element) (f : arr3) (t : Q) : Prop :=
  (exists iz iy ix, (iz < nz e)%nat /\ (iy < ny e)%nat /\ (ix < nx e)%nat /\ f iz iy ix <= t) /\ (exists iz iy ix, (iz < nz e)%nat /\ (iy < ny e)%nat /\ (ix < nx e)%nat /\ t <= f iz iy ix).
Lemma crosses_spec e f t : crosses e f t = true <-> has_both_sides e f t.
Proof.
  unfold crosses, has_both_sides. rewrite andb_true_iff, !existsb_flat. split; intros [(a & b & c & H1 & H2 & H3 & H4) (a' & b' & c' & H1' & H2' & H3' & H4')];
  (split; [exists a, b, c|exists a', b', c']); repeat (split; [assumption|]); now apply Qle_bool_iff.
Qed.

Lemma substring_all s : substring 0 (String.length s) s = s.
Proof. induction s as [|c s IH]; [reflexivity|]. cbn. now rewrite IH. Qed.
Lemma after2_spec a b s : after2 (String a (String b s)) = s.
Proof. unfold after2. cbn [String.length]. replace (S (S (String.length s)) - 2)%nat with (String.length s) by lia. change (substring 2 (String.length s) (String a (String b s))) with (substring 0 (String.length s) s). apply substring_all. Qed.

(** z=...: the elements across the plane, and for each its nearest plane of points *)
Theorem c168_z_partial : forall (float : string -> Q) (elems : list element) (text : string), elems <> [] ->
  let t := float text in
  exists sel, cross_section float elems (String "z" (String "=" text)) = Some (map (fun e => section_z e t) sel)
  /\ (forall e, In e sel <-> In e elems /\ has_both_sides e (pos_z e) t)
  /\ forall e (z : nat -> Q), In e sel -> (forall iz iy ix, (iz < nz e)%nat -> (iy < ny e)%nat -> (ix < nx e)%nat -> pos_z e iz iy ix == z iz) ->
     exists i, (i < nz e)%nat /\ (forall iy ix, section_z e t iy ix = values e i iy ix) /\ forall j, (j < nz e)%nat -> Qabs (z i - t) <= Qabs (z j - t).
Proof.
  intros float elems text N t. exists (filter (fun e => crosses e (pos_z e) t) elems). split; [|split].
  - destruct elems as [|e l]; [contradiction|]. unfold cross_section. rewrite after2_spec. cbn [prefix]. destruct (ascii_dec "z" "z"); [|congruence]. destruct (ascii_dec "=" "="); [|congruence]. destruct text; reflexivity.
  - intros e. rewrite filter_In, crosses_spec. reflexivity.
  - intros e z He Hz. apply filter_In in He as [_ He]. apply crosses_spec in He as [(a & b & c & H1 & H2 & H3 & _) _].
    set (l := map (fun iz => Qabs (pos_z e iz 0%nat 0%nat - t)) (seq 0 (nz e))).
    assert (Ll : length l = nz e) by (unfold l; now rewrite map_length, seq_length).
    assert (Nl : l <> []) by (intros E0; rewrite E0 in Ll; cbn in Ll; lia).
    assert (R : (argmin l < nz e)%nat) by (rewrite <- Ll; now apply argmin_range).
    exists (argmin l). split; [exact R|]. split; [reflexivity|]. intros j Hj.
    assert (G : forall k, (k < nz e)%nat -> nth k l 0 == Qabs (z k - t)).
    { intros k Hk. unfold l. rewrite (nth_indep _ 0 (Qabs (pos_z e 0%nat 0%nat 0%nat - t))) by (rewrite map_length, seq_length; exact Hk).
      rewrite (map_nth (fun iz => Qabs (pos_z e iz 0%nat 0%nat - t))), seq_nth by exact Hk. cbn [Nat.add]. rewrite Hz by lia. reflexivity. }
    rewrite <- (G _ R), <- (G _ Hj). apply PhysFiles_Proofs.argmin_min. now rewrite Ll.
Qed.

Lemma argmin_const l c : (forall x, In x l -> x == c) -> argmin l = 0%nat.
Proof.
  induction l as [|x l IH]; intros H; [reflexivity|]. unfold argmin in *. cbn [PhysFiles_Model.argmin]. destruct l as [|y l]; [reflexivity|].
  rewrite IH by (intros z Hz; apply H; now right). cbn [nth]. replace (Qle_bool x y) with true; [reflexivity|]. symmetry. apply Qle_bool_iff. rewrite (H x), (H y); [apply Qle_refl|right; now left|now left].
Qed.

(** y=..., x=...: for a rectangular element, always the first row, the first column *)
Theorem c168_first_index : forall (e : element) (t : Q) (y x : nat -> Q), (1 <= ny e)%nat -> (1 <= nx e)%nat ->
  ((forall iz iy ix, (iz < nz e)%nat -> (iy < ny e)%nat -> (ix < nx e)%nat -> pos_y e iz iy ix == y iy) -> forall iz ix, section_y e t iz ix = values e iz 0%nat ix)
  /\ ((forall iz iy ix, (iz < nz e)%nat -> (iy < ny e)%nat -> (ix < nx e)%nat -> pos_x e iz iy ix == x ix) -> forall iz iy, section_x e t iz iy = values e iz iy 0%nat).
Proof.
  intros e t y x Hy Hx. split; intros H a b.
  - unfold section_y. f_equal. unfold index_first_axis. apply (argmin_const _ (Qabs (y 0%nat - t))). intros v Hv. apply in_map_iff in Hv as (iz & <- & Hz). apply in_seq in Hz. rewrite H by lia. reflexivity.
  - unfold section_x. f_equal. unfold index_first_axis. apply (argmin_const _ (Qabs (x 0%nat - t))). intros v Hv. apply in_map_iff in Hv as (iz & <- & Hz). apply in_seq in Hz. rewrite H by lia. reflexivity.
Qed.

Definition q_of (i : nat) : Q := inject_Z (Z.of_nat i).
Definition el : element := mkElement 2 2 2 (fun _ _ ix => q_of ix) (fun _ iy _ => q_of iy) (fun iz _ _ => q_of iz) (fun _ iy ix => q_of iy + 10 * q_of ix).
Theorem c168_y_refuted : exists (float : string -> Q) (e : element) (a : arr2),
  (forall iz iy ix, pos_y e iz iy ix == q_of iy /\ values e iz iy ix == q_of iy + 10 * q_of ix) /\ float "1"%string == 1
  /\ cross_section float [e] "y=1" = Some [a] /\ a 0%nat 0%nat == 0 /\ ~ a 0%nat 0%nat == values e 0%nat 1%nat 0%nat.
Proof. exists (fun _ => 1), el. eexists. split; [intros; split; reflexivity|]. split; [reflexivity|]. split; [reflexivity|]. split; [reflexivity|]. intros H. vm_compute in H. discriminate. Qed.
Theorem c168_x_refuted : exists (float : string -> Q) (e : element) (a : arr2),
  (forall iz iy ix, pos_x e iz iy ix == q_of ix /\ values e iz iy ix == q_of iy + 10 * q_of ix) /\ float "1"%string == 1
  /\ cross_section float [e] "x=1" = Some [a] /\ a 0%nat 0%nat == 0 /\ ~ a 0%nat 0%nat == values e 0%nat 0%nat 1%nat.
Proof. exists (fun _ => 1), el. eexists. split; [intros; split; reflexivity|]. split; [reflexivity|]. split; [reflexivity|]. split; [reflexivity|]. intros H. vm_compute in H. discriminate. Qed.
(** the spaces are removed for the labels of the axes only *)
Theorem c168_spaces_refuted : exists (equation : string), letters_axes equation = letters_axes (remove_spaces equation) /\ letters_axes equation <> None
  /\ forall float elems, elems <> [] -> cross_section float elems equation = None.
Proof. exists "z = 0"%string. split; [reflexivity|]. split; [discriminate|]. intros float [|e l] N; [contradiction|reflexivity]. Qed.
(** the labels of the axes only depend on the first two characters which are not spaces *)
Definition letters (s : string) : list ascii := filter (fun c => negb (Ascii.eqb c " ")) (list_ascii_of_string s).
Lemma remove_spaces_letters s : list_ascii_of_string (remove_spaces s) = letters s.
Proof. unfold letters. induction s as [|c s IH]; [reflexivity|]. cbn. destruct (Ascii.eqb c " "); cbn; [exact IH|]. f_equal. exact IH. Qed.
Lemma prefix_letters a b s : prefix (String a (String b EmptyString)) s = true <-> exists l, list_ascii_of_string s = a :: b :: l.
Proof.
  destruct s as [|x [|y s]]; cbn.
  - split; [discriminate|intros [l E]; discriminate].
  - destruct (ascii_dec a x); (split; [discriminate|intros [l E]; discriminate]).
  - destruct (ascii_dec a x) as [->|n]; [|split; [discriminate|intros [l E]; congruence]].
    destruct (ascii_dec b y) as [->|n]; [|split; [discriminate|intros [l E]; congruence]]. split; [intros _; eexists; reflexivity|intros _; destruct s; reflexivity].
Qed.
Theorem c168_labels : forall equation,
  (letters_axes equation = Some ("x", "y")%string <-> exists l, letters equation = "z"%char :: "="%char :: l)
  /\ (letters_axes equation = Some ("x", "z")%string <-> exists l, letters equation = "y"%char :: "="%char :: l)
  /\ (letters_axes equation = Some ("z", "y")%string <-> exists l, letters equation = "x"%char :: "="%char :: l).
Proof.
  intros equation. unfold letters_axes. rewrite <- remove_spaces_letters. set (s := remove_spaces equation).
  rewrite <- !prefix_letters.
  destruct (prefix "z=" s) eqn:Ez; [|destruct (prefix "y=" s) eqn:Ey; [|destruct (prefix "x=" s) eqn:Ex]].
  - apply prefix_letters in Ez. destruct Ez as [l El].
    assert (Hy : prefix "y=" s = false) by (destruct (prefix "y=" s) eqn:E; [apply prefix_letters in E; destruct E as [l' E]; congruence|reflexivity]).
    assert (Hx : prefix "x=" s = false) by (destruct (prefix "x=" s) eqn:E; [apply prefix_letters in E; destruct E as [l' E]; congruence|reflexivity]).
    rewrite Hy, Hx. repeat split; congruence.
  - apply prefix_letters in Ey. destruct Ey as [l El].
    assert (Hx : prefix "x=" s = false) by (destruct (prefix "x=" s) eqn:E; [apply prefix_letters in E; destruct E as [l' E]; congruence|reflexivity]).
    rewrite Hx. repeat split; congruence.
  - repeat split; congruence.
  - repeat split; congruence.
Qed.
Example c168_example : has_both_sides el (pos_z el) (1 # 2).
Proof. split; [exists 0%nat, 0%nat, 0%nat|exists 1%nat, 0%nat, 0%nat]; repeat (split; [cbn; lia|]); cbn; unfold Qle; cbn; lia. Qed.

(** ** C169 *)

Lemma Qle_bool_false a b : Qle_bool a b = false <-> b < a.
Proof. split; [intros H; apply Qnot_le_lt; intros K; apply Qle_bool_iff in K; congruence|]. intros H. destruct (Qle_bool a b) eqn:E; [apply Qle_bool_iff in E; lra|reflexivity]. Qed.

Lemma loop_spec lo hi l : StronglySorted Qle l -> forall x, In x (loop lo hi l) <-> In x l /\ lo <= x <= hi.
Proof.
  induction 1 as [|a l S IH F]; intros x; [cbn; tauto|]. cbn [loop]. rewrite Forall_forall in F. destruct (Qle_bool lo a) eqn:E1; cbn [negb].
  - apply Qle_bool_iff in E1. destruct (Qle_bool a hi) eqn:E2; cbn [negb].
    + apply Qle_bool_iff in E2. cbn [In]. rewrite IH. split; [intros [<-|H]; [split; [now left|lra]|tauto]|]. intros [[<-|H] K]; [now left|tauto].
    + apply Qle_bool_false in E2. split; [contradiction|]. intros [[<-|H] K]; [lra|]. specialize (F x H). lra.
  - apply Qle_bool_false in E1. rewrite IH. cbn [In]. split; [tauto|]. intros [[<-|H] K]; [lra|tauto].
Qed.

Lemma qmin_le l : forall x, In x l -> qmin l <= x.
Proof.
  destruct l as [|a l]; [contradiction|]. cbn [qmin]. assert (H : forall a, fold_left (fun a b => if Qle_bool a b then a else b) l a <= a /\ forall x, In x l -> fold_left (fun a b => if Qle_bool a b then a else b) l a <= x).
  { clear. induction l as [|b l IH]; intros a; [split; [apply Qle_refl|contradiction]|]. cbn [fold_left]. destruct (Qle_bool a b) eqn:E.
    - apply Qle_bool_iff in E. destruct (IH a) as [I1 I2]. split; [exact I1|]. intros x [<-|H]; [lra|now apply I2].
    - apply Qle_bool_false in E. destruct (IH b) as [I1 I2]. split; [lra|]. intros x [<-|H]; [exact I1|now apply I2]. }
  intros x [<-|Hx]; [exact (proj1 (H a))|now apply (proj2 (H a))].
Qed.
Lemma qmax_ge l : forall x, In x l -> x <= qmax l.
Proof.
  destruct l as [|a l]; [contradiction|]. cbn [qmax]. assert (H : forall a, a <= fold_left (fun a b => if Qle_bool b a then a else b) l a /\ forall x, In x l -> x <= fold_left (fun a b => if Qle_bool b a then a else b) l a).
  { clear. induction l as [|b l IH]; intros a; [split; [apply Qle_refl|contradiction]|]. cbn [fold_left]. destruct (Qle_bool b a) eqn:E.
    - apply Qle_bool_iff in E. destruct (IH a) as [I1 I2]. split; [exact I1|]. intros x [<-|H]; [lra|now apply I2].
    - apply Qle_bool_false in E. destruct (IH b) as [I1 I2]. split; [lra|]. intros x [<-|H]; [exact I1|now apply I2]. }
  intros x [<-|Hx]; [exact (proj1 (H a))|now apply (proj2 (H a))].
Qed.
Lemma qmin_in l : l <> [] -> In (qmin l) l.
Proof.
  destruct l as [|a l]; [contradiction|]. intros _. cbn [qmin]. revert a. induction l as [|b l IH]; intros a; [now left|]. cbn [fold_left].
  destruct (Qle_bool a b); [destruct (IH a) as [H|H]; [left; exact H|right; now right]|]. destruct (IH b) as [H|H]; [right; left; exact H|right; now right].
Qed.
Lemma qmax_in l : l <> [] -> In (qmax l) l.
Proof.
  destruct l as [|a l]; [contradiction|]. intros _. cbn [qmax]. revert a. induction l as [|b l IH]; intros a; [now left|]. cbn [fold_left].
  destruct (Qle_bool b a); [destruct (IH a) as [H|H]; [left; exact H|right; now right]|]. destruct (IH b) as [H|H]; [right; left; exact H|right; now right].
Qed.

(** the pairs, without repetition, in order *)
Definition lt2 (a b : nat * nat) : Prop := (fst a < fst b)%nat \/ (fst a = fst b /\ (snd a < snd b)%nat).
Lemma insert_in a l x : In x (insert a l) <-> x = a \/ In x l.
Proof.
  induction l as [|b l IH]; [cbn; intuition|]. cbn [insert]. destruct (pair_eqb a b) eqn:E.
  - unfold pair_eqb in E. apply andb_true_iff in E as [E1 E2]. apply Nat.eqb_eq in E1, E2. assert (a = b) by (destruct a, b; cbn in *; congruence). subst. cbn. intuition.
  - destruct (pair_leb a b); cbn [In]; [intuition|]. rewrite IH. intuition.
Qed.
Lemma lt2_trans a b c : lt2 a b -> lt2 b c -> lt2 a c. Proof. unfold lt2. lia. Qed.
Lemma insert_sorted a l : StronglySorted lt2 l -> StronglySorted lt2 (insert a l).
Proof.
  induction 1 as [|b l S IH F]; [repeat constructor|]. cbn [insert]. destruct (pair_eqb a b) eqn:E; [now constructor|].
  assert (N : ~ (fst a = fst b /\ snd a = snd b)) by (intros [H1 H2]; unfold pair_eqb in E; rewrite H1, H2, !Nat.eqb_refl in E; discriminate).
  destruct (pair_leb a b) eqn:L.
  - assert (K : lt2 a b).
    { unfold pair_leb in L. apply orb_true_iff in L as [L|L]; [apply Nat.ltb_lt in L; now left|]. apply andb_true_iff in L as [L1 L2]. apply Nat.eqb_eq in L1. apply Nat.leb_le in L2. right. lia. }
    constructor; [now constructor|]. constructor; [exact K|]. rewrite Forall_forall in *. intros x Hx. apply (lt2_trans a b x); [exact K|now apply F].
  - assert (K : lt2 b a).
    { unfold pair_leb in L. apply orb_false_iff in L as [L1 L2]. apply Nat.ltb_ge in L1. unfold lt2. destruct (Nat.eqb_spec (fst a) (fst b)) as [e|e]; [|lia]. cbn [andb] in L2. apply Nat.leb_gt in L2. lia. }
    constructor; [exact IH|]. rewrite Forall_forall in *. intros x Hx. apply insert_in in Hx as [->|Hx]; [exact K|now apply F].
Qed.
Lemma sorted_set_in l x : In x (sorted_set l) <-> In x l.
Proof. induction l as [|a l IH]; [reflexivity|]. cbn [sorted_set fold_right]. rewrite insert_in. fold (sorted_set l). rewrite IH. cbn. intuition. Qed.
Lemma sorted_set_sorted l : StronglySorted lt2 (sorted_set l).
Proof. induction l as [|a l IH]; [constructor|]. cbn [sorted_set fold_right]. now apply insert_sorted. Qed.

Lemma flat_map_length {A B} (f : A -> list B) l n : (forall x, In x l -> length (f x) = n) -> length (flat_map f l) = (length l * n)%nat.
Proof. intros H. induction l as [|a l IH]; [reflexivity|]. cbn [flat_map length]. rewrite app_length, H by now left. rewrite IH by (intros; apply H; now right). lia. Qed.
Lemma flat_length e f : length (flat e f) = (n0 e * n1 e)%nat.
Proof. unfold flat. rewrite (flat_map_length _ _ (n1 e)), seq_length; [reflexivity|]. intros. now rewrite map_length, seq_length. Qed.
Lemma flat_nth e f iy ix : (iy < n0 e)%nat -> (ix < n1 e)%nat -> nth (iy * n1 e + ix) (flat e f) 0 = f iy ix.
Proof.
  intros Hy Hx. unfold flat. assert (G : forall m s, (iy < m)%nat -> nth (iy * n1 e + ix) (flat_map (fun iy => map (fun ix => f iy ix) (seq 0 (n1 e))) (seq s m)) 0 = f (s + iy)%nat ix); [|apply (G (n0 e) 0%nat Hy)].
  clear Hy. induction iy as [|iy IH]; intros m s Hm; (destruct m as [|m]; [lia|]); cbn [seq flat_map].
  - rewrite app_nth1 by (rewrite map_length, seq_length; lia). rewrite (nth_indep _ 0 (f s 0%nat)) by (rewrite map_length, seq_length; lia). rewrite (map_nth (fun ix => f s ix)), seq_nth by lia. now rewrite Nat.add_0_r.
  - rewrite app_nth2 by (rewrite map_length, seq_length; nia). rewrite map_length, seq_length. replace (S iy * n1 e + ix - n1 e)%nat with (iy * n1 e + ix)%nat by lia. rewrite IH by lia. f_equal. lia.
Qed.
Lemma in_flat e f v : In v (flat e f) <-> exists iy ix, (iy < n0 e)%nat /\ (ix < n1 e)%nat /\ v = f iy ix.
Proof.
  unfold flat. rewrite in_flat_map. split.
  - intros (iy & H1 & H2). apply in_map_iff in H2 as (ix & <- & H2). apply in_seq in H1, H2. exists iy, ix. repeat split; lia.
  - intros (iy & ix & H1 & H2 & ->). exists iy. split; [apply in_seq; lia|]. apply in_map_iff. exists ix. split; [reflexivity|apply in_seq; lia].
Qed.

Definition dist2 (e : elem2) (k : nat * nat) (x y : Q) : Q := (x2d e (fst k) (snd k) - x) * (x2d e (fst k) (snd k) - x) + (y2d e (fst k) (snd k) - y) * (y2d e (fst k) (snd k) - y).
Lemma nearest_spec e x y : (1 <= n0 e)%nat -> (1 <= n1 e)%nat -> let k := nearest_point e x y in
  (fst k < n0 e)%nat /\ (snd k < n1 e)%nat /\ forall iy ix, (iy < n0 e)%nat -> (ix < n1 e)%nat -> dist2 e k x y <= dist2 e (iy, ix) x y.
Proof.
  intros H0 H1. unfold nearest_point. cbn zeta. set (l := flat e _). assert (L : length l = (n0 e * n1 e)%nat) by apply flat_length.
  assert (N : l <> []) by (intros E; rewrite E in L; cbn in L; nia). pose proof (argmin_range l N) as R. rewrite L in R. cbn [fst snd].
  assert (Q1 : (argmin l / n1 e < n0 e)%nat) by (apply Nat.div_lt_upper_bound; lia). assert (Q2 : (argmin l mod n1 e < n1 e)%nat) by (apply Nat.mod_upper_bound; lia).
  split; [exact Q1|]. split; [exact Q2|]. intros iy ix Hy Hx. unfold dist2. cbn [fst snd].
  pose proof (PhysFiles_Proofs.argmin_min l (iy * n1 e + ix) ltac:(rewrite L; nia)) as M.
  change (PhysFiles_Model.argmin l) with (argmin l) in M.
  assert (E1 : argmin l = (argmin l / n1 e * n1 e + argmin l mod n1 e)%nat) by (rewrite (Nat.mul_comm _ (n1 e)); apply Nat.div_mod; lia).
  assert (M1 : nth (argmin l) l 0 = (x2d e (argmin l / n1 e)%nat (argmin l mod n1 e)%nat - x) * (x2d e (argmin l / n1 e)%nat (argmin l mod n1 e)%nat - x) + (y2d e (argmin l / n1 e)%nat (argmin l mod n1 e)%nat - y) * (y2d e (argmin l / n1 e)%nat (argmin l mod n1 e)%nat - y)).
  { rewrite E1 at 1. unfold l at 3. now rewrite flat_nth by assumption. }
  assert (M2 : nth (iy * n1 e + ix) l 0 = (x2d e iy ix - x) * (x2d e iy ix - x) + (y2d e iy ix - y) * (y2d e iy ix - y)) by (unfold l; now rewrite flat_nth by assumption).
  rewrite M1, M2 in M. exact M.
Qed.

(** in each element: valid indices, sorted, without repetition: the nearest points of the targets in the bounding box *)
Theorem c169_indices : forall (xs ys : list Q) (e : elem2), (1 <= n0 e)%nat -> (1 <= n1 e)%nat -> StronglySorted Qle xs -> StronglySorted Qle ys ->
  let ks := indices_in_elem xs ys e in
  let inside (f : arr2) (v : Q) := (exists iy ix, (iy < n0 e)%nat /\ (ix < n1 e)%nat /\ f iy ix <= v) /\ (exists iy ix, (iy < n0 e)%nat /\ (ix < n1 e)%nat /\ v <= f iy ix) in
  StronglySorted lt2 ks
  /\ (forall k, In k ks -> (fst k < n0 e)%nat /\ (snd k < n1 e)%nat /\ exists x y, In x xs /\ In y ys /\ inside (x2d e) x /\ inside (y2d e) y
        /\ forall iy ix, (iy < n0 e)%nat -> (ix < n1 e)%nat -> dist2 e k x y <= dist2 e (iy, ix) x y)
  /\ (forall x y, In x xs -> In y ys -> inside (x2d e) x -> inside (y2d e) y -> exists k, In k ks /\ forall iy ix, (iy < n0 e)%nat -> (ix < n1 e)%nat -> dist2 e k x y <= dist2 e (iy, ix) x y).
Proof.
  intros xs ys e H0 H1 Sx Sy ks inside.
  assert (NE : forall f, flat e f <> []) by (intros f E; pose proof (flat_length e f) as L; rewrite E in L; cbn in L; nia).
  assert (B : forall f v, qmin (flat e f) <= v <= qmax (flat e f) <-> inside f v).
  { intros f v. unfold inside. split.
    - intros [A1 A2]. pose proof (qmin_in _ (NE f)) as I1. pose proof (qmax_in _ (NE f)) as I2. apply in_flat in I1 as (a & b & Ha & Hb & E1). apply in_flat in I2 as (c & d & Hc & Hd & E2). rewrite E1 in A1. rewrite E2 in A2.
      split; [exists a, b|exists c, d]; repeat (split; [assumption|]); assumption.
    - intros [(a & b & Ha & Hb & A1) (c & d & Hc & Hd & A2)]. split; [eapply Qle_trans; [apply qmin_le|exact A1]|eapply Qle_trans; [exact A2|apply qmax_ge]]; apply in_flat; [exists a, b|exists c, d]; auto. }
  assert (I : forall k, In k ks <-> exists x y, In x xs /\ In y ys /\ inside (x2d e) x /\ inside (y2d e) y /\ k = nearest_point e x y).
  { intros k. unfold ks, indices_in_elem. cbn zeta. rewrite sorted_set_in, in_flat_map. split.
    - intros (y & Hy & Hk). apply in_map_iff in Hk as (x & <- & Hx). apply loop_spec in Hx as [X1 X2]; [|exact Sx]. apply loop_spec in Hy as [Y1 Y2]; [|exact Sy]. exists x, y. rewrite <- !B. auto.
    - intros (x & y & X1 & Y1 & X2 & Y2 & ->). exists y. rewrite <- B in X2, Y2. split; [apply loop_spec; [exact Sy|split; assumption]|]. apply in_map_iff. exists x. split; [reflexivity|]. apply loop_spec; [exact Sx|split; assumption]. }
  split; [apply sorted_set_sorted|]. split.
  - intros k Hk. apply I in Hk as (x & y & X1 & Y1 & X2 & Y2 & ->). destruct (nearest_spec e x y H0 H1) as (A & A' & A''). split; [exact A|]. split; [exact A'|]. exists x, y. auto.
  - intros x y X1 Y1 X2 Y2. exists (nearest_point e x y). split; [apply I; exists x, y; auto|]. now apply nearest_spec.
Qed.

(** the abscissas: from xmin + dx to xmax - dx, in order, in the domain *)
Lemma qnat_pos n : 0 <= inject_Z (Z.of_nat n). Proof. change 0 with (inject_Z 0). rewrite <- Zle_Qle. lia. Qed.
Lemma linspace_sorted a b n : a <= b \/ (n <= 1)%nat -> StronglySorted Qle (linspace a b n).
Proof.
  intros H. unfold linspace. destruct H as [H|H]; [|destruct n as [|[|n]]; [constructor|repeat constructor|lia]].
  assert (D : 0 <= (b - a) / inject_Z (Z.of_nat (n - 1))).
  { unfold Qdiv. apply Qmult_le_0_compat; [lra|]. apply Qinv_le_0_compat, qnat_pos. }
  revert D. generalize ((b - a) / inject_Z (Z.of_nat (n - 1))). intros d D. generalize 0%nat at 2 as s. induction n as [|n IH]; intros s; [constructor|]. cbn [seq map]. constructor; [apply IH|].
  apply Forall_forall. intros x Hx. apply in_map_iff in Hx as (k & <- & Hk). apply in_seq in Hk.
  assert (K : inject_Z (Z.of_nat s) <= inject_Z (Z.of_nat k)) by (rewrite <- Zle_Qle; lia). pose proof (qnat_pos s). destruct (Nat.eqb_spec s 0), (Nat.eqb_spec k 0); try lia; try nra.
Qed.
Lemma linspace_range a b n x : a <= b -> In x (linspace a b n) -> a <= x <= b.
Proof.
  intros H Hx. unfold linspace in Hx. apply in_map_iff in Hx as (k & <- & Hk). apply in_seq in Hk. destruct (Nat.eqb_spec k 0); [lra|]. destruct n as [|[|n]]; [lia|lia|].
  replace (S (S n) - 1)%nat with (S n) by lia. assert (P : 0 < inject_Z (Z.of_nat (S n))) by (change 0 with (inject_Z 0); rewrite <- Zlt_Qlt; lia).
  assert (K : inject_Z (Z.of_nat k) <= inject_Z (Z.of_nat (S n))) by (rewrite <- Zle_Qle; lia). pose proof (qnat_pos k) as K0.
  assert (M : (b - a) / inject_Z (Z.of_nat (S n)) * inject_Z (Z.of_nat (S n)) == b - a) by (field; lra).
  assert (D : 0 <= (b - a) / inject_Z (Z.of_nat (S n))) by (apply Qle_shift_div_l; lra). nra.
Qed.
Lemma int_of_le x n : 0 <= x -> (n <= int_of x)%nat -> inject_Z (Z.of_nat n) <= x.
Proof.
  intros P H. unfold int_of in H. apply Qle_trans with (inject_Z (Qfloor x)); [|apply Qfloor_le]. rewrite <- Zle_Qle.
  assert (0 <= Qfloor x)%Z by (change 0%Z with (Qfloor 0); now apply Qfloor_resp_le). lia.
Qed.

Lemma targets_in a b d : 0 < d -> a <= b -> forall n, (forall m, (m <= n)%nat -> inject_Z (Z.of_nat m) * d <= b - a) ->
  StronglySorted Qle (linspace (a + d) (b - d) n) /\ length (linspace (a + d) (b - d) n) = n /\ forall x, In x (linspace (a + d) (b - d) n) -> a + d <= x <= b.
Proof.
  intros D L n H. assert (LL : length (linspace (a + d) (b - d) n) = n) by (unfold linspace; now rewrite map_length, seq_length). destruct n as [|[|n]].
  - split; [constructor|]. split; [exact LL|contradiction].
  - split; [apply linspace_sorted; now right|]. split; [exact LL|]. intros x [<-|[]]. specialize (H 1%nat ltac:(lia)). change (inject_Z (Z.of_nat 1)) with 1 in H. cbn. lra.
  - specialize (H 2%nat ltac:(lia)). change (inject_Z (Z.of_nat 2)) with 2 in H. split; [apply linspace_sorted; left; lra|]. split; [exact LL|]. intros x Hx. apply linspace_range in Hx; [|lra]. lra.
Qed.

Lemma count_ok w d n : 0 < d -> 0 <= w -> (n <= int_of (w / d))%nat -> inject_Z (Z.of_nat n) * d <= w.
Proof.
  intros D W H. apply int_of_le in H; [|apply Qle_shift_div_l; lra]. assert (M : w / d * d == w) by (field; lra). nra.
Qed.

Theorem c169_targets_partial : forall (percentage : Q) (es : list elem2), 0 < percentage ->
  let xmin := qmin (all_x es) in let xmax := qmax (all_x es) in let ymin := qmin (all_y es) in let ymax := qmax (all_y es) in
  let dx := percentage / 100 * (xmax - xmin) in
  xmin < xmax -> ymin <= ymax ->
  let '(xs, ys) := approx_quiver percentage es in
  (StronglySorted Qle xs /\ (forall x, In x xs -> xmin + dx <= x <= xmax) /\ length xs = Z.to_nat (Qfloor (100 / percentage)))
  /\ (xmin == ymin -> StronglySorted Qle ys /\ (forall y, In y ys -> ymin + dx <= y <= ymax) /\ length ys = Z.to_nat (Qfloor ((ymax - ymin) / dx))).
Proof.
  intros percentage es P xmin xmax ymin ymax dx Hx Hy. unfold approx_quiver. fold xmin xmax ymin ymax. cbn zeta. fold dx.
  assert (D : 0 < dx). { unfold dx. assert (0 < percentage / 100) by (apply Qlt_shift_div_l; lra). nra. }
  split.
  - destruct (targets_in xmin xmax dx D ltac:(lra) (int_of ((xmax - xmin) / dx))) as (T1 & T2 & T3); [intros m Hm; apply count_ok; [exact D|lra|exact Hm]|].
    split; [exact T1|]. split; [exact T3|]. rewrite T2. unfold int_of. f_equal. apply Qfloor_comp. unfold dx. field. split; lra.
  - intros E.
    destruct (targets_in xmin ymax dx D ltac:(lra) (int_of ((ymax - ymin) / dx))) as (T1 & T2 & T3).
    { intros m Hm. apply count_ok in Hm; [|exact D|lra]. lra. }
    split; [exact T1|]. split; [|rewrite T2; reflexivity]. intros y Hyy. apply T3 in Hyy. lra.
Qed.

(** the ordinates begin at xmin + dx: no vector at all for a domain shifted along x *)
Definition el2 : elem2 := mkElem2 2 2 (fun _ ix => 10 + q_of ix) (fun iy _ => q_of iy).
Definition el2' : elem2 := mkElem2 2 2 (fun _ ix => q_of ix) (fun iy _ => q_of iy).
Theorem c169_ordinates_refuted : exists (percentage : Q) (e e' : elem2), 0 < percentage
  /\ (forall iy ix, x2d e iy ix == 10 + x2d e' iy ix /\ y2d e iy ix = y2d e' iy ix) /\ n0 e = n0 e' /\ n1 e = n1 e'
  /\ qmax (all_y [e]) < hd 0 (snd (approx_quiver percentage [e]))
  /\ positions percentage [e] = [] /\ length (positions percentage [e']) = 4%nat.
Proof.
  exists 25, el2, el2'. split; [reflexivity|]. split; [intros; split; reflexivity|]. split; [reflexivity|]. split; [reflexivity|]. split; [reflexivity|]. split; vm_compute; reflexivity.
Qed.
Example c169_example : init_quiver 50 [el2'] = [[(0, 0)]]%nat. Proof. vm_compute. reflexivity. Qed.

(** all the spaces of the equation are ignored, the other characters and their order are kept *)
Theorem c168_removed : forall s, list_ascii_of_string (remove_spaces s) = filter (fun c => negb (Ascii.eqb c " "%char)) (list_ascii_of_string s).
Proof.
  induction s as [| c s IH]; [reflexivity |]; cbn [remove_spaces list_ascii_of_string filter].
  destruct (Ascii.eqb c " "%char); cbn [negb list_ascii_of_string]; rewrite IH; reflexivity.
Qed.

Print Assumptions c167_corners.
Print Assumptions c167_bounds.
Print Assumptions c167_cells.
Print Assumptions c168_z_partial.
Print Assumptions c168_first_index.
Print Assumptions c168_y_refuted.
Print Assumptions c168_x_refuted.
Print Assumptions c168_spaces_refuted.
Print Assumptions c168_labels.
Print Assumptions c169_indices.
Print Assumptions c169_targets_partial.
Print Assumptions c169_ordinates_refuted.
Print Assumptions c168_removed.
