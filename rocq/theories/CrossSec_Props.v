(** C223, C224: the cross sections of the fields and what is plotted. *)
From Coq Require Import Ascii String List ZArith QArith Qabs Bool Arith Lia Lqa Permutation.
From Verif Require Import PhysFiles_Model PhysFiles_Proofs CrossSec_Model.
Import ListNotations.
Local Open Scope nat_scope.

(** ** Specification *)
Definition name (a : axis) : string := match a with X => "x" | Y => "y" | Z_ => "z" end%string.
Definition by_index (a : axis) (t : string) : string := String "i"%char (String.append (name a) (String "="%char t)).
Definition by_coord (a : axis) (t : string) : string := String.append (name a) (String "="%char t).
(** the vertical and horizontal axes of the figure of the plane normal to a, and the values on this plane *)
Definition vertical (a : axis) : axis := match a with Z_ => Y | _ => Z_ end.
Definition horizontal (a : axis) : axis := match a with X => Y | _ => X end.
Definition size {V} (f : @array3 V) (a : axis) : nat := match a with Z_ => size0 f | Y => size1 f | X => size2 f end.
Definition on_plane {V} (f : @array3 V) (a : axis) (k r c : nat) : V :=
  match a with Z_ => at3 f k r c | Y => at3 f r k c | X => at3 f r c k end.
Definition is_section {V} (f : @array3 V) (a : axis) (k : nat) (s : array2) : Prop :=
  k < size f a /\ rows s = size f (vertical a) /\ cols s = size f (horizontal a) /\ (forall r c, at2 s r c = on_plane f a k r c).

(** ** Lemmas *)
Lemma substring_all s : String.substring 0 (String.length s) s = s.
Proof. induction s; [reflexivity |]. cbn. rewrite IHs. reflexivity. Qed.
Lemma prefix_nil s : String.prefix "" s = true.
Proof. destruct s; reflexivity. Qed.
Ltac text := unfold cross_section_state, axis_data, xylabels, set_equation, startswith; cbn -[cut0 cut1 cut2 grid1d nearest]; rewrite ?prefix_nil, ?Nat.sub_0_r, ?substring_all; reflexivity.
Lemma py_index_spec n i : match py_index n i with
  | Some k => k < n /\ ((0 <= i)%Z /\ Z.of_nat k = i \/ (i < 0)%Z /\ Z.of_nat k = (Z.of_nat n + i)%Z)
  | None => (Z.of_nat n <= i \/ i < - Z.of_nat n)%Z end.
Proof.
  unfold py_index. destruct (Z.leb_spec 0 i), (Z.ltb_spec i (Z.of_nat n)); cbn [andb]; try lia.
  all: destruct (Z.leb_spec (- Z.of_nat n) i), (Z.ltb_spec i 0); cbn [andb]; lia.
Qed.
Lemma py_index_nat n k : k < n -> py_index n (Z.of_nat k) = Some k.
Proof. intros H. unfold py_index. destruct (Z.leb_spec 0 (Z.of_nat k)), (Z.ltb_spec (Z.of_nat k) (Z.of_nat n)); cbn [andb]; try lia. rewrite Nat2Z.id. reflexivity. Qed.

Section C223.
Context {V : Type} (eval_index : string -> Z) (eval_coord : string -> Q).
Notation from_state := (@cross_section_state V eval_index eval_coord).
Notation from_file := (@cross_section_file V eval_index eval_coord).
Definition cut (a : axis) (f : @array3 V) (i : Z) : result array2 := match a with Z_ => cut0 f i | Y => cut1 f i | X => cut2 f i end.
Lemma state_by_index o a t f : from_state o (by_index a t) f = cut a f (eval_index t).
Proof. destruct a; text. Qed.
Lemma state_by_coord o a t f : from_state o (by_coord a t) f = cut a f (nearest (grid1d o a) (eval_coord t)).
Proof. destruct a; text. Qed.
Lemma cut_spec a f i : match cut a f i with
  | Done s => exists k, is_section f a k s /\ py_index (size f a) i = Some k
  | Error e => e = IndexError /\ py_index (size f a) i = None end.
Proof.
  destruct a; cbn [cut size]; unfold cut0, cut1, cut2; pose proof (fun n => py_index_spec n i) as P;
  match goal with |- context [py_index ?n i] => specialize (P n); destruct (py_index n i) as [k |] eqn:E end;
  (exists k; split; [| reflexivity]; unfold is_section; cbn [size vertical horizontal rows cols at2 on_plane];
    split; [apply P | split; [reflexivity | split; [reflexivity | intros; reflexivity]]]) || (split; reflexivity).
Qed.

(** C223 (1): iz=..., iy=..., ix=... give the values on the plane with this index (as in Python), or an IndexError. *)
Theorem c223_by_index o a t f : match from_state o (by_index a t) f with
  | Done s => exists k, is_section f a k s /\ (Z.of_nat k = eval_index t \/ (eval_index t < 0)%Z /\ Z.of_nat k = (Z.of_nat (size f a) + eval_index t)%Z)
  | Error e => e = IndexError /\ (Z.of_nat (size f a) <= eval_index t \/ eval_index t < - Z.of_nat (size f a))%Z end.
Proof.
  rewrite state_by_index. pose proof (cut_spec a f (eval_index t)) as H. pose proof (py_index_spec (size f a) (eval_index t)) as P.
  destruct (cut a f (eval_index t)) as [s | e].
  - destruct H as [k [H1 H2]]. rewrite H2 in P. exists k. split; [assumption |]. destruct P as [_ [[_ P] | P]]; [left | right]; assumption.
  - destruct H as [H1 H2]. rewrite H2 in P. split; assumption.
Qed.
(** C223 (2): z=..., y=..., x=... give the plane of the grid of the operator which is the nearest. *)
Theorem c223_by_coord o a t f : n_of o a = size f a -> 0 < size f a ->
  exists s k, from_state o (by_coord a t) f = Done s /\ is_section f a k s /\
  (forall j, j < size f a -> (Qabs (nth k (grid1d o a) 0 - eval_coord t) <= Qabs (nth j (grid1d o a) 0 - eval_coord t))%Q).
Proof.
  intros Hn H0. rewrite state_by_coord. unfold nearest. set (l := map _ _).
  assert (L : List.length l = size f a) by (unfold l, grid1d; rewrite !map_length, seq_length; assumption).
  assert (A : argmin l < size f a) by (rewrite <- L; apply argmin_lt; intros E; rewrite E in L; cbn in L; lia).
  pose proof (cut_spec a f (Z.of_nat (argmin l))) as C. rewrite (py_index_nat _ _ A) in C.
  destruct (cut a f (Z.of_nat (argmin l))) as [s | e]; [| destruct C; discriminate].
  destruct C as [k [C1 C2]]. assert (k = argmin l) by congruence. subst k. exists s, (argmin l). split; [reflexivity |]. split; [assumption |].
  intros j Hj. pose proof (argmin_min l j ltac:(lia)) as M. unfold l in M.
  assert (G : List.length (grid1d o a) = size f a) by (unfold grid1d; rewrite map_length, seq_length; assumption).
  rewrite (nth_indep _ 0%Q (Qabs (0 - eval_coord t))) in M by (rewrite map_length, G; exact A).
  rewrite (nth_indep _ 0%Q (Qabs (0 - eval_coord t)) (n := j)) in M by (rewrite map_length, G; exact Hj).
  rewrite !(map_nth (fun s => Qabs (s - eval_coord t))) in M. exact M.
Qed.
(** the grid: the points of the simulation *)
Theorem c223_grid o a i : only_coarse o = false -> i < n_of o a ->
  nth i (grid1d o a) 0%Q = (length_of o a * inject_Z (Z.of_nat i) / inject_Z (Z.of_nat (n_of o a)))%Q.
Proof.
  intros H Hi. unfold grid1d. rewrite H. set (g := fun i : nat => (length_of o a * inject_Z (Z.of_nat i) / inject_Z (Z.of_nat (n_of o a)))%Q).
  rewrite (nth_indep _ 0%Q (g 0)) by (rewrite map_length, seq_length; assumption). rewrite map_nth, seq_nth by assumption. reflexivity.
Qed.
(** C223 (3): the section of a file is the section of the state. *)
Theorem c223_files o e f : from_file o e f = from_state o e f.
Proof. reflexivity. Qed.
(** C223 (4): the axes, the labels and the vectors are those of the section. *)
Theorem c223_axes a t : let e := by_index a t in let e' := by_coord a t in
  axis_data (Some e) = Done (horizontal a, vertical a) /\ axis_data (Some e') = Done (horizontal a, vertical a) /\
  xylabels e = Done (name (horizontal a), name (vertical a)) /\ xylabels e' = Done (name (horizontal a), name (vertical a)) /\
  set_equation e = Done (e, (String "v"%char (name (horizontal a)), String "v"%char (name (vertical a)))) /\
  set_equation e' = Done (e', (String "v"%char (name (horizontal a)), String "v"%char (name (vertical a)))).
Proof.
  destruct a; cbv zeta; (split; [text | split; [text | split; [text | split; [text | split; text]]]]).
Qed.
(** C223 (5): any other equation is an error, everywhere. *)
Lemma prefix_split p : forall s, String.prefix p s = true -> exists t, s = String.append p t.
Proof.
  induction p as [| c p IH]; intros s H; [exists s; reflexivity |]. destruct s as [| d s]; [discriminate |]. cbn in H.
  destruct (Ascii.ascii_dec c d) as [-> |]; [| discriminate]. destruct (IH s H) as [t ->]. exists t. reflexivity.
Qed.
Theorem c223_other e f o : (forall a t, e <> by_index a t /\ e <> by_coord a t) ->
  from_state o e f = Error NotImplemented /\ axis_data (Some e) = Error NotImplemented /\ xylabels e = Error NotImplemented /\ set_equation e = Error NotImplemented.
Proof.
  intros H.
  assert (N : forall p, (exists a, p = by_index a "" \/ p = by_coord a "") -> startswith e p = false).
  { intros p [a Hp]. unfold startswith. destruct (String.prefix p e) eqn:E; [| reflexivity]. apply prefix_split in E. destruct E as [t E]. exfalso.
    destruct (H a t) as [H1 H2]. destruct Hp as [-> | ->]; [apply H1 | apply H2]; rewrite E; destruct a; reflexivity. }
  assert (N1 : startswith e "iz=" = false) by (apply N; exists Z_; left; reflexivity).
  assert (N2 : startswith e "z=" = false) by (apply N; exists Z_; right; reflexivity).
  assert (N3 : startswith e "iy=" = false) by (apply N; exists Y; left; reflexivity).
  assert (N4 : startswith e "y=" = false) by (apply N; exists Y; right; reflexivity).
  assert (N5 : startswith e "ix=" = false) by (apply N; exists X; left; reflexivity).
  assert (N6 : startswith e "x=" = false) by (apply N; exists X; right; reflexivity).
  unfold cross_section_state, axis_data, xylabels, set_equation. rewrite N1, N2, N3, N4, N5, N6.
  split; [reflexivity | split; [reflexivity | split; reflexivity]].
Qed.
End C223.
(** C223 (6): with ONLY_COARSE_OPER the grid includes the end of the periodic domain, so that another plane is taken. *)
Theorem c223_coarse_refuted : exists (o o' : operator) (f : @array3 nat) s s',
  only_coarse o = false /\ only_coarse o' = true /\ (forall a, n_of o a = n_of o' a /\ length_of o a = length_of o' a) /\
  cross_section_state (fun _ => 0%Z) (fun _ => 2 # 5) o "z=0.4"%string f = Done s /\ cross_section_file (fun _ => 0%Z) (fun _ => 2 # 5) o' "z=0.4"%string f = Done s' /\
  at2 s 0 0 = 1 /\ at2 s' 0 0 = 0.
Proof.
  exists {| n_of := fun _ => 2; length_of := fun _ => 1%Q; only_coarse := false |}, {| n_of := fun _ => 2; length_of := fun _ => 1%Q; only_coarse := true |},
    {| size0 := 2; size1 := 2; size2 := 2; at3 := fun i _ _ => i |}. eexists _, _.
  split; [reflexivity |]. split; [reflexivity |]. split; [split; reflexivity |]. split; [vm_compute; reflexivity |]. split; [vm_compute; reflexivity |]. split; reflexivity.
Qed.
(** C223 (7): the online plot of a 3D simulation takes the whole field and not the section. *)
Theorem c223_online_refuted : exists (o : operator) (f : @array3 nat),
  online_field (fun _ => 0%Z) (fun _ => 0%Q) o "iz=0"%string f = Done (Whole f) /\ vector_for_plot (fun _ => 0%Z) (fun _ => 0%Q) true o "iz=0"%string f f = Done (Whole f, Whole f) /\
  exists s, vector_for_plot (fun _ => 0%Z) (fun _ => 0%Q) false o "iz=0"%string f f = Done (Flat s, Flat s).
Proof.
  exists {| n_of := fun _ => 2; length_of := fun _ => 1%Q; only_coarse := false |}, {| size0 := 2; size1 := 2; size2 := 2; at3 := fun i _ _ => i |}.
  split; [reflexivity |]. split; [reflexivity |]. eexists. reflexivity.
Qed.
Theorem c223_vectors_partial {V} ei ec o e (fx fy : @array3 V) sx sy : cross_section_state ei ec o e fx = Done sx -> cross_section_state ei ec o e fy = Done sy ->
  vector_for_plot ei ec false o e fx fy = Done (Flat sx, Flat sy).
Proof. intros H1 H2. unfold vector_for_plot, field_from_state. rewrite H1, H2. reflexivity. Qed.
(** C223 (8): in 2D an equation is ignored for the state but not for the files. *)
Theorem c223_2d_refuted : exists (o : operator) (f : @array2 nat), field2_from_state (Some "iy=0"%string) f = Done f /\
  cross_section_file2 (fun _ => 0%Z) (fun _ => 0%Q) o (Some "iy=0"%string) f = Error IndexError.
Proof. exists {| n_of := fun _ => 2; length_of := fun _ => 1%Q; only_coarse := false |}, {| rows := 2; cols := 2; at2 := fun i _ => i |}. split; reflexivity. Qed.
Theorem c223_2d_partial {V} ei ec o (f : @array2 V) : cross_section_file2 ei ec o None f = Done (inl f) /\ field2_from_state None f = Done f.
Proof. split; reflexivity. Qed.

(** ** C224 *)
Lemma mem_In k l : mem k l = true <-> In k l.
Proof.
  unfold mem. rewrite existsb_exists. split.
  - intros [x [H1 H2]]. apply String.eqb_eq in H2. subst. assumption.
  - intros H. exists k. split; [assumption | apply String.eqb_refl].
Qed.
(** the variables which can be plotted *)
Definition available (s : simul) (forbid_compute : bool) (k : string) : Prop :=
  In k (keys_phys s) \/ (coarse_only s = false /\ forbid_compute = false /\ In k (keys_computable s)).
Lemma fold_keys (ok : list string) (cs : list string) : forall k, mem k ok = true -> mem (fold_left (fun k c => if mem c ok then c else k) cs k) ok = true.
Proof. induction cs as [| c cs IH]; intros k H; [assumption |]. cbn [fold_left]. apply IH. destruct (mem c ok) eqn:E; assumption. Qed.
(** C224 (1): the default variable can be obtained; it is the one of the parameters if it can be obtained. *)
Theorem c224_default_key s fc p : keys_phys s <> [] -> available s fc (key_to_plot s fc p).
Proof.
  intros H. unfold key_to_plot. set (key := match p with Some k => k | None => _ end). set (ok := keys_phys s ++ _).
  assert (A : forall k, mem k ok = true -> available s fc k).
  { intros k Hk. apply mem_In in Hk. unfold ok in Hk. apply in_app_iff in Hk. destruct Hk as [Hk | Hk]; [left; assumption |].
    destruct (coarse_only s) eqn:Ec, fc; cbn [negb andb] in Hk; try contradiction. right. split; [assumption | split; [reflexivity | assumption]]. }
  destruct (mem key ok) eqn:E; [apply A; assumption |]. apply A. apply fold_keys. apply mem_In. unfold ok. apply in_app_iff. left.
  destruct (keys_phys s); [congruence | left; reflexivity].
Qed.
Theorem c224_prefered s fc p : let key := match p with Some k => k | None => field_to_plot s end in
  available s fc key -> key_to_plot s fc p = key.
Proof.
  intros key H. unfold key_to_plot. fold key. replace (mem key _) with true; [reflexivity |]. symmetry. apply mem_In, in_app_iff.
  destruct H as [H | [H1 [H2 H3]]]; [left; assumption | right]. rewrite H1, H2. assumption.
Qed.
Section Plots.
Variable isclose : Q -> Q -> bool.
Hypothesis isclose_refl : forall t, isclose t t = true.
(** the state can be plotted if there is a state *)
(** C224 (2): without argument there is always a plot: of the state, or of the last file when there is no state. *)
Theorem c224_plot3d_default s time : keys_phys s <> [] -> exists src, plot3d isclose s NoField time = Done src.
Proof.
  intros H. unfold plot3d. destruct time as [t |].
  - cbn [key_of]. pose proof (c224_default_key s true None H) as [A | [_ [A _]]]; [| discriminate]. apply mem_In in A. rewrite A. eexists. reflexivity.
  - cbn [key_of]. destruct (coarse_only s) eqn:E; cbn [negb]; [| eexists; reflexivity].
    pose proof (c224_default_key s false None H) as [A | [A _]]; [| congruence]. apply mem_In in A. rewrite A. eexists. reflexivity.
Qed.
Theorem c224_plot2d_default s times time : keys_phys s <> [] -> times <> [] -> exists src, plot2d isclose s times NoField time = Done src.
Proof.
  intros H Ht. unfold plot2d. destruct times as [| t0 ts]; [congruence |]. destruct time as [t |].
  - cbn [key_of]. pose proof (c224_default_key s true None H) as [A | [_ [A _]]]; [| discriminate]. apply mem_In in A. rewrite A. eexists. reflexivity.
  - cbn [key_of]. destruct (coarse_only s) eqn:E; cbn [negb]; [| eexists; reflexivity].
    pose proof (c224_default_key s false None H) as [A | [A _]]; [| congruence]. apply mem_In in A. rewrite A. eexists. reflexivity.
Qed.
(** C224 (3): a key without time: the state at the time of the simulation. *)
Theorem c224_state s k times : coarse_only s = false ->
  plot3d isclose s (Key k) None = Done (FromState k (t_sim s)) /\ plot2d isclose s times (Key k) None = Done (FromState k (t_sim s)) /\
  plot1d isclose s (Key k) None = Done (FromState k (t_sim s)).
Proof. intros H. unfold plot3d, plot2d, plot1d, get_field. rewrite H, isclose_refl. split; [reflexivity | split; reflexivity]. Qed.
(** get_field_to_plot: the state without time or for the time of the simulation, the files otherwise *)
Theorem c224_get_field s k : get_field isclose s k None = (if coarse_only s then FromFile k None else FromState k (t_sim s)) /\
  get_field isclose s k (Some (t_sim s)) = (if coarse_only s then FromFile k (Some (t_sim s)) else FromState k (t_sim s)) /\
  (forall t, isclose t (t_sim s) = false -> get_field isclose s k (Some t) = FromFile k (Some t)).
Proof.
  unfold get_field. rewrite isclose_refl. split; [destruct (coarse_only s); reflexivity |]. split; [destruct (coarse_only s); reflexivity |].
  intros t H. rewrite H, andb_false_r. reflexivity.
Qed.
(** C224 (4): a key of the state at a given time which is not the one of the simulation: the files; any other key is an error. *)
Theorem c224_file s k t times : isclose t (t_sim s) = false -> times <> [] -> (t <= largest times)%Q ->
  let r := if in_dec string_dec k (keys_phys s) then Done (FromFile k (Some t)) else Error ValueError in
  plot3d isclose s (Key k) (Some t) = r /\ plot2d isclose s times (Key k) (Some t) = r /\ plot1d isclose s (Key k) (Some t) = r.
Proof.
  intros H Ht Hl r. unfold plot3d, plot2d, plot1d, get_field. cbn [key_of]. rewrite H, andb_false_r.
  destruct times as [| t0 ts]; [congruence |]. assert (E : Qle_bool t (largest (t0 :: ts)) = true) by (apply Qle_bool_iff; assumption). rewrite E, H, andb_false_r.
  unfold r. destruct (in_dec string_dec k (keys_phys s)) as [I | I].
  - apply mem_In in I. rewrite I. split; [reflexivity | split; reflexivity].
  - destruct (mem k (keys_phys s)) eqn:M; [apply mem_In in M; contradiction |]. split; [reflexivity | split; reflexivity].
Qed.
(** 2D: a time after the last file is replaced by the time of the last file *)
Lemma largest_spec times t : In t times -> (t <= largest times)%Q.
Proof.
  unfold largest. generalize (hd 0%Q times). induction times as [| a l IH]; intros d H; [contradiction |]. cbn [fold_right].
  destruct (Qle_bool (fold_right (fun t0 m => if Qle_bool m t0 then t0 else m) d l) a) eqn:E.
  - apply Qle_bool_iff in E. destruct H as [-> | H]; [apply Qle_refl |]. eapply Qle_trans; [apply IH, H | exact E].
  - assert (E' : ~ (fold_right (fun t0 m => if Qle_bool m t0 then t0 else m) d l <= a)%Q) by (rewrite <- Qle_bool_iff; congruence).
    destruct H as [-> | H]; [apply Qlt_le_weak, Qnot_le_lt, E' | apply IH, H].
Qed.
Theorem c224_late s k t times : In k (keys_phys s) -> (forall u, In u times -> (u < t)%Q) -> times <> [] ->
  plot2d isclose s times (Key k) (Some t) = plot2d isclose s times (Key k) (Some (largest times)).
Proof.
  intros Hk Ht Hn. unfold plot2d. destruct times as [| t0 ts]; [congruence |]. cbn [key_of].
  assert (Hin : forall l d, In (fold_right (fun t0 m => if Qle_bool m t0 then t0 else m) d l) (d :: l)).
  { induction l as [| a l IH]; intros d; [left; reflexivity |]. cbn [fold_right]. destruct (Qle_bool _ a); [right; left; reflexivity |].
    destruct (IH d) as [<- | I]; [left; reflexivity | right; right; assumption]. }
  assert (L : (largest (t0 :: ts) < t)%Q).
  { apply Ht. unfold largest. cbn [hd]. destruct (Hin (t0 :: ts) t0) as [E | E]; [rewrite <- E at 1; left; reflexivity | assumption]. }
  assert (E1 : Qle_bool t (largest (t0 :: ts)) = false).
  { destruct (Qle_bool t (largest (t0 :: ts))) eqn:E; [| reflexivity]. apply Qle_bool_iff in E. exfalso. apply (Qlt_not_le _ _ L E). }
  assert (E2 : Qle_bool (largest (t0 :: ts)) (largest (t0 :: ts)) = true) by (apply Qle_bool_iff, Qle_refl).
  rewrite E1, E2. reflexivity.
Qed.
End Plots.
(** C224 (5): a given array can not be plotted, whatever the time. *)
Theorem c224_array_refuted : exists s, keys_phys s = ["ux"; "uy"]%string /\ forall isclose times time, times <> [] ->
  plot1d isclose s Array time = Error ValueError /\ plot2d isclose s times Array time = Error ValueError /\ plot3d isclose s Array time = Error ValueError.
Proof.
  exists {| keys_phys := ["ux"; "uy"]%string; keys_computable := []; field_to_plot := "ux"; coarse_only := false; t_sim := 0 |}. split; [reflexivity |].
  intros isclose times time H. destruct times as [| t0 ts]; [congruence |]. split; [destruct time; reflexivity |]. split; destruct time; reflexivity.
Qed.

(** ** The mean of the files *)
Definition sum_Q (l : list Q) : Q := fold_right Qplus 0%Q l.
Lemma fold_sum {A} (g : A -> Q) (l : list A) : forall acc, (fold_left (fun acc t => acc + g t) l acc == acc + sum_Q (map g l))%Q.
Proof. induction l as [| a l IH]; intros acc; cbn [fold_left map sum_Q fold_right]; [ring |]. rewrite IH. fold (sum_Q (map g l)). ring. Qed.
Lemma closest_exact files t v : ForallOrdPairs (fun a b => ~ (fst a == fst b)%Q) files -> In (t, v) files -> closest_file files t = v.
Proof.
  intros D H. unfold closest_file. set (l := map _ files).
  assert (L : List.length l = List.length files) by (unfold l; apply map_length).
  destruct (In_nth files (t, v) (0, 0)%Q H) as [j [Hj Ej]].
  assert (A : argmin l < List.length files) by (rewrite <- L; apply argmin_lt; intros E; rewrite E in L; cbn in L; lia).
  assert (M := argmin_min l j ltac:(lia)). unfold l in M.
  rewrite (nth_indep _ 0%Q (Qabs (fst (0, 0)%Q - t))) in M by (rewrite map_length; exact A).
  rewrite (nth_indep _ 0%Q (Qabs (fst (0, 0)%Q - t)) (n := j)) in M by (rewrite map_length; exact Hj).
  rewrite !(map_nth (fun f : Q * Q => Qabs (fst f - t))), Ej in M. cbn [fst] in M. fold l in M. set (i := argmin l) in *.
  assert (Z : (fst (nth i files (0, 0)%Q) == t)%Q).
  { set (u := fst (nth i files (0, 0)%Q)) in *. assert (N : (Qabs (t - t) == 0)%Q) by (setoid_replace (t - t)%Q with 0%Q by ring; reflexivity). rewrite N in M. apply Qabs_Qle_condition in M. lra. }
  destruct (Nat.eq_dec i j) as [-> | Hij]; [rewrite Ej; reflexivity | exfalso].
  assert (P : forall fs i j, ForallOrdPairs (fun a b => ~ (fst a == fst b)%Q) fs -> i < j -> j < List.length fs -> ~ (fst (nth i fs (0, 0)%Q) == fst (nth j fs (0, 0)%Q))%Q).
  { clear. induction fs as [| a fs IH]; intros i j D Hi Hj; [cbn in Hj; lia |]. inversion D as [| x y F D']; subst. destruct i, j; try lia; cbn [nth].
    - rewrite Forall_forall in F. apply F, nth_In. cbn in Hj. lia.
    - apply IH; [assumption | lia | cbn in Hj; lia]. }
  destruct (Nat.lt_ge_cases i j) as [C | C].
  - apply (P files i j D C Hj). rewrite Ej. exact Z.
  - apply (P files j i D ltac:(lia) A). rewrite Ej. cbn [fst]. symmetry. exact Z.
Qed.
(** C224 (6): when the files have different times, plot_mean gives the mean of the values of the files between tmin and tmax, included. *)
Definition between (tmin tmax : option Q) (t : Q) : bool :=
  match tmin with Some u => Qle_bool u t | None => true end && match tmax with Some u => Qle_bool t u | None => true end.
Lemma smallest_spec times t : In t times -> (smallest times <= t)%Q.
Proof.
  unfold smallest. generalize (hd 0%Q times). induction times as [| a l IH]; intros d H; [contradiction |]. cbn [fold_right].
  destruct (Qle_bool a (fold_right (fun t0 m => if Qle_bool t0 m then t0 else m) d l)) eqn:E.
  - apply Qle_bool_iff in E. destruct H as [-> | H]; [apply Qle_refl |]. eapply Qle_trans; [exact E | apply IH, H].
  - assert (E' : ~ (a <= fold_right (fun t0 m => if Qle_bool t0 m then t0 else m) d l)%Q) by (rewrite <- Qle_bool_iff; congruence).
    destruct H as [-> | H]; [apply Qlt_le_weak, Qnot_le_lt, E' | apply IH, H].
Qed.
Lemma filter_map {A B} (p : B -> bool) (g : A -> B) l : filter p (map g l) = map g (filter (fun a => p (g a)) l).
Proof. induction l; [reflexivity |]. cbn. destruct (p (g a)); cbn; rewrite IHl; reflexivity. Qed.
Lemma filter_ext_in' {A} (p q : A -> bool) l : (forall a, In a l -> p a = q a) -> filter p l = filter q l.
Proof. induction l; intros H; [reflexivity |]. cbn. rewrite (H a) by (left; reflexivity). rewrite IHl; [reflexivity | intros; apply H; right; assumption]. Qed.
Theorem c224_mean_partial files tmin tmax : ForallOrdPairs (fun a b => ~ (fst a == fst b)%Q) files ->
  let chosen := filter (fun f => between tmin tmax (fst f)) files in
  match plot_mean files tmin tmax with
  | Done m => (m * inject_Z (Z.of_nat (List.length chosen)) == sum_Q (map snd chosen))%Q /\ chosen <> []
  | Error e => e = IndexError /\ chosen = []
  end.
Proof.
  intros D chosen. unfold plot_mean. set (p := fun t => Qle_bool _ t && _).
  assert (F : filter p (map fst files) = map fst chosen).
  { rewrite filter_map. f_equal. unfold chosen. apply filter_ext_in'. intros a Ha. unfold p, between.
    assert (Ia : In (fst a) (map fst files)) by (apply in_map; assumption). f_equal.
    - destruct tmin; [reflexivity |]. apply Qle_bool_iff, smallest_spec, Ia.
    - destruct tmax; [reflexivity |]. apply Qle_bool_iff, largest_spec, Ia. }
  rewrite F. destruct chosen as [| c cs] eqn:E; [split; reflexivity |].
  change (map fst (c :: cs)) with (fst c :: map fst cs) at 1. cbv iota. split; [| discriminate].
  rewrite fold_sum, map_length, map_map.
  assert (S : map (fun x => closest_file files (fst x)) (c :: cs) = map snd (c :: cs)).
  { apply map_ext_in. intros [t v] Hi. apply closest_exact; [assumption |]. rewrite <- E in Hi. apply filter_In in Hi. apply Hi. }
  rewrite S. field. intros K1. assert (K : (inject_Z (Z.of_nat (List.length (c :: cs))) == inject_Z 0)%Q) by exact K1.
  apply -> inject_Z_injective in K. assert (K0 : List.length (c :: cs) = 0) by lia. discriminate K0.
Qed.
(** but two files with the same time (saved within 0.001) are confused: the first one is counted twice *)
Theorem c224_mean_refuted : exists files m, plot_mean files None None = Done m /\ (m == 2)%Q /\ files = [(1, 2); (1, 4)]%Q.
Proof. eexists _, _. split; [| split; [| reflexivity]]; [reflexivity | vm_compute; reflexivity]. Qed.

(** ** The hypotheses can be met *)
Example ex_c223 : cross_section_state (fun _ => (-1)%Z) (fun _ => 0%Q) {| n_of := fun _ => 2; length_of := fun _ => 1%Q; only_coarse := false |} (by_index Y "-1")
   {| size0 := 2; size1 := 3; size2 := 4; at3 := fun i j k => (i, j, k) |} = Done {| rows := 2; cols := 4; at2 := fun a b => (a, 2, b) |}.
Proof. reflexivity. Qed.
Example ex_c223_coord : exists k, nearest (grid1d {| n_of := fun _ => 4; length_of := fun _ => 8%Q; only_coarse := false |} Z_) (7 # 2) = k /\ k = 2%Z.
Proof. eexists. split; reflexivity. Qed.
Example ex_c223_other : forall a t, "w=1"%string <> by_index a t /\ "w=1"%string <> by_coord a t.
Proof. intros a t. split; destruct a; discriminate. Qed.
Example ex_c224 : key_to_plot {| keys_phys := ["ux"; "uy"; "rot"]%string; keys_computable := ["div"]%string; field_to_plot := "div"; coarse_only := false; t_sim := 0 |} true None = "rot"%string.
Proof. reflexivity. Qed.
Example ex_c224_mean : exists m, plot_mean [(0, 1); (1, 2); (2, 6)]%Q (Some 1%Q) None = Done m /\ (m == 4)%Q.
Proof. eexists. split; [reflexivity | vm_compute; reflexivity]. Qed.

Print Assumptions c223_by_coord.
Print Assumptions c223_other.
Print Assumptions c224_mean_partial.
Print Assumptions c224_file.
Example ex_isclose : forall t, Qeq_bool t t = true.
Proof. intros t. apply Qeq_bool_iff. reflexivity. Qed.

Print Assumptions c223_by_index.
Print Assumptions c223_grid.
Print Assumptions c223_files.
Print Assumptions c223_axes.
Print Assumptions c223_vectors_partial.
Print Assumptions c223_2d_partial.
Print Assumptions c223_coarse_refuted.
Print Assumptions c223_online_refuted.
Print Assumptions c223_2d_refuted.
Print Assumptions c224_default_key.
Print Assumptions c224_prefered.
Print Assumptions c224_plot3d_default.
Print Assumptions c224_plot2d_default.
Print Assumptions c224_get_field.
Print Assumptions c224_state.
Print Assumptions c224_late.
Print Assumptions c224_array_refuted.
Print Assumptions c224_mean_refuted.
