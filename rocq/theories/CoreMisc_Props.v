(** * Loading of the solvers, files of the parameters, arrows of the figures: C262, C263, C264 *)

From Coq Require Import Ascii String Reals Lra Lia ZArith List Bool.
From Flocq Require Import Core.Core.
From Verif Require Import CoreMisc_Model.
Import ListNotations.
Local Open Scope string_scope.

(** ** C262: the solvers *)
(** the entry points have different names *)
Definition different (solvers : entries) : Prop := NoDup (map fst solvers).

Lemma find_in key s m : different s -> In (key, m) s -> find_entry key s = Some m.
Proof.
  intros D I. induction s as [|(k, m') s IH]; [destruct I|]. cbn [find_entry]. inversion D as [|x y N D' E]. subst. destruct I as [I|I].
  - injection I as -> ->. rewrite String.eqb_refl. reflexivity.
  - destruct (String.eqb_spec k key) as [->|_]; [exfalso; apply N; apply (in_map fst) in I; exact I|]. apply IH; assumption.
Qed.

Lemma find_none key s : ~ In key (map fst s) -> find_entry key s = None.
Proof.
  intros N. induction s as [|(k, m) s IH]; [reflexivity|]. cbn [find_entry]. destruct (String.eqb_spec k key) as [->|_]; [exfalso; apply N; left; reflexivity|].
  apply IH. intros I. apply N. right. exact I.
Qed.

Lemma strip_app p k : strip p (p ++ k) = Some k.
Proof. induction p as [|a p IH]; [reflexivity|]. cbn [String.append strip]. rewrite Ascii.eqb_refl. exact IH. Qed.

(** the short name does not begin with the name of the group *)
Definition short (group key : string) : Prop := forall k, key <> (group ++ "." ++ k).

Lemma app_assoc_s a b c : (a ++ b) ++ c = a ++ (b ++ c).
Proof. induction a as [|x a IH]; [reflexivity|]. cbn. rewrite IH. reflexivity. Qed.

Lemma strip_some p : forall key k, strip p key = Some k -> key = p ++ k.
Proof.
  induction p as [|a p IH]; intros key k H; [injection H as ->; reflexivity|]. destruct key as [|b key]; [discriminate|]. cbn [strip] in H.
  destruct (Ascii.eqb_spec a b) as [->|_]; [|discriminate]. cbn [String.append]. f_equal. apply IH. exact H.
Qed.

Lemma strip_short group key : short group key -> strip (group ++ ".") key = None.
Proof.
  intros S. destruct (strip (group ++ ".") key) as [k|] eqn:E; [exfalso|reflexivity]. apply strip_some in E. apply (S k). rewrite E. apply app_assoc_s.
Qed.

(** the class Simul of the registered module, with the short name or the full name *)
Theorem c262_found : forall key group s m c, different s -> short group key -> In (key, inl m) s -> Simul m = Some c ->
  import_cls_simul key group s = inl c /\ import_cls_simul (group ++ "." ++ key) group s = inl c.
Proof.
  intros key group s m c D S I C. unfold import_cls_simul, import_module_solver. rewrite (strip_short group key S), <- app_assoc_s, strip_app, (find_in key s (inl m) D I), C.
  split; reflexivity.
Qed.

(** an unknown name: ValueError *)
Theorem c262_unknown : forall key group s, short group key -> ~ In key (map fst s) ->
  import_cls_simul key group s = inr ValueError /\ import_cls_simul (group ++ "." ++ key) group s = inr ValueError.
Proof.
  intros key group s S N. unfold import_cls_simul, import_module_solver. rewrite (strip_short group key S), <- app_assoc_s, strip_app, (find_none key s N). split; reflexivity.
Qed.

(** an error of the import of the module of the solver is not changed, but KeyError *)
Theorem c262_error_partial : forall key group s e, different s -> short group key -> In (key, inr e) s -> e <> KeyError -> import_cls_simul key group s = inr e.
Proof.
  intros key group s e D S I E. unfold import_cls_simul, import_module_solver. rewrite (strip_short group key S), (find_in key s (inr e) D I). destruct e; congruence.
Qed.

(** a registered solver whose module raises KeyError is reported as an unknown solver *)
Theorem c262_refuted : exists key group s, different s /\ short group key /\ In (key, inr KeyError) s /\ import_cls_simul key group s = inr ValueError.
Proof.
  exists "ns2d", "fluidsim.solvers", [("ns2d", inr KeyError)]. split; [|split; [|split]].
  - repeat constructor. intros [].
  - intros k. discriminate.
  - left. reflexivity.
  - reflexivity.
Qed.

Example c262_example : import_cls_simul "fluidsim.solvers.ns2d" "fluidsim.solvers" [("ns2d", inl (mk_module "fluidsim.solvers.ns2d.solver" (Some "SimulNS2D")))] = inl "SimulNS2D".
Proof. reflexivity. Qed.

(** ** C263: the files of the parameters *)
Section Xml.
Context {A : Type}.
Variable refuse : bool.
Definition empty : dir A := mk_dir None None.

(** at the start of a simulation in a new directory: the final parameters are in the file *)
Theorem c263_start : forall enable (info params params' : A),
  exec refuse (start_ops true true true enable info params params') empty = (mk_dir (Some info) (Some (if enable then params' else params)), true).
Proof. intros [] info params params'; destruct refuse; reflexivity. Qed.

(** replaced when they exist, whatever their content is *)
Theorem c263_replace : forall i p info params : A, exec refuse (save_ops true true true true info params) (mk_dir (Some i) (Some p)) = (mk_dir (Some info) (Some params), true).
Proof. intros. destruct refuse; reflexivity. Qed.

(** if one of the two files is missing the replacement is an error; the file which exists is lost only if it is info_solver.xml *)
Theorem c263_missing : forall (d : dir A) (info params : A), info_xml d = None \/ params_xml d = None ->
  snd (exec refuse (save_ops true true true true info params) d) = false
  /\ info_xml (fst (exec refuse (save_ops true true true true info params) d)) = None
  /\ params_xml (fst (exec refuse (save_ops true true true true info params) d)) = params_xml d.
Proof.
  intros [i p] info params H. cbn in H. destruct i as [i|], p as [p|]; destruct H as [H|H]; try discriminate H; destruct refuse; cbn; auto.
Qed.

(** nothing is written by the other processes, without saves and in the directory of another simulation *)
Theorem c263_nothing : forall r h n replace (info params : A) (d : dir A), r && h && n = false -> exec refuse (save_ops r h n replace info params) d = (d, true).
Proof. intros r h n replace info params d H. unfold save_ops. rewrite H. reflexivity. Qed.

(** without preprocessing, after an interruption: the files which exist are right and params_simul.xml is never without info_solver.xml *)
Theorem c263_interrupted_partial : forall n (info params params' : A), let d := fst (exec refuse (firstn n (start_ops true true true false info params params')) empty) in
  (info_xml d = None \/ info_xml d = Some info) /\ (params_xml d = None \/ params_xml d = Some params) /\ (info_xml d = None -> params_xml d = None).
Proof. intros [|[|[|n]]] info params params'; destruct refuse; cbn; repeat split; auto; congruence. Qed.
End Xml.

(** an interruption in the preprocessing: the files which existed are lost; a file which was removed: an error *)
Theorem c263_refuted : exists n, forall refuse info params params' : bool, exists k : nat, (k < n)%nat
  /\ exec refuse (firstn k (start_ops true true true true info params params')) empty = (mk_dir (Some info) (Some params), true)
  /\ exec refuse (firstn n (start_ops true true true true info params params')) empty = (empty, true).
Proof. exists 4%nat. intros refuse info params params'. exists 2%nat. split; [lia|]. split; destruct refuse; reflexivity. Qed.

Example c263_example : exec true (start_ops true true true true 0%nat 1%nat 2%nat) empty = (mk_dir (Some 0%nat) (Some 2%nat), true).
Proof. reflexivity. Qed.

(** ** C264: the arrows *)
Local Open Scope R_scope.

(** the distance between two successive arrows along x *)
Theorem c264_x : forall nx Lx Ly, (0 < nx)%Z -> 0 < Lx -> 0 < Ly ->
  let skip := skip_quiver nx Lx Ly in let dx := Lx / IZR nx in
  (1 <= skip)%Z /\ IZR skip * dx <= Rmax dx (4 / 100 * Rmin Lx Ly + dx / 2) /\ 4 / 100 * Rmin Lx Ly - dx / 2 <= IZR skip * dx.
Proof.
  intros nx Lx Ly N X Y. cbv zeta. unfold skip_quiver. set (D := 4 / 100 * Rmin Lx Ly). set (r := IZR nx / Lx * D).
  assert (N' : 0 < IZR nx) by (apply IZR_lt; exact N). assert (P : 0 < Lx / IZR nx) by (apply Rdiv_lt_0_compat; assumption).
  assert (E : r * (Lx / IZR nx) = D) by (unfold r; field; lra).
  pose proof (Znearest_half (fun z => negb (Z.even z)) r) as H. apply Rabs_le_inv in H. change (Znearest (fun z => negb (Z.even z)) r) with (ZnearestE r) in H.
  destruct (Z.ltb_spec (ZnearestE r) 1) as [L|L].
  - split; [lia|]. rewrite Rmult_1_l. split; [apply Rmax_l|]. assert (L' : IZR (ZnearestE r) <= 0) by (apply IZR_le; lia). nra.
  - split; [exact L|]. split; [|nra]. eapply Rle_trans; [|apply Rmax_r]. nra.
Qed.

(** the arrows are regularly spaced from 0, in the domain, until less than one interval from its end *)
Theorem c264_arrows : forall skip n L, (1 <= skip)%Z -> (0 < n)%Z -> 0 < L ->
  let l := arrows skip n L in let d := IZR skip * (L / IZR n) in
  (0 < List.length l)%nat /\ (forall i, (i < List.length l)%nat -> nth i l 0 = INR i * d /\ nth i l 0 < L) /\ L <= INR (List.length l) * d.
Proof.
  intros skip n L S N P. cbv zeta. unfold arrows. rewrite map_length, seq_length. set (q := ((n + skip - 1) / skip)%Z).
  assert (N' : 0 < IZR n) by (apply IZR_lt; exact N). assert (P' : 0 < L / IZR n) by (apply Rdiv_lt_0_compat; assumption).
  assert (Q0 : (1 <= q)%Z) by (unfold q; apply Z.div_le_lower_bound; lia).
  assert (Q1 : (n <= q * skip)%Z) by (unfold q; pose proof (Z.div_mod (n + skip - 1) skip ltac:(lia)); pose proof (Z.mod_pos_bound (n + skip - 1) skip ltac:(lia)); nia).
  assert (Q2 : ((q - 1) * skip < n)%Z) by (unfold q; pose proof (Z.mul_div_le (n + skip - 1) skip ltac:(lia)); nia).
  assert (E : L = IZR n * (L / IZR n)) by (field; lra).
  split; [lia|]. split.
  - intros i I. rewrite (nth_indep _ 0 (IZR (Z.of_nat 0 * skip) * (L / IZR n))) by (rewrite map_length, seq_length; exact I).
    rewrite (map_nth (fun i => IZR (Z.of_nat i * skip) * (L / IZR n))), seq_nth by exact I. cbn [Nat.add].
    split; [rewrite mult_IZR, <- INR_IZR_INZ; ring|]. rewrite E at 2. apply Rmult_lt_compat_r; [exact P'|]. apply IZR_lt. nia.
  - rewrite E at 1. rewrite INR_IZR_INZ, Z2Nat.id by lia. rewrite <- Rmult_assoc, <- mult_IZR. apply Rmult_le_compat_r; [lra|]. apply IZR_le. lia.
Qed.

(** along y, with cells of equal edges: the same distance *)
Theorem c264_y_partial : forall nx ny Lx Ly, (0 < nx)%Z -> (0 < ny)%Z -> 0 < Lx -> 0 < Ly -> Lx / IZR nx = Ly / IZR ny ->
  let skip := skip_quiver nx Lx Ly in let dy := Ly / IZR ny in
  IZR skip * dy <= Rmax dy (4 / 100 * Rmin Lx Ly + dy / 2) /\ 4 / 100 * Rmin Lx Ly - dy / 2 <= IZR skip * dy.
Proof. intros nx ny Lx Ly N M X Y E. cbv zeta. rewrite <- E. apply (c264_x nx Lx Ly N X Y). Qed.

(** cells which are 10 times larger along y: the arrows are separated by 4 % of the edges along x and by 40 % along y *)
Theorem c264_refuted : exists nx ny Lx Ly, (0 < ny)%Z /\ Lx = Ly /\ let skip := skip_quiver nx Lx Ly in
  IZR skip * (Lx / IZR nx) = 4 / 100 * Lx /\ IZR skip * (Ly / IZR ny) = 40 / 100 * Ly.
Proof.
  exists 1000%Z, 100%Z, 1, 1. split; [lia|]. split; [reflexivity|]. cbv zeta. unfold skip_quiver. rewrite (Rmin_left 1 1) by lra.
  replace (1000 / 1 * (4 / 100 * 1)) with (IZR 40) by lra. rewrite Zrnd_IZR by apply valid_rnd_N. cbn. lra.
Qed.

Example c264_example : (0 < 48)%Z /\ 0 < 1 /\ 0 < 2.
Proof. split; [lia|lra]. Qed.

Print Assumptions c262_found.
Print Assumptions c262_unknown.
Print Assumptions c262_error_partial.
Print Assumptions c262_refuted.
Print Assumptions c263_start.
Print Assumptions c263_missing.
Print Assumptions c263_replace.
Print Assumptions c263_nothing.
Print Assumptions c263_interrupted_partial.
Print Assumptions c263_refuted.
Print Assumptions c264_x.
Print Assumptions c264_arrows.
Print Assumptions c264_y_partial.
Print Assumptions c264_refuted.
