(** * Files of states with a modified resolution: C247 *)

From Coq Require Import Ascii String List Bool Arith ZArith QArith Lia FunctionalExtensionality.
From Verif Require Import Oper_Model Oper_Spec Resol_Model Resol_Proofs ModifResol_Model.
Import ListNotations.
Local Open Scope nat_scope.

(** ** The buffer *)
(** what was in the buffer at the positions written by [fill] does not matter *)
Definition overwrites {K : Type} (fill : K -> K -> K) : Prop := forall f g z, fill f (fill g z) = fill f z.

Lemma mini_fill_2d_overwrites V nx ny nx2 ny2 : overwrites (@mini_fill_2d V nx ny nx2 ny2).
Proof.
  intros f g z. unfold mini_fill_2d. extensionality a. extensionality b. rewrite !fill_2d_closed.
  destruct (_ && _); reflexivity.
Qed.

Lemma mini_fill_3d_overwrites V nx ny nz nx2 ny2 nz2 : overwrites (@mini_fill_3d V nx ny nz nx2 ny2 nz2).
Proof.
  intros f g z. unfold mini_fill_3d. extensionality a. extensionality b. extensionality c. rewrite !mini_closed.
  destruct (_ && _); reflexivity.
Qed.

Lemma sizes_eqb_spec a : forall b, sizes_eqb a b = true <-> a = b.
Proof.
  induction a as [|x a IH]; intros [|y b]; cbn; try (split; intros E; discriminate || reflexivity).
  rewrite andb_true_iff, Nat.eqb_eq, IH. split; [intros [-> ->]; reflexivity|intros E; injection E; auto].
Qed.

Lemma name_eqb_spec a b : name_eqb a b = true <-> a = b.
Proof.
  destruct a as [x [i|]], b as [y [j|]]; unfold name_eqb; cbn; rewrite andb_true_iff, Z.eqb_eq; try rewrite Nat.eqb_eq;
    (split; [intros [A B]; subst; try discriminate; reflexivity | intros E; injection E; intros; subst; try discriminate; auto]).
Qed.

Lemma path_eqb_spec a b : path_eqb a b = true <-> a = b.
Proof.
  destruct a, b; unfold path_eqb; cbn [fst snd]. rewrite andb_true_iff, sizes_eqb_spec, name_eqb_spec.
  split; [intros [-> ->]; reflexivity|intros E; injection E; auto].
Qed.

Lemma read_write {X} (d : directory X) p f q : read (write d p f) q = if path_eqb q p then Some f else read d q.
Proof. reflexivity. Qed.

Lemma get_In {X} (l : list (string * X)) k x : NoDup (map fst l) -> In (k, x) l -> get l k = Some x.
Proof.
  induction l as [|[k' y] l IH]; intros N H; [destruct H|]. cbn. cbn in N. inversion N as [|? ? A B]; subst.
  destruct H as [E|H].
  - injection E as -> ->. rewrite String.eqb_refl. reflexivity.
  - destruct (String.eqb_spec k k') as [->|]; [|auto].
    exfalso. apply A. apply (in_map fst) in H. exact H.
Qed.

Section Efficient.
Context {X K : Type} (fft : X -> K) (ifft : K -> X) (fill : K -> K -> K) (zeros : K).

(** what is expected for one variable: the transform of the coefficients copied in a new array of zeros *)
Definition interpolated (x : X) : X := ifft (fill (fft x) zeros).

Lemma save_variables_spec (f : state_file X) : overwrites fill -> NoDup (map fst (variables f)) ->
  forall l s, incl l (variables f) -> (forall g, fill g s = fill g zeros) ->
  save_variables fft ifft fill f (map fst l) s = Some (map (fun kv => (fst kv, interpolated (snd kv))) l).
Proof.
  intros O N. induction l as [|[k x] l IH]; intros s I B; [reflexivity|].
  cbn [map fst snd save_variables]. unfold get_var.
  rewrite (get_In _ k x N) by (apply I; left; reflexivity). cbn [fst snd].
  rewrite IH.
  - rewrite B. reflexivity.
  - intros y Hy. apply I. right. exact Hy.
  - intros g. rewrite O. apply B.
Qed.

(** the file is written whatever was in the directory, with the time, the iteration, the name of the run and the name
    of the file which is read, and each variable is interpolated independently of the other ones; the other files are
    unchanged *)
Theorem c247_efficient : overwrites fill -> forall coef sizes name (f : state_file X) d,
  NoDup (map fst (variables f)) ->
  exists d', modif_resolution_memory_efficient fft ifft fill zeros coef sizes name f d = Some d'
  /\ (exists g, read d' (new_sizes coef sizes, name) = Some g
      /\ time g = time f /\ iteration g = iteration f /\ name_run g = name_run f
      /\ variables g = map (fun kv => (fst kv, interpolated (snd kv))) (variables f)
      /\ particular_attr g = Some "modif_resolution"%string)
  /\ (forall p, p <> (new_sizes coef sizes, name) -> read d' p = read d p).
Proof.
  intros O coef sizes name f d N. unfold modif_resolution_memory_efficient.
  rewrite (save_variables_spec f O N); [|apply incl_refl|reflexivity].
  eexists. split; [reflexivity|]. split.
  - eexists. rewrite read_write, (proj2 (path_eqb_spec _ _) eq_refl). split; [reflexivity|].
    split; [reflexivity|]. split; [reflexivity|]. split; [reflexivity|]. split; reflexivity.
  - intros p H. rewrite read_write. destruct (path_eqb p _) eqn:E; [|reflexivity].
    apply path_eqb_spec in E. contradiction.
Qed.
End Efficient.

(** the two operators of the function (the theorem above applies) *)
Theorem c247_efficient_operators : forall V nx ny nz nx2 ny2 nz2,
  overwrites (@mini_fill_2d V nx ny nx2 ny2) /\ overwrites (@mini_fill_3d V nx ny nz nx2 ny2 nz2).
Proof. intros. split; [apply mini_fill_2d_overwrites|apply mini_fill_3d_overwrites]. Qed.

(** the new sizes are the sizes multiplied by the coefficient, rounded down *)
Theorem c247_sizes : forall coef n, (0 <= coef)%Q ->
  (inject_Z (Z.of_nat (new_size coef n)) <= inject_Z (Z.of_nat n) * coef < inject_Z (Z.of_nat (new_size coef n) + 1))%Q.
Proof.
  intros [p q] n H. unfold new_size, Qle, Qlt, Qmult, inject_Z in *. cbn [Qnum Qden] in *.
  assert (P : (0 <= Z.of_nat n * p)%Z) by (apply Z.mul_nonneg_nonneg; lia).
  rewrite Z2Nat.id by (apply Z.quot_pos; lia).
  pose proof (Z.quot_rem' (Z.of_nat n * p) (Z.pos q)) as E.
  pose proof (Z.rem_bound_pos (Z.of_nat n * p) (Z.pos q) P ltac:(lia)) as B.
  rewrite !Pos2Z.inj_mul. split; lia.
Qed.

Section TwoSimul.
Context {X K : Type} (spect_of : list (string * X) -> list (string * K)) (phys_of : list (string * K) -> list (string * X))
  (resized : K -> K) (thousandths : Q -> Z).

(** what is expected for the variables *)
Definition interpolated_state (l : list (string * X)) : list (string * X) :=
  phys_of (map (fun kv => (fst kv, resized (snd kv))) (spect_of l)).

(** partial: only if there is no file of this time in the directory; the iteration is not the one of the file *)
Theorem c247_from_dir_partial : forall (with_it : bool) coef sizes name2 (f : state_file X) d,
  let p := (new_sizes coef sizes, (thousandths (time f), if with_it then Some 0 else None)) in
  let d' := modif_resolution_from_dir spect_of phys_of resized thousandths with_it coef sizes name2 f d in
  read d p = None ->
  (exists g, read d' p = Some g /\ time g = time f /\ iteration g = 0 /\ name_run g = name2
     /\ variables g = interpolated_state (variables f) /\ particular_attr g = Some "modif_resolution"%string)
  /\ (forall q, q <> p -> read d' q = read d q).
Proof.
  intros with_it coef sizes name2 f d p d' H.
  assert (E : d' = write d p (mkFile (time f) 0 name2 (interpolated_state (variables f)) (Some "modif_resolution"%string))).
  { unfold d', modif_resolution_from_dir, save. cbn [s_time s_it s_name_run s_spect get_state_from_simul new_simul load_state_phys_file].
    fold p. rewrite H. reflexivity. }
  rewrite E. split.
  - eexists. rewrite read_write, (proj2 (path_eqb_spec _ _) eq_refl). split; [reflexivity|].
    split; [reflexivity|]. split; [reflexivity|]. split; [reflexivity|]. split; reflexivity.
  - intros q N. rewrite read_write. destruct (path_eqb q p) eqn:F; [|reflexivity]. apply path_eqb_spec in F. contradiction.
Qed.

(** a file of a state with a modified resolution is never replaced: with the same time (in thousandths) nothing is saved *)
Theorem c247_never_replaced : forall (with_it : bool) coef sizes name2 name3 (f g : state_file X) d,
  thousandths (time g) = thousandths (time f) ->
  read d (new_sizes coef sizes, (thousandths (time f), if with_it then Some 0 else None)) = None ->
  let d' := modif_resolution_from_dir spect_of phys_of resized thousandths with_it coef sizes name2 f d in
  modif_resolution_from_dir spect_of phys_of resized thousandths with_it coef sizes name3 g d' = d'.
Proof.
  intros with_it coef sizes name2 name3 f g d T H d'.
  destruct (c247_from_dir_partial with_it coef sizes name2 f d H) as [(h & R & _ & I & _) _]. fold d' in R.
  unfold modif_resolution_from_dir at 1, save.
  cbn [s_time s_it s_name_run s_spect get_state_from_simul new_simul load_state_phys_file].
  rewrite T, R, I. reflexivity.
Qed.
End TwoSimul.

(** ** Examples: one variable with a mean value only *)
Definition idl (l : list (string * Q)) : list (string * Q) := l.
Definition round3 (t : Q) : Z := Z.div (2 * Z.abs (Qnum t) * 1000 + Zpos (Qden t)) (2 * Zpos (Qden t)).
Definition ex_file (t : Q) (it : nat) (x : Q) : state_file Q := mkFile t it "run"%string [("ux"%string, x)] None.

(** the iteration is not kept *)
Theorem c247_iteration_refuted : exists (f : state_file Q) p g,
  read (modif_resolution_from_dir idl idl (fun x => x) round3 false 2 [8; 8] "run2" f []) p = Some g
  /\ variables g = variables f /\ time g = time f /\ iteration f = 120 /\ iteration g = 0.
Proof.
  exists (ex_file (12 # 10) 120 5), ([16; 16], (1200%Z, None)). eexists.
  split; [vm_compute; reflexivity|]. repeat split.
Qed.

(** a second state is silently not saved *)
Theorem c247_saved_refuted : exists (f g : state_file Q) d,
  d = modif_resolution_from_dir idl idl (fun x => x) round3 false 2 [8; 8] "run2" f []
  /\ ~ (time f == time g)%Q /\ iteration f <> iteration g /\ variables f <> variables g
  /\ modif_resolution_from_dir idl idl (fun x => x) round3 false 2 [8; 8] "run3" g d = d
  /\ (forall p h, read d p = Some h -> variables h <> variables g).
Proof.
  exists (ex_file (12 # 10) 120 5), (ex_file (12001 # 10000) 121 6).
  set (d := modif_resolution_from_dir _ _ _ _ _ _ _ _ _ _). exists d. split; [reflexivity|].
  split; [intros E; vm_compute in E; discriminate|]. split; [cbn; lia|]. split; [intros E; vm_compute in E; discriminate|].
  split; [apply c247_never_replaced; reflexivity|].
  intros p h. unfold d. intros R E.
  change (modif_resolution_from_dir idl idl (fun x => x) round3 false 2 [8; 8] "run2" (ex_file (12 # 10) 120 5) [])
    with [(([16; 16], (1200%Z, @None nat)), mkFile (12 # 10) 0 "run2"%string [("ux"%string, 5%Q)] (Some "modif_resolution"%string))] in R.
  cbn [read] in R. destruct (path_eqb p _); [|discriminate]. injection R as <-. cbn in E. discriminate.
Qed.

Example c247_ex_efficient : exists d g,
  modif_resolution_memory_efficient (fun x : Q => fun a b : nat => if (a =? 0) && (b =? 0) then x else 0%Q) (fun k => k 0 0)
    (mini_fill_2d 8 8 16 16) (fun _ _ => 0%Q) 2 [8; 8] (1200%Z, None)
    (mkFile (12 # 10) 120 "run" [("ux"%string, 5%Q); ("uy"%string, 7%Q)] None) [] = Some d
  /\ read d ([16; 16], (1200%Z, None)) = Some g /\ variables g = [("ux"%string, 5%Q); ("uy"%string, 7%Q)] /\ iteration g = 120.
Proof.
  destruct (c247_efficient (fun x : Q => fun a b : nat => if (a =? 0) && (b =? 0) then x else 0%Q) (fun k => k 0 0)
    (mini_fill_2d 8 8 16 16) (fun _ _ => 0%Q) (mini_fill_2d_overwrites Q 8 8 16 16) 2 [8; 8] (1200%Z, None)
    (mkFile (12 # 10) 120 "run" [("ux"%string, 5%Q); ("uy"%string, 7%Q)] None) []) as (d & A & (g & B & _ & C & _ & D & _) & _).
  { repeat constructor; cbn; intuition discriminate. }
  exists d, g. split; [exact A|]. split; [exact B|]. split; [|exact C]. rewrite D. cbn [map fst snd variables]. unfold interpolated, mini_fill_2d.
  rewrite !fill_2d_closed. reflexivity.
Qed.

Example c247_ex_sizes : new_sizes 2 [8; 12] = [16; 24] /\ new_sizes (1 # 2) [9; 12] = [4; 6].
Proof. split; reflexivity. Qed.

Example c247_ex_free : read ([] : directory Q) (new_sizes 2 [8; 8], (round3 (12 # 10), None)) = None.
Proof. reflexivity. Qed.

Print Assumptions c247_efficient.
Print Assumptions c247_efficient_operators.
Print Assumptions c247_sizes.
Print Assumptions c247_from_dir_partial.
Print Assumptions c247_never_replaced.
Print Assumptions c247_iteration_refuted.
Print Assumptions c247_saved_refuted.
