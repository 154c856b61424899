(** The files of the state do not depend on the number of processes (C218). *)
From Coq Require Import String List ZArith Bool Arith Lia.
From Verif Require Import SaveFile_Model.
Import ListNotations.

(** * Specification *)
(** an index of an array *)
Fixpoint valid (sh idx : list nat) : Prop :=
  match sh, idx with [], [] => True | n :: sh, i :: idx => i < n /\ valid sh idx | _, _ => False end.
(** two arrays with the same shape and the same values at all the indices *)
Definition same {V} (a b : array V) : Prop := shape a = shape b /\ forall idx, valid (shape a) idx -> val a idx = val b idx.
(** the point idx of the global array is the point idx - start of the local one *)
Fixpoint minus (idx st : list nat) : list nat :=
  match idx, st with i :: idx, s :: st => i - s :: minus idx st | _, _ => [] end.
Fixpoint inside (idx st sh : list nat) : Prop :=
  match idx, st, sh with [], [], [] => True | i :: idx, s :: st, n :: sh => (s <= i < s + n) /\ inside idx st sh | _, _, _ => False end.
(** blocks of the array [g]: each block is in the array, has its values, and all the points of the array are in a block *)
Record partition {V} (g : array V) (bs : list (block V)) : Prop := {
  p_in : forall b, In b bs -> forall idx, inside idx (start b) (shape (local b)) -> valid (shape g) idx /\ val (local b) (minus idx (start b)) = val g idx;
  p_size : forall b, In b bs -> Forall2 le (map (fun sn => fst sn + snd sn) (combine (start b) (shape (local b)))) (shape g);
  p_len : forall b, In b bs -> length (start b) = length (shape g) /\ length (shape (local b)) = length (shape g);
  p_all : forall idx, valid (shape g) idx -> exists b, In b bs /\ inside idx (start b) (shape (local b)) }.
(** only the two first dimensions are distributed *)
Definition two_first {V} (g : array V) (b : block V) : Prop :=
  Forall (eq 0) (skipn 2 (start b)) /\ skipn 2 (shape (local b)) = skipn 2 (shape g).

(** * Proofs *)
Section P.
Context {V : Type}.
Lemma minus_zeros : forall r z, Forall (eq 0) z -> length z = length r -> minus r z = r.
Proof. induction r as [|i r IH]; intros [|s z] F L; try discriminate; [reflexivity|]. inversion F as [|? ? E F']. subst. cbn. rewrite IH by (assumption || (cbn in L; lia)). now rewrite Nat.sub_0_r. Qed.
Lemma inside_zeros : forall r z sh, Forall (eq 0) z -> length z = length sh -> valid sh r -> inside r z sh.
Proof.
  induction r as [|i r IH]; intros [|s z] [|n sh] F L H; cbn in *; try contradiction; try discriminate; [trivial|].
  inversion F as [|? ? E F']. subst. destruct H as [H1 H2]. split; [lia|]. apply IH; [exact F'|lia|exact H2].
Qed.
Lemma inside_zeros_inv : forall r z sh, Forall (eq 0) z -> inside r z sh -> valid sh r.
Proof. induction r as [|i r IH]; intros [|s z] [|n sh] F H; cbn in *; try contradiction; [trivial|]. inversion F as [|? ? E F']. subst. split; [lia|]. now apply (IH z). Qed.
Lemma valid_len : forall sh idx, valid sh idx -> length sh = length idx.
Proof. induction sh as [|n sh IH]; intros [|i idx] H; cbn in *; try contradiction; [reflexivity|]. f_equal. now apply IH. Qed.

Lemma write_one : forall (g d : array V) b, shape d = shape g -> 2 <= length (shape g) ->
  (forall idx, inside idx (start b) (shape (local b)) -> valid (shape g) idx /\ val (local b) (minus idx (start b)) = val g idx) ->
  Forall2 le (map (fun sn => fst sn + snd sn) (combine (start b) (shape (local b)))) (shape g) ->
  length (start b) = length (shape g) -> length (shape (local b)) = length (shape g) -> two_first g b ->
  exists d', write_block d b = Done d' /\ shape d' = shape g
    /\ (forall idx, valid (shape g) idx -> inside idx (start b) (shape (local b)) -> val d' idx = val g idx)
    /\ (forall idx, valid (shape g) idx -> ~ inside idx (start b) (shape (local b)) -> val d' idx = val d idx).
Proof.
  intros g d b Sd L2 Hin Hsz L1 L3 [T1 T2]. unfold write_block. rewrite Sd.
  destruct (shape g) as [|M0 [|M1 rest]] eqn:Eg; cbn in L2; try lia.
  destruct (start b) as [|x0 [|y0 st]] eqn:Es; cbn in L1; try lia.
  destruct (shape (local b)) as [|n0 [|n1 rl]] eqn:El; cbn in L3; try lia.
  cbn [skipn] in T1, T2. subst rl. cbn [combine map fst snd] in Hsz. inversion Hsz as [|? ? ? ? A1 R1]. subst. inversion R1 as [|? ? ? ? A2 R2]. subst.
  destruct (list_eq_dec Nat.eq_dec _ _) as [e|ne]; [|exfalso; apply ne; f_equal; [lia|f_equal; lia]].
  eexists. split; [reflexivity|]. split; [reflexivity|]. split.
  - intros idx Hv Hi. cbn [val]. destruct idx as [|i [|j r]]; cbn in Hv; try tauto. pose proof (Hin _ Hi) as [_ E]. cbn in Hi.
    replace ((x0 <=? i) && (i <? x0 + n0) && (y0 <=? j) && (j <? y0 + n1))%bool with true
      by (symmetry; rewrite !andb_true_iff, !Nat.leb_le, !Nat.ltb_lt; lia).
    rewrite <- E. cbn [minus]. rewrite (minus_zeros r st T1); [reflexivity|]. destruct Hv as [_ [_ Hv]]. apply valid_len in Hv. lia.
  - intros idx Hv Hi. cbn [val]. destruct idx as [|i [|j r]]; cbn in Hv; try tauto.
    destruct ((x0 <=? i) && (i <? x0 + n0) && (y0 <=? j) && (j <? y0 + n1))%bool eqn:Ec; [|reflexivity].
    exfalso. apply Hi. rewrite !andb_true_iff, !Nat.leb_le, !Nat.ltb_lt in Ec. cbn. split; [lia|]. split; [lia|]. apply inside_zeros; [exact T1|lia|tauto].
Qed.
End P.

(** * C218 *)
(** the blocks written by the processes, in any order, make the array *)
Theorem c218_blocks : forall V (g : array V) bs fill, partition g bs -> Forall (two_first g) bs -> 2 <= length (shape g) ->
  exists a, write_blocks {| shape := shape g; val := fill |} bs = Done a /\ same a g.
Proof.
  intros V g bs fill P T L2.
  assert (G : forall l d, incl l bs -> shape d = shape g -> exists a, write_blocks d l = Done a /\ shape a = shape g
     /\ forall idx, valid (shape g) idx -> (val d idx = val g idx \/ exists b, In b l /\ inside idx (start b) (shape (local b))) -> val a idx = val g idx).
  { induction l as [|b l IH]; intros d Hl Hd.
    - exists d. split; [reflexivity|]. split; [exact Hd|]. intros idx _ [E|[b [[] _]]]. exact E.
    - assert (Hb : In b bs) by (apply Hl; now left). destruct P as [P1 P2 P3 P4]. rewrite Forall_forall in T.
      destruct (write_one g d b Hd L2 (P1 b Hb) (P2 b Hb) (proj1 (P3 b Hb)) (proj2 (P3 b Hb)) (T b Hb)) as [d' [E [Sd [V1 V2]]]].
      cbn [write_blocks]. rewrite E. destruct (IH d') as [a [Ea [Sa Va]]]; [intros x Hx; apply Hl; now right|exact Sd|].
      exists a. split; [exact Ea|]. split; [exact Sa|]. intros idx Hv H. apply Va; [exact Hv|].
      assert (D : {inside idx (start b) (shape (local b))} + {~ inside idx (start b) (shape (local b))}).
      { clear. revert idx. generalize (start b), (shape (local b)). induction l as [|s st IH]; intros [|n sh] [|i idx]; cbn; try (left; exact I); try (right; tauto).
        destruct (IH sh idx) as [H|H]; [|right; tauto]. destruct (le_lt_dec s i); [|right; lia]. destruct (le_lt_dec (s + n) i); [right; lia|left; split; [lia|exact H]]. }
      destruct D as [D|D]; [left; now apply V1|]. destruct H as [H|[c [[->|Hc] Hi]]]; [left; rewrite V2 by assumption; exact H|contradiction|right; now exists c]. }
  destruct (G bs {| shape := shape g; val := fill |} (incl_refl bs) eq_refl) as [a [Ea [Sa Va]]]. exists a. split; [exact Ea|]. split; [exact Sa|].
  intros idx Hv. rewrite Sa in Hv. apply Va; [exact Hv|]. right. destruct (p_all _ _ P idx Hv) as [b Hb]. now exists b.
Qed.
(** the files: the content which is asked *)
Definition content {V A} (f : file V A) (l : list (string * array V)) (what info time it short run axes one : A) (p : option A) : Prop :=
  Forall2 (fun d k => fst d = fst k /\ same (data (snd d)) (snd k)) (datasets f) l
  /\ group_attrs f = [("what"%string, what); ("name_type_variables"%string, info); ("time"%string, time); ("it"%string, it)]
  /\ file_attrs f = [("name_solver"%string, short); ("name_run"%string, run); ("axes"%string, axes)] ++ match p with Some x => [("particular_attr"%string, x)] | None => [] end
  /\ params_attrs f = [("SAVE"%string, one); ("NEW_DIR_RESULTS"%string, one)].
Lemma create_all : forall V A nc l (f : file V A), (nc = true -> Forall (fun ka => length (shape (snd ka)) <= 3) l) ->
  exists ds, create_variables nc l f = Done {| group_attrs := group_attrs f; datasets := datasets f ++ ds; file_attrs := file_attrs f; params_attrs := params_attrs f |}
   /\ Forall2 (fun d k => fst d = fst k /\ data (snd d) = snd k /\ dims (snd d) = if nc then dimensions (length (shape (snd k))) else None) ds l.
Proof.
  intros V A nc l. induction l as [|[k a] l IH]; intros f H.
  - exists []. split; [|constructor]. cbn. rewrite app_nil_r. now destruct f.
  - assert (D : nc = true -> dimensions (length (shape a)) <> None).
    { intros E. specialize (H E). inversion H as [|? ? B _]. subst. cbn in B. destruct (length (shape a)) as [|[|[|[|n]]]]; try discriminate. lia. }
    assert (H' : nc = true -> Forall (fun ka => length (shape (snd ka)) <= 3) l) by (intros E; specialize (H E); now inversion H).
    cbn [create_variables]. unfold create_variable. destruct nc.
    + destruct (dimensions (length (shape a))) as [ds|] eqn:Ed; [|now elim D].
      edestruct IH as [r [E F]]; [exact H'|]. exists ((k, {| data := a; dims := Some ds |}) :: r). split; [rewrite E; cbn; now rewrite <- app_assoc|].
      constructor; [|exact F]. cbn. split; [reflexivity|]. split; [reflexivity|]. now rewrite Ed.
    + edestruct IH as [r [E F]]; [exact H'|]. exists ((k, {| data := a; dims := None |}) :: r). split; [rewrite E; cbn; now rewrite <- app_assoc|].
      constructor; [|exact F]. cbn. split; [reflexivity|]. split; reflexivity.
Qed.
Lemma create_content : forall V A nc l (what info time it short run axes one : A) p, (nc = true -> Forall (fun ka => length (shape (snd ka)) <= 3) l) ->
  exists f, create_variables nc l (new_file (V := V) what info time it) = Done f /\ content (close_file short run axes one p f) l what info time it short run axes one p
    /\ Forall2 (fun d k => dims (snd d) = if nc then dimensions (length (shape (snd k))) else None) (datasets f) l.
Proof.
  intros V A nc l what info time it short run axes one p H. destruct (create_all V A nc l (new_file what info time it) H) as [ds [E F]].
  eexists. split; [exact E|]. split.
  - split; [|split; [reflexivity|split; reflexivity]]. cbn [close_file datasets new_file app]. clear E H. induction F as [|x y l1 l2 [F1 [F2 _]] _ IH]; constructor; [|exact IH]. split; [exact F1|]. rewrite F2. split; [reflexivity|trivial].
  - cbn [datasets new_file app]. clear E H. induction F as [|x y l1 l2 [_ [_ F3]] _ IH]; constructor; assumption.
Qed.
(** on one process *)
Theorem c218_sequential : forall V A gather h5mpi shapeX fill l (what info time it short run axes one : A) p, (h5mpi = false -> Forall (fun ka : string * array V => length (shape (snd ka)) <= 3) l) ->
  exists f, save_file gather h5mpi shapeX fill (Sequential l) what info time it short run axes one p = Done f
   /\ content f l what info time it short run axes one p
   /\ Forall2 (fun d k => dims (snd d) = if h5mpi then None else dimensions (length (shape (snd k)))) (datasets f) l.
Proof.
  intros V A gather h5mpi shapeX fill l what info time it short run axes one p H. unfold save_file.
  destruct (create_content V A (negb h5mpi) l what info time it short run axes one p) as [f [E [C D]]]; [intros E; apply H; now destruct h5mpi|].
  rewrite E. eexists. split; [reflexivity|]. split; [exact C|]. cbn [close_file datasets]. now destruct h5mpi.
Qed.
(** on several processes: the same content as on one process *)
Theorem c218_gather : forall V A gather shapeX fill l (what info time it short run axes one : A) p (fields : list (string * array V)),
  Forall2 (fun kb ka => fst kb = fst ka /\ gather (snd kb) = snd ka) l fields ->
  save_file gather false shapeX fill (Distributed l) what info time it short run axes one p = save_file gather false shapeX fill (Sequential fields) what info time it short run axes one p.
Proof.
  intros V A gather shapeX fill l what info time it short run axes one p fields F. unfold save_file. cbn [negb].
  replace (map (fun kb => (fst kb, gather (snd kb))) l) with fields; [reflexivity|]. induction F as [|[k b] [k' a] l1 l2 [E1 E2] _ IH]; [reflexivity|]. cbn in *. now subst.
Qed.
Theorem c218_parallel : forall V A gather shapeX fill l (what info time it short run axes one : A) p (fields : list (string * array V)),
  Forall2 (fun kb ka => fst kb = fst ka /\ shape (snd ka) = shapeX /\ partition (snd ka) (snd kb) /\ Forall (two_first (snd ka)) (snd kb)) l fields -> length shapeX = 2 \/ length shapeX = 3 ->
  exists f, save_file gather true shapeX fill (Distributed l) what info time it short run axes one p = Done f /\ content f fields what info time it short run axes one p.
Proof.
  intros V A gather shapeX fill l what info time it short run axes one p fields F L. unfold save_file. cbn [negb].
  assert (G : forall f : file V A, exists ds, write_parallel shapeX fill l f = Done {| group_attrs := group_attrs f; datasets := datasets f ++ ds; file_attrs := file_attrs f; params_attrs := params_attrs f |}
     /\ Forall2 (fun d k => fst d = fst k /\ same (data (snd d)) (snd k)) ds fields).
  { induction F as [|[k bs] [k' a] l1 l2 [E1 [E2 [E3 E4]]] _ IH]; intros f.
    - exists []. split; [|constructor]. cbn. rewrite app_nil_r. now destruct f.
    - cbn [fst snd] in *. subst k'. cbn [write_parallel].
      replace ((length shapeX =? 2) || (length shapeX =? 3))%bool with true by (symmetry; rewrite orb_true_iff, !Nat.eqb_eq; exact L).
      destruct (c218_blocks V a bs fill E3 E4) as [r [Er Sr]]; [rewrite E2; lia|]. rewrite E2 in Er. rewrite Er.
      edestruct IH as [ds [E F]]. exists ((k, {| data := r; dims := None |}) :: ds). split; [rewrite E; cbn; now rewrite <- app_assoc|]. constructor; [|exact F]. split; [reflexivity|exact Sr]. }
  destruct (G (new_file what info time it)) as [ds [E Fd]]. rewrite E. eexists. split; [reflexivity|]. split; [exact Fd|]. split; [reflexivity|]. split; reflexivity.
Qed.
(** another distribution is an error *)
Theorem c218_rejected : forall V (d : array V) b, skipn 2 (shape (local b)) <> skipn 2 (shape d) -> exists e, write_block d b = Error e.
Proof.
  intros V d b H. unfold write_block. destruct (shape d) as [|M0 [|M1 rest]]; [now exists NotImplemented|now exists NotImplemented|].
  destruct (start b) as [|x0 [|y0 st]]; [now exists NotImplemented|now exists NotImplemented|].
  destruct (shape (local b)) as [|n0 [|n1 rl]]; [now exists NotImplemented|now exists NotImplemented|].
  destruct (list_eq_dec Nat.eq_dec _ _) as [e|ne]; [|now exists ShapeMismatch]. exfalso. apply H. cbn. congruence.
Qed.
(** the names of the dimensions: as many as the dimensions, different, the last one is x *)
Theorem c218_dimensions : forall n, match dimensions n with
  | Some l => n <= 3 /\ length l = n /\ NoDup l /\ (0 < n -> last l ""%string = "x"%string)
  | None => 3 < n end.
Proof.
  intros [|[|[|[|n]]]]; cbn [dimensions]; try lia; (split; [lia|]; split; [reflexivity|]; split; [|intros; try lia; reflexivity]);
   repeat constructor; cbn; intuition discriminate.
Qed.
(** the file of a simulation can be used as a new simulation: it is saved in a new directory *)
Example c218_ex : exists f, save_file (fun _ => {| shape := [2; 2]; val := fun _ => 0 |}) true [2; 2] (fun _ => 0)
   (Distributed [("ux"%string, [ {| start := [0; 0]; local := {| shape := [1; 2]; val := fun idx => nth 1 idx 0 |} |}; {| start := [1; 0]; local := {| shape := [1; 2]; val := fun idx => 2 + nth 1 idx 0 |} |} ])])
   0 0 0 0 0 0 0 1 None = Done f /\ map (fun d => map (val (data (snd d))) [[0; 0]; [0; 1]; [1; 0]; [1; 1]]) (datasets f) = [[0; 1; 2; 3]].
Proof. eexists. split; reflexivity. Qed.
Example c218_ex_partition : partition {| shape := [2; 2]; val := fun idx => 2 * nth 0 idx 0 + nth 1 idx 0 |}
  [ {| start := [0; 0]; local := {| shape := [1; 2]; val := fun idx => nth 1 idx 0 |} |}; {| start := [1; 0]; local := {| shape := [1; 2]; val := fun idx => 2 + nth 1 idx 0 |} |} ].
Proof.
  split.
  - intros b [<-|[<-|[]]] [|i [|j [|k r]]]; cbn; try tauto; intros H; (split; [lia|]); destruct i as [|[|i]], j as [|[|j]]; cbn; lia.
  - intros b [<-|[<-|[]]]; cbn; repeat constructor.
  - intros b [<-|[<-|[]]]; split; reflexivity.
  - intros [|i [|j [|k r]]]; cbn; try tauto. intros H. destruct i as [|i]; [eexists; split; [now left|]; cbn; lia|eexists; split; [right; now left|]; cbn; lia].
Qed.
Print Assumptions c218_blocks.
Print Assumptions c218_sequential.
Print Assumptions c218_gather.
Print Assumptions c218_parallel.
Print Assumptions c218_rejected.
Print Assumptions c218_dimensions.
