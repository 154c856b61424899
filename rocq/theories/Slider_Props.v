(** * The interactive movie and the file of a movie: C279 *)

From Coq Require Import String List QArith Qabs ZArith Lqa Lia.
From Verif Require Import Slider_Model.
Import ListNotations.
Local Open Scope Q_scope.

(** ** Specification *)
Definition dist (a b : Q) : Q := Qabs (a - b).
(** i is the first of the times which are the closest to t *)
Definition closest (times : list Q) (t : Q) (i : nat) : Prop :=
  (i < length times)%nat
  /\ (forall j, (j < length times)%nat -> dist (nth i times 0) t <= dist (nth j times 0) t)
  /\ (forall j, (j < i)%nat -> dist (nth i times 0) t < dist (nth j times 0) t).
(** regular times *)
Definition regular (times : list Q) (t0 h : Q) : Prop :=
  forall k, (k < length times)%nat -> nth k times 0 == t0 + inject_Z (Z.of_nat k) * h.

(** ** Lemmas *)
Lemma argmin_from_spec : forall l best ibest i, (ibest < i)%nat ->
  let m := argmin_from best ibest i l in
  (m = ibest /\ (forall j, (j < length l)%nat -> best <= nth j l 0))
  \/ (exists k, m = (i + k)%nat /\ (k < length l)%nat /\ nth k l 0 < best
        /\ (forall j, (j < length l)%nat -> nth k l 0 <= nth j l 0) /\ (forall j, (j < k)%nat -> nth k l 0 < nth j l 0)).
Proof.
  induction l as [|x r IH]; intros best ibest i L m; subst m; cbn [argmin_from].
  - left. split; [reflexivity|]. intros j H. cbn in H. lia.
  - destruct (Qle_bool best x) eqn:E.
    + apply Qle_bool_iff in E. destruct (IH best ibest (S i) ltac:(lia)) as [[M A]|(k & M & K & B & A & F)].
      * left. split; [exact M|]. intros [|j] H; cbn [nth length] in *; [exact E|]. apply A. lia.
      * right. exists (S k). split; [rewrite M; lia|]. split; [cbn; lia|]. cbn [nth]. split; [exact B|]. split.
        -- intros [|j] H; cbn [nth length] in *; [lra|]. apply A. lia.
        -- intros [|j] H; cbn [nth]; [lra|]. apply F. lia.
    + assert (X : x < best).
      { apply Qnot_le_lt. intros H. apply Qle_bool_iff in H. congruence. }
      destruct (IH x i (S i) ltac:(lia)) as [[M A]|(k & M & K & B & A & F)].
      * right. exists 0%nat. split; [rewrite M; lia|]. split; [cbn; lia|]. cbn [nth]. split; [exact X|]. split.
        -- intros [|j] H; cbn [nth length] in *; [lra|]. apply A. lia.
        -- intros j H. lia.
      * right. exists (S k). split; [rewrite M; lia|]. split; [cbn; lia|]. cbn [nth]. split; [lra|]. split.
        -- intros [|j] H; cbn [nth length] in *; [lra|]. apply A. lia.
        -- intros [|j] H; cbn [nth]; [exact B|]. apply F. lia.
Qed.
Lemma argmin_spec l : l <> [] -> let m := argmin l in (m < length l)%nat
  /\ (forall j, (j < length l)%nat -> nth m l 0 <= nth j l 0) /\ (forall j, (j < m)%nat -> nth m l 0 < nth j l 0).
Proof.
  destruct l as [|x r]; [congruence|]. intros _ m. subst m. unfold argmin.
  destruct (argmin_from_spec r x 0 1 ltac:(lia)) as [[M A]|(k & M & K & B & A & F)]; rewrite M.
  - split; [cbn; lia|]. split; [|intros j H; lia]. intros [|j] H; cbn [nth length] in *; [lra|]. apply A. lia.
  - change (1 + k)%nat with (S k). split; [cbn; lia|]. cbn [nth]. split.
    + intros [|j] H; cbn [nth length] in *; [lra|]. apply A. lia.
    + intros [|j] H; cbn [nth]; [exact B|]. apply F. lia.
Qed.
Lemma nth_dist times t j : (j < length times)%nat -> nth j (map (fun x => Qabs (x - t)) times) 0 = dist (nth j times 0) t.
Proof.
  intros H. rewrite (nth_indep _ 0 (Qabs (0 - t))) by (rewrite map_length; exact H). exact (map_nth (fun x => Qabs (x - t)) times 0 j).
Qed.

(** ** C279 *)
(** the frame shown for a time is the first of the closest ones *)
Theorem c279_frame : forall times t, times <> [] -> closest times t (widget_update times t).
Proof.
  intros times t N. unfold widget_update.
  assert (N2 : map (fun x => Qabs (x - t)) times <> []) by (destruct times; [congruence|discriminate]).
  destruct (argmin_spec _ N2) as (A & B & C). rewrite map_length in A, B. set (m := argmin _) in *.
  split; [exact A|]. split.
  - intros j H. specialize (B j H). rewrite !nth_dist in B by assumption. exact B.
  - intros j H. specialize (C j H). rewrite !nth_dist in C by lia. exact C.
Qed.

Lemma inject_nat_lt a b : (a < b)%nat -> inject_Z (Z.of_nat a) + 1 <= inject_Z (Z.of_nat b).
Proof. intros H. change 1 with (inject_Z 1). rewrite <- inject_Z_plus, <- Zle_Qle. lia. Qed.

(** for regular times and the default arguments: the positions of the slider are the frames, one by one *)
Theorem c279_regular_partial : forall times t0 h, 0 < h -> regular times t0 h -> (2 <= length times)%nat ->
  exists s, make_slider times None None None = inl s
    /\ s_min s == t0 /\ s_max s == t0 + inject_Z (Z.of_nat (length times - 1)) * h /\ s_step s == h /\ s_value s == t0
    /\ forall k, (k < length times)%nat -> position s k <= s_max s /\ widget_update times (position s k) = k.
Proof.
  intros times t0 h Hh R L. destruct times as [|a [|b r]]; [cbn in L; lia|cbn in L; lia|]. unfold make_slider. eexists. split; [reflexivity|].
  assert (Ra : a == t0) by (pose proof (R 0%nat ltac:(cbn; lia)) as E; cbn [nth] in E; change (inject_Z (Z.of_nat 0)) with 0 in E; lra).
  assert (Rb : b == t0 + h) by (pose proof (R 1%nat ltac:(cbn; lia)) as E; cbn [nth] in E; change (inject_Z (Z.of_nat 1)) with 1 in E; lra).
  set (times := a :: b :: r) in *.
  assert (Rl : last times 0 == t0 + inject_Z (Z.of_nat (length times - 1)) * h).
  { rewrite <- (R (length times - 1)%nat) by lia. assert (E : forall (l : list Q) d, last l d = nth (length l - 1) l d).
    { induction l as [|x l IH]; intros d; [reflexivity|]. destruct l as [|y l]; [reflexivity|].
      change (last (x :: y :: l) d) with (last (y :: l) d). rewrite IH. cbn [length]. rewrite !Nat.sub_succ, !Nat.sub_0_r. reflexivity. }
    rewrite E. reflexivity. }
  cbn [s_min s_max s_step s_value]. split; [exact Ra|]. split; [exact Rl|]. split; [lra|]. split; [exact Ra|].
  intros k K. unfold position. cbn [s_min s_step].
  assert (P : a + inject_Z (Z.of_nat k) * (b - a) == nth k times 0) by (rewrite (R k K), Ra, Rb; ring).
  split.
  - rewrite P, (R k K), Rl. assert (inject_Z (Z.of_nat k) <= inject_Z (Z.of_nat (length times - 1))) by (rewrite <- Zle_Qle; lia). nra.
  - destruct (c279_frame times (a + inject_Z (Z.of_nat k) * (b - a)) ltac:(discriminate)) as (A & B & _).
    set (m := widget_update _ _) in *. specialize (B k K). unfold dist in B. rewrite P in B.
    assert (Z0 : Qabs (nth k times 0 - nth k times 0) == 0).
    { assert (E : nth k times 0 - nth k times 0 == 0) by ring. rewrite E. reflexivity. }
    rewrite Z0 in B. rewrite (R k K), (R m A) in B. apply Qabs_Qle_condition in B. destruct B as [B1 B2].
    destruct (Nat.lt_trichotomy m k) as [Q1|[Q1|Q1]]; [|exact Q1|]; pose proof (inject_nat_lt _ _ Q1) as I; exfalso; nra.
Qed.

(** irregular times: a frame is not reached by any position of the slider *)
Theorem c279_irregular_refuted : exists times s i, make_slider times None None None = inl s /\ (i < length times)%nat
  /\ forall k, position s k <= s_max s -> widget_update times (position s k) <> i.
Proof.
  exists [0; 2; 3], (mkSlider 0 3 (2 - 0) 0), 2%nat. split; [reflexivity|]. split; [cbn; lia|]. intros k H.
  destruct k as [|[|k]]; [vm_compute; discriminate|vm_compute; discriminate|]. exfalso. unfold position in H. cbn [s_min s_max s_step] in H.
  assert (2 <= inject_Z (Z.of_nat (S (S k)))) by (change 2 with (inject_Z 2); rewrite <- Zle_Qle; lia). lra.
Qed.
(** one time: an error, except if the step is given *)
Theorem c279_one_refuted : exists times, length times = 1%nat /\ forall tmin tmax, make_slider times tmin tmax None = inr IndexError.
Proof. exists [0]. split; reflexivity. Qed.
Theorem c279_error : forall times tmin tmax dt, times <> [] ->
  ((exists e, make_slider times tmin tmax dt = inr e) <-> length times = 1%nat /\ dt = None).
Proof.
  intros times tmin tmax dt N. destruct times as [|a [|b r]]; [congruence| |]; destruct dt as [d|]; cbn.
  all: split; [intros [e H]; try discriminate|intros [H1 H2]; try discriminate]; eauto.
Qed.
(** the given arguments are used *)
Theorem c279_arguments : forall times a b d, times <> [] ->
  make_slider times (Some a) (Some b) (Some d) = inl (mkSlider a b d a).
Proof. intros times a b d N. destruct times; [congruence|reflexivity]. Qed.

(** the file: an available codec, the given one if possible; the duration of a frame is the one which is asked *)
Theorem c279_save : forall writers codec dt,
  match ani_save writers codec dt with
  | inl (c, fps) => In c writers /\ (In codec writers -> c = codec) /\ fps * dt == 1
  | inr ValueError => writers = []
  | inr ZeroDivisionError => writers <> [] /\ dt == 0
  | inr IndexError => False
  end.
Proof.
  intros writers codec dt. unfold ani_save. destruct writers as [|w r]; [reflexivity|]. set (ws := w :: r).
  destruct (Qeq_bool dt 0) eqn:Z; [split; [discriminate|apply Qeq_bool_iff, Z]|].
  assert (NZ : ~ dt == 0) by (intros H; apply Qeq_bool_iff in H; congruence).
  assert (EX : existsb (String.eqb codec) ws = true <-> In codec ws).
  { rewrite existsb_exists. split; [intros (x & X & E); apply String.eqb_eq in E; subst; exact X|]. intros H. exists codec. split; [exact H|apply String.eqb_refl]. }
  destruct (existsb (String.eqb codec) ws) eqn:E.
  - split; [apply EX, eq_refl|]. split; [reflexivity|]. field. exact NZ.
  - split; [left; reflexivity|]. split; [intros H; apply EX in H; discriminate|]. field. exact NZ.
Qed.

Example c279_ex : regular [1; 3; 5] 1 2 /\ (2 <= length [1; 3; 5])%nat.
Proof. split; [|cbn; lia]. intros [|[|[|k]]] H; cbn in H; [reflexivity|reflexivity|reflexivity|lia]. Qed.

Print Assumptions c279_frame.
Print Assumptions c279_regular_partial.
Print Assumptions c279_irregular_refuted.
Print Assumptions c279_one_refuted.
Print Assumptions c279_error.
Print Assumptions c279_arguments.
Print Assumptions c279_save.
