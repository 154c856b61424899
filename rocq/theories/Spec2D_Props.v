(** * Properties of the loading and plotting of the two-dimensional spectra *)

From Coq Require Import QArith Qabs ZArith List Bool Lia Lqa Psatz.
From Verif Require Import PhysFiles_Model PhysFiles_Proofs Probes_Model Probes_Props Spec2D_Model.
Import ListNotations.
Local Open Scope Q_scope.

(** ** argmin *)

Lemma argmin_first l i : (i < argmin l)%nat -> nth (argmin l) l 0 < nth i l 0.
Proof.
  revert i. induction l as [|x l IH]; intros i H; [cbn in H; lia|].
  destruct l as [|y l]; [cbn in H; lia|]. set (r := y :: l) in *.
  change (argmin (x :: r)) with (if Qle_bool x (nth (argmin r) r 0) then 0%nat else S (argmin r)) in *.
  destruct (Qle_bool x (nth (argmin r) r 0)) eqn:E; [lia|].
  assert (L : nth (argmin r) r 0 < x).
  { apply Qnot_le_lt. intro F. apply Qle_bool_iff in F. congruence. }
  destruct i as [|i]; cbn [nth]; [exact L|]. apply IH. lia.
Qed.

Lemma closest_lt times t : times <> [] -> (closest times t < length times)%nat.
Proof.
  intros H. unfold closest. rewrite <- (map_length (fun x => Qabs (x - t)) times). apply argmin_lt.
  destruct times; [congruence|discriminate].
Qed.

Lemma nth_dist times t i : (i < length times)%nat ->
  nth i (map (fun x => Qabs (x - t)) times) 0 = Qabs (nth i times 0 - t).
Proof.
  intros H. rewrite (nth_indep _ 0 (Qabs (0 - t))) by (rewrite map_length; exact H).
  apply (map_nth (fun x => Qabs (x - t))).
Qed.

Lemma closest_min times t i : (i < length times)%nat ->
  Qabs (nth (closest times t) times 0 - t) <= Qabs (nth i times 0 - t).
Proof.
  intros H. assert (Hn : times <> []) by (intros e; subst; cbn in H; lia).
  rewrite <- !nth_dist by (assumption || now apply closest_lt). apply argmin_min. rewrite map_length. exact H.
Qed.

Lemma closest_first times t i : times <> [] -> (i < closest times t)%nat ->
  Qabs (nth (closest times t) times 0 - t) < Qabs (nth i times 0 - t).
Proof.
  intros Hn H. pose proof (closest_lt times t Hn). rewrite <- !nth_dist by lia. now apply argmin_first.
Qed.

(** increasing times *)
Definition increasing (l : list Q) : Prop := forall i j, (i < j < length l)%nat -> nth i l 0 < nth j l 0.

Lemma closest_mono times t1 t2 : increasing times -> times <> [] -> t1 <= t2 -> (closest times t1 <= closest times t2)%nat.
Proof.
  intros Hi Hn H. destruct (le_lt_dec (closest times t1) (closest times t2)) as [L|L]; [exact L|]. exfalso.
  pose proof (closest_lt times t1 Hn) as L1.
  pose proof (closest_first times t1 _ Hn L) as A. pose proof (closest_min times t2 _ L1) as B.
  assert (C : nth (closest times t2) times 0 < nth (closest times t1) times 0) by (apply Hi; lia).
  set (a := nth (closest times t2) times 0) in *. set (b := nth (closest times t1) times 0) in *.
  revert A B. apply (Qabs_case (b - t1)); apply (Qabs_case (a - t1)); apply (Qabs_case (a - t2)); apply (Qabs_case (b - t2)); intros; lra.
Qed.

Lemma closest_exact times i : increasing times -> (i < length times)%nat -> closest times (nth i times 0) = i.
Proof.
  intros Hi H. assert (Hn : times <> []) by (intros e; subst; cbn in H; lia).
  pose proof (closest_min times (nth i times 0) i H) as A. pose proof (closest_lt times (nth i times 0) Hn) as L.
  set (c := closest times (nth i times 0)) in *.
  assert (E : nth c times 0 == nth i times 0).
  { revert A. apply (Qabs_case (nth i times 0 - nth i times 0)); apply (Qabs_case (nth c times 0 - nth i times 0)); intros; lra. }
  destruct (lt_eq_lt_dec c i) as [[K|K]|K]; [|exact K|]; exfalso.
  - assert (nth c times 0 < nth i times 0) by (apply Hi; lia). lra.
  - assert (nth i times 0 < nth c times 0) by (apply Hi; lia). lra.
Qed.

Lemma nth_firstn_lt (k : list Q) m j : (j < m)%nat -> nth j (firstn m k) 0 = nth j k 0.
Proof. revert j k. induction m as [|m IH]; intros [|j] [|x k] H; cbn; auto; try lia. apply IH. lia. Qed.

Lemma slice_seq (l : list Q) imin imax : (imax < length l)%nat ->
  slice imin imax l = map (fun n => nth n l 0) (seq imin (imax + 1 - imin)).
Proof.
  intros H. unfold slice. apply (nth_ext _ _ 0 0).
  - rewrite firstn_length, skipn_length, map_length, seq_length. lia.
  - intros n Hn. rewrite firstn_length, skipn_length in Hn.
    rewrite (nth_indep (map _ _) 0 (nth 0%nat l 0)) by (rewrite map_length, seq_length; lia).
    rewrite (map_nth (fun n => nth n l 0)). rewrite seq_nth by lia.
    transitivity (nth n (skipn imin l) 0).
    + apply nth_firstn_lt. lia.
    + generalize imin n. clear. intros imin n. revert l. induction imin as [|imin IH]; intros [|x l]; cbn; auto; destruct n; auto.
Qed.

(** ** The means *)

Definition mean_of (values : list Q) (l : list nat) : option Q := mean (map (fun n => nth n values 0) l).

(** The mean is over the records from the one closest to tmin to the one closest to tmax: at least
    one record. *)
Theorem c188_closest : forall times values tmin tmax, increasing times -> times <> [] ->
  length values = length times -> tmin <= tmax ->
  exists imin imax, (imin <= imax < length times)%nat /\
    (forall n, (n < length times)%nat -> Qabs (nth imin times 0 - tmin) <= Qabs (nth n times 0 - tmin)) /\
    (forall n, (n < length times)%nat -> Qabs (nth imax times 0 - tmax) <= Qabs (nth n times 0 - tmax)) /\
    load_mean times values (Some tmin) (Some tmax) = mean_of values (seq imin (imax + 1 - imin)) /\
    load_mean times values (Some tmin) (Some tmax) <> None.
Proof.
  intros times values tmin tmax Hi Hn Hl H. exists (closest times tmin), (closest times tmax).
  pose proof (closest_mono times tmin tmax Hi Hn H) as L. pose proof (closest_lt times tmax Hn) as L2.
  assert (E : load_mean times values (Some tmin) (Some tmax) = mean_of values (seq (closest times tmin) (closest times tmax + 1 - closest times tmin))).
  { unfold load_mean, mean_of. cbn [first_index last_index]. now rewrite slice_seq by lia. }
  split; [lia|]. split; [intros; now apply closest_min|]. split; [intros; now apply closest_min|]. split; [exact E|].
  rewrite E. unfold mean_of. replace (closest times tmax + 1 - closest times tmin)%nat with (S (closest times tmax - closest times tmin)) by lia.
  cbn. discriminate.
Qed.

(** for two saved times, exactly the records between them *)
Theorem c188_between : forall times values i j tmin tmax, increasing times -> (i <= j < length times)%nat ->
  length values = length times -> tmin = nth i times 0 -> tmax = nth j times 0 ->
  exists l, NoDup l /\ (forall n, In n l <-> ((n < length times)%nat /\ tmin <= nth n times 0 <= tmax)) /\
    load_mean times values (Some tmin) (Some tmax) = mean_of values l.
Proof.
  intros times values i j tmin tmax Hi Hij Hl -> ->. exists (seq i (j + 1 - i)). split; [apply seq_NoDup|]. split.
  - intros n. rewrite in_seq. split.
    + intros H. split; [lia|]. split.
      * destruct (Nat.eq_dec i n) as [<-|e]; [apply Qle_refl|]. apply Qlt_le_weak, Hi. lia.
      * destruct (Nat.eq_dec n j) as [<-|e]; [apply Qle_refl|]. apply Qlt_le_weak, Hi. lia.
    + intros (H & A & B). split.
      * destruct (le_lt_dec i n) as [L|L]; [exact L|]. exfalso. assert (nth n times 0 < nth i times 0) by (apply Hi; lia). lra.
      * destruct (le_lt_dec n j) as [L|L]; [lia|]. exfalso. assert (nth j times 0 < nth n times 0) by (apply Hi; lia). lra.
  - unfold load_mean, mean_of. cbn [first_index last_index]. rewrite !closest_exact by (assumption || lia). now rewrite slice_seq by lia.
Qed.

(** without limits, all the records *)
Theorem c188_all : forall times values, times <> [] -> length values = length times ->
  load_mean times values None None = mean values.
Proof.
  intros times values Hn Hl. unfold load_mean. cbn [first_index last_index]. unfold slice. cbn [skipn].
  rewrite firstn_all2; [reflexivity|]. lia.
Qed.

Lemma inc_012 : increasing [0; 1; 2].
Proof. intros i j H. cbn in H. destruct i as [|[|[|i]]], j as [|[|[|j]]]; try lia; cbn; lra. Qed.

Example c188_witness : increasing [0; 1; 2] /\ (1 <= 2 < length [0; 1; 2])%nat /\ 1 = nth 1 [0; 1; 2] 0 /\ 2 = nth 2 [0; 1; 2] 0.
Proof. split; [exact inc_012|]. cbn. split; [lia|]. split; reflexivity. Qed.

(** ** The wave numbers of load1d_mean *)

(** right for the spectra versus kx, and for those versus ky if the grids are the same *)
Theorem c189_partial : forall f tmin tmax kh sx sy, load1d_mean f tmin tmax = (kh, sx, sy) ->
  kh = kxE f /\ length sx = length kh /\ length sy = length (kyE f) /\ (kxE f = kyE f -> kh = kyE f).
Proof.
  intros f tmin tmax kh sx sy H. unfold load1d_mean in H. assert (kh = kxE f) as -> by congruence.
  assert (sx = mean_spectrum (length (kxE f)) f (f_x f) tmin tmax) as -> by congruence.
  assert (sy = mean_spectrum (length (kyE f)) f (f_y f) tmin tmax) as -> by congruence.
  unfold mean_spectrum. rewrite !map_length, !seq_length. auto.
Qed.

Definition file_example : file1d :=
  {| kxE := [0; 1; 2]; kyE := [0; 2]; f_times := [0]; f_x := [[1; 2; 3]]; f_y := [[4; 5]] |}.

Example c189_witness : exists kh sx sy, load1d_mean file_example None None = (kh, sx, sy) /\ kh = [0; 1; 2].
Proof. do 3 eexists. split; reflexivity. Qed.

(** the only wave numbers returned are not those of the spectrum versus ky *)
Theorem c189_refuted : exists f tmin tmax kh sx sy, load1d_mean f tmin tmax = (kh, sx, sy) /\
  kh <> kyE f /\ length sy <> length kh /\ length sy = length (kyE f).
Proof.
  exists file_example, None, None. do 3 eexists. split; [reflexivity|]. cbn. split; [discriminate|]. split; [lia|reflexivity].
Qed.

(** ** The plots *)

Lemma range_from_in fuel imin imax step : (1 <= step)%nat -> (imax < fuel + imin)%nat -> forall n,
  In n (range_from fuel imin imax step) <-> exists k, n = (imin + k * step)%nat /\ (n <= imax)%nat.
Proof.
  intros Hs. revert imin. induction fuel as [|fuel IH]; intros imin Hf n; cbn [range_from].
  - split; [intros []|]. intros (k & -> & H). lia.
  - destruct (Nat.leb_spec imin imax) as [L|L].
    + cbn [In]. rewrite IH by lia. split.
      * intros [<-|(k & -> & H)]; [exists 0%nat; lia|]. exists (S k). lia.
      * intros ([|k] & -> & H); [left; lia|]. right. exists k. lia.
    + split; [intros []|]. intros (k & -> & H). lia.
Qed.

(** The plotted records are every step-th one from the first to the last; the opacity of the first
    one is 0.1 and increases up to 1 at most. *)
Theorem c190_lines_partial : forall imin imax step l, (imin < imax)%nat -> (1 <= step)%Z ->
  lines imin imax step = Some l ->
  (forall n, (exists a, In (n, a) l) <-> exists k, n = (imin + k * Z.to_nat step)%nat /\ (n <= imax)%nat) /\
  (forall n a, In (n, a) l -> 1 # 10 <= a <= 1) /\
  (exists a, In (imin, a) l /\ a == 1 # 10) /\
  (forall n1 a1 n2 a2, In (n1, a1) l -> In (n2, a2) l -> (n1 < n2)%nat -> a1 < a2).
Proof.
  intros imin imax step l H Hs E. unfold lines in E. destruct (Nat.eqb_spec imin imax) as [e0|ne]; [lia|].
  set (slope := (1 - (1 # 10)) / inject_Z (Z.of_nat imax - Z.of_nat imin)) in *.
  assert (Hd : 0 < inject_Z (Z.of_nat imax - Z.of_nat imin)) by (change 0 with (inject_Z 0); rewrite <- Zlt_Qlt; lia).
  assert (Hsl : slope * inject_Z (Z.of_nat imax - Z.of_nat imin) == 9 # 10) by (unfold slope; field; lra).
  assert (Hsp : 0 < slope) by (unfold slope; apply Qlt_shift_div_l; lra).
  clearbody slope.
  set (al := fun i : nat => (1 # 10) - slope * inject_Z (Z.of_nat imin) + slope * inject_Z (Z.of_nat i)) in *.
  assert (Hin : forall n a, In (n, a) l <-> a = al n /\ exists k, n = (imin + k * Z.to_nat step)%nat /\ (n <= imax)%nat).
  { intros n a. assert (l = map (fun i => (i, al i)) (range imin imax (Z.to_nat step))) as -> by (unfold al; congruence).
    rewrite in_map_iff. unfold range. split.
    - intros (i & Hi & Hr). injection Hi as <- <-. split; [reflexivity|]. apply range_from_in in Hr; [exact Hr|lia|lia].
    - intros (-> & Hr). exists n. split; [reflexivity|]. apply range_from_in; [lia|lia|exact Hr]. }
  assert (Hal : forall i, al i == (1 # 10) + slope * inject_Z (Z.of_nat i - Z.of_nat imin)).
  { intros i. unfold al. unfold Z.sub. rewrite inject_Z_plus, inject_Z_opp. ring. }
  split; [|split; [|split]].
  - intros n. split; [intros (a & Ha); apply Hin in Ha; tauto|]. intros Hk. exists (al n). apply Hin. auto.
  - intros n a Ha. apply Hin in Ha as (-> & k & Hk & Hn). rewrite Hal.
    assert (A : 0 <= inject_Z (Z.of_nat n - Z.of_nat imin)) by (change 0 with (inject_Z 0); rewrite <- Zle_Qle; lia).
    assert (B : inject_Z (Z.of_nat n - Z.of_nat imin) <= inject_Z (Z.of_nat imax - Z.of_nat imin)) by (rewrite <- Zle_Qle; lia).
    set (x := inject_Z (Z.of_nat n - Z.of_nat imin)) in *. set (y := inject_Z (Z.of_nat imax - Z.of_nat imin)) in *. clearbody x y.
    split; [|apply (Qle_trans _ ((1 # 10) + slope * y))]; nra.
  - exists (al imin). split; [apply Hin; split; [reflexivity|]; exists 0%nat; lia|]. rewrite Hal, Z.sub_diag. change (inject_Z 0) with 0. ring.
  - intros n1 a1 n2 a2 H1 H2 Hlt. apply Hin in H1 as (-> & _), H2 as (-> & _). unfold al.
    assert (inject_Z (Z.of_nat n1) < inject_Z (Z.of_nat n2)) by (rewrite <- Zlt_Qlt; lia).
    set (x := inject_Z (Z.of_nat n1)) in *. set (y := inject_Z (Z.of_nat n2)) in *. clearbody x y. nra.
Qed.

Lemma last_default (l : list Q) : forall c a b, last (c :: l) a = last (c :: l) b.
Proof. induction l as [|d l IH]; intros c a b; [reflexivity|]. apply (IH d). Qed.

Lemma sumq_differences l : forall a, sumq (differences (a :: l)) == last l a - a.
Proof.
  induction l as [|b l IH]; intros a; [cbn; ring|].
  change (differences (a :: b :: l)) with ((b - a) :: differences (b :: l)). cbn [sumq fold_right].
  fold (sumq (differences (b :: l))). rewrite IH. destruct l as [|c l]; [cbn; ring|].
  change (last (b :: c :: l) a) with (last (c :: l) a). rewrite (last_default l c a b). ring.
Qed.

Lemma differences_length l a : length (differences (a :: l)) = length l.
Proof. revert a. induction l as [|b l IH]; intros a; [reflexivity|]. cbn [differences length]. f_equal. apply IH. Qed.

(** the step of the plots: delta_t to the nearest record, at least one *)
Theorem c190_step_partial : forall times delta_t d i, delta_t_save times = Some d -> 0 < d -> 0 < delta_t ->
  delta_i times delta_t = Some i ->
  (1 <= i)%Z /\ (i = 1%Z \/ Qabs (inject_Z i * d - delta_t) <= d / 2).
Proof.
  intros times delta_t d i Hd Hp Ht H. unfold delta_i in H. rewrite Hd in H.
  destruct (Qeq_bool d 0) eqn:E; [apply Qeq_bool_eq in E; lra|].
  pose proof (round_even_near (delta_t / d)) as N. set (r := round_even (delta_t / d)) in *.
  assert (Hq : 0 < delta_t / d) by (apply Qlt_shift_div_l; lra).
  apply Qabs_Qle_condition in N. set (q := delta_t / d) in *.
  assert (Hr : (0 <= r)%Z).
  { apply Z.lt_succ_r. unfold Z.succ. rewrite Zlt_Qlt, inject_Z_plus. change (inject_Z 0) with 0. change (inject_Z 1) with 1. lra. }
  destruct (Z.eqb_spec r 0) as [e|e]; injection H as <-; [split; [lia|left; reflexivity]|]. split; [lia|right].
  assert (Eq : delta_t == q * d) by (unfold q; field; lra). rewrite Eq. clearbody q r.
  apply Qabs_Qle_condition. assert (H2 : d / 2 == d * (1 # 2)) by field. rewrite H2. split; nra.
Qed.

(** delta_t_save is the mean interval; it exists from two records on *)
Theorem c190_interval : forall t0 t1 times,
  exists d, delta_t_save (t0 :: t1 :: times) = Some d /\
    d * inject_Z (Z.of_nat (S (length times))) == last (t1 :: times) t0 - t0 /\ delta_t_save [t0] = None.
Proof.
  intros t0 t1 times. unfold delta_t_save.
  assert (E : mean (differences (t0 :: t1 :: times)) = Some (sumq (differences (t0 :: t1 :: times)) / inject_Z (Z.of_nat (length (differences (t0 :: t1 :: times)))))).
  { reflexivity. }
  eexists. split; [exact E|]. split; [|reflexivity]. rewrite sumq_differences, differences_length. cbn [length].
  assert (~ inject_Z (Z.of_nat (S (length times))) == 0).
  { change 0 with (inject_Z 0). rewrite inject_Z_injective. lia. }
  field. assumption.
Qed.

Example c190_witness : delta_t_save [0; 1; 2] = Some (2 # 2) /\ delta_i [0; 1; 2] (3 # 2) = Some 2%Z /\
  exists l, lines 0 2 1 = Some l.
Proof. split; [reflexivity|]. split; [reflexivity|]. eexists. reflexivity. Qed.

(** With one record between tmin and tmax, asking for the instantaneous spectra fails; with one
    record in the file, load1d_means of ns2d.strat fails although the mean exists. *)
Theorem c190_refuted : exists times values tmin tmax delta_t,
  increasing times /\ (1 < length times)%nat /\ plot_ndim times values tmin (Some tmax) (Some delta_t) = None /\
  plot_ndim times values tmin (Some tmax) None <> None /\
  load1d_means [0] [5] 0 None 2 = None /\ load_mean [0] [5] None None <> None.
Proof.
  exists [0; 1; 2], [5; 6; 7], 2, 5, 1. split; [exact inc_012|]. split; [cbn; lia|]. split; [reflexivity|].
  split; [discriminate|]. split; [reflexivity|discriminate].
Qed.

(** plot1d of ns2d.strat: no truncated wave number is plotted *)
Theorem c191_partial : forall k coef q, increasing k -> (0 < closest k (nth (length k - 1) k 0 * coef)%Q)%nat ->
  In q (plotted_wavenumbers k coef) -> q < nth (length k - 1) k 0 * coef.
Proof.
  intros k coef q Hi Hc Hq. unfold plotted_wavenumbers in Hq. set (T := nth (length k - 1) k 0 * coef) in *.
  destruct (Z.ltb_spec (Z.of_nat (closest k T) - 1) 0) as [L|L]; [lia|].
  assert (Hn : k <> []) by (intros e; subst k; cbn in Hc; lia).
  pose proof (closest_lt k T Hn) as Hlt. set (c := closest k T) in *.
  apply (In_nth _ _ 0) in Hq as (j & Hj & <-). rewrite firstn_length in Hj.
  assert (Ej : nth j (firstn (Z.to_nat (Z.of_nat c - 1)) k) 0 = nth j k 0).
  { apply nth_firstn_lt. lia. }
  rewrite Ej. apply (Qlt_le_trans _ (nth (c - 1) k 0)); [apply Hi; lia|].
  assert (A : nth (c - 1) k 0 < nth c k 0) by (apply Hi; lia).
  pose proof (closest_first k T (c - 1) Hn ltac:(fold c; lia)) as B. fold c in B.
  destruct (Qlt_le_dec T (nth (c - 1) k 0)) as [D|D]; [|exact D]. exfalso.
  revert B. apply (Qabs_case (nth c k 0 - T)); apply (Qabs_case (nth (c - 1) k 0 - T)); intros; lra.
Qed.

Lemma inc_7 : increasing [0; 1; 2; 3; 4; 5; 6].
Proof.
  intros i j H. cbn in H. destruct i as [|[|[|[|[|[|[|i]]]]]]], j as [|[|[|[|[|[|[|j]]]]]]]; try lia; cbn; lra.
Qed.

Example c191_witness : increasing [0; 1; 2; 3; 4; 5; 6] /\ plotted_wavenumbers [0; 1; 2; 3; 4; 5; 6] (2 # 3) = [0; 1; 2] /\
  closest [0; 1; 2; 3; 4; 5; 6] (6 * (2 # 3)) = 4%nat.
Proof. split; [exact inc_7|]. split; reflexivity. Qed.

(** but the largest wave number which is not truncated is not plotted *)
Theorem c191_refuted : exists k coef q, increasing k /\ In q k /\ q < nth (length k - 1) k 0 * coef /\
  ~ In q (plotted_wavenumbers k coef).
Proof.
  exists [0; 1; 2; 3; 4; 5; 6], (2 # 3), 3. split; [exact inc_7|]. split; [cbn; auto|]. split; [cbn; lra|].
  change (plotted_wavenumbers [0; 1; 2; 3; 4; 5; 6] (2 # 3)) with [0; 1; 2]. cbn. intros [H|[H|[H|[]]]]; discriminate.
Qed.

Print Assumptions c188_closest.
Print Assumptions c188_between.
Print Assumptions c188_all.
Print Assumptions c189_partial.
Print Assumptions c189_refuted.
Print Assumptions c190_lines_partial.
Print Assumptions c190_step_partial.
Print Assumptions c190_interval.
Print Assumptions c190_refuted.
Print Assumptions c191_partial.
Print Assumptions c191_refuted.
