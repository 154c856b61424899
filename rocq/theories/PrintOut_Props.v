(** * The file stdout.txt: C77, C78, C79, C80 *)

From Coq Require Import String.
From Coq Require Import List Arith NArith ZArith Bool Reals Lia Lra.
From Verif Require Import PrintOut_Model PrintOut_Spec PrintOut_Proofs.
Import ListNotations.
Local Open Scope list_scope.
Local Open Scope nat_scope.

(** ** C77: variations since the last print *)

Lemma variations_cons first v values pairs : variations v values pairs -> variations first (v :: values) ((v, (v - first)%R) :: pairs).
Proof.
  intros [H1 H2]. split; [cbn; congruence|].
  intros [|i] w d E; cbn in E.
  - injection E as <- <-. exists first. split; reflexivity.
  - apply H2 in E as (b & Hb & Hd). exists b. split; assumption.
Qed.

Theorem c77_ns3d energy0 energies : variations energy0 energies (deltas_ns3d energy0 energies).
Proof.
  revert energy0. induction energies as [|e l IH]; intros e0; cbn [deltas_ns3d].
  - split; [reflexivity|]. intros [|i] v d E; discriminate.
  - apply variations_cons, IH.
Qed.

Theorem c77_ns2d energies : match energies with
  | [] => deltas_ns2d None energies = []
  | e :: _ => variations e energies (deltas_ns2d None energies)
  end.
Proof.
  assert (H : forall l e0, variations e0 l (deltas_ns2d (Some e0) l)).
  { induction l as [|e l IH]; intros e0; cbn [deltas_ns2d].
    - split; [reflexivity|]. intros [|i] v d E; discriminate.
    - apply variations_cons, IH. }
  destruct energies as [|e l]; [reflexivity|]. cbn [deltas_ns2d].
  replace 0%R with (e - e)%R by ring. apply variations_cons, H.
Qed.

(** the predator-prey model prints the variation since the beginning *)
Theorem c77_predaprey_partial potential0 potentials i v d :
  nth_error (deltas_predaprey potential0 None potentials) i = Some (v, d) ->
  nth_error potentials i = Some v /\ d = (v - potential0)%R.
Proof.
  generalize (@None R). revert i. induction potentials as [|p l IH]; intros i o E.
  - destruct i; discriminate.
  - destruct i as [|i]; cbn in E.
    + injection E as <- <-. split; reflexivity.
    + exact (IH i _ E).
Qed.

Theorem c77_predaprey_refuted : exists potential0 potentials,
  ~ variations potential0 potentials (deltas_predaprey potential0 None potentials).
Proof.
  exists 0%R, [1%R; 1%R]. intros [_ H]. destruct (H 1 1%R (1 - 0)%R eq_refl) as (b & Hb & Hd).
  injection Hb as <-. lra.
Qed.

Example c77_example : deltas_ns3d 1 [2%R] = [(2%R, (2 - 1)%R)] /\ deltas_ns2d None [3%R; 5%R] = [(3%R, 0%R); (5%R, (5 - 3)%R)].
Proof. split; reflexivity. Qed.

(** ** C78: the printed durations are read back *)

Theorem c78_duration_round_trip n : read_duration (duration_line n) = Some n.
Proof. apply read_duration_line. Qed.

Example c78_example :
  str_timedelta 3725 = "1:02:05"%string /\ str_timedelta 86400 = "1 day, 0:00:00"%string /\ str_timedelta 200000 = "2 days, 7:33:20"%string
  /\ read_duration "              estimated remaining duration = 2 days, 7:33:20" = Some 200000%N.
Proof. split; [|split; [|split]]; vm_compute; reflexivity. Qed.

(** ** C79: the clock times are recovered *)

(** a file with any number of successive runs which use t_end: every estimation is read with its own interval of time and its
    own end *)
Theorem c79_load_times_partial round it_end (runs : list (R * R * list instant)) :
  load_times (flat_map (fun r => stdout_of_run round true (fst (fst r)) it_end (snd (fst r)) (snd r)) runs)
  = Some (flat_map (fun r => map (expected round (fst (fst r))) (filter (estimated (fst (fst r))) (consecutive (snd r)))) runs).
Proof.
  unfold load_times. generalize {| r_time_last := None; r_time := None; r_it_last := None; r_it := None; r_t_end := None; r_dt := None |}.
  induction runs as [|[[te p] l] runs IH]; intros st; cbn [flat_map fst snd]; [reflexivity|].
  destruct (load_run round te it_end p l st
    (flat_map (fun r => stdout_of_run round true (fst (fst r)) it_end (snd (fst r)) (snd r)) runs)) as [st' ->].
  rewrite IH. reflexivity.
Qed.

(** ... and the clock time between the two prints is recovered up to the rounding to a second of the estimation *)
Theorem c79_clock_time_partial round t_end a b :
  (forall x, Rabs (IZR (round x) - x) <= 1 / 2)%R -> (time a < time b)%R -> (time b < t_end)%R ->
  (Rabs (delta_clock_time (expected round t_end (a, b)) - (clock b - clock a)) <= 1 / 2 * ((time b - time a) / (t_end - time b)))%R
  /\ c_delta_it (expected round t_end (a, b)) = (steps b - steps a)%Z /\ c_time (expected round t_end (a, b)) = time b.
Proof. intros Hr H1 H2. split; [apply delta_clock_close; assumption | split; reflexivity]. Qed.

(** for the simulations with a number of time steps the file cannot be read as soon as there is one estimation *)
Theorem c79_it_end_refuted : exists round it_end period (l : list instant),
  load_times (stdout_of_run round false 0 it_end period l) = None.
Proof.
  exists (fun _ => 0%Z), 10%Z, 1%R, [(0%R, 0%R, 0%Z, 1%R); (1%R, 1%R, 1%Z, 1%R)].
  unfold stdout_of_run. cbn [printed evaluate_duration_left].
  destruct (Req_EM_T (1 - 0) 0) as [E|E]; [lra|].
  destruct (Rlt_dec (IZR (10 - 1) * 1) 0) as [L|L]; [|reflexivity].
  exfalso. change (10 - 1)%Z with 9%Z in L. lra.
Qed.

Example c79_example : exists (round : R -> Z), (forall x, Rabs (IZR (round x) - x) <= 1 / 2)%R.
Proof.
  exists (fun x => if Rle_dec (x - IZR (Int_part x)) (1 / 2) then Int_part x else (Int_part x + 1)%Z).
  intros x. destruct (base_Int_part x) as [H1 H2].
  destruct (Rle_dec (x - IZR (Int_part x)) (1 / 2)) as [L|L].
  - rewrite Rabs_left1; lra.
  - rewrite plus_IZR. rewrite Rabs_pos_eq; lra.
Qed.

(** ** C80: first and last times of a run *)

Lemma first_it fuel f1 t n f2 : (forall x, In x f1 -> forall u, fst x <> TIt u) -> length f1 < fuel ->
  find_first_it fuel (f1 ++ (TIt t, n) :: f2) = Some t.
Proof.
  revert f1. induction fuel as [|fuel IH]; intros f1 H L; [lia|].
  destruct f1 as [|[x k] f1]; cbn [app find_first_it]; [reflexivity|].
  cbn [length] in L. pose proof (H (x, k) (or_introl eq_refl)) as Hx. cbn [fst] in Hx.
  destruct x as [u | u |]; [destruct (Hx u eq_refl) | |]; apply IH; try lia; intros y Hy; apply H; right; assumption.
Qed.

Lemma size_app f g : size (f ++ g) = size f + size g.
Proof. unfold size. induction f as [|x f IH]; cbn [app fold_right]; lia. Qed.

Lemma seek_app n pre suf : n <= size pre -> exists pre', seek n (pre ++ suf) = pre' ++ suf.
Proof.
  revert n. induction pre as [|[x k] pre IH]; intros n H.
  - cbn in H. assert (n = 0) by lia. subst n. exists []. destruct suf as [|[y j] suf]; reflexivity.
  - cbn [app seek]. destruct (n =? 0); [exists ((x, k) :: pre); reflexivity|].
    destruct (Nat.leb_spec k n).
    + apply IH. cbn [size fold_right snd] in H. unfold size. lia.
    + exists ((TOther, k - n) :: pre). reflexivity.
Qed.

Lemma last_it_none t f : (forall x, In x f -> forall u, fst x <> TIt u) -> last_it t f = t.
Proof.
  unfold last_it. revert t. induction f as [|[x k] f IH]; intros t H; [reflexivity|].
  cbn [fold_left fst]. pose proof (H (x, k) (or_introl eq_refl)) as Hx. cbn [fst] in Hx.
  destruct x as [u | u |]; [destruct (Hx u eq_refl) | |]; apply IH; intros y Hy; apply H; right; assumption.
Qed.

Lemma last_line_last d f x k : last_line d (f ++ [(x, k)]) = x.
Proof. unfold last_line. rewrite fold_left_app. reflexivity. Qed.

(** the last print is in the last 1000 characters: the times of the first and last prints, or the time of the last file if
    this is the last line *)
Theorem c80_times_partial fuel before t_first n_first middle t_last n_last after :
  (forall x, In x before -> forall u, fst x <> TIt u) ->
  (forall x, In x after -> forall u, fst x <> TIt u) ->
  let f := before ++ (TIt t_first, n_first) :: middle ++ (TIt t_last, n_last) :: after in
  length f <= fuel -> n_last + size after <= 1000 ->
  times_start_last fuel f
  = Some (t_first, match last after (TOther, 0) with (TSave t, _) => t | _ => t_last end).
Proof.
  intros Hb Ha f Hf Hs. unfold times_start_last.
  assert (F : find_first_it fuel f = Some t_first).
  { unfold f. apply first_it; [assumption|]. unfold f in Hf. rewrite app_length in Hf. cbn in Hf. lia. }
  rewrite F. set (nb := Nat.min (size f) 1000).
  assert (S : exists pre', seek (size f - nb) f = pre' ++ (TIt t_last, n_last) :: after).
  { assert (E : f = (before ++ (TIt t_first, n_first) :: middle) ++ (TIt t_last, n_last) :: after).
    { unfold f. rewrite <- app_assoc. reflexivity. }
    pose proof (seek_app (size f - nb) (before ++ (TIt t_first, n_first) :: middle) ((TIt t_last, n_last) :: after)) as G.
    rewrite <- E in G. apply G.
    assert (Z : size f = size (before ++ (TIt t_first, n_first) :: middle) + (n_last + size after)).
    { rewrite E at 1. rewrite size_app. reflexivity. }
    unfold nb. lia. }
  destruct S as [pre' ->].
  assert (L : last_it t_first (pre' ++ (TIt t_last, n_last) :: after) = t_last).
  { unfold last_it. rewrite fold_left_app. cbn [fold_left fst]. apply (last_it_none t_last after Ha). }
  f_equal. f_equal.
  destruct (exists_last (l := (TIt t_last, n_last) :: after) ltac:(discriminate)) as (l & [x k] & El).
  rewrite El, app_assoc, last_line_last, <- app_assoc, <- El, L.
  destruct after as [|y after].
  - destruct l as [|z l]; [|destruct l; discriminate]. injection El as <- <-. reflexivity.
  - destruct l as [|z l]; [discriminate|]. injection El as _ El. rewrite El, last_last. reflexivity.
Qed.

(** only one print *)
Theorem c80_one_print_partial fuel before t n after :
  (forall x, In x before -> forall u, fst x <> TIt u) ->
  (forall x, In x after -> forall u, fst x <> TIt u) ->
  length (before ++ (TIt t, n) :: after) <= fuel -> n + size after <= 1000 ->
  times_start_last fuel (before ++ (TIt t, n) :: after)
  = Some (t, match last after (TOther, 0) with (TSave u, _) => u | _ => t end).
Proof.
  intros Hb Ha Hf Hs. unfold times_start_last.
  rewrite first_it; [|assumption | rewrite app_length in Hf; cbn in Hf; lia].
  set (f := before ++ (TIt t, n) :: after) in *. set (nb := Nat.min (size f) 1000).
  assert (S : exists pre', seek (size f - nb) f = pre' ++ (TIt t, n) :: after).
  { apply seek_app.
    assert (Z : size f = size before + (n + size after)) by (unfold f; rewrite size_app; reflexivity).
    unfold nb. lia. }
  destruct S as [pre' ->].
  assert (L : last_it t (pre' ++ (TIt t, n) :: after) = t).
  { unfold last_it. rewrite fold_left_app. cbn [fold_left fst]. apply (last_it_none t after Ha). }
  f_equal. f_equal.
  destruct (exists_last (l := (TIt t, n) :: after) ltac:(discriminate)) as (l & [x k] & El).
  rewrite El, app_assoc, last_line_last, <- app_assoc, <- El, L.
  destruct after as [|y after].
  - destruct l as [|z l]; [|destruct l; discriminate]. injection El as <- <-. reflexivity.
  - destruct l as [|z l]; [discriminate|]. injection El as _ El. rewrite El, last_last. reflexivity.
Qed.

(** nothing has been printed yet: the function never returns *)
Theorem c80_no_print_never_returns f : (forall x, In x f -> forall u, fst x <> TIt u) -> forall fuel, times_start_last fuel f = None.
Proof.
  intros H fuel. unfold times_start_last.
  assert (N : find_first_it fuel f = None); [|rewrite N; reflexivity].
  revert f H. induction fuel as [|fuel IH]; intros f H; [reflexivity|].
  destruct f as [|[x k] f]; cbn [find_first_it]; [apply IH; assumption|].
  pose proof (H (x, k) (or_introl eq_refl)) as Hx. cbn [fst] in Hx.
  destruct x as [u | u |]; [destruct (Hx u eq_refl) | |]; apply IH; intros y Hy; apply H; right; assumption.
Qed.

Theorem c80_no_print_refuted : exists f, forall fuel, times_start_last fuel f = None.
Proof. exists [(TOther, 38); (TOther, 29)]. apply c80_no_print_never_returns. intros x [<- | [<- | []]] u; discriminate. Qed.

(** the last print is followed by more than 1000 characters: the last time is the first one *)
Theorem c80_long_end_refuted : exists f, times_start_last 10 f = Some (0%R, 0%R) /\ In (TIt 1%R, 50) f.
Proof.
  exists [(TIt 0%R, 50); (TIt 1%R, 50); (TOther, 1000)]. split; [|right; left; reflexivity].
  unfold times_start_last. cbn [find_first_it].
  set (nb := Nat.min _ 1000).
  assert (S : seek (size [(TIt 0%R, 50); (TIt 1%R, 50); (TOther, 1000)] - nb) [(TIt 0%R, 50); (TIt 1%R, 50); (TOther, 1000)] = [(TOther, 1000)]).
  { vm_compute. reflexivity. }
  rewrite S. reflexivity.
Qed.

Example c80_example :
  times_start_last 10 [(TOther, 30); (TIt 0%R, 60); (TOther, 60); (TIt 2%R, 60); (TSave 3%R, 40)] = Some (0%R, 3%R)
  /\ times_start_last 10 [(TOther, 30); (TIt 0%R, 60); (TOther, 60); (TIt 2%R, 60); (TOther, 40)] = Some (0%R, 2%R).
Proof. split; reflexivity. Qed.

Print Assumptions c77_ns3d.
Print Assumptions c77_ns2d.
Print Assumptions c77_predaprey_partial.
Print Assumptions c77_predaprey_refuted.
Print Assumptions c78_duration_round_trip.
Print Assumptions c79_load_times_partial.
Print Assumptions c79_clock_time_partial.
Print Assumptions c79_it_end_refuted.
Print Assumptions c80_times_partial.
Print Assumptions c80_one_print_partial.
Print Assumptions c80_no_print_never_returns.
Print Assumptions c80_no_print_refuted.
Print Assumptions c80_long_end_refuted.
