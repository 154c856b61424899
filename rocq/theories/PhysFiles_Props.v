(** Theorems on the files of the physical state (C25-C29, C69) *)

From Coq Require Import String Ascii List Arith Bool QArith Qabs Lqa Lia Permutation.
From Verif Require Import PhysFiles_Model PhysFiles_Spec PhysFiles_Proofs.
Import ListNotations.
Local Open Scope nat_scope.

(** ** C25: no save replaces a file with another iteration *)

Theorem c25_no_other_iteration_replaced :
  forall (V : Type) (ms : Q -> nat) (reqs : list (request V)) d,
  names_tell d ->
  names_tell (fold_left (do_save ms) reqs d)
  /\ (forall n f, lookup V d n = Some f ->
        exists f', lookup V (fold_left (do_save ms) reqs d) n = Some f' /\ f_it V f' = f_it V f).
Proof.
  intros V ms reqs. induction reqs as [|r reqs IH]; intros d T; cbn [fold_left]; [eauto|].
  assert (T1 : names_tell (do_save ms d r)) by (apply save_names_tell; exact T).
  destruct (IH _ T1) as [H1 H2]. split; [exact H1|].
  intros n f L.
  destruct (save_keeps V ms (r_with_it r) (r_width r) (r_t r) (r_it r) (r_v r) d n f T L) as [K|[E K]].
  - exact (H2 _ _ K).
  - destruct (H2 _ _ K) as (f' & A & B). exists f'. split; [exact A|]. rewrite B. cbn [f_it]. auto.
Qed.
Print Assumptions c25_no_other_iteration_replaced.

(** If an iteration has only one state (one run), a file never changes once it is written. *)
Theorem c25_never_overwritten :
  forall (V : Type) (ms : Q -> nat) (state_at : nat -> Q * V) (reqs : list (request V)) d,
  names_tell d ->
  (forall n f, lookup V d n = Some f -> (f_time V f, f_state V f) = state_at (f_it V f)) ->
  Forall (fun r => (r_t r, r_v r) = state_at (r_it r)) reqs ->
  forall n f, lookup V d n = Some f -> lookup V (fold_left (do_save ms) reqs d) n = Some f.
Proof.
  intros V ms state_at reqs. induction reqs as [|r reqs IH]; intros d T S F n f L; [exact L|].
  inversion F as [|? ? F1 F2]; subst. cbn [fold_left].
  assert (K : forall n f, lookup V d n = Some f -> lookup V (do_save ms d r) n = Some f).
  { intros m g G.
    destruct (save_keeps V ms (r_with_it r) (r_width r) (r_t r) (r_it r) (r_v r) d m g T G) as [A|[E A]];
      [exact A|].
    unfold do_save. rewrite A. f_equal. pose proof (S _ _ G) as S1. rewrite E in S1.
    rewrite <- F1 in S1. injection S1 as <- <-. rewrite <- E. destruct g; reflexivity. }
  apply IH.
  - apply save_names_tell. exact T.
  - intros m g G.
    destruct (save_cases V ms (r_with_it r) (r_width r) (r_t r) (r_it r) (r_v r) d T)
      as [[E _]|(w' & i & E & _ & _)]; unfold do_save in G; cbv zeta in E; rewrite E in G.
    + exact (S _ _ G).
    + destruct (list_eq_dec Nat.eq_dec m (state_name w' (ms (r_t r)) i)) as [M|M].
      * subst m. rewrite lookup_write_same in G. injection G as <-. cbn [f_time f_state f_it]. exact F1.
      * rewrite lookup_write_other in G by exact M. exact (S _ _ G).
  - exact F2.
  - apply K. exact L.
Qed.
Print Assumptions c25_never_overwritten.

(** After a save, a file holds the iteration. *)
Theorem c25_saved :
  forall (V : Type) (ms : Q -> nat) (r : request V) d, names_tell d ->
  exists n f, lookup V (do_save ms d r) n = Some f /\ f_it V f = r_it r
              /\ (f = mkFile V (r_it r) (r_t r) (r_v r) \/ lookup V d n = Some f).
Proof. intros. apply save_there. assumption. Qed.
Print Assumptions c25_saved.

(** two states with the same printed time: two files *)
Example c25_example :
  let ms (q : Q) := Z.to_nat (Qnum (q * 1000) / Zpos (Qden (q * 1000))) in
  let d := fold_left (do_save ms) [mkReq false 8 (10001 # 10000) 10 true; mkReq false 8 (10004 # 10000) 11 false;
                                   mkReq false 8 (10004 # 10000) 11 false] [] in
  names_tell (@nil (name * file bool))
  /\ lookup bool d (lit "state_phys_t0001.000.nc") = Some (mkFile bool 10 (10001 # 10000) true)
  /\ lookup bool d (lit "state_phys_t001.000_it=11.nc") = Some (mkFile bool 11 (10004 # 10000) false)
  /\ length d = 2.
Proof. cbv zeta. split; [intros ? ? ? ? H; discriminate H|]. vm_compute. auto. Qed.

(** ** C26: the final state *)

Section Final.
Variable V : Type.
Variable ms : Q -> nat.
Variable slot : Q -> Q -> bool.
Variable with_it : bool.
Variable width : list (name * file V) -> nat.

(** [t_last] is the initial time or the time of a call whose iteration is on the disk *)
Definition saved_inv (t0 : Q) (all : list (call V)) (r : run V) : Prop :=
  names_tell (files V r)
  /\ match t_last V r with
     | None => True
     | Some a => a = t0 \/ exists c n f, In c all /\ a = c_t V c
                                         /\ lookup V (files V r) n = Some f /\ f_it V f = c_it V c
     end.

Lemma online_save_inv t0 all p c r :
  In c all -> saved_inv t0 all r -> saved_inv t0 all (online_save V ms slot with_it width p c r).
Proof.
  intros I [T H]. unfold online_save.
  destruct (Qeq_bool p 0); [split; auto|].
  destruct (match t_last V r with None => true | Some a => slot a (c_t V c) end); [|split; auto].
  split; cbn [files t_last].
  - apply save_names_tell. exact T.
  - right. destruct (save_there V ms with_it (width (files V r)) (c_t V c) (c_it V c) (c_v V c) (files V r) T)
      as (n & f & A & B & _).
    exists c, n, f. auto.
Qed.

Lemma fold_inv t0 all p l r :
  incl l all -> saved_inv t0 all r ->
  saved_inv t0 all (fold_left (fun r c => online_save V ms slot with_it width p c r) l r).
Proof.
  revert r. induction l as [|c l IH]; intros r I H; [exact H|]. cbn [fold_left].
  apply IH; [intros x X; apply I; right; exact X|].
  apply online_save_inv; [apply I; left; reflexivity|exact H].
Qed.

Theorem c26_final_state_saved_partial :
  forall ps pp t0 calls final d,
  names_tell d ->
  (* time and iteration advance together, and the time has advanced *)
  (forall c, In c calls -> (c_t V c <= c_t V final)%Q
             /\ ((c_t V c == c_t V final)%Q -> c_it V c = c_it V final)) ->
  ((t0 < c_t V final)%Q \/ (ps == 0 /\ pp == 0)%Q) ->
  exists n f, lookup V (simulation V ms slot with_it width ps pp t0 calls final d) n = Some f
              /\ f_it V f = c_it V final.
Proof.
  intros ps pp t0 calls final d T C H. unfold simulation.
  set (r := fold_left _ calls _).
  assert (I : saved_inv t0 (final :: calls) r).
  { apply fold_inv; [intros x X; right; exact X|]. split; [exact T|].
    unfold init_run. cbn [t_last]. destruct (_ && _); auto. }
  assert (N : (ps == 0 /\ pp == 0)%Q -> t_last V r = None).
  { intros [P1 P2]. unfold r. clear -P1 P2.
    set (q := init_run V ps pp t0 d).
    assert (Q0 : t_last V q = None).
    { unfold q, init_run. cbn [t_last]. apply Qeq_bool_iff in P1, P2. rewrite P1, P2. reflexivity. }
    clearbody q. revert q Q0. induction calls as [|c l IH]; intros q Q0; [exact Q0|].
    cbn [fold_left]. apply IH. unfold online_save. apply Qeq_bool_iff in P1. rewrite P1. exact Q0. }
  clearbody r. unfold end_of_simul. set (r1 := online_save V ms slot with_it width ps final r).
  assert (I1 : saved_inv t0 (final :: calls) r1) by (apply online_save_inv; [left; reflexivity|exact I]).
  assert (N1 : (ps == 0 /\ pp == 0)%Q -> t_last V r1 = None).
  { intros P. unfold r1, online_save. pose proof (proj1 P) as P1. apply Qeq_bool_iff in P1. rewrite P1. auto. }
  clearbody r1. destruct I1 as [T1 L1].
  destruct (t_last V r1) as [a|] eqn:A.
  - destruct (Qle_bool (c_t V final) a) eqn:Le; cbn [negb].
    + apply Qle_bool_iff in Le. destruct L1 as [-> | (c & n & f & Ic & -> & Lk & It)].
      * destruct H as [H|H]; [exfalso; lra|]. specialize (N1 H). discriminate.
      * exists n, f. split; [exact Lk|]. rewrite It. destruct Ic as [<-|Ic]; [reflexivity|].
        apply C; [exact Ic|]. destruct (C c Ic) as [C1 _]. lra.
    + cbn [files].
      destruct (save_there V ms with_it (width (files V r1)) (c_t V final) (c_it V final) (c_v V final) (files V r1) T1)
        as (n & f & X & Y & _). eauto.
  - cbn [files].
    destruct (save_there V ms with_it (width (files V r1)) (c_t V final) (c_it V final) (c_v V final) (files V r1) T1)
      as (n & f & X & Y & _). eauto.
Qed.

(** If moreover the directory was empty or holds this trajectory, the file holds the final state. *)
Theorem c26_final_state_content_partial :
  forall ps pp t0 calls final d (state_at : nat -> Q * V),
  names_tell d ->
  (forall c, In c calls -> (c_t V c <= c_t V final)%Q
             /\ ((c_t V c == c_t V final)%Q -> c_it V c = c_it V final)) ->
  ((t0 < c_t V final)%Q \/ (ps == 0 /\ pp == 0)%Q) ->
  (forall n f, lookup V d n = Some f -> (f_time V f, f_state V f) = state_at (f_it V f)) ->
  (forall c, In c (final :: calls) -> (c_t V c, c_v V c) = state_at (c_it V c)) ->
  exists n, lookup V (simulation V ms slot with_it width ps pp t0 calls final d) n
            = Some (mkFile V (c_it V final) (c_t V final) (c_v V final)).
Proof.
  intros ps pp t0 calls final d state_at T C H S A.
  destruct (c26_final_state_saved_partial ps pp t0 calls final d T C H) as (n & f & L & I).
  exists n. rewrite L. f_equal.
  set (good := fun d : list (name * file V) => names_tell d /\
    forall n f, lookup V d n = Some f -> (f_time V f, f_state V f) = state_at (f_it V f)).
  assert (G : forall c d, In c (final :: calls) -> good d ->
              good (save V ms with_it (width d) (c_t V c) (c_it V c) (c_v V c) d)).
  { intros c d0 Ic [G1 G2]. split; [apply save_names_tell; exact G1|].
    intros m g Lk.
    destruct (save_cases V ms with_it (width d0) (c_t V c) (c_it V c) (c_v V c) d0 G1)
      as [[E _]|(w' & i & E & _ & _)]; cbv zeta in E; rewrite E in Lk; [eauto|].
    destruct (list_eq_dec Nat.eq_dec m (state_name w' (ms (c_t V c)) i)) as [M|M].
    - subst m. rewrite lookup_write_same in Lk. injection Lk as <-. cbn [f_time f_state f_it]. auto.
    - rewrite lookup_write_other in Lk by exact M. eauto. }
  assert (G' : forall c r, In c (final :: calls) -> good (files V r) ->
               good (files V (online_save V ms slot with_it width ps c r))).
  { intros c r Ic Gr. unfold online_save. destruct (Qeq_bool ps 0); [exact Gr|].
    destruct (match t_last V r with None => true | Some a => slot a (c_t V c) end); [|exact Gr].
    cbn [files]. apply G; assumption. }
  assert (GF : good (files V (fold_left (fun r c => online_save V ms slot with_it width ps c r) calls
                                (init_run V ps pp t0 d)))).
  { assert (X : forall l r, incl l calls -> good (files V r) ->
        good (files V (fold_left (fun r c => online_save V ms slot with_it width ps c r) l r))).
    { induction l as [|c l IH]; intros r Il Gr; [exact Gr|]. cbn [fold_left]. apply IH.
      - intros x X. apply Il. right. exact X.
      - apply G'; [right; apply Il; left; reflexivity|exact Gr]. }
    apply X; [apply incl_refl|]. cbn [init_run files]. split; assumption. }
  assert (GE : good (simulation V ms slot with_it width ps pp t0 calls final d)).
  { unfold simulation, end_of_simul.
    match goal with |- context [online_save V ms slot with_it width ps final ?r] => set (r0 := r) in * end.
    pose proof (G' final r0 (or_introl eq_refl) GF) as G1.
    match goal with |- context [if ?b then _ else _] => destruct b end; [|exact G1].
    cbn [files]. apply G; [left; reflexivity|exact G1]. }
  destruct GE as [_ GE]. specialize (GE n f L). rewrite I in GE.
  rewrite <- (A final (or_introl eq_refl)) in GE. injection GE as <- <-. rewrite <- I. destruct f; reflexivity.
Qed.

End Final.
Print Assumptions c26_final_state_saved_partial.
Print Assumptions c26_final_state_content_partial.

(** A run which does no time step (its end time is already reached): nothing is saved. *)
Theorem c26_final_state_saved_refuted :
  exists (ms : Q -> nat) slot with_it width ps t0 (final : call bool),
    (ps == 1)%Q /\ (forall a b, slot a b = true -> (a < b)%Q) /\ c_t bool final = t0 /\
    simulation bool ms slot with_it width ps 0 t0 [final] final [] = [].
Proof.
  exists (fun q => Z.to_nat (Qnum q)), (fun a b => negb (Qle_bool b a)), false, (fun _ => 8), 1%Q, 2%Q,
    (mkCall bool 2 7 true).
  split; [reflexivity|]. split; [|split; reflexivity].
  intros a b H. apply Bool.negb_true_iff in H. apply Qle_bool_false in H. exact H.
Qed.
Print Assumptions c26_final_state_saved_refuted.

(** A second run in the same directory (a restart from an earlier state with other parameters): the
    file of the first run is kept when it has the same printed time and the same iteration. *)
Theorem c26_second_trajectory_refuted :
  exists (ms : Q -> nat) slot with_it width ps t0 (calls : list (call bool)) final d,
    names_tell d /\ (t0 < c_t bool final)%Q
    /\ (forall c, In c calls -> (c_t bool c < c_t bool final)%Q /\ c_it bool c < c_it bool final)
    /\ forall n f, lookup bool (simulation bool ms slot with_it width ps 0 t0 calls final d) n = Some f ->
                   f_state bool f <> c_v bool final.
Proof.
  exists (fun q => Z.to_nat (Qnum q * 1000)), (fun a b => negb (Qle_bool b a)), false, (fun _ => 8), 1%Q, 1%Q,
    [], (mkCall bool 2 20 true), [(state_name 8 2000 None, mkFile bool 20 2 false)].
  split; [|split; [reflexivity|split; [intros c []|]]].
  - intros w m i f H. cbn [lookup] in H.
    destruct (name_eqb_spec (state_name w m (Some i)) (state_name 8 2000 None)) as [E|E]; [|discriminate].
    apply it_of_state_name_inj in E. discriminate.
  - match goal with |- forall n f, lookup bool ?d n = Some f -> _ =>
      assert (E : d = [(state_name 8 2000 None, mkFile bool 20 2 false)]) by (vm_compute; reflexivity);
      rewrite E end.
    intros n f. cbn [lookup]. destruct (name_eqb n _); [|discriminate].
    intro H. injection H as <-. cbn. discriminate.
Qed.
Print Assumptions c26_second_trajectory_refuted.

Example c26_example :
  let slot a b := negb (Qle_bool b a) in
  let ms q := Z.to_nat (Qnum q * 1000) in
  let calls := [mkCall bool 0 0 false; mkCall bool 1 1 false] in
  let final := mkCall bool 2 2 true in
  (forall c, In c calls -> (c_t bool c <= c_t bool final)%Q
             /\ ((c_t bool c == c_t bool final)%Q -> c_it bool c = c_it bool final))
  /\ (0 < c_t bool final)%Q
  /\ lookup bool (simulation bool ms slot false (fun _ => 8) 5 0 0 calls final []) (lit "state_phys_t0002.000.nc")
     = Some (mkFile bool 2 2 true).
Proof.
  cbv zeta. split; [|split; [reflexivity|vm_compute; reflexivity]].
  intros c [<-|[<-|[]]]; cbn; split; try discriminate; intro H; discriminate H.
Qed.

(** ** C27: lookup by time *)

Definition state_names (l : list name) : Prop :=
  Forall (fun n => exists w ms it, n = state_name w ms it) l.

Lemma state_names_times l : state_names l -> forall n, In n l -> time_of_name n <> None.
Proof.
  intros H n I. unfold state_names in H. rewrite Forall_forall in H.
  destruct (H n I) as (w & ms & it & ->). rewrite time_of_state_name. discriminate.
Qed.

(** The names are read back exactly, by the two readers. *)
Theorem c27_name_round_trip :
  forall w ms it, time_of_name (state_name w ms it) = Some ms /\ search (state_name w ms it) = Some ms.
Proof. intros. split; [apply time_of_state_name|apply search_state_name]. Qed.
Print Assumptions c27_name_round_trip.

Lemma approx_general l a t :
  a = At t \/ (a = Last /\ forall ts, collect (map time_of_name (sorted l)) = Some ts -> t = q_of_ms (max_list ts)) ->
  state_names l -> l <> [] ->
  exists n m, name_file_from_time_approx l a = Some n /\ In n l /\ time_of_name n = Some m
    /\ forall n' m', In n' l -> time_of_name n' = Some m' -> (Qabs (q_of_ms m - t) <= Qabs (q_of_ms m' - t))%Q.
Proof.
  intros A S N. unfold name_file_from_time_approx.
  assert (NS : sorted l <> []).
  { intro E. pose proof (sorted_perm l) as P. rewrite E in P. apply Permutation_sym, Permutation_nil in P. auto. }
  destruct (collect_some time_of_name (sorted l)) as [ts Ts].
  { intros x X. apply (state_names_times l S). apply sorted_in. exact X. }
  assert (E : match sorted l with
              | [] => None
              | _ :: _ => match a with
                 | NoTime => Some (last (sorted l) [])
                 | _ => match collect (map time_of_name (sorted l)) with
                   | None => None
                   | Some times => nth_error (sorted l) (argmin (map (fun x => Qabs (q_of_ms x - match a with At t => t | _ => q_of_ms (max_list times) end)) times))
                   end
                 end
              end = nth_error (sorted l) (get_closest_time_file (map q_of_ms ts) t)).
  { destruct (sorted l) as [|x s] eqn:X; [congruence|]. rewrite <- X in *.
    unfold get_closest_time_file. rewrite map_map. rewrite Ts.
    destruct A as [-> | [-> A]]; [reflexivity|]. rewrite (A ts Ts). reflexivity. }
  cbv zeta. rewrite E.
  destruct (collect_map time_of_name (sorted l) ts Ts) as [L R].
  set (i := get_closest_time_file (map q_of_ms ts) t).
  assert (B : i < length (sorted l)).
  { unfold i. rewrite <- L. rewrite <- (map_length q_of_ms ts). apply closest_lt.
    intro F. apply map_eq_nil in F. subst ts. cbn in L. destruct (sorted l); [congruence|discriminate]. }
  exists (nth i (sorted l) []), (nth i ts 0).
  split; [apply nth_error_nth'; exact B|].
  split; [apply sorted_in, nth_In; exact B|].
  split; [apply R; exact B|].
  intros n' m' I' T'. apply (proj2 (sorted_in l n')) in I'. destruct (In_nth _ _ [] I') as (j & J & Nj).
  assert (T2 : nth j ts 0 = m') by (pose proof (R j [] 0 J) as Rj; rewrite Nj, T' in Rj; congruence).
  pose proof (closest_index (map q_of_ms ts) t j ltac:(rewrite map_length, L; exact J)) as M.
  assert (NM : forall k, k < length ts -> nth k (map q_of_ms ts) 0%Q = q_of_ms (nth k ts 0)).
  { intros k K. rewrite (nth_indep _ _ (q_of_ms 0)) by (rewrite map_length; exact K). apply map_nth. }
  rewrite !NM in M by (rewrite L; assumption). fold i in M. rewrite T2 in M. exact M.
Qed.

Theorem c27_closest :
  forall l t, state_names l -> l <> [] ->
  exists n m, name_file_from_time_approx l (At t) = Some n /\ In n l /\ time_of_name n = Some m
    /\ forall n' m', In n' l -> time_of_name n' = Some m' -> (Qabs (q_of_ms m - t) <= Qabs (q_of_ms m' - t))%Q.
Proof. intros l t S N. apply approx_general; auto. Qed.
Print Assumptions c27_closest.

Theorem c27_last :
  forall l, state_names l -> l <> [] ->
  exists n m, name_file_from_time_approx l Last = Some n /\ In n l /\ time_of_name n = Some m
    /\ forall n' m', In n' l -> time_of_name n' = Some m' -> m' <= m.
Proof.
  intros l S N.
  destruct (collect_some time_of_name (sorted l)) as [ts Ts].
  { intros x X. apply (state_names_times l S). apply sorted_in. exact X. }
  destruct (approx_general l Last (q_of_ms (max_list ts))) as (n & m & A & B & C & D); auto.
  { right. split; [reflexivity|]. intros ts' E. congruence. }
  exists n, m. split; [exact A|]. split; [exact B|]. split; [exact C|].
  destruct (collect_map time_of_name (sorted l) ts Ts) as [L R].
  assert (NT : ts <> []).
  { intro F. subst ts. cbn in L. pose proof (sorted_perm l) as P.
    destruct (sorted l); [apply Permutation_sym, Permutation_nil in P; auto|discriminate]. }
  assert (X : exists n0, In n0 l /\ time_of_name n0 = Some (max_list ts)).
  { destruct (In_nth _ _ 0 (max_list_in ts NT)) as (j & J & Ej). exists (nth j (sorted l) []).
    rewrite L in J. split; [apply sorted_in, nth_In; exact J|]. rewrite (R j [] 0 J). congruence. }
  destruct X as (n0 & I0 & T0). specialize (D n0 _ I0 T0).
  assert (M : m = max_list ts).
  { assert (E : (Qabs (q_of_ms (max_list ts) - q_of_ms (max_list ts)) == 0)%Q).
    { setoid_replace (q_of_ms (max_list ts) - q_of_ms (max_list ts))%Q with 0%Q by ring. reflexivity. }
    rewrite E in D. pose proof (Qabs_nonneg (q_of_ms m - q_of_ms (max_list ts))).
    assert (Z : (Qabs (q_of_ms m - q_of_ms (max_list ts)) == 0)%Q) by lra.
    assert (W : (q_of_ms m == q_of_ms (max_list ts))%Q).
    { revert Z. apply Qabs_case; intros; lra. }
    unfold q_of_ms in W.
    assert (W2 : (inject_Z (Z.of_nat m) == inject_Z (Z.of_nat (max_list ts)))%Q).
    { apply (Qmult_inj_r _ _ (/ 1000)); [discriminate|exact W]. }
    unfold Qeq in W2. cbn in W2. lia. }
  intros n' m' I' T'. rewrite M. apply max_list_ge. apply (proj2 (sorted_in l n')) in I'.
  destruct (In_nth _ _ [] I') as (j & J & Ej). pose proof (R j [] 0 J) as Rj. rewrite Ej, T' in Rj.
  injection Rj as ->. apply nth_In. rewrite L. exact J.
Qed.
Print Assumptions c27_last.

(** The iteration is not used: among the files with the same printed time the first one in the
    order of the names is taken, which is the oldest state. *)
Theorem c27_last_state_refuted :
  exists (ms : Q -> nat) (reqs : list (request bool)) n f f',
    let d := fold_left (do_save ms) reqs [] in
    name_file_from_time_approx (map fst d) Last = Some n /\ lookup bool d n = Some f
    /\ (exists n', lookup bool d n' = Some f') /\ (f_time bool f < f_time bool f')%Q.
Proof.
  exists (fun q => Z.to_nat (Qnum (q * 1000) / Zpos (Qden (q * 1000)))).
  exists [mkReq false 8 (10001 # 10000) 10 true; mkReq false 8 (10004 # 10000) 11 false].
  exists (lit "state_phys_t0001.000.nc"), (mkFile bool 10 (10001 # 10000) true),
    (mkFile bool 11 (10004 # 10000) false).
  cbv zeta. split; [vm_compute; reflexivity|]. split; [vm_compute; reflexivity|].
  split; [exists (lit "state_phys_t001.000_it=11.nc"); vm_compute; reflexivity|reflexivity].
Qed.
Print Assumptions c27_last_state_refuted.

Example c27_example :
  let l := [state_name 8 (12 * 1000) None; state_name 8 2500 (Some 7); state_name 8 0 None] in
  state_names l /\ name_file_from_time_approx l (At (3 # 1)) = Some (lit "state_phys_t0002.500_it=7.nc")
  /\ name_file_from_time_approx l Last = Some (lit "state_phys_t0012.000.nc").
Proof.
  cbv zeta. split; [repeat (constructor; [eauto|]); constructor|]. split; vm_compute; reflexivity.
Qed.

(** ** C28: the last name *)

(** With the same number of digits in all the names, the last name is a latest file. *)
Theorem c28_default_is_latest_partial :
  forall l k, l <> [] ->
  Forall (fun n => exists w ms it, n = state_name w ms it /\ kdig w ms = k) l ->
  exists n m, name_file_from_time_approx l NoTime = Some n /\ In n l /\ time_of_name n = Some m
    /\ forall n' m', In n' l -> time_of_name n' = Some m' -> m' <= m.
Proof.
  intros l k N H.
  assert (NS : sorted l <> []).
  { intro E. pose proof (sorted_perm l) as P. rewrite E in P. apply Permutation_sym, Permutation_nil in P. auto. }
  assert (E : name_file_from_time_approx l NoTime = Some (last (sorted l) [])).
  { unfold name_file_from_time_approx. cbv zeta. destruct (sorted l) eqn:X; [congruence|reflexivity]. }
  pose proof (proj1 (sorted_in l _) (last_in (sorted l) [] NS)) as I.
  rewrite Forall_forall in H. destruct (H _ I) as (w & ms & it & En & K).
  exists (last (sorted l) []), ms. split; [exact E|]. split; [exact I|].
  split; [rewrite En; apply time_of_state_name|].
  intros n' m' I' T'. destruct (H _ I') as (w' & ms' & it' & En' & K').
  rewrite En', time_of_state_name in T'. injection T' as <-.
  destruct (Nat.le_gt_cases ms' ms) as [Le|Gt]; [exact Le|]. exfalso.
  pose proof (ordered_last (sorted l) [] n' (sorted_ordered l) (proj2 (sorted_in l n') I')) as O.
  rewrite En, En' in O. unfold state_name in O. rewrite lex_app, !time_text_text, K, K' in O.
  rewrite lex_text in O; [discriminate| | |exact Gt].
  - rewrite <- K. apply kdig_bound.
  - rewrite <- K'. apply kdig_bound.
Qed.
Print Assumptions c28_default_is_latest_partial.

(** A run with USE_T_END in a new directory, whatever the file given by glob: the last name is a
    latest file if the names have no iteration, no two states have the same printed time and all the
    times are printed within the initial width. *)
Definition run_names (w0 : nat) (pick : list name -> option name) (mss : list nat) : list name :=
  fold_left (fun l m => state_name (str_width w0 (pick l)) m None :: l) mss [].

Theorem c28_run_partial :
  forall w0 pick mss, 5 <= w0 -> mss <> [] ->
  (forall l n, pick l = Some n -> In n l) ->
  Forall (fun m => m / 1000 < 10 ^ (w0 - 4)) mss ->
  exists n m, name_file_from_time_approx (run_names w0 pick mss) NoTime = Some n
    /\ time_of_name n = Some m /\ In m mss /\ forall m', In m' mss -> m' <= m.
Proof.
  intros w0 pick mss W N P B.
  set (good := fun n => exists m, n = state_name w0 m None /\ m / 1000 < 10 ^ (w0 - 4)).
  assert (KD : forall m, m / 1000 < 10 ^ (w0 - 4) -> kdig w0 m = w0 - 4).
  { intros m Hm. unfold kdig. pose proof (ndig_minimal _ (w0 - 4) ltac:(lia) Hm). lia. }
  assert (SW : forall l, Forall good l -> str_width w0 (pick l) = w0).
  { intros l G. destruct (pick l) as [n|] eqn:E; [|reflexivity].
    rewrite Forall_forall in G. destruct (G n (P _ _ E)) as (m & -> & Hm).
    unfold str_width, state_name. rewrite !app_length, time_text_text, text_length, (KD m Hm). cbn. lia. }
  assert (X : forall mss l, Forall (fun m => m / 1000 < 10 ^ (w0 - 4)) mss -> Forall good l ->
     fold_left (fun l m => state_name (str_width w0 (pick l)) m None :: l) mss l
     = rev (map (fun m => state_name w0 m None) mss) ++ l).
  { induction mss0 as [|m r IH]; intros l Bm G; [reflexivity|]. inversion Bm; subst.
    cbn [fold_left map rev]. rewrite (SW l G), <- app_assoc. cbn [app]. apply IH; [assumption|].
    constructor; [exists m; auto|exact G]. }
  unfold run_names. rewrite (X mss [] B (Forall_nil _)), app_nil_r.
  set (l := rev _).
  destruct (c28_default_is_latest_partial l (w0 - 4)) as (n & m & E & I & T & M).
  - unfold l. intro E. apply (f_equal (@rev name)) in E. rewrite rev_involutive in E.
    destruct mss; [congruence|discriminate].
  - rewrite Forall_forall. intros n I. unfold l in I. apply in_rev in I. apply in_map_iff in I.
    destruct I as (m & <- & I). rewrite Forall_forall in B. exists w0, m, None. auto.
  - exists n, m. split; [exact E|]. split; [exact T|].
    unfold l in I. apply in_rev in I. apply in_map_iff in I. destruct I as (m1 & <- & I).
    rewrite time_of_state_name in T. injection T as ->. split; [exact I|].
    intros m' I'. apply (M (state_name w0 m' None)); [|apply time_of_state_name].
    unfold l. apply -> in_rev. apply in_map_iff. eauto.
Qed.
Print Assumptions c28_run_partial.

(** Two states with the same printed time: the second name has the width 7 and sorts after the
    names of the later states. *)
Theorem c28_collision_refuted :
  exists (ms : Q -> nat) (reqs : list (request bool)) n f f',
    let d := fold_left (do_save ms) reqs [] in
    name_file_from_time_approx (map fst d) NoTime = Some n /\ lookup bool d n = Some f
    /\ (exists n', lookup bool d n' = Some f') /\ (f_time bool f + 1 < f_time bool f')%Q
    /\ map r_width reqs = [8; 8; 8].
Proof.
  exists (fun q => Z.to_nat (Qnum (q * 1000) / Zpos (Qden (q * 1000)))).
  exists [mkReq false 8 (10001 # 10000) 10 true; mkReq false 8 (10004 # 10000) 11 false;
          mkReq false 8 3 50 false].
  exists (lit "state_phys_t001.000_it=11.nc"), (mkFile bool 11 (10004 # 10000) false),
    (mkFile bool 50 3 false).
  cbv zeta. split; [vm_compute; reflexivity|]. split; [vm_compute; reflexivity|].
  split; [exists (lit "state_phys_t0003.000.nc"); vm_compute; reflexivity|]. split; reflexivity.
Qed.
Print Assumptions c28_collision_refuted.

(** USE_T_END false: the width is 7, the times from 1000 have one digit more. *)
Theorem c28_default_is_latest_refuted :
  exists l n m n' m',
    l = [state_name 7 (999 * 1000) None; state_name 7 (1000 * 1000) None]
    /\ name_file_from_time_approx l NoTime = Some n /\ time_of_name n = Some m
    /\ In n' l /\ time_of_name n' = Some m' /\ m < m'.
Proof.
  exists [state_name 7 (999 * 1000) None; state_name 7 (1000 * 1000) None], (state_name 7 (999 * 1000) None), (999 * 1000),
    (state_name 7 (1000 * 1000) None), (1000 * 1000).
  assert (S : sorted [state_name 7 (999 * 1000) None; state_name 7 (1000 * 1000) None]
              = [state_name 7 (1000 * 1000) None; state_name 7 (999 * 1000) None]).
  { vm_compute. reflexivity. }
  split; [reflexivity|]. split; [unfold name_file_from_time_approx; rewrite S; reflexivity|].
  split; [apply time_of_state_name|]. split; [right; left; reflexivity|].
  split; [apply time_of_state_name|]. apply Nat.ltb_lt. vm_compute. reflexivity.
Qed.
Print Assumptions c28_default_is_latest_refuted.

(** USE_T_END true: a name with an iteration gives a wrong width (the text of the iteration is
    counted), so the next names sort before the first one. *)
Theorem c28_width_with_iteration_refuted :
  exists l n m n' m',
    l = [state_name 8 1000 (Some 12); state_name (str_width 8 (Some (state_name 8 1000 (Some 12)))) 2000 (Some 24)]
    /\ name_file_from_time_approx l NoTime = Some n /\ time_of_name n = Some m
    /\ In n' l /\ time_of_name n' = Some m' /\ m < m'.
Proof.
  exists [state_name 8 1000 (Some 12); state_name (str_width 8 (Some (state_name 8 1000 (Some 12)))) 2000 (Some 24)],
    (state_name 8 1000 (Some 12)), 1000,
    (state_name (str_width 8 (Some (state_name 8 1000 (Some 12)))) 2000 (Some 24)), 2000.
  split; [reflexivity|]. split; [vm_compute; reflexivity|].
  split; [apply time_of_state_name|]. split; [right; left; reflexivity|].
  split; [apply time_of_state_name|]. lia.
Qed.
Print Assumptions c28_width_with_iteration_refuted.

Example c28_example :
  Forall (fun n => exists w ms it, n = state_name w ms it /\ kdig w ms = 4)
    [state_name 8 (12 * 1000) None; state_name 8 2500 (Some 7)].
Proof.
  constructor; [exists 8, (12 * 1000), None; split; [reflexivity|vm_compute; reflexivity]|].
  constructor; [exists 8, 2500, (Some 7); split; [reflexivity|vm_compute; reflexivity]|constructor].
Qed.

(** ** C29: interpolation in time *)

Local Open Scope Q_scope.

Theorem c29_exact_at_the_files :
  forall ts fs i, increasing ts -> length fs = length ts -> (i < length ts)%nat ->
  get_field ts fs (nth i ts 0) = Some (nth i fs 0).
Proof.
  intros ts fs i I L B. unfold get_field.
  set (t := nth i ts 0). set (j := get_closest_time_file ts t).
  assert (J : (j < length ts)%nat) by (apply closest_lt; intro; subst; cbn in B; lia).
  assert (E : j = i).
  { pose proof (closest_index ts t i B) as C. fold j in C.
    assert (Z : Qabs (nth i ts 0 - t) == 0).
    { unfold t. setoid_replace (nth i ts 0 - nth i ts 0) with 0 by ring. reflexivity. }
    rewrite Z in C. assert (F : nth j ts 0 == t).
    { revert C. apply Qabs_case; intros; lra. }
    destruct (Nat.lt_trichotomy i j) as [X|[X|X]]; [|auto|].
    - pose proof (increasing_nth ts i j I X J). unfold t in F. lra.
    - pose proof (increasing_nth ts j i I X B). unfold t in F. lra. }
  rewrite E. fold t. rewrite isclose_refl. cbn [orb]. apply nth_error_nth'. rewrite L. exact B.
Qed.
Print Assumptions c29_exact_at_the_files.

(** Between the first and the last time: the linear interpolation between the two consecutive files
    around the time, except within the tolerance of isclose where the field of the closest file is
    returned. *)
Theorem c29_linear_inside_partial :
  forall ts fs t, increasing ts -> length fs = length ts -> (2 <= length ts)%nat ->
  nth 0 ts 0 <= t <= nth (length ts - 1) ts 0 ->
  (exists i, (i < length ts)%nat /\ isclose t (nth i ts 0) = true /\ get_field ts fs t = Some (nth i fs 0))
  \/ (exists i q, (S i < length ts)%nat /\ nth i ts 0 <= t <= nth (S i) ts 0 /\ get_field ts fs t = Some q
        /\ q == linear (nth i ts 0) (nth i fs 0) (nth (S i) ts 0) (nth (S i) fs 0) t).
Proof.
  intros ts fs t I L B [T0 T1]. unfold get_field.
  set (j := get_closest_time_file ts t).
  assert (J : (j < length ts)%nat) by (apply closest_lt; intro; subst; cbn in B; lia).
  pose proof (fun k K => closest_index ts t k K) as C. fold j in C.
  assert (N1 : Nat.eqb (length ts) 1 = false) by (apply Nat.eqb_neq; lia).
  rewrite N1, Bool.orb_false_r.
  destruct (isclose t (nth j ts 0)) eqn:Cl.
  - left. exists j. split; [exact J|]. split; [exact Cl|]. apply nth_error_nth'. rewrite L. exact J.
  - right.
    assert (NE : ~ t == nth j ts 0).
    { intro E. revert Cl. unfold isclose. rewrite E. fold (isclose (nth j ts 0) (nth j ts 0)).
      rewrite isclose_refl. discriminate. }
    cbv zeta.
    destruct (Nat.eqb_spec j (length ts - 1)) as [E|E].
    + exists (j - 1)%nat. replace (S (j - 1)) with j by lia.
      pose proof (increasing_nth ts (j - 1) j I ltac:(lia) J) as D.
      pose proof (C (j - 1)%nat ltac:(lia)) as C1.
      assert (R : nth (j - 1) ts 0 <= t <= nth j ts 0).
      { rewrite <- E in T1. split; [|exact T1].
        revert C1. do 2 apply Qabs_case; intros; lra. }
      eexists. split; [exact J|]. split; [exact R|].
      split; [apply get_field_pair; auto; lia|]. apply weights_linear; assumption.
    + destruct (Qle_bool t (nth j ts 0)) eqn:Le; cbn [negb orb].
      * apply Qle_bool_iff in Le. destruct (Nat.eqb_spec j 0) as [Z|Z].
        { exfalso. apply NE. rewrite Z in *. lra. }
        assert (G : Qle_bool (nth j ts 0) t = false) by (apply Qle_bool_false; lra).
        rewrite G. cbn [negb].
        exists (j - 1)%nat. replace (S (j - 1)) with j by lia.
        pose proof (increasing_nth ts (j - 1) j I ltac:(lia) J) as D.
        pose proof (C (j - 1)%nat ltac:(lia)) as C1.
        assert (R : nth (j - 1) ts 0 <= t <= nth j ts 0).
        { split; [|exact Le]. revert C1. do 2 apply Qabs_case; intros; lra. }
        eexists. split; [exact J|]. split; [exact R|].
        split; [apply get_field_pair; auto; lia|]. apply weights_linear; assumption.
      * apply Qle_bool_false in Le.
        exists j. replace (j + 1)%nat with (S j) by lia.
        pose proof (increasing_nth ts j (S j) I ltac:(lia) ltac:(lia)) as D.
        pose proof (C (S j) ltac:(lia)) as C1.
        assert (R : nth j ts 0 <= t <= nth (S j) ts 0).
        { split; [lra|]. revert C1. do 2 apply Qabs_case; intros; lra. }
        eexists. split; [lia|]. split; [exact R|].
        split; [apply get_field_pair; auto; lia|]. apply weights_linear; assumption.
Qed.
Print Assumptions c29_linear_inside_partial.

(** Outside of the range the weights do not sum to one: a field constant in time is not returned
    as it is (here 1 becomes -1, after the last time and before the first one). *)
Theorem c29_outside_refuted :
  exists ts fs, increasing ts /\ length fs = length ts /\ (forall f, In f fs -> f = 1)
    /\ (exists q, get_field ts fs 4 = Some q /\ q == -3) /\ (exists q, get_field ts fs (-1) = Some q /\ q == -1).
Proof.
  exists [0; 1; 2], [1; 1; 1].
  split; [cbn; repeat split; lra|]. split; [reflexivity|].
  split; [intros f [<-|[<-|[<-|[]]]]; reflexivity|].
  split; eexists; (split; [vm_compute; reflexivity|reflexivity]).
Qed.
Print Assumptions c29_outside_refuted.

(** Two files with the same printed time: division by zero. *)
Theorem c29_same_printed_time_refuted :
  exists ts fs t, length fs = length ts /\ (2 <= length ts)%nat
    /\ nth 0 ts 0 <= t <= nth (length ts - 1) ts 0 /\ get_field ts fs t = None.
Proof.
  exists [1; 1; 2], [1; 1; 1], (12 # 10). split; [reflexivity|]. split; [cbn; lia|].
  split; [cbn; lra|]. vm_compute. reflexivity.
Qed.
Print Assumptions c29_same_printed_time_refuted.

Example c29_example :
  increasing [0; 1; 3] /\ exists q, get_field [0; 1; 3] [10; 20; 40] (5 # 2) = Some q /\ q == 35.
Proof. split; [cbn; repeat split; lra|]. eexists. split; [vm_compute; reflexivity|reflexivity]. Qed.

(** ** C69: the times of the set of files *)

Theorem c69_times_of_the_files_partial :
  forall l s, state_names l ->
  (forall old, s = Some old -> length (path_files old) <> length l
               \/ (path_files old = sorted l /\ times old = map search (sorted l))) ->
  path_files (update_times l s) = sorted l
  /\ (forall i w ms it, nth_error (sorted l) i = Some (state_name w ms it) ->
        nth_error (times (update_times l s)) i = Some (Some ms)).
Proof.
  intros l s _ H.
  assert (E : path_files (update_times l s) = sorted l /\ times (update_times l s) = map search (sorted l)).
  { unfold update_times. destruct s as [old|]; [|split; reflexivity].
    pose proof (Permutation_length (sorted_perm l)) as P.
    destruct (Nat.eqb_spec (length (path_files old)) (length (sorted l))) as [E|E]; [|split; reflexivity].
    destruct (H old eq_refl) as [D|D]; [congruence|exact D]. }
  destruct E as [E1 E2]. split; [exact E1|]. intros i w ms it N. rewrite E2.
  rewrite nth_error_map, N. cbn [option_map]. rewrite search_state_name. reflexivity.
Qed.
Print Assumptions c69_times_of_the_files_partial.

(** A file removed and another one written between two updates: the old names are kept. *)
Theorem c69_same_number_of_files_refuted :
  exists l l' n, state_names l /\ state_names l'
    /\ In n (path_files (update_times l' (Some (update_times l None)))) /\ ~ In n l'
    /\ nth_error (times (update_times l' (Some (update_times l None)))) 0 = Some (Some 1000%nat)
    /\ time_of_name (hd [] l') = Some 2000%nat.
Proof.
  exists [state_name 8 1000 None], [state_name 8 2000 None], (state_name 8 1000 None).
  split; [constructor; [eauto|constructor]|]. split; [constructor; [eauto|constructor]|].
  split; [left; reflexivity|]. split; [|split; [vm_compute; reflexivity|apply time_of_state_name]].
  intros [E|[]]. apply (f_equal time_of_name) in E. rewrite !time_of_state_name in E. discriminate.
Qed.
Print Assumptions c69_same_number_of_files_refuted.

Example c69_example :
  times (update_times [state_name 8 2000 None; state_name 8 1000 (Some 3%nat)] None) = [Some 1000%nat; Some 2000%nat].
Proof. vm_compute. reflexivity. Qed.

(** math.isclose with its default tolerances: a relative difference of at most 1e-9 *)
Theorem c29_isclose : forall a b,
  isclose a b = true <-> (Qabs (a - b) <= (1 # 1000000000) * Qabs a \/ Qabs (a - b) <= (1 # 1000000000) * Qabs b)%Q.
Proof.
  intros a b. unfold isclose. rewrite Qle_bool_iff. destruct (Qlt_le_dec (Qabs a) (Qabs b)) as [H|H].
  - assert (E : (Qminmax.Qmax (Qabs a) (Qabs b) == Qabs b)%Q) by (apply Qminmax.Q.max_r; lra).
    rewrite E. split; [tauto|]. intros [K|K]; lra.
  - assert (E : (Qminmax.Qmax (Qabs a) (Qabs b) == Qabs a)%Q) by (apply Qminmax.Q.max_l; exact H).
    rewrite E. split; [tauto|]. intros [K|K]; lra.
Qed.
Print Assumptions c29_isclose.
