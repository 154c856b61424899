(** Properties C22 (periodic outputs), C64 (kzkh spectra) and C65 (frequency correlations) *)

From Coq Require Import QArith Qround ZArith List Bool Arith Lia Lqa.
From Verif Require Import OutSched_Model OutSched_Spec OutSched_Proofs.
Import ListNotations.
Local Open Scope Q_scope.

(** exact sum with the double written 1e-15, used in the examples *)
Definition eps15 : Q := 2535301200456459 # 2535301200456458802993406410752.
Definition teps_exact (t : Q) : Q := t + eps15.

Lemma teps_exact_ge t : t <= teps_exact t.
Proof. unfold teps_exact. assert (0 < eps15) by reflexivity. lra. Qed.

(** ** C22 *)

(** two successive saves of an elapsed-time output (the initial t_last_save included) are at least
    a period apart, whatever the calls *)
Theorem c22_elapsed_spacing_partial :
  forall teps ts o l, knd o = Elapsed -> saved (run teps ts o) = l ++ saved o ->
  forall s2 s1, next_in (l ++ [t_last_save o]) s2 s1 -> period o <= s2 - s1.
Proof. intros. eapply elapsed_spacing; eauto. Qed.
Print Assumptions c22_elapsed_spacing_partial.

Example c22_elapsed_spacing_example : exists ts l s2 s1,
  saved (run teps_exact ts (init_specific Elapsed 1 0)) = l ++ [0]
  /\ next_in (l ++ [0]) s2 s1.
Proof.
  exists [3#10; 12#10; 15#10; 25#10], [25#10; 12#10], (25#10), (12#10).
  split; [vm_compute; reflexivity|]. exists [], [0]; reflexivity.
Qed.

(** no save is missed: with steps of at most d, two successive saves are less than period + d
    apart and at the end less than a period has elapsed since the last save (both kinds) *)
Theorem c22_gap_partial :
  forall teps, (forall t, t <= teps t) ->
  forall ts d t0 o l, 0 < period o ->
  t_last_save o <= t0 -> t0 - t_last_save o < period o ->
  steps d t0 ts -> saved (run teps ts o) = l ++ saved o ->
  (forall s2 s1, next_in (l ++ [t_last_save o]) s2 s1 -> s2 - s1 < period o + d)
  /\ last ts t0 - hd (t_last_save o) l < period o.
Proof.
  intros teps Ht ts d t0 o l Hp Hl Hf Hs El. split.
  - eapply gap; eauto.
  - pose proof (fresh teps Ht ts d t0 o Hp Hl Hf Hs) as F.
    destruct (run_saved teps ts o) as (m & H1 & H2 & _).
    assert (m = l) as -> by (apply (app_inv_tail (saved o)); congruence).
    rewrite <- H2; exact F.
Qed.
Print Assumptions c22_gap_partial.

Example c22_gap_example :
  0 < period (init_phys_fields 1 0) /\ 0 - t_last_save (init_phys_fields 1 0) < 1
  /\ steps (7#10) 0 [3#10; 9#10; 16#10; 21#10]
  /\ saved (run teps_exact [3#10; 9#10; 16#10; 21#10] (init_phys_fields 1 0)) = [21#10; 16#10].
Proof. repeat split; try (vm_compute; congruence). Qed.

(** the number of saves is between (duration - period) / (period + d) and, for the elapsed-time
    outputs, duration / period *)
Theorem c22_count_partial :
  forall teps, (forall t, t <= teps t) ->
  forall ts d t0 o l, 0 < period o -> 0 <= d ->
  t_last_save o <= t0 -> t0 - t_last_save o < period o ->
  steps d t0 ts -> saved (run teps ts o) = l ++ saved o ->
  last ts t0 - t_last_save o < inject_Z (Z.of_nat (length l)) * (period o + d) + period o
  /\ (knd o = Elapsed ->
      inject_Z (Z.of_nat (length l)) * period o <= last ts t0 - t_last_save o).
Proof.
  intros teps Ht ts d t0 o l Hp Hd Hl Hf Hs El. split.
  - eapply count_lower; eauto.
  - intros K. pose proof (elapsed_count teps ts o l K El).
    pose proof (t_last_le teps ts d t0 o Hl Hs). lra.
Qed.
Print Assumptions c22_count_partial.

Example c22_count_example :
  0 <= (7#10) /\ knd (init_specific Elapsed 1 0) = Elapsed
  /\ steps (7#10) 0 [3#10; 9#10; 16#10; 21#10]
  /\ length (saved (run teps_exact [3#10; 9#10; 16#10; 21#10] (init_specific Elapsed 1 0))) = 2%nat.
Proof. repeat split; try (vm_compute; congruence). Qed.

(** slot outputs: for every call there is a save (or the initial time), not later, whose time, or
    time plus 1e-15, is in the slot of the call *)
Theorem c22_slot_covered_partial :
  forall teps, (forall t, t <= teps t) ->
  forall pre t post d t0 o, knd o = Slot -> 0 < period o -> t_last_save o <= t0 ->
  steps d t0 (pre ++ t :: post) ->
  forall n, in_slot (period o) n (teps t) ->
  exists s, (s = t_last_save o \/ In s (saved (run teps (pre ++ t :: post) o))) /\ s <= t
    /\ (in_slot (period o) n s \/ in_slot (period o) n (teps s)).
Proof.
  intros teps Ht pre t post d t0 o K Hp Hl Hs n Hn. apply floordiv_slot in Hn; auto.
  destruct (slot_covered teps Ht pre post t d t0 o K Hp Hl Hs) as (s & A & B & C).
  exists s. repeat split; auto.
  destruct C as [C|C]; [left|right]; apply floordiv_slot; auto; congruence.
Qed.
Print Assumptions c22_slot_covered_partial.

Example c22_slot_covered_example :
  knd (init_phys_fields 1 0) = Slot /\ steps (8#10) 0 ([7#10] ++ (15#10) :: [18#10])
  /\ in_slot 1 1 (teps_exact (15#10)).
Proof. repeat split; vm_compute; congruence. Qed.

(** a save of a slot output is always in a later slot than the previous one, once 1e-15 is added *)
Theorem c22_slot_order_partial :
  forall teps ts o l, knd o = Slot -> 0 < period o -> saved (run teps ts o) = l ++ saved o ->
  forall s2 s1 n2 n1, next_in (l ++ [t_last_save o]) s2 s1 ->
  in_slot (period o) n2 (teps s2) -> in_slot (period o) n1 s1 -> (n1 < n2)%Z.
Proof.
  intros teps ts o l K Hp El s2 s1 n2 n1 Hn H2 H1.
  pose proof (slot_spacing teps ts o l K El s2 s1 Hn) as G.
  apply floordiv_slot in H1; auto. apply floordiv_slot in H2; auto. lia.
Qed.
Print Assumptions c22_slot_order_partial.

Example c22_slot_order_example :
  saved (run teps_exact [7#10; 15#10; 22#10] (init_phys_fields 1 0)) = [22#10; 15#10] ++ []
  /\ next_in ([22#10; 15#10] ++ [0]) (22#10) (15#10)
  /\ in_slot 1 2 (teps_exact (22#10)) /\ in_slot 1 1 (15#10).
Proof.
  repeat split; try (vm_compute; congruence). exists [], [0]; reflexivity.
Qed.

(** each slot is saved at most once if no call falls within 1e-15 below a multiple of the period *)
Theorem c22_slot_once_partial :
  forall teps ts o l, knd o = Slot -> 0 < period o -> saved (run teps ts o) = l ++ saved o ->
  (forall t n, In t ts -> in_slot (period o) n (teps t) -> in_slot (period o) n t) ->
  forall l1 s2 l2 s1 l3 n, l ++ [t_last_save o] = l1 ++ s2 :: l2 ++ s1 :: l3 ->
  in_slot (period o) n s2 -> ~ in_slot (period o) n s1.
Proof.
  intros teps ts o l K Hp El Hb. apply chain_slots; auto. intros s2 s1 Hn.
  pose proof (slot_spacing teps ts o l K El s2 s1 Hn) as G.
  destruct (run_saved teps ts o) as (m & H1 & H2 & H3).
  assert (m = l) as -> by (apply (app_inv_tail (saved o)); congruence).
  assert (In s2 l).
  { destruct Hn as (l1 & l2 & E). destruct (exists_last (l := s1 :: l2)) as (l2' & z & E2); [discriminate|].
    rewrite E2 in E. assert (E3 : l ++ [t_last_save o] = (l1 ++ s2 :: l2') ++ [z])
      by (rewrite E, <- app_assoc; reflexivity).
    apply app_inj_tail in E3. destruct E3 as [-> _]. apply in_or_app; right; left; reflexivity. }
  rewrite (proj2 (floordiv_slot (period o) s2 (floordiv (teps s2) (period o)) Hp)); auto.
  apply Hb; auto. apply floordiv_slot; auto.
Qed.
Print Assumptions c22_slot_once_partial.

Example c22_slot_once_example :
  (forall t n, In t [7#10; 15#10] -> in_slot 1 n (teps_exact t) -> in_slot 1 n t)
  /\ saved (run teps_exact [7#10; 15#10] (init_phys_fields 1 0)) = [15#10] ++ [].
Proof.
  split; [|vm_compute; reflexivity].
  intros t n [<-|[<-|[]]] H; apply floordiv_slot in H; try reflexivity;
    apply floordiv_slot; try reflexivity; rewrite <- H; vm_compute; reflexivity.
Qed.

(** the times obtained with doubles by adding ten times, then eleven times 0.1 *)
Definition just_below_1 : Q := 9007199254740991 # 9007199254740992.
Definition sums_of_0_1 : list Q :=
  [3602879701896397 # 36028797018963968; 3602879701896397 # 18014398509481984;
   1351079888211149 # 4503599627370496; 3602879701896397 # 9007199254740992; 1 # 2;
   5404319552844595 # 9007199254740992; 3152519739159347 # 4503599627370496;
   7205759403792793 # 9007199254740992; 2026619832316723 # 2251799813685248;
   just_below_1; 2476979795053773 # 2251799813685248].

(** FINDING: with the period 1 and steps of 0.1 the state is saved at 0.9999999999999999 and
    again at the next step, about 0.1 later: the tolerance is in the test but t_last_save is the
    time without the tolerance.  [teps] is any function with the values that the doubles have. *)
Theorem c22_slot_once_refuted :
  exists ts p, forall teps,
    (forall t, In t ts -> t <= teps t <= t + (2 # 1000000000000000)) ->
    1 <= teps just_below_1 ->
    exists s2 s1, saved (run teps ts (init_phys_fields p 0)) = [s2; s1]
    /\ s2 - s1 < (11 # 100) * p
    /\ in_slot p 0 s1 /\ in_slot p 0 0.
Proof.
  exists sums_of_0_1, 1. intros teps H H1.
  assert (A : forall t, In t sums_of_0_1 -> t < 9 # 10 -> floordiv (teps t) 1 = 0%Z).
  { intros t Ht Hl. destruct (H t Ht). apply floordiv_slot; [reflexivity|].
    assert (0 <= t).
    { repeat (destruct Ht as [<-|Ht]; [vm_compute; congruence|]). destruct Ht. }
    split; [change (inject_Z 0) with 0|change (inject_Z (0 + 1)) with 1]; lra. }
  assert (B : floordiv (teps just_below_1) 1 = 1%Z).
  { destruct (H just_below_1) as [_ C]; [vm_compute; tauto|]. unfold just_below_1 in *.
    apply floordiv_slot; [reflexivity|].
    split; [change (inject_Z 1) with 1|change (inject_Z (1 + 1)) with 2]; lra. }
  set (last_t := 2476979795053773 # 2251799813685248).
  assert (C : floordiv (teps last_t) 1 = 1%Z).
  { destruct (H last_t) as [C D]; [vm_compute; tauto|]. unfold last_t in *.
    apply floordiv_slot; [reflexivity|].
    split; [change (inject_Z 1) with 1|change (inject_Z (1 + 1)) with 2]; lra. }
  exists last_t, just_below_1. split; [|repeat split; vm_compute; congruence].
  assert (S0 : forall t s, floordiv (teps t) 1 = 0%Z ->
     online_save teps t (mkO Slot 1 0 s) = mkO Slot 1 0 s).
  { intros t s E. unfold online_save, has_to; cbn [knd period t_last_save].
    unfold has_to_online_save. rewrite E. reflexivity. }
  unfold run, init_phys_fields, sums_of_0_1; cbn [fold_left].
  do 9 (rewrite S0 by (apply A; [vm_compute; tauto|reflexivity])).
  unfold online_save at 2. unfold has_to; cbn [knd period t_last_save]. unfold has_to_online_save.
  rewrite B. change (floordiv 0 1 <? 1)%Z with true. cbn [saved knd period].
  fold last_t. unfold online_save, has_to; cbn [knd period t_last_save]. unfold has_to_online_save.
  rewrite C. change (floordiv just_below_1 1 <? 1)%Z with true. reflexivity.
Qed.
Print Assumptions c22_slot_once_refuted.

(** the hypotheses on [teps] are met by the sums rounded to doubles, which are within 2e-16 of the
    exact ones; here with the exact sums *)
Example c22_slot_once_refuted_example :
  (forall t, t <= teps_exact t <= t + (2 # 1000000000000000)) /\ 1 <= teps_exact just_below_1
  /\ saved (run teps_exact sums_of_0_1 (init_phys_fields 1 0))
     = [2476979795053773 # 2251799813685248; just_below_1].
Proof.
  split; [|split; [vm_compute; congruence|vm_compute; reflexivity]].
  intro t. unfold teps_exact. assert (0 < eps15) by reflexivity.
  assert (eps15 < 2 # 1000000000000000) by reflexivity. lra.
Qed.

(** with constant exact steps d > eps and a period of k steps, both kinds of outputs are saved
    exactly after the steps k, 2k, 3k, ... *)
Theorem c22_constant_steps_partial :
  forall teps eps, (forall t, t <= teps t) -> (forall t, teps t <= t + eps) ->
  forall d k n o, 0 < d -> eps < d -> (0 < k)%nat ->
  period o = time d k -> t_last_save o = time d 0 ->
  saved (run teps (map (time d) (seq 1 n)) o) = rev (map (time d) (multiples k n)) ++ saved o.
Proof.
  intros teps eps Hg Ht d k n o Hd He Hk P L.
  apply (constant_steps teps (knd o) d k n o); auto.
  intro i. eapply teps_constant; eauto.
Qed.
Print Assumptions c22_constant_steps_partial.

Example c22_constant_steps_example :
  (forall t, t <= teps_exact t) /\ (forall t, teps_exact t <= t + eps15) /\ eps15 < (1#10)
  /\ saved (run teps_exact (map (time (1#10)) (seq 1 7)) (init_specific Slot (time (1#10) 3) 0))
     = map (time (1#10)) [6; 3]%nat ++ [0].
Proof.
  split; [exact teps_exact_ge|]. split; [unfold teps_exact; intro; lra|].
  split; [reflexivity|vm_compute; reflexivity].
Qed.

(** the first information is printed at the first call *)
Theorem c22_first_print_partial :
  forall teps, (forall t, t <= teps t) -> forall p t, 0 < p -> 0 <= t ->
  saved (online_save teps t (init_print p)) = [t].
Proof.
  intros teps Ht p t Hp H0. unfold online_save, has_to, init_print; cbn [knd period t_last_save saved].
  unfold has_to_online_save.
  replace (_ <? _)%Z with true; [reflexivity|]. symmetry. apply Z.ltb_lt.
  assert (floordiv (- p) p = (-1)%Z) as ->.
  { apply floordiv_slot; auto. split; [change (inject_Z (-1)) with (-(1)) |change (inject_Z (-1+1)) with 0]; lra. }
  assert (A : (floordiv 0 p <= floordiv (teps t) p)%Z).
  { apply floordiv_mono; auto. pose proof (Ht t); lra. }
  assert (floordiv 0 p = 0%Z) as B.
  { apply floordiv_slot; auto. split; [change (inject_Z 0) with 0|change (inject_Z (0+1)) with 1]; lra. }
  lia.
Qed.
Print Assumptions c22_first_print_partial.

Example c22_first_print_example : 0 < 2 /\ 0 <= 0
  /\ saved (online_save teps_exact 0 (init_print 2)) = [0].
Proof. repeat split; vm_compute; congruence. Qed.

(** one_time_step: every output follows its own schedule, independently of the others; a zero
    period disables it, as do the flags for the plots and the saves *)
Theorem c22_all_outputs_partial :
  forall teps plot_ok hs ts os,
  let r := run_outputs teps plot_ok hs ts os in
  let alone o := if Qeq_bool (period o) 0 then o else run teps ts o in
  prints r = map alone (prints os)
  /\ plots r = (if plot_ok then map alone (plots os) else plots os)
  /\ saves r = (if hs then map alone (saves os) else saves os).
Proof. intros. unfold r. rewrite run_outputs_spec. repeat split. Qed.
Print Assumptions c22_all_outputs_partial.

Example c22_all_outputs_example :
  saves (run_outputs teps_exact false true [1; 2]
           (mkOs [] [] [init_specific Elapsed 0 0; init_specific Elapsed 2 0]))
  = [init_specific Elapsed 0 0; mkO Elapsed 2 2 [2; 0]].
Proof. vm_compute. reflexivity. Qed.

(** ** C64 *)

(** without restart the kzkh spectra are saved with the records 0, p, 2p, ... of the spectra *)
Theorem c64_no_restart_partial :
  forall p n, (0 < p)%nat ->
  exists l, spectra_history p [n] = Some ((n + 1)%nat, l)
  /\ (forall i, In i l <-> (i <= n)%nat /\ exists q, i = (p * q)%nat)
  /\ NoDup l.
Proof.
  intros p n Hp. unfold spectra_history; cbn [fold_left]. rewrite spectra_run_new by auto.
  eexists; split; [reflexivity|]. split.
  - intro i. rewrite filter_In, in_seq. unfold kzkh_wanted. rewrite Nat.eqb_eq.
    rewrite Nat.mod_divide by lia. unfold Nat.divide. split.
    + intros (A & q & E). split; [lia|]. exists q; lia.
    + intros (A & q & E). split; [lia|]. exists q; lia.
  - apply NoDup_filter, seq_NoDup.
Qed.
Print Assumptions c64_no_restart_partial.

Example c64_no_restart_example :
  (0 < 3)%nat /\ spectra_history 3 [7%nat] = Some (8, [0; 3; 6])%nat.
Proof. split; [lia|reflexivity]. Qed.

(** no kzkh spectra at all if the periodicity is zero *)
Theorem c64_disabled_partial :
  forall runs, match spectra_history 0 runs with None => True | Some (_, l) => l = [] end.
Proof.
  assert (S0 : forall n s, kzkh (spectra_saves 0 n s) = kzkh s).
  { induction n as [|n IH]; intros s; [reflexivity|]. cbn [spectra_saves]. rewrite IH. reflexivity. }
  intro runs. unfold spectra_history.
  assert (G : forall f, match f with None => True | Some (_, l) => l = [] end ->
    match fold_left (spectra_run 0) runs f with None => True | Some (_, l) => l = [] end).
  { induction runs as [|n runs IH]; intros f Hf; [exact Hf|]. cbn [fold_left]. apply IH.
    unfold spectra_run. rewrite S0. destruct f as [[m l]|]; cbn; auto. }
  apply G; exact I.
Qed.
Print Assumptions c64_disabled_partial.

Example c64_disabled_example : spectra_history 0 [2; 3]%nat = Some (7, [])%nat.
Proof. reflexivity. Qed.

(** after restarts, every record i which is not the first one of a run is in the kzkh file if and
    only if p divides i; the first record i of a restarted run is in it if and only if p divides
    i + 1 *)
Theorem c64_restart_partial :
  forall p n m l, (0 < p)%nat ->
  exists l', spectra_run p (Some (n, l)) m = Some ((n + 1 + m)%nat, l ++ l')
  /\ forall i, In i l' <->
       (i = n /\ exists q, (n + 1 = p * q)%nat)
       \/ ((n < i)%nat /\ (i <= n + m)%nat /\ exists q, i = (p * q)%nat).
Proof.
  intros p n m l Hp. rewrite spectra_run_restart by auto. eexists; split; [reflexivity|].
  intro i. rewrite in_app_iff, filter_In, in_seq. unfold kzkh_wanted.
  rewrite Nat.eqb_eq. rewrite Nat.mod_divide by lia. unfold Nat.divide.
  assert (D : In i (if Nat.eqb ((n + 1) mod p) 0 then [n] else []) <->
              i = n /\ exists q, (n + 1 = p * q)%nat).
  { destruct (Nat.eqb ((n + 1) mod p) 0) eqn:E.
    - apply Nat.eqb_eq in E. apply Nat.mod_divide in E; [|lia]. destruct E as (q & E).
      cbn; split; [intros [<-|[]]; split; auto; exists q; lia|intros (-> & _); auto].
    - apply Nat.eqb_neq in E. split; [intros []|]. intros (_ & q & F). apply E.
      apply Nat.mod_divide; [lia|]. exists q; lia. }
  rewrite D. split.
  - intros [H|(A & q & E)]; [left; exact H|right]. repeat split; try lia. exists q; lia.
  - intros [H|(A & B & q & E)]; [left; exact H|right]. split; [lia|]. exists q; lia.
Qed.
Print Assumptions c64_restart_partial.

Example c64_restart_example :
  spectra_run 3 (Some (5, [0; 3]))%nat 4 = Some (10, [0; 3; 5; 6; 9])%nat.
Proof. reflexivity. Qed.

(** FINDING: at a restart the counter is already incremented when the test is done, so a record
    which should be decimated is saved, next to the wanted one, and a wanted one is missed *)
Theorem c64_decimation_refuted :
  exists p runs1 runs2 n1 l1 n2 l2, (0 < p)%nat
  /\ spectra_history p runs1 = Some (n1, l1) /\ spectra_history p runs2 = Some (n2, l2)
  /\ (exists i, In i l1 /\ In (S i) l1 /\ (1 < p)%nat)
  /\ (exists i, (i < n2)%nat /\ (i mod p = 0)%nat /\ ~ In i l2).
Proof.
  exists 3%nat, [4; 4]%nat, [5; 4]%nat. do 4 eexists. repeat split; try reflexivity; try lia.
  - exists 5%nat. cbn. repeat split; auto; try lia; tauto.
  - exists 6%nat. cbn. repeat split; try lia.
Qed.
Print Assumptions c64_decimation_refuted.

(** ** C65 *)

(** with the exact iteration numbers, the samples of the time signals are max(1, k-1) steps apart *)
Theorem c65_sampling_partial :
  forall k s nb n, (1 <= k)%nat ->
  let c := correl_run (fun i => inject_Z (Z.of_nat i)) (inject_Z (Z.of_nat k)) nb n
             (correl_init (inject_Z (Z.of_nat s))) in
  forall l1 j2 j1 l2, filled c = l1 ++ j2 :: j1 :: l2 -> (j2 = j1 + Nat.max 1 (k - 1))%nat.
Proof.
  intros k s nb n Hk c l1 j2 j1 l2 E.
  pose proof (correl_inv_run k s nb n Hk) as I. unfold exact_it in I. fold c in I.
  destruct I as [(F & _)|(a & r & F & L & A & B & G)]; [|eapply G; eauto].
  rewrite F in E. destruct l1; discriminate.
Qed.
Print Assumptions c65_sampling_partial.

(** hence the interval between two samples is the one assumed for the frequencies when k = 1 *)
Theorem c65_period_one_partial :
  forall deltat s nb n,
  let c := correl_run (fun i => inject_Z (Z.of_nat i)) 1 nb n (correl_init (inject_Z (Z.of_nat s))) in
  forall l1 j2 j1 l2, filled c = l1 ++ j2 :: j1 :: l2 ->
  time deltat j2 - time deltat j1 == dt_output 1 deltat.
Proof.
  intros deltat s nb n c l1 j2 j1 l2 E.
  assert (j2 = j1 + 1)%nat as ->
    by (apply (c65_sampling_partial 1 s nb n ltac:(lia) l1 j2 j1 l2 E)).
  rewrite time_diff by lia. replace (j1 + 1 - j1)%nat with 1%nat by lia. reflexivity.
Qed.
Print Assumptions c65_period_one_partial.

Example c65_sampling_example :
  filled (correl_run (fun i => inject_Z (Z.of_nat i)) (inject_Z (Z.of_nat 4)) 100 20
            (correl_init (inject_Z (Z.of_nat 10)))) = [19; 16; 13]%nat
  /\ filled (correl_run (fun i => inject_Z (Z.of_nat i)) 1 100 12
            (correl_init (inject_Z (Z.of_nat 10)))) = [12; 11; 10]%nat.
Proof. split; vm_compute; reflexivity. Qed.

(** FINDING: for every k >= 2 (c65_sampling_partial) the interval between two samples differs from the one used for the
    frequency axis (k - 1 steps instead of k), so that the frequencies are wrong *)
Theorem c65_frequency_axis_refuted :
  exists k s nb n deltat, 0 < deltat
  /\ let c := correl_run (fun i => inject_Z (Z.of_nat i)) (inject_Z (Z.of_nat k)) nb n
                (correl_init (inject_Z (Z.of_nat s))) in
     exists l1 j2 j1 l2, filled c = l1 ++ j2 :: j1 :: l2
     /\ ~ time deltat j2 - time deltat j1 == dt_output (inject_Z (Z.of_nat k)) deltat.
Proof.
  exists 4%nat, 10%nat, 100%nat, 20%nat, 1. split; [reflexivity|].
  exists [], 19%nat, 16%nat, [13%nat]. split; [vm_compute; reflexivity|]. vm_compute; congruence.
Qed.
Print Assumptions c65_frequency_axis_refuted.
