(** Theorems on the forcing (C31-C35, C70) *)

From Coq Require Import Reals List Bool Lra Lia Sorted.
From Coquelicot Require Import Complex.
From Verif Require Import Forcing_Model Forcing_Spec Forcing_Proofs.
Import ListNotations.
Local Open Scope R_scope.

(** ** C31: once per time *)

Theorem c31_not_recomputed :
  forall (S : Type) (maker : R -> S -> S) t ts x,
  Forall (fun t' => t' <= t) ts ->
  compute_all maker ts (compute S maker t x) = compute S maker t x.
Proof.
  intros S maker t ts x H.
  assert (L : exists a, last S (compute S maker t x) = Some a /\ t <= a).
  { unfold compute. destruct (last S x) as [a|] eqn:E; [|exists t; split; [reflexivity|lra]].
    destruct (ltb_spec a t); [exists t; split; [reflexivity|lra]|]. exists a. split; [exact E|lra]. }
  destruct L as (a & La & Ta). set (y := compute S maker t x) in *. clearbody y.
  induction ts as [|t' ts IH]; [reflexivity|]. inversion H; subst. cbn [compute_all].
  replace (compute S maker t' y) with y; [apply IH; assumption|].
  unfold compute. rewrite La. destruct (ltb_spec a t'); [lra|reflexivity].
Qed.
Print Assumptions c31_not_recomputed.

(** the times at which the forcing is computed, for any maker: with a maker recording its times *)
Definition recorder (t : R) (l : list R) : list R := l ++ [t].

Lemma compute_all_maker {S} (maker : R -> S -> S) ts : forall x log,
  exists times, maker_state _ (compute_all recorder ts (mkForcing _ (last _ x) log)) = log ++ times
    /\ maker_state _ (compute_all maker ts x) = fold_left (fun s t => maker t s) times (maker_state _ x).
Proof.
  induction ts as [|t ts IH]; intros x log; cbn [compute_all].
  - exists []. rewrite app_nil_r. split; reflexivity.
  - unfold compute. cbn [last maker_state].
    destruct (match last S x with None => true | Some a => ltb a t end).
    + destruct (IH (mkForcing S (Some t) (maker t (maker_state S x))) (recorder t log)) as (times & A & B).
      exists (t :: times). cbn [last] in A. rewrite A. unfold recorder. rewrite <- app_assoc.
      split; [reflexivity|]. rewrite B. reflexivity.
    + destruct (IH x log) as (times & A & B). exists times. split; assumption.
Qed.

(** The maker is called at strictly increasing times, all of them asked for, and each time asked for
    is not after the last of them. *)
Theorem c31_increasing_times :
  forall (S : Type) (maker : R -> S -> S) ts s,
  exists times,
    maker_state S (compute_all maker ts (mkForcing S None s)) = fold_left (fun s t => maker t s) times s
    /\ StronglySorted Rlt times /\ (forall t, In t times -> In t ts)
    /\ (forall t, In t ts -> exists t', In t' times /\ t <= t')
    /\ (StronglySorted Rle ts -> forall t, In t ts -> In t times).
Proof.
  intros S maker ts s.
  destruct (compute_all_maker maker ts (mkForcing S None s) []) as (times & A & B).
  exists times. split; [exact B|]. cbn [last] in A. rewrite app_nil_l in A. subst times. clear B maker.
  assert (G : forall ts (o : option R) log,
    let times := maker_state _ (compute_all recorder ts (mkForcing _ o log)) in
    StronglySorted Rlt log ->
    match o with None => log = [] | Some a => In a log /\ Forall (fun t => t <= a) log end ->
    StronglySorted Rlt times /\ incl log times /\ (forall t, In t times -> In t log \/ In t ts)
    /\ (forall t, In t ts -> exists t', In t' times /\ t <= t')
    /\ (StronglySorted Rle ts -> match o with None => True | Some a => Forall (fun t => a <= t) ts end ->
        forall t, In t ts -> In t times)).
  { clear. induction ts as [|t ts IH]; intros o log times Sl Ol; cbn [compute_all] in times.
    - unfold times. cbn [maker_state]. split; [exact Sl|]. split; [apply incl_refl|].
      split; [intros x X; left; exact X|]. split; [intros x []|intros _ _ x []].
    - unfold compute in times. cbn [last maker_state] in times.
      destruct (match o with None => true | Some a => ltb a t end) eqn:E.
      + assert (Sl' : StronglySorted Rlt (recorder t log)).
        { unfold recorder. destruct o as [a|].
          - destruct (ltb_spec a t) as [L|L]; [|discriminate]. destruct Ol as [_ Ol].
            clear -Sl Ol L. induction log as [|x log IH]; cbn [app]; [repeat constructor|].
            inversion Sl; subst. inversion Ol; subst. constructor; [apply IH; assumption|].
            apply Forall_app. split; [assumption|]. constructor; [lra|constructor].
          - subst log. repeat constructor. }
        assert (Ol' : In t (recorder t log) /\ Forall (fun x => x <= t) (recorder t log)).
        { unfold recorder. split; [apply in_or_app; right; left; reflexivity|].
          apply Forall_app. split; [|constructor; [lra|constructor]].
          destruct o as [a|]; [|subst; constructor].
          destruct (ltb_spec a t) as [L|L]; [|discriminate]. destruct Ol as [_ Ol].
          eapply Forall_impl; [|exact Ol]. cbv beta. intros; lra. }
        destruct (IH (Some t) (recorder t log) Sl' Ol') as (H1 & H2 & H3 & H4 & H5).
        fold times in H1, H2, H3, H4, H5.
        assert (It : In t times) by (apply H2; apply Ol').
        split; [exact H1|]. split; [intros x X; apply H2; unfold recorder; apply in_or_app; left; exact X|].
        split; [|split].
        * intros x X. destruct (H3 x X) as [Y|Y]; [|right; right; exact Y].
          unfold recorder in Y. apply in_app_or in Y. destruct Y as [Y|[<-|[]]]; [left; exact Y|right; left; reflexivity].
        * intros x [<-|X]; [exists t; split; [exact It|lra]|apply H4; exact X].
        * intros Ss Oo x [<-|X]; [exact It|]. inversion Ss; subst. apply H5; auto.
      + destruct o as [a|]; [|discriminate].
        destruct (ltb_spec a t) as [L|L]; [discriminate|].
        destruct (IH (Some a) log Sl Ol) as (H1 & H2 & H3 & H4 & H5).
        fold times in H1, H2, H3, H4, H5.
        split; [exact H1|]. split; [exact H2|]. split; [|split].
        * intros x X. destruct (H3 x X); [left|right; right]; assumption.
        * intros x [<-|X]; [|apply H4; exact X]. exists a. split; [apply H2, Ol|lra].
        * intros Ss Oo x [<-|X]; inversion Ss; inversion Oo; subst; [|apply H5; auto].
          replace t with a by lra. apply H2, Ol. }
  destruct (G ts None [] (SSorted_nil _) eq_refl) as (H1 & _ & H3 & H4 & H5).
  split; [exact H1|]. split; [|split; [exact H4|intros Ss; exact (H5 Ss I)]].
  intros t It. destruct (H3 t It) as [[]|X]; exact X.
Qed.
Print Assumptions c31_increasing_times.

Example c31_example :
  maker_state _ (compute_all recorder [0; 0; 1; 1; 1; 3] (mkForcing _ None [])) = [0; 1; 3].
Proof.
  cbn [compute_all]. unfold compute, recorder.
  repeat (cbn [last maker_state];
          match goal with |- context [ltb ?a ?b] => destruct (ltb_spec a b); try lra end); reflexivity.
Qed.

(** ** C32: normalized forcing *)

Theorem c32_injection_rate :
  forall order which P dt l l',
  coef_a dt l <> 0 ->
  normalize_2nd_degree_eq order which P dt l = Some l' ->
  energy (after dt l') - energy (before l) = P * dt.
Proof.
  intros order which P dt l l' A H. unfold normalize_2nd_degree_eq, coef_normalization_from_abc in H.
  destruct (eqb_spec (coef_a dt l) 0) as [E|_]; [contradiction|].
  destruct (np_roots order (coef_a dt l) (coef_b l) (- P)) as [[r1 r2]|] eqn:R; [|discriminate].
  destruct (np_roots_spec _ _ _ _ _ _ A R) as (R1 & R2 & _).
  injection H as <-. rewrite energy_step.
  set (r := match which with MinAbs => _ | First => _ | Second => _ | Positive => _ end).
  assert (Rr : is_root (coef_a dt l) (coef_b l) (- P) r).
  { unfold r. destruct which; auto.
    - destruct (ltb (Rabs r2) (Rabs r1)); assumption.
    - destruct (ltb 0 r2); assumption. }
  unfold is_root in Rr. replace (coef_a dt l * (r * r) + coef_b l * r) with P by lra. ring.
Qed.
Print Assumptions c32_injection_rate.

(** The other modes of the variable are unchanged and the forcing keeps its direction. *)
Theorem c32_proportional_to_the_raw_forcing :
  forall order which P dt l l', normalize_2nd_degree_eq order which P dt l = Some l' ->
  exists r, l' = map (fun m => mkMode (w m) (u m) (Cmult (RtoC r) (f m))) l.
Proof.
  intros order which P dt l l' H. unfold normalize_2nd_degree_eq in H.
  destruct (coef_normalization_from_abc _ _ _ _ _) as [r|]; [|discriminate]. injection H as <-. eauto.
Qed.
Print Assumptions c32_proportional_to_the_raw_forcing.

Theorem c32_real_roots :
  forall order which P dt l, 0 < dt -> 0 <= P -> weights_nonneg l -> forcing_not_zero l ->
  coef_a dt l <> 0 /\ exists l', normalize_2nd_degree_eq order which P dt l = Some l'.
Proof.
  intros order which P dt l D HP W F. pose proof (coef_a_pos dt l D W F) as A.
  split; [lra|]. unfold normalize_2nd_degree_eq, coef_normalization_from_abc.
  destruct (eqb_spec (coef_a dt l) 0) as [E|_]; [lra|]. unfold np_roots.
  pose proof (disc_nonneg (coef_a dt l) (coef_b l) P A HP).
  destruct (ltb_spec (coef_b l * coef_b l - 4 * coef_a dt l * - P) 0) as [L|_]; [lra|].
  destruct (order _ _ _); eauto.
Qed.
Print Assumptions c32_real_roots.

(** the chosen root *)
Theorem c32_minabs :
  forall order a b P r, 0 < a -> 0 <= P -> coef_normalization_from_abc order MinAbs a b (- P) = Some r ->
  is_root a b (- P) r /\ forall x, is_root a b (- P) x -> Rabs r <= Rabs x.
Proof.
  intros order a b P r A HP H. unfold coef_normalization_from_abc in H.
  destruct (eqb_spec a 0) as [E|_]; [lra|].
  destruct (np_roots order a b (- P)) as [[r1 r2]|] eqn:R; [|discriminate].
  destruct (np_roots_spec _ _ _ _ _ _ (Rgt_not_eq _ _ A) R) as (R1 & R2 & _ & _ & U).
  destruct (ltb_spec (Rabs r2) (Rabs r1)) as [L|L]; injection H as <-; (split; [assumption|]);
    intros x X; destruct (U x X) as [-> | ->]; lra.
Qed.
Print Assumptions c32_minabs.

Theorem c32_positive :
  forall order a b P r, 0 < a -> 0 < P -> coef_normalization_from_abc order Positive a b (- P) = Some r ->
  is_root a b (- P) r /\ 0 < r.
Proof.
  intros order a b P r A HP H. unfold coef_normalization_from_abc in H.
  destruct (eqb_spec a 0) as [E|_]; [lra|].
  destruct (np_roots order a b (- P)) as [[r1 r2]|] eqn:R; [|discriminate].
  destruct (np_roots_spec _ _ _ _ _ _ (Rgt_not_eq _ _ A) R) as (R1 & R2 & Pr & _ & _).
  assert (N : r1 * r2 < 0).
  { rewrite Pr. unfold Rdiv. pose proof (Rinv_0_lt_compat _ A). nra. }
  destruct (ltb_spec 0 r2) as [L|L]; injection H as <-; (split; [assumption|]); [exact L|]. nra.
Qed.
Print Assumptions c32_positive.

(** "first" and "second" are the two roots; which is which depends on the order of numpy.roots *)
Theorem c32_first_second :
  forall order a b c r1 r2, a <> 0 ->
  coef_normalization_from_abc order First a b c = Some r1 ->
  coef_normalization_from_abc order Second a b c = Some r2 ->
  r1 + r2 = - b / a /\ r1 * r2 = c / a /\ forall x, is_root a b c x <-> x = r1 \/ x = r2.
Proof.
  intros order a b c r1 r2 A H1 H2. unfold coef_normalization_from_abc in *.
  destruct (eqb_spec a 0) as [E|_]; [contradiction|].
  destruct (np_roots order a b c) as [[q1 q2]|] eqn:R; [|discriminate].
  injection H1 as <-. injection H2 as <-.
  destruct (np_roots_spec _ _ _ _ _ _ A R) as (R1 & R2 & Pr & Su & U).
  split; [exact Su|]. split; [exact Pr|]. intro x. split; [apply U|]. intros [-> | ->]; assumption.
Qed.
Print Assumptions c32_first_second.

(** no raw forcing: no forcing *)
Theorem c32_zero_forcing :
  forall order which P dt l, coef_a dt l = 0 ->
  normalize_2nd_degree_eq order which P dt l
  = Some (map (fun m => mkMode (w m) (u m) (RtoC 0)) l).
Proof.
  intros order which P dt l H. unfold normalize_2nd_degree_eq, coef_normalization_from_abc.
  destruct (eqb_spec (coef_a dt l) 0) as [_|E]; [|contradiction]. f_equal.
  apply map_ext. intro m. f_equal. apply Cmult_0_l.
Qed.
Print Assumptions c32_zero_forcing.

Example c32_example :
  let l := [mkMode 2 (RtoC 1) (RtoC 1); mkMode 1 (RtoC 0) (RtoC 2)] in
  weights_nonneg l /\ forcing_not_zero l
  /\ exists l', normalize_2nd_degree_eq (fun _ _ _ => true) Positive 5 1 l = Some l'.
Proof.
  cbv zeta. assert (W : weights_nonneg [mkMode 2 (RtoC 1) (RtoC 1); mkMode 1 (RtoC 0) (RtoC 2)]).
  { repeat constructor; cbn; lra. }
  assert (F : forcing_not_zero [mkMode 2 (RtoC 1) (RtoC 1); mkMode 1 (RtoC 0) (RtoC 2)]).
  { exists (mkMode 2 (RtoC 1) (RtoC 1)). split; [left; reflexivity|]. cbn. split; [lra|].
    intro E. injection E as E. lra. }
  split; [exact W|]. split; [exact F|]. apply c32_real_roots; auto; lra.
Qed.

(** ** C70: an unknown normalisation is not rejected *)

Theorem c70_known_types_partial :
  forall second part_k l,
  normalize_forcingc SecondDegree second part_k l = second l
  /\ normalize_forcingc ParticularK second part_k l = part_k l.
Proof. intros. split; reflexivity. Qed.
Print Assumptions c70_known_types_partial.

Theorem c70_unknown_type_refuted :
  forall second part_k l, exists l', normalize_forcingc OtherType second part_k l = Some l' /\ l' = l.
Proof. intros. eexists. split; reflexivity. Qed.
Print Assumptions c70_unknown_type_refuted.

(** the raw forcing is applied: here it injects 8 times the requested rate *)
Theorem c70_wrong_rate_refuted :
  exists second part_k P dt l l', 0 < P /\ 0 < dt /\ normalize_forcingc OtherType second part_k l = Some l'
    /\ energy (after dt l') - energy (before l) = 8 * (P * dt).
Proof.
  exists (fun l => Some l), (fun l => Some l), 1, 1, [mkMode 1 (RtoC 0) (RtoC 4)], [mkMode 1 (RtoC 0) (RtoC 4)].
  split; [lra|]. split; [lra|]. split; [reflexivity|].
  unfold after, before. cbn [map energy w u f]. rewrite !cmod2. unfold abs2. simpl. lra.
Qed.
Print Assumptions c70_wrong_rate_refuted.

(** ** C33: proportional forcing *)

Definition forced_Z (modes : list (bool * (R * C))) : R :=
  energy (map snd (filter fst modes)).

Lemma forced_Z_model modes :
  fold_right (fun (m : bool * (R * C)) s => let '(forced, (wm, v)) := m in
             (if forced : bool then wm * (abs2 v / 2) else 0) + s) 0 modes = forced_Z modes.
Proof.
  unfold forced_Z. induction modes as [|[[|] [wm v]] l IH]; [reflexivity| |].
  - cbn [fold_right filter fst map snd energy]. rewrite IH, cmod2. field.
  - cbn [fold_right filter fst]. rewrite IH. ring.
Qed.

Theorem c33_injection_rate :
  forall P dt modes, 0 < dt -> 0 <= P -> 0 < forced_Z modes ->
  energy (after dt (proportional P dt modes)) - energy (map snd modes) = P * dt
  /\ forall i wm v, nth_error modes i = Some (false, (wm, v)) ->
       nth_error (after dt (proportional P dt modes)) i = Some (wm, v).
Proof.
  intros P dt modes D HP Z. split.
  - unfold proportional. set (al := proportional_alpha P dt modes).
    assert (E : al = (sqrt (1 + dt * P / forced_Z modes) - 1) / dt).
    { unfold al, proportional_alpha. rewrite forced_Z_model. reflexivity. }
    assert (G : forall l, energy (after dt (map (fun m : bool * (R * C) => let '(forced, (wm, v)) := m in
         mkMode wm v (if forced : bool then Cmult (RtoC al) v else RtoC 0)) l)) - energy (map snd l)
         = ((1 + dt * al) * (1 + dt * al) - 1) * forced_Z l).
    { unfold forced_Z. induction l as [|[[|] [wm v]] l IH]; [cbn; ring| |];
        cbn [map after energy w u f filter fst snd] in *; unfold after in IH;
        rewrite !cmod2 in *; unfold abs2 in *; destruct v as [x y]; simpl in *.
      - set (e1 := energy (map _ (map _ l))) in *. set (e2 := energy (map snd l)) in *.
        set (e3 := energy (map snd (filter fst l))) in *.
        replace e1 with (e2 + ((1 + dt * al) * (1 + dt * al) - 1) * e3) by lra. field.
      - set (e1 := energy (map _ (map _ l))) in *. set (e2 := energy (map snd l)) in *.
        set (e3 := energy (map snd (filter fst l))) in *.
        replace e1 with (e2 + ((1 + dt * al) * (1 + dt * al) - 1) * e3) by lra. field. }
    rewrite G.
    assert (Q : 0 <= 1 + dt * P / forced_Z modes).
    { pose proof (Rmult_le_pos dt P ltac:(lra) HP). pose proof (Rinv_0_lt_compat _ Z).
      unfold Rdiv. pose proof (Rmult_le_pos (dt * P) (/ forced_Z modes) ltac:(lra) ltac:(lra)). lra. }
    replace (1 + dt * al) with (sqrt (1 + dt * P / forced_Z modes)) by (rewrite E; field; lra).
    rewrite sqrt_sqrt by exact Q. field. lra.
  - intros i wm v N. unfold after, proportional. rewrite map_map, nth_error_map, N. cbn [option_map].
    cbn [w u f]. f_equal. f_equal. rewrite Cmult_0_r. apply Cplus_0_r.
Qed.
Print Assumptions c33_injection_rate.

Example c33_example :
  let modes := [(true, (2, RtoC 1)); (false, (1, RtoC 3))] in 0 < forced_Z modes.
Proof. unfold forced_Z. cbn [filter fst map snd energy]. rewrite cmod2. unfold abs2. simpl. lra. Qed.

(** ** C34: restart of the time-correlated forcing *)

Section Restart.
Variables (rng A : Type) (seeded : nat -> rng) (randint : rng -> nat * rng) (raw : rng -> A * rng).
Variable period : R.

Notation init := (tc_init rng seeded randint A raw).
Notation run := (tc_run seeded randint raw period).

(** the file describes completely the state *)
Definition described (s : tc rng A) : Prop :=
  state_file rng A s = Some (t_last_change rng A s, seed0 rng A s, seed1 rng A s)
  /\ forcing0 rng A s = fst (raw (seeded (seed0 rng A s)))
  /\ forcing1 rng A s = fst (raw (seeded (seed1 rng A s)))
  /\ generator rng A s = snd (raw (seeded (seed1 rng A s))).

Lemma init_described t g file : described (init true t g file).
Proof.
  unfold tc_init. destruct file as [[[tl s0] s1]|].
  - unfold finish_init. destruct (raw (seeded s0)) eqn:E0. destruct (raw (seeded s1)) eqn:E1.
    unfold described. cbn. rewrite E0, E1. auto.
  - destruct (randint g) as [s0 g1]. destruct (randint g1) as [s1 g2].
    unfold finish_init. destruct (raw (seeded s0)) eqn:E0. destruct (raw (seeded s1)) eqn:E1.
    unfold described. cbn. rewrite E0, E1. auto.
Qed.

Lemma change_described t s : described s -> described (tc_change rng seeded randint A raw period true t s).
Proof.
  intros (D1 & D2 & D3 & D4). unfold tc_change.
  destruct (leb period (t - t_last_change rng A s)); [|repeat split; assumption].
  destruct (randint (generator rng A s)) as [s1 g2]. destruct (raw (seeded s1)) eqn:E.
  unfold described. cbn. rewrite E. auto.
Qed.

Lemma run_described ts : forall s, described s -> described (fst (run true ts s)).
Proof.
  induction ts as [|t ts IH]; intros s D; [exact D|]. cbn [tc_run].
  specialize (IH _ (change_described t s D)).
  destruct (tc_run _ _ _ _ _ _ _) as [e l]. exact IH.
Qed.

Lemma described_restart s t g : described s -> init true t g (state_file rng A s) = s.
Proof.
  intros (D1 & D2 & D3 & D4). rewrite D1. unfold tc_init, finish_init.
  destruct (raw (seeded (seed0 rng A s))) eqn:E0. destruct (raw (seeded (seed1 rng A s))) eqn:E1.
  cbn [fst snd] in *. destruct s; cbn in *. subst. reflexivity.
Qed.

Lemma run_app save ts1 ts2 : forall s,
  run save (ts1 ++ ts2) s =
  (fst (run save ts2 (fst (run save ts1 s))), snd (run save ts1 s) ++ snd (run save ts2 (fst (run save ts1 s)))).
Proof.
  induction ts1 as [|t ts1 IH]; intro s; cbn [app tc_run].
  - cbn [fst snd app]. destruct (tc_run _ _ _ _ _ _ _); reflexivity.
  - rewrite IH. destruct (run save ts1 _) as [e l] eqn:E. cbn [fst snd app]. reflexivity.
Qed.

(** A run stopped after any number of calls and restarted from its last file uses the same arrays
    as the uninterrupted run, if only the forcing uses the generator of numpy. *)
Theorem c34_restart_partial :
  forall t0 g file ts1 ts2 t_restart g',
  let s1 := fst (run true ts1 (init true t0 g file)) in
  let restarted := init true t_restart g' (state_file rng A s1) in
  snd (run true (ts1 ++ ts2) (init true t0 g file))
  = snd (run true ts1 (init true t0 g file)) ++ snd (run true ts2 restarted).
Proof.
  intros t0 g file ts1 ts2 t_restart g' s1 restarted. rewrite run_app. cbn [snd]. fold s1.
  unfold restarted. rewrite described_restart; [reflexivity|]. apply run_described, init_described.
Qed.

(** The forcing may be computed again at the time of the restart. *)
Theorem c34_restart_same_time_partial :
  forall t0 g file ts1 t ts2 t_restart g', 0 < period ->
  let s1 := fst (run true (ts1 ++ [t]) (init true t0 g file)) in
  let restarted := init true t_restart g' (state_file rng A s1) in
  snd (run true (ts1 ++ t :: ts2) (init true t0 g file))
  = snd (run true ts1 (init true t0 g file)) ++ snd (run true (t :: ts2) restarted).
Proof.
  intros t0 g file ts1 t ts2 t_restart g' HP s1 restarted.
  assert (E : restarted = s1) by (apply described_restart, run_described, init_described).
  rewrite run_app. cbn [snd]. f_equal. rewrite E. unfold s1. rewrite run_app. cbn [fst].
  set (s := fst (run true ts1 (init true t0 g file))). cbn [tc_run fst].
  set (s2 := tc_change rng seeded randint A raw period true t s).
  assert (I : tc_change rng seeded randint A raw period true t s2 = s2).
  { unfold s2 at 2. unfold s2 at 1. unfold tc_change at 2 3.
    destruct (leb_spec period (t - t_last_change rng A s)) as [L|L].
    - destruct (randint (generator rng A s)) as [q1 g2]. destruct (raw (seeded q1)) as [a b].
      unfold tc_change. cbn [t_last_change]. destruct (leb_spec period (t - t)) as [L'|L']; [lra|reflexivity].
    - unfold tc_change. destruct (leb_spec period (t - t_last_change rng A s)); [lra|reflexivity]. }
  rewrite I. reflexivity.
Qed.

End Restart.
Print Assumptions c34_restart_partial.
Print Assumptions c34_restart_same_time_partial.

(** a small generator: the array is the seed *)
Definition ex_randint (g : nat) : nat * nat := (S g, S g).
Definition ex_raw (g : nat) : nat * nat := (g, g).

(** Restart from a state saved before the last change (all the states of a run but the last ones):
    the arrays of the last change are used at earlier times. *)
Theorem c34_earlier_time_refuted :
  exists ts1 t ts2 g',
    let init := tc_init nat (fun s => s) ex_randint nat ex_raw true in
    let run := tc_run (fun s => s) ex_randint ex_raw 1 true in
    let whole := ts1 ++ t :: ts2 in
    let s := fst (run whole (init 0 0%nat None)) in
    let restarted := init t g' (state_file nat nat s) in
    nth_error (snd (run whole (init 0 0%nat None))) (length ts1) <> nth_error (snd (run [t] restarted)) 0.
Proof.
  exists [], 0, [2], 0%nat. cbv zeta. unfold tc_init, ex_randint, finish_init, ex_raw.
  cbn [app tc_run length]. unfold tc_change.
  repeat (cbn [t_last_change state_file generator seed1 seed0 forcing1 forcing0 fst snd];
          match goal with |- context [leb ?a ?b] => destruct (leb_spec a b); try lra end).
  cbn. intro E. injection E as E. lra.
Qed.
Print Assumptions c34_earlier_time_refuted.

(** If something else uses the generator of numpy during the first run, the arrays after the
    restart are others. *)
Theorem c34_other_use_refuted :
  exists (perturb : tc nat nat -> tc nat nat) ts2,
    let init := tc_init nat (fun s => s) ex_randint nat ex_raw true in
    let run := tc_run (fun s => s) ex_randint ex_raw 1 true in
    let s := perturb (init 0 0%nat None) in
    state_file nat nat s = state_file nat nat (init 0 0%nat None)
    /\ snd (run ts2 s) <> snd (run ts2 (init 0 0%nat (state_file nat nat s))).
Proof.
  exists (fun s => mkTc nat nat (t_last_change _ _ s) (seed0 _ _ s) (seed1 _ _ s) (forcing0 _ _ s)
                     (forcing1 _ _ s) (snd (ex_randint (generator _ _ s))) (state_file _ _ s)), [2].
  cbv zeta. split; [reflexivity|].
  unfold tc_init, ex_randint, finish_init, ex_raw.
  cbn [t_last_change state_file generator seed1 seed0 forcing1 forcing0 fst snd tc_run].
  unfold tc_change. cbn [t_last_change state_file generator seed1 seed0 forcing1 forcing0 fst snd].
  destruct (leb_spec 1 (2 - 0)) as [_|L]; [|lra].
  cbn. intro E. injection E as E. discriminate E.
Qed.
Print Assumptions c34_other_use_refuted.

(** ** C35: blend of two fields *)

Definition lam (period tl t : R) : R := / 2 * (cos ((t - tl) * (PI / period)) + 1).

Theorem c35_convex :
  forall period tl f0 f1 t,
  exists la, 0 <= la <= 1 /\ forcingc_from_f0f1 period tl f0 f1 t = la * f0 + (1 - la) * f1.
Proof.
  intros. exists (lam period tl t). split.
  - unfold lam. pose proof (COS_bound ((t - tl) * (PI / period))). lra.
  - unfold forcingc_from_f0f1, lam. ring.
Qed.
Print Assumptions c35_convex.

Theorem c35_ends :
  forall period tl f0 f1, period <> 0 ->
  forcingc_from_f0f1 period tl f0 f1 tl = f0
  /\ forcingc_from_f0f1 period tl f0 f1 (tl + period) = f1.
Proof.
  intros period tl f0 f1 P. unfold forcingc_from_f0f1. split.
  - replace ((tl - tl) * (PI / period)) with 0 by (field; exact P). rewrite cos_0. field.
  - replace ((tl + period - tl) * (PI / period)) with PI by (field; exact P). rewrite cos_PI. field.
Qed.
Print Assumptions c35_ends.

(** it moves monotonically from the old to the new field *)
Theorem c35_monotone :
  forall period tl t t', 0 < period -> tl <= t -> t <= t' -> t' <= tl + period ->
  lam period tl t' <= lam period tl t.
Proof.
  intros period tl t t' P H1 H2 H3. unfold lam.
  assert (Q : 0 < PI / period) by (apply Rdiv_lt_0_compat; [apply PI_RGT_0|exact P]).
  assert (B : forall x, tl <= x <= tl + period -> 0 <= (x - tl) * (PI / period) <= PI).
  { intros x X. split; [apply Rmult_le_pos; lra|].
    apply Rle_trans with (period * (PI / period)); [apply Rmult_le_compat_r; lra|].
    right. field. lra. }
  destruct (Req_dec t t') as [->|N]; [lra|].
  assert (cos ((t' - tl) * (PI / period)) <= cos ((t - tl) * (PI / period))); [|lra].
  apply cos_decr_1; try apply B; try lra. apply Rmult_le_compat_r; lra.
Qed.
Print Assumptions c35_monotone.

(** At a change (the first time not before the period) the arrays are shifted; the jump of the
    forcing is of second order in the delay after the period. *)
Theorem c35_change_partial :
  forall period tl f0 f1 f2 t, 0 < period -> tl + period <= t ->
  forcingc_from_f0f1 period t f1 f2 t = f1
  /\ Rabs (forcingc_from_f0f1 period t f1 f2 t - forcingc_from_f0f1 period tl f0 f1 t)
     <= (PI / period * (t - (tl + period))) * (PI / period * (t - (tl + period))) / 4 * Rabs (f1 - f0).
Proof.
  intros period tl f0 f1 f2 t P H.
  destruct (c35_ends period t f1 f2 (Rgt_not_eq _ _ P)) as [E _]. split; [exact E|]. rewrite E.
  unfold forcingc_from_f0f1. set (x := PI / period * (t - (tl + period))).
  assert (X : 0 <= x).
  { unfold x. apply Rmult_le_pos; [|lra]. apply Rlt_le, Rdiv_lt_0_compat; [apply PI_RGT_0|exact P]. }
  replace ((t - tl) * (PI / period)) with (x + PI) by (unfold x; field; lra).
  rewrite neg_cos.
  replace (f1 - (f1 - / 2 * (- cos x + 1) * (f1 - f0))) with (/ 2 * (1 - cos x) * (f1 - f0)) by ring.
  rewrite Rabs_mult. apply Rmult_le_compat_r; [apply Rabs_pos|].
  rewrite one_minus_cos.
  assert (S : Rabs (sin (x / 2)) <= x / 2).
  { apply Rabs_le. split; [|apply sin_le_x; lra].
    destruct (Rle_or_lt (x / 2) PI) as [L|L].
    - pose proof (sin_ge_0 (x / 2) ltac:(lra) L). lra.
    - pose proof (SIN_bound (x / 2)). pose proof PI2_1. pose proof PI2_3_2. lra. }
  assert (S2 : sin (x / 2) * sin (x / 2) <= x / 2 * (x / 2)).
  { rewrite <- (Rabs_pos_eq (sin (x / 2) * sin (x / 2))) by nra. rewrite Rabs_mult.
    pose proof (Rabs_pos (sin (x / 2))). nra. }
  rewrite Rabs_pos_eq by nra. lra.
Qed.
Print Assumptions c35_change_partial.

(** between two computations without change *)
Theorem c35_continuous :
  forall period tl f0 f1 t, continuity_pt (forcingc_from_f0f1 period tl f0 f1) t.
Proof.
  intros. unfold forcingc_from_f0f1.
  apply continuity_pt_minus; [apply continuity_pt_const; intros x y; reflexivity|].
  apply continuity_pt_mult; [|apply continuity_pt_const; intros x y; reflexivity].
  apply continuity_pt_mult; [apply continuity_pt_const; intros x y; reflexivity|].
  apply continuity_pt_plus; [|apply continuity_pt_const; intros x y; reflexivity].
  apply (continuity_pt_comp (fun t => (t - tl) * (PI / period)) cos).
  - apply continuity_pt_mult; [|apply continuity_pt_const; intros x y; reflexivity].
    apply continuity_pt_minus; [apply derivable_continuous_pt, derivable_pt_id|apply continuity_pt_const; intros x y; reflexivity].
  - apply continuity_cos.
Qed.
Print Assumptions c35_continuous.

Example c35_example : forcingc_from_f0f1 2 1 5 7 3 = 7.
Proof. replace 3 with (1 + 2) by ring. apply c35_ends. lra. Qed.
