(** C177: the adaptive time step of ns2d.strat. *)
From Coq Require Import Reals List Lra Lia Psatz.
From Verif Require Import StratDt_Model.
Import ListNotations.
Local Open Scope R_scope.

Lemma fold_max l : forall x, x <= fold_left Rmax l x /\ (forall y, In y l -> y <= fold_left Rmax l x).
Proof.
  induction l as [|z l IH]; intros x; cbn [fold_left]; [split; [lra|easy]|]. destruct (IH (Rmax x z)) as [A B]. pose proof (Rmax_l x z). pose proof (Rmax_r x z). split; [lra|].
  intros y [->|Hy]; [lra|]. now apply B.
Qed.
Lemma max_list_ge l y : In y l -> y <= max_list l.
Proof. destruct l as [|x l]; [easy|]. destruct (fold_max l x) as [A B]. intros [->|H]; [exact A|now apply B]. Qed.
Lemma fold_max_in l : forall x, fold_left Rmax l x = x \/ In (fold_left Rmax l x) l.
Proof.
  induction l as [|z l IH]; intros x; cbn [fold_left]; [now left|]. destruct (IH (Rmax x z)) as [E|E]; [|right; now right]. rewrite E. unfold Rmax. destruct (Rle_dec x z); [right; now left|now left].
Qed.
Lemma max_list_in l : l <> [] -> In (max_list l) l.
Proof. destruct l as [|x l]; [easy|]. intros _. cbn [max_list]. destruct (fold_max_in l x) as [->|H]; [now left|now right]. Qed.
Lemma max_list_nonneg l : (forall y, In y l -> 0 <= y) -> 0 <= max_list l.
Proof. intros H. destruct l as [|x l]; [cbn; lra|]. apply H, max_list_in. easy. Qed.

Lemma min_opt_le x o : min_opt x o <= x. Proof. destruct o as [y|]; cbn; [apply Rmin_l|lra]. Qed.
Lemma min_opt_le' x y : min_opt x (Some y) <= y. Proof. cbn. apply Rmin_r. Qed.
Lemma min_opt_pos x o : 0 < x -> (forall y, o = Some y -> 0 < y) -> 0 < min_opt x o.
Proof. intros H K. destruct o as [y|]; cbn; [|exact H]. apply Rmin_glb_lt; [exact H|now apply K]. Qed.

Lemma K_not0_pos k : 0 < K_not0 k.
Proof. unfold K_not0. pose proof (pow2_ge_0 (fst k)). pose proof (pow2_ge_0 (snd k)). destruct (Req_EM_T _ 0); [lra|]. apply sqrt_lt_R0. lra. Qed.

Section Bound.
Variable p : params.
Hypothesis HN : 0 <= p_N p.
Hypothesis (Hdx : 0 < p_dx p) (Hdy : 0 < p_dy p) (HC : 0 < p_CFL p) (HM : 0 < p_deltat_max p).
Hypothesis HG : forall c, p_coef_group p = Some c -> 0 < c.
(** only one sign of kx, both signs of kz *)
Hypothesis Hkx : forall k, In k (p_modes p) -> 0 <= fst k.
Hypothesis Hsym : forall kx kz, In (kx, kz) (p_modes p) -> In (kx, - kz) (p_modes p).

Lemma disp_nonneg k : In k (p_modes p) -> 0 <= dispersion_relation (p_N p) k.
Proof using HN Hkx. intros Hk. unfold dispersion_relation. apply Rmult_le_pos; [exact HN|]. apply Rmult_le_pos; [now apply Hkx|]. apply Rlt_le, Rinv_0_lt_compat, K_not0_pos. Qed.
Lemma K_sym kx kz : K_not0 (kx, - kz) = K_not0 (kx, kz).
Proof using. unfold K_not0. cbn [fst snd]. replace ((- kz) ^ 2) with (kz ^ 2) by ring. reflexivity. Qed.
Lemma cgx_nonneg k : 0 <= cg_kx (p_N p) k.
Proof using HN.
  unfold cg_kx. pose proof (K_not0_pos k). apply Rmult_le_pos; apply Rmult_le_pos; try exact HN; try apply pow2_ge_0; apply Rlt_le, Rinv_0_lt_compat; [assumption|apply pow_lt; assumption].
Qed.
Lemma cgz_bound k : In k (p_modes p) -> Rabs (cg_kz (p_N p) k) <= max_list (map (cg_kz (p_N p)) (p_modes p)).
Proof using Hsym.
  intros H. destruct k as [kx kz]. unfold Rabs. destruct (Rcase_abs _) as [_|_]; [|apply max_list_ge; now apply in_map].
  replace (- cg_kz (p_N p) (kx, kz)) with (cg_kz (p_N p) (kx, - kz)).
  - apply max_list_ge, in_map. now apply Hsym.
  - unfold cg_kz. rewrite K_sym. cbn [fst snd]. unfold Rdiv. ring.
Qed.
Lemma group_nonneg : 0 <= freq_group (p_N p) (p_modes p) (p_dx p) (p_dy p).
Proof using HN Hdx Hdy Hkx Hsym.
  unfold freq_group. apply Rplus_le_le_0_compat; apply Rmult_le_pos; try (apply Rlt_le, Rinv_0_lt_compat; assumption).
  - apply max_list_nonneg. intros y Hy. apply in_map_iff in Hy. destruct Hy as (k & <- & _). apply cgx_nonneg.
  - destruct (p_modes p) as [|k l] eqn:E; [cbn; lra|]. eapply Rle_trans; [apply (Rabs_pos (cg_kz (p_N p) k))|]. rewrite <- E in *. apply cgz_bound. rewrite E. now left.
Qed.

Definition limits (procs : list (list (R * R))) (d : R) : Prop :=
  (forall l u v u' v', In l procs -> In (u, v) l -> In (u', v') l -> d * (Rabs u / p_dx p + Rabs v' / p_dy p) <= p_CFL p)
  /\ d <= p_deltat_max p
  /\ (forall k, In k (p_modes p) -> d * dispersion_relation (p_N p) k <= 2 * PI)
  /\ (forall c k k', p_coef_group p = Some c -> In k (p_modes p) -> In k' (p_modes p) -> d * (Rabs (cg_kx (p_N p) k) / p_dx p + Rabs (cg_kz (p_N p) k') / p_dy p) <= c)
  /\ (forall rate, p_forcing p = Some rate -> 0 < rate /\ d * Rpower rate (1 / 3) <= 1).

Lemma maybe_spec procs d : maybe_new_dt p procs = inl d -> 0 < d /\ limits procs d.
Proof using All.
  intros E.
  assert (F0 : forall l u v u' v', In l procs -> In (u, v) l -> In (u', v') l -> Rabs u / p_dx p + Rabs v' / p_dy p <= freq_CFL p procs).
  { intros l u v u' v' Hl Hu Hv. unfold freq_CFL. eapply Rle_trans; [|apply max_list_ge; apply in_map_iff; exists l; split; [reflexivity|exact Hl]].
    apply Rplus_le_compat; apply Rmult_le_compat_r; try (apply Rlt_le, Rinv_0_lt_compat; assumption); unfold max_abs; apply max_list_ge, in_map.
    - now apply (in_map fst _ (u, v)).
    - now apply (in_map snd _ (u', v')). }
  assert (DC : 0 < deltat_CFL p procs) by (unfold deltat_CFL; destruct (Rlt_dec 0 (freq_CFL p procs)); [now apply Rdiv_lt_0_compat|exact HM]).
  set (a := min_opt (Rmin (deltat_CFL p procs) (p_deltat_max p)) (deltat_dispersion_relation (p_N p) (p_modes p))) in *.
  set (b := match p_coef_group p with None => a | Some c => min_opt a (deltat_group_vel (p_N p) c (p_modes p) (p_dx p) (p_dy p)) end) in *.
  assert (W0 : 0 <= max_list (map (dispersion_relation (p_N p)) (p_modes p))) by (apply max_list_nonneg; intros y Hy; apply in_map_iff in Hy; destruct Hy as (k & <- & Hk); now apply disp_nonneg).
  assert (PA : 0 < a).
  { unfold a. apply min_opt_pos; [now apply Rmin_glb_lt|]. intros y. unfold deltat_dispersion_relation, np_inv_limit. destruct (Req_EM_T _ 0); [discriminate|]. intros K. assert (Ky : y = 1 * (2 * PI) / max_list (map (dispersion_relation (p_N p)) (p_modes p))) by congruence. rewrite Ky. pose proof PI_RGT_0. apply Rdiv_lt_0_compat; lra. }
  assert (PB : 0 < b).
  { unfold b. destruct (p_coef_group p) as [c|] eqn:Ec; [|exact PA]. apply min_opt_pos; [exact PA|]. intros y. unfold deltat_group_vel, np_inv_limit. destruct (Req_EM_T _ 0); [discriminate|]. intros K. assert (Ky : y = c / freq_group (p_N p) (p_modes p) (p_dx p) (p_dy p)) by congruence. rewrite Ky. pose proof group_nonneg. apply Rdiv_lt_0_compat; [now apply HG|lra]. }
  assert (AB : b <= a) by (unfold b; destruct (p_coef_group p); [apply min_opt_le|lra]).
  assert (LB : forall d, 0 < d -> d <= b -> (forall l u v u' v', In l procs -> In (u, v) l -> In (u', v') l -> d * (Rabs u / p_dx p + Rabs v' / p_dy p) <= p_CFL p)
    /\ d <= p_deltat_max p /\ (forall k, In k (p_modes p) -> d * dispersion_relation (p_N p) k <= 2 * PI)
    /\ (forall c k k', p_coef_group p = Some c -> In k (p_modes p) -> In k' (p_modes p) -> d * (Rabs (cg_kx (p_N p) k) / p_dx p + Rabs (cg_kz (p_N p) k') / p_dy p) <= c)).
  { intros x Hx Hb. assert (Ha : x <= Rmin (deltat_CFL p procs) (p_deltat_max p)) by (pose proof (min_opt_le (Rmin (deltat_CFL p procs) (p_deltat_max p)) (deltat_dispersion_relation (p_N p) (p_modes p))) as K; fold a in K; lra).
    pose proof (Rmin_l (deltat_CFL p procs) (p_deltat_max p)) as M1. pose proof (Rmin_r (deltat_CFL p procs) (p_deltat_max p)) as M2.
    split; [|split; [lra|split]].
    - intros l u v u' v' Hl Hu Hv. pose proof (F0 _ _ _ _ _ Hl Hu Hv) as F. set (f := Rabs u / p_dx p + Rabs v' / p_dy p) in *. assert (x <= deltat_CFL p procs) as X by lra. unfold deltat_CFL in X. destruct (Rlt_dec 0 (freq_CFL p procs)) as [P|P].
      + apply Rle_trans with (p_CFL p / freq_CFL p procs * freq_CFL p procs); [|right; field; lra]. apply Rle_trans with (x * freq_CFL p procs); [apply Rmult_le_compat_l; lra|apply Rmult_le_compat_r; lra].
      + assert (f <= 0) by lra. nra.
    - intros k Hk. pose proof (max_list_ge (map (dispersion_relation (p_N p)) (p_modes p)) _ (in_map (dispersion_relation (p_N p)) _ _ Hk)) as F. pose proof (disp_nonneg k Hk) as D0. pose proof PI_RGT_0.
      destruct (deltat_dispersion_relation (p_N p) (p_modes p)) as [y|] eqn:Ey; unfold deltat_dispersion_relation, np_inv_limit in Ey; destruct (Req_EM_T _ 0) as [Z|Z]; try discriminate.
      + assert (Ky : y = 1 * (2 * PI) / max_list (map (dispersion_relation (p_N p)) (p_modes p))) by congruence. set (w := max_list (map (dispersion_relation (p_N p)) (p_modes p))) in *.
        assert (x <= y) by (apply Rle_trans with a; [lra|apply min_opt_le']). apply Rle_trans with (y * w); [|rewrite Ky; right; field; exact Z]. apply Rmult_le_compat; lra.
      + rewrite Z in F. assert (dispersion_relation (p_N p) k = 0) as -> by lra. lra.
    - intros c k k' Ec Hk Hk'. unfold b in Hb. rewrite Ec in Hb. pose proof (HG _ Ec) as C.
      pose proof (cgz_bound k' Hk') as B1. pose proof (max_list_ge (map (cg_kx (p_N p)) (p_modes p)) _ (in_map (cg_kx (p_N p)) _ _ Hk)) as B2. rewrite (Rabs_pos_eq (cg_kx (p_N p) k)) by apply cgx_nonneg.
      assert (B : cg_kx (p_N p) k / p_dx p + Rabs (cg_kz (p_N p) k') / p_dy p <= freq_group (p_N p) (p_modes p) (p_dx p) (p_dy p)) by (unfold freq_group; apply Rplus_le_compat; apply Rmult_le_compat_r; try assumption; apply Rlt_le, Rinv_0_lt_compat; assumption).
      pose proof group_nonneg as G0. set (f := freq_group (p_N p) (p_modes p) (p_dx p) (p_dy p)) in *. set (g := cg_kx (p_N p) k / p_dx p + Rabs (cg_kz (p_N p) k') / p_dy p) in *.
      destruct (deltat_group_vel (p_N p) c (p_modes p) (p_dx p) (p_dy p)) as [y|] eqn:Ey; unfold deltat_group_vel, np_inv_limit in Ey; fold f in Ey; destruct (Req_EM_T f 0) as [Z|Z]; try discriminate.
      + assert (Ky : y = c / f) by congruence. assert (x <= y) by (eapply Rle_trans; [exact Hb|apply min_opt_le']). apply Rle_trans with (x * f); [apply Rmult_le_compat_l; lra|]. apply Rle_trans with (y * f); [apply Rmult_le_compat_r; lra|]. rewrite Ky. right. field. exact Z.
      + assert (g <= 0) by lra. nra. }
  unfold maybe_new_dt in E. cbn zeta in E. fold a in E. fold b in E. unfold limits. destruct (p_forcing p) as [rate|] eqn:Ef.
  - unfold deltat_f in E. destruct (Req_EM_T rate 0); [discriminate|]. destruct (Rlt_dec rate 0); [discriminate|]. assert (Ed : d = Rmin b (1 / Rpower rate (1 / 3))) by congruence. clear E.
    assert (RP : 0 < Rpower rate (1 / 3)) by apply exp_pos. assert (Pd : 0 < d) by (rewrite Ed; apply Rmin_glb_lt; [exact PB|apply Rdiv_lt_0_compat; lra]). split; [exact Pd|].
    destruct (LB d Pd) as (L1 & L2 & L3 & L4); [rewrite Ed; apply Rmin_l|]. split; [exact L1|]. split; [exact L2|]. split; [exact L3|]. split; [exact L4|]. intros r Er. assert (r = rate) as -> by congruence. split; [lra|].
    apply Rle_trans with (1 / Rpower rate (1 / 3) * Rpower rate (1 / 3)); [apply Rmult_le_compat_r; [lra|rewrite Ed; apply Rmin_r]|right; field; lra].
  - assert (d = b) as -> by congruence. split; [exact PB|]. destruct (LB b PB (Rle_refl b)) as (L1 & L2 & L3 & L4). split; [exact L1|]. split; [exact L2|]. split; [exact L3|]. split; [exact L4|]. intros r Er. discriminate.
Qed.

(** the time step is near a time step which satisfies all the limits; the time step changes by more than 2 % or not at all *)
Theorem c177_limits_partial : forall procs deltat d, update p procs deltat = inl d -> exists d0, 0 < d0 /\ limits procs d0 /\ 98 / 100 * d0 <= d <= 102 / 100 * d0 /\ (d = d0 \/ d = deltat).
Proof using All.
  intros procs deltat d E. unfold update in E. destruct (maybe_new_dt p procs) as [d0|] eqn:E0; [|discriminate]. destruct (maybe_spec _ _ E0) as [P L]. exists d0. split; [exact P|]. split; [exact L|].
  destruct (Rlt_dec (2 / 100) (Rabs (deltat - d0) / d0)) as [C|C].
  - assert (d = d0) as -> by congruence. split; [lra|now left].
  - assert (d = deltat) as -> by congruence. split; [|now right]. assert (K : Rabs (deltat - d0) <= 2 / 100 * d0). { apply Rnot_lt_le in C. apply Rmult_le_compat_r with (r := d0) in C; [|lra]. replace (Rabs (deltat - d0) / d0 * d0) with (Rabs (deltat - d0)) in C by (field; lra). exact C. }
    unfold Rabs in K. destruct (Rcase_abs _); lra.
Qed.

(** without forcing or with a positive rate there is a time step *)
Theorem c177_defined_partial : forall procs deltat, (forall rate, p_forcing p = Some rate -> 0 < rate) -> exists d, update p procs deltat = inl d.
Proof using.
  clear. intros procs deltat H. unfold update, maybe_new_dt. cbn zeta. destruct (p_forcing p) as [rate|]; [|eexists; reflexivity]. unfold deltat_f. pose proof (H rate eq_refl). destruct (Req_EM_T rate 0); [lra|]. destruct (Rlt_dec rate 0); [lra|]. eexists. reflexivity.
Qed.
End Bound.

(** the amplification of a wave of frequency omega by one step of the scheme RK4 *)
Definition rk4_gain2 (z : R) : R := (1 - z ^ 2 / 2 + z ^ 4 / 24) ^ 2 + (z - z ^ 3 / 6) ^ 2.
Definition waves_params : params := mkParams 100 [(1, 0); (1, 1); (1, -1)] 1 1 1 (2 / 10) None None.

Lemma disp_10 N : dispersion_relation N (1, 0) = N.
Proof. unfold dispersion_relation, K_not0. cbn [fst snd]. replace (1 ^ 2 + 0 ^ 2) with 1 by ring. destruct (Req_EM_T 1 0); [lra|]. rewrite sqrt_1. field. Qed.
Lemma disp_le N k : 0 <= N -> dispersion_relation N k <= N.
Proof.
  intros H. unfold dispersion_relation. rewrite <- (Rmult_1_r N) at 2. apply Rmult_le_compat_l; [exact H|]. pose proof (K_not0_pos k) as P. apply Rmult_le_reg_r with (K_not0 k); [exact P|]. replace (fst k / K_not0 k * K_not0 k) with (fst k) by (field; lra). rewrite Rmult_1_l.
  apply Rle_trans with (Rabs (fst k)); [apply Rle_abs|]. revert P. unfold K_not0. pose proof (pow2_ge_0 (snd k)) as S2. pose proof (pow2_ge_0 (fst k)) as S1. destruct (Req_EM_T _ 0) as [Z|Z]; intros P; [assert (Z1 : fst k ^ 2 = 0) by lra; assert (Z2 : fst k = 0) by nra; rewrite Z2, Rabs_R0; lra|].
  rewrite <- sqrt_Rsqr_abs. apply sqrt_le_1_alt. unfold Rsqr. nra.
Qed.

(** for a fluid at rest the time step is the period of the waves, which RK4 amplifies *)
Theorem c177_waves_refuted : exists p procs d k, update p procs (p_deltat_max p) = inl d /\ In k (p_modes p) /\ (forall l u v, In l procs -> In (u, v) l -> u = 0 /\ v = 0) /\ d * dispersion_relation (p_N p) k = 2 * PI /\ 1000 < rk4_gain2 (d * dispersion_relation (p_N p) k).
Proof.
  exists waves_params, [[(0, 0)]], (2 * PI / 100), (1, 0). pose proof PI_RGT_0 as P. assert (P3 : 3 < PI) by (pose proof PI2_3_2; lra). assert (P4 : PI <= 4) by apply PI_4.
  assert (M : max_list (map (dispersion_relation 100) [(1, 0); (1, 1); (1, -1)]) = 100).
  { apply Rle_antisym.
    - set (l := map (dispersion_relation 100) [(1, 0); (1, 1); (1, -1)]). assert (I : In (max_list l) l) by (apply max_list_in; discriminate). unfold l at 2 in I. apply in_map_iff in I. destruct I as (k & <- & _). apply disp_le. lra.
    - rewrite <- (disp_10 100) at 1. apply max_list_ge. now left. }
  split; [|split; [now left|split]].
  - unfold update, maybe_new_dt, waves_params. cbn [p_N p_modes p_dx p_dy p_CFL p_deltat_max p_coef_group p_forcing]. cbv zeta iota beta. unfold deltat_dispersion_relation. rewrite M. unfold np_inv_limit. destruct (Req_EM_T 100 0) as [e|_]; [exfalso; clear - e; lra|].
    assert (F : freq_CFL (mkParams 100 [(1, 0); (1, 1); (1, -1)] 1 1 1 (2 / 10) None None) [[(0, 0)]] = 0) by (unfold freq_CFL; cbn; rewrite Rabs_R0; field).
    unfold deltat_CFL. rewrite F. destruct (Rlt_dec 0 0); [exfalso; lra|]. cbn [p_deltat_max min_opt]. rewrite (Rmin_left (2 / 10) (2 / 10)) by lra. rewrite (Rmin_right (2 / 10) (1 * (2 * PI) / 100)) by lra.
    replace (1 * (2 * PI) / 100) with (2 * PI / 100) by field. destruct (Rlt_dec (2 / 100) (Rabs (2 / 10 - 2 * PI / 100) / (2 * PI / 100))) as [_|C]; [reflexivity|]. exfalso. apply C. rewrite Rabs_pos_eq by lra. apply Rmult_lt_reg_r with (2 * PI / 100); [lra|]. replace ((2 / 10 - 2 * PI / 100) / (2 * PI / 100) * (2 * PI / 100)) with (2 / 10 - 2 * PI / 100) by (field; lra). lra.
  - intros l u v [<-|[]] [E|[]]. injection E as <- <-. split; reflexivity.
  - unfold waves_params. cbn [p_N]. rewrite disp_10. replace (2 * PI / 100 * 100) with (2 * PI) by field. split; [reflexivity|]. unfold rk4_gain2. set (z := 2 * PI). assert (Z : 6 < z) by (unfold z; lra).
    assert (A : 36 < z ^ 2) by nra. replace (z ^ 4) with (z ^ 2 * z ^ 2) by ring. set (y := z ^ 2) in *. assert (B : 37 <= 1 - y / 2 + y * y / 24) by nra. assert (0 <= (z - z ^ 3 / 6) ^ 2) by apply pow2_ge_0. nra.
Qed.
(** no amplification below 2 sqrt 2 *)
Theorem c177_rk4 : forall z, rk4_gain2 z <= 1 <-> z ^ 2 <= 8.
Proof.
  intros z. assert (E : rk4_gain2 z = 1 + (z ^ 2) ^ 3 * (z ^ 2 - 8) / 576) by (unfold rk4_gain2; field). rewrite E. pose proof (pow2_ge_0 z) as P. set (y := z ^ 2) in *. assert (Q : 0 <= y ^ 3) by (apply pow_le; exact P). split; intros H.
  - destruct (Rle_or_lt y 8) as [L|L]; [exact L|]. assert (0 < y ^ 3) by (apply pow_lt; lra). nra.
  - nra.
Qed.
(** the time step can be above the maximum *)
Theorem c177_max_refuted : exists p procs deltat d, 0 < p_deltat_max p /\ update p procs deltat = inl d /\ p_deltat_max p < d.
Proof.
  exists (mkParams 0 [] 1 1 1 1 None None), [[(0, 0)]], (101 / 100), (101 / 100). cbn [p_deltat_max]. split; [lra|]. split; [|lra].
  unfold update, maybe_new_dt, deltat_dispersion_relation. cbn [p_N p_modes p_dx p_dy p_CFL p_deltat_max p_coef_group p_forcing map max_list]. cbv zeta. unfold np_inv_limit. destruct (Req_EM_T 0 0); [|exfalso; lra]. cbn [min_opt].
  assert (F : freq_CFL (mkParams 0 [] 1 1 1 1 None None) [[(0, 0)]] = 0) by (unfold freq_CFL; cbn; rewrite Rabs_R0; field). unfold deltat_CFL. rewrite F. destruct (Rlt_dec 0 0); [exfalso; lra|]. cbn [p_deltat_max]. rewrite Rmin_left by lra.
  destruct (Rlt_dec (2 / 100) (Rabs (101 / 100 - 1) / 1)) as [C|_]; [|reflexivity]. exfalso. rewrite Rabs_pos_eq in C by lra. lra.
Qed.
(** a zero forcing rate *)
Theorem c177_forcing_refuted : exists e, forall p procs deltat, p_forcing p = Some 0 -> update p procs deltat = inr e.
Proof. exists ZeroDivisionError. intros p procs deltat E. unfold update, maybe_new_dt. cbv zeta. rewrite E. unfold deltat_f. destruct (Req_EM_T 0 0); [reflexivity|exfalso; lra]. Qed.

Example c177_example : exists p, 0 <= p_N p /\ 0 < p_dx p /\ 0 < p_dy p /\ 0 < p_CFL p /\ 0 < p_deltat_max p /\ (forall c, p_coef_group p = Some c -> 0 < c) /\ (forall k, In k (p_modes p) -> 0 <= fst k) /\ (forall kx kz, In (kx, kz) (p_modes p) -> In (kx, - kz) (p_modes p)) /\ exists d, update p [[(1, 2)]] 1 = inl d.
Proof.
  exists waves_params. cbn [p_N p_dx p_dy p_CFL p_deltat_max p_coef_group waves_params p_modes]. split; [lra|]. split; [lra|]. split; [lra|]. split; [lra|]. split; [lra|]. split; [discriminate|]. split; [intros k [<-|[<-|[<-|[]]]]; cbn; lra|]. split.
  - intros kx kz [E|[E|[E|[]]]]; injection E as <- <-; cbn [In]; [left; f_equal; ring|right; right; left; f_equal; ring|right; left; f_equal; ring].
  - apply c177_defined_partial. discriminate.
Qed.

Print Assumptions c177_limits_partial.
Print Assumptions c177_defined_partial.
Print Assumptions c177_waves_refuted.
Print Assumptions c177_rk4.
Print Assumptions c177_max_refuted.
Print Assumptions c177_forcing_refuted.
