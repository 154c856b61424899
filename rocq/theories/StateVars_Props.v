(** * C20, C21, C63: state variables *)

From Coq Require Import String List Bool Arith Lia.
From Verif Require Import StateVars_Model StateVars_Proofs.
Import ListNotations.
Open Scope string_scope.

(** ** C20: the variables returned by get_var are up to date *)

Definition well_formed (sol : solver) : Prop :=
  exists rank, ranked sol rank /\ (forall k, rank k < fuel) /\ coherent sol /\
    forall k e xs, rules sol k = Some (e, xs) -> xs <> [] -> only_comp e = true.

Section Invariant.

Variable V : Type.
Variable fn : string -> list V -> V.
Variable sol : solver.
Variable rank : key -> nat.
Hypothesis Hrank : ranked sol rank.
Hypothesis Hfuel : forall k, rank k < fuel.
Hypothesis Hcoh : coherent sol.
Hypothesis Honly : forall k e xs, rules sol k = Some (e, xs) -> xs <> [] -> only_comp e = true.

Definition inv (r : bool) (s : st V) : Prop :=
  valid V fn sol rank s (vars V s) /\
  (r = false -> forall k v i, vars V s k = Some (v, i) -> i < it V s).

Lemma get_var_good k s : valid V fn sol rank s (vars V s) ->
  fst (get_var V fn sol k s) = den V fn sol s (val V fn sol rank s) (Getv k) /\
  valid V fn sol rank s (vars V (snd (get_var V fn sol k s))) /\
  sp V (snd (get_var V fn sol k s)) = sp V s /\ ph V (snd (get_var V fn sol k s)) = ph V s /\
  it V (snd (get_var V fn sol k s)) = it V s.
Proof.
  intros Hv. unfold get_var.
  destruct (eval_good V fn sol rank s (compute V fn sol s fuel) (Getv k)
    (fun j _ => compute_good V fn sol rank Hrank Hcoh s Honly fuel j (Hfuel j)) _ Hv) as [E Hv'].
  destruct (eval V fn sol s (compute V fn sol s fuel) (Getv k) (vars V s)) as [r c].
  simpl in *. auto.
Qed.

Lemma val_arrays s s' : sp V s = sp V s' -> ph V s = ph V s' ->
  forall k, val V fn sol rank s k = val V fn sol rank s' k.
Proof.
  intros Es Ep. assert (X : forall n k, D V fn sol s n k = D V fn sol s' n k).
  { assert (Y : forall D0 e, den V fn sol s D0 e = den V fn sol s' D0 e).
    { intros D0 e. induction e as [k|k|k|k| |f|f a IHa|f a IHa b IHb|f a IHa b IHb d IHd]; simpl;
        rewrite ?Es, ?Ep, ?IHa, ?IHb, ?IHd; reflexivity. }
    induction n as [|n IH]; intros k; [reflexivity|]. simpl.
    destruct (rules sol k) as [[e xs]|]; [|reflexivity]. rewrite Y. apply den_ext.
    intros j _. apply IH. }
  intros k. apply X.
Qed.

Lemma valid_arrays s s' c : sp V s = sp V s' -> ph V s = ph V s' -> it V s = it V s' ->
  valid V fn sol rank s c -> valid V fn sol rank s' c.
Proof.
  intros Es Ep Ei H k v i Hk. rewrite <- Ei, <- (val_arrays s s' Es Ep). apply (H k v i Hk).
Qed.

Lemma inv_run h : forall r s, inv r s -> safe V r h -> exists r', inv r' (run V fn sol h s).
Proof.
  induction h as [|o h IH]; intros r s [Hv Hr] Hs; [exists r; split; assumption|].
  simpl in *. destruct o as [a b|k| |k v].
  - apply (IH false); [|exact Hs]. simpl. split; simpl.
    + intros k v i Hk. destruct (Hv k v i Hk). cbn [it]. split; [lia|intros; lia].
    + intros _ k v i Hk. destruct (Hv k v i Hk). lia.
  - apply (IH true); [|exact Hs]. simpl. destruct (get_var_good k s Hv) as (_ & Hv' & Es & Ep & Ei).
    split; [|discriminate]. apply (valid_arrays s); auto.
  - apply (IH false); [|exact Hs]. split; simpl; intros; discriminate.
  - destruct Hs as [-> Hs]. specialize (Hr eq_refl).
    assert (G : forall s', vars V s' = vars V s -> it V s' = it V s -> inv false s').
    { intros s' Ec Ei. split.
      - intros k' v' i Hk. rewrite Ec in Hk. specialize (Hr k' v' i Hk). rewrite Ei. split; [lia|intros; lia].
      - intros _ k' v' i Hk. rewrite Ec in Hk. rewrite Ei. apply (Hr k' v' i Hk). }
    apply (IH false); [|exact Hs]. simpl. unfold setitem.
    destruct (mem k (keys_state_spect sol)); [apply G; reflexivity|].
    destruct (mem k (keys_state_phys sol)); [apply G; reflexivity|].
    split; [exact Hv|intros _; exact Hr].
Qed.

Lemma up_to_date_den k s :
  up_to_date V fn sol k s = den V fn sol s (val V fn sol rank s) (Getv k).
Proof.
  unfold up_to_date.
  destruct (get_var_good k (clear_computed V s)) as (E & _).
  - intros k' v i Hk. discriminate.
  - rewrite E. simpl. 
    rewrite (val_arrays (clear_computed V s) s eq_refl eq_refl k). reflexivity.
Qed.

End Invariant.

(** Whatever the history of steps, reads, clears and assignments, if no assignment is done after a
    read at the same time step (without clear_computed), the value is the one which would be
    computed from the current arrays. *)
Theorem c20_up_to_date_partial sol : well_formed sol ->
  forall V fn a b h, safe V false h ->
  let s := run V fn sol h (new_state V a b) in
  forall k, fst (get_var V fn sol k s) = up_to_date V fn sol k s.
Proof.
  intros (rank & Hr & Hf & Hc & Ho) V fn a b h Hs s k.
  destruct (inv_run V fn sol rank Hr Hf Hc Ho h false (new_state V a b)) as [r' [Hv _]].
  - split; [intros k' v i H; discriminate|intros _ k' v i H; discriminate].
  - exact Hs.
  - fold s in Hv. rewrite (up_to_date_den V fn sol rank Hr Hf Hc Ho).
    apply (get_var_good V fn sol rank Hr Hf Hc Ho). exact Hv.
Qed.

(** *** The solvers are well formed *)

Definition check_rule (sol : solver) (rank : key -> nat) (k : key) (e : expr) : bool :=
  (Nat.ltb (rank k) (fuel - 1)) && forallb (fun j => Nat.ltb (rank j) (rank k)) (comps e).

Definition rank_list (l : list (key * nat)) (k : key) : nat :=
  match find (fun p => String.eqb (fst p) k) l with Some p => snd p | None => 0 end.

Lemma table_wf sp ph comp l rl :
  forallb (fun p => check_rule (mkSolver sp ph comp (table l)) (rank_list rl) (fst p) (snd p)) l = true ->
  forallb (fun p => Nat.ltb (snd p) fuel) rl = true ->
  well_formed (mkSolver sp ph comp (table l)).
Proof.
  intros H F. exists (rank_list rl).
  assert (T : forall k e xs, table l k = Some (e, xs) -> xs = [] /\ In (k, e) l).
  { intros k e xs. unfold table. match goal with |- context [find ?f l] => destruct (find f l) as [[k' e']|] eqn:E end; [|discriminate].
    intros X. injection X as <- <-. apply find_some in E. destruct E as [E1 E2]. simpl in E2.
    apply String.eqb_eq in E2. subst k'. auto. }
  split; [|split; [|split]].
  - intros k e xs R. simpl in R. destruct (T _ _ _ R) as [-> Hin].
    rewrite forallb_forall in H. specialize (H _ Hin). unfold check_rule in H. simpl in H.
    apply andb_true_iff in H. destruct H as [H1 H2]. apply Nat.ltb_lt in H1. split; [exact H1|].
    intros e' [->|[]] j Hj. rewrite forallb_forall in H2. apply Nat.ltb_lt, H2, Hj.
  - intros k. unfold rank_list. match goal with |- context [find ?f rl] => destruct (find f rl) as [p|] eqn:E end; [|unfold fuel; lia].
    apply find_some in E. rewrite forallb_forall in F. apply Nat.ltb_lt, F, E.
  - intros k e xs k2 e2 R Hin. simpl in R. destruct (T _ _ _ R) as [-> _]. destruct Hin.
  - intros k e xs R Hx. simpl in R. destruct (T _ _ _ R) as [-> _]. congruence.
Qed.

Definition ranks_2d := [("div_fft", 3); ("div", 4); ("rot_fft", 3); ("rot", 4); ("q", 5);
  ("ux_fft", 2); ("uy_fft", 2); ("b_fft", 2); ("ap_fft", 2); ("am_fft", 2); ("ap", 3); ("am", 3)].

Lemma wf_ns2d : well_formed ns2d.
Proof. apply (table_wf _ _ _ _ ranks_2d); reflexivity. Qed.
Lemma wf_ns2d_strat : well_formed ns2d_strat.
Proof. apply (table_wf _ _ _ _ ranks_2d); reflexivity. Qed.
Lemma wf_ns2d_bouss : well_formed ns2d_bouss.
Proof. apply (table_wf _ _ _ _ ranks_2d); reflexivity. Qed.
Definition ranks_3d := [("vp_fft", 1); ("vt_fft", 1); ("vp", 2); ("vt", 2); ("rotz", 1);
  ("rotz_fft", 1); ("divh", 1); ("divh_fft", 1)].
Lemma wf_ns3d : well_formed ns3d.
Proof. apply (table_wf _ _ _ _ ranks_3d); reflexivity. Qed.
Lemma wf_ns3d_strat : well_formed ns3d_strat.
Proof. apply (table_wf _ _ _ _ ranks_3d); reflexivity. Qed.
Lemma wf_plate2d : well_formed plate2d.
Proof. apply (table_wf _ _ _ _ [("chi_fft", 1); ("chi", 2); ("Nw_fft", 2)]); reflexivity. Qed.
Lemma wf_ad1d : well_formed ad1d.
Proof. apply (table_wf _ _ _ _ []); reflexivity. Qed.
Lemma wf_ad1d_pseudo_spect : well_formed ad1d_pseudo_spect.
Proof. apply (table_wf _ _ _ _ [("dx_s", 1)]); reflexivity. Qed.
Definition ranks_sw1l := [("Jx_fft", 1); ("Jy_fft", 1); ("div", 1); ("Floc", 1)].
Lemma wf_sw1l : well_formed sw1l.
Proof. apply (table_wf _ _ _ _ ranks_sw1l); reflexivity. Qed.
Lemma wf_sw1l_modified : well_formed sw1l_modified.
Proof. apply (table_wf _ _ _ _ ranks_2d); reflexivity. Qed.

Definition ranks_exactlin := [("a_fft", 1); ("rot_fft", 2); ("eta_fft", 2); ("div_fft", 1);
  ("ux_fft", 3); ("uy_fft", 3); ("Jx_fft", 1); ("Jy_fft", 1); ("div", 2); ("Floc", 1)].

Lemma exactlin_cases k e xs : rules sw1l_exactlin k = Some (e, xs) ->
  In (k, (e, xs)) (map (fun p => (fst p, (snd p, []))) (
    [("div_fft", F2 "divfft_from_apamfft" (Spect "ap_fft") (Spect "am_fft"));
     ("a_fft", F2 "add" (Spect "ap_fft") (Spect "am_fft"));
     ("rot_fft", F2 "add" (F1 "rotfft_from_qfft" (Spect "q_fft")) (F1 "rotfft_from_afft" (Comp "a_fft")));
     ("eta_fft", F2 "add" (F1 "etafft_from_qfft" (Spect "q_fft")) (F1 "etafft_from_afft" (Comp "a_fft")))]
    ++ filter (fun p => negb (mem (fst p) ["div_fft"; "a_fft"; "rot_fft"])) rules_sw1l)
  ++ [("ux_fft", (ux_of_waves, [("uy_fft", uy_of_waves)]));
      ("uy_fft", (uy_of_waves, [("ux_fft", ux_of_waves)]))]).
Proof.
  simpl rules. unfold rules_exactlin.
  destruct (String.eqb_spec k "div_fft") as [->|N1]; [intros E; injection E as <- <-; simpl; auto|].
  destruct (String.eqb_spec k "a_fft") as [->|N2]; [intros E; injection E as <- <-; simpl; auto|].
  destruct (String.eqb_spec k "rot_fft") as [->|N3]; [intros E; injection E as <- <-; simpl; auto|].
  destruct (String.eqb_spec k "eta_fft") as [->|N4]; [intros E; injection E as <- <-; simpl; auto|].
  destruct (String.eqb_spec k "ux_fft") as [->|N5].
  { intros E. injection E as <- <-. apply in_or_app. right. simpl. auto. }
  destruct (String.eqb_spec k "uy_fft") as [->|N6].
  { intros E. injection E as <- <-. apply in_or_app. right. simpl. auto. }
  unfold table. match goal with |- context [find ?f rules_sw1l] => destruct (find f rules_sw1l) as [[k' e']|] eqn:F end; [|discriminate].
  intros E. injection E as <- <-. apply find_some in F. destruct F as [F1 F2].
  apply String.eqb_eq in F2. simpl in F2. subst k'.
  apply in_or_app. left. apply in_map_iff. exists (k, e'). split; [reflexivity|].
  apply in_or_app. right. apply filter_In. split; [exact F1|]. simpl fst.
  apply negb_true_iff. unfold mem. simpl.
  apply String.eqb_neq in N1, N2, N3. rewrite N1, N2, N3. reflexivity.
Qed.

Lemma wf_sw1l_exactlin : well_formed sw1l_exactlin.
Proof.
  exists (rank_list ranks_exactlin). split; [|split; [|split]].
  - intros k e xs R. apply exactlin_cases in R. revert k e xs R.
    assert (A : forallb (fun p => (Nat.ltb (rank_list ranks_exactlin (fst p)) (fuel - 1)) &&
        forallb (fun e => forallb (fun j => Nat.ltb (rank_list ranks_exactlin j) (rank_list ranks_exactlin (fst p))) (comps e))
          (fst (snd p) :: map snd (snd (snd p))))
       (map (fun p => (fst p, (snd p, []))) (
    [("div_fft", F2 "divfft_from_apamfft" (Spect "ap_fft") (Spect "am_fft"));
     ("a_fft", F2 "add" (Spect "ap_fft") (Spect "am_fft"));
     ("rot_fft", F2 "add" (F1 "rotfft_from_qfft" (Spect "q_fft")) (F1 "rotfft_from_afft" (Comp "a_fft")));
     ("eta_fft", F2 "add" (F1 "etafft_from_qfft" (Spect "q_fft")) (F1 "etafft_from_afft" (Comp "a_fft")))]
    ++ filter (fun p => negb (mem (fst p) ["div_fft"; "a_fft"; "rot_fft"])) rules_sw1l)
  ++ [("ux_fft", (ux_of_waves, [("uy_fft", uy_of_waves)]));
      ("uy_fft", (uy_of_waves, [("ux_fft", ux_of_waves)]))]) = true) by reflexivity.
    intros k e xs R. rewrite forallb_forall in A. specialize (A _ R). simpl fst in A. simpl snd in A.
    apply andb_true_iff in A. destruct A as [A1 A2]. apply Nat.ltb_lt in A1. split; [exact A1|].
    intros e' He' j Hj. rewrite forallb_forall in A2. specialize (A2 e').
    rewrite forallb_forall in A2. apply Nat.ltb_lt, A2; [|exact Hj].
    destruct He' as [->|He']; [left; reflexivity|right; exact He'].
  - intros k. unfold rank_list. match goal with |- context [find ?f ranks_exactlin] => destruct (find f ranks_exactlin) as [p|] eqn:E end; [|unfold fuel; lia].
    apply find_some in E. destruct E as [E _].
    assert (F : forallb (fun p => Nat.ltb (snd p) fuel) ranks_exactlin = true) by reflexivity.
    rewrite forallb_forall in F. apply Nat.ltb_lt, F, E.
  - intros k e xs k2 e2 R Hin. apply exactlin_cases in R. apply in_app_or in R. destruct R as [R|R].
    + apply in_map_iff in R. destruct R as ([k0 e0] & X & _). injection X as <- <- <-. destruct Hin.
    + destruct R as [R|[R|[]]]; injection R as <- <- <-; destruct Hin as [Hin|[]];
        injection Hin as <- <-; (split; [eexists; reflexivity|]); (split; [reflexivity|]);
        simpl; tauto.
  - intros k e xs R Hx. apply exactlin_cases in R. apply in_app_or in R. destruct R as [R|R].
    + apply in_map_iff in R. destruct R as ([k0 e0] & X & _). injection X as <- <- <-. exfalso; apply Hx; reflexivity.
    + destruct R as [R|[R|[]]]; injection R as <- <- <-; reflexivity.
Qed.

(** the value without cache does not depend on the time *)
Lemma up_to_date_it V fn sol s k : well_formed sol ->
  up_to_date V fn sol k s = up_to_date V fn sol k (mkSt V (sp V s) (ph V s) (no_cache V) 0).
Proof.
  intros (rank & Hr & Hf & Hc & Ho).
  rewrite !(up_to_date_den V fn sol rank Hr Hf Hc Ho). simpl.
  rewrite <- (val_arrays V fn sol rank s (mkSt V (sp V s) (ph V s) (no_cache V) 0) eq_refl eq_refl k).
  reflexivity.
Qed.

Definition solvers := [ns2d; ns2d_strat; ns2d_bouss; ns3d; ns3d_strat; plate2d; ad1d;
  ad1d_pseudo_spect; sw1l; sw1l_modified; sw1l_exactlin].

Theorem c20_solvers_partial sol : In sol solvers ->
  forall V fn a b h, safe V false h ->
  let s := run V fn sol h (new_state V a b) in
  forall k, fst (get_var V fn sol k s) = up_to_date V fn sol k s.
Proof.
  intros H. apply c20_up_to_date_partial. simpl in H.
  repeat (destruct H as [<-|H]; [first [exact wf_ns2d | exact wf_ns2d_strat | exact wf_ns2d_bouss
    | exact wf_ns3d | exact wf_ns3d_strat | exact wf_plate2d | exact wf_ad1d
    | exact wf_ad1d_pseudo_spect | exact wf_sw1l | exact wf_sw1l_modified | exact wf_sw1l_exactlin]|]).
  destruct H.
Qed.

Example c20_example : safe nat false [Set_ nat "vx_fft" 3; Get nat "rotz"; Step nat (fun _ => 1) (fun _ => 2);
  Set_ nat "b_fft" 3; Get nat "vp"; Clear nat; Set_ nat "vx_fft" 1].
Proof. simpl. auto. Qed.

(** FINDING: an assignment after a read at the same time step: the cache is not invalidated. *)
Theorem c20_refuted : exists V fn a b k h,
  let s := run V fn ns3d h (new_state V a b) in
  fst (get_var V fn ns3d k s) <> up_to_date V fn ns3d k s.
Proof.
  exists nat, (fun _ l => fold_right plus 0 l), (fun _ => 0), (fun _ => 0), "rotz_fft",
    [Get nat "rotz_fft"; Set_ nat "vx_fft" 1].
  vm_compute. discriminate.
Qed.

(** FINDING: for sw1l.onlywaves, uy_fft can be obtained only if ux_fft has been read before at the
    same time step (otherwise: AttributeError). *)
Theorem c20_onlywaves_refuted : forall V fn a b,
  fst (get_var V fn sw1l_onlywaves "uy_fft" (new_state V a b)) = None /\
  exists v, fst (get_var V fn sw1l_onlywaves "uy_fft"
     (run V fn sw1l_onlywaves [Get V "ux_fft"] (new_state V a b))) = Some v.
Proof. intros V fn a b. split; [reflexivity|]. eexists. reflexivity. Qed.

(** ** C63: the computed variables are what their names say *)

Section Definitions.

Variable V : Type.
Variable fn : string -> list V -> V.
Variable s : st V.

(** all the declared computable keys can be computed *)
Theorem c63_declared sol k : In sol solvers -> In k (keys_computable sol) ->
  up_to_date V fn sol k s <> None.
Proof.
  intros H. simpl in H.
  repeat (destruct H as [<-|H]; [simpl; intros Hk;
    repeat (destruct Hk as [<-|Hk]; [vm_compute; discriminate|]); destruct Hk|]).
  destruct H.
Qed.

Notation G sol k := (up_to_date V fn sol k s).
Notation f1 f a := (fn f [a]).
Notation f2 f a b := (fn f [a; b]).

(** vorticity, divergence from the velocity, physical from spectral *)
Definition kinematics (sol : solver) : Prop :=
  exists ux_fft uy_fft, G sol "ux_fft" = Some ux_fft /\ G sol "uy_fft" = Some uy_fft /\
  (mem "rot_fft" (keys_state_spect sol) = true \/
   G sol "rot_fft" = Some (f2 "rotfft_from_vecfft" ux_fft uy_fft)) /\
  G sol "div_fft" = Some (f2 "divfft_from_vecfft" ux_fft uy_fft) /\
  G sol "div" = Some (f1 "ifft2" (f2 "divfft_from_vecfft" ux_fft uy_fft)).

Theorem c63_ns2d_partial : kinematics ns2d /\ G ns2d "q" = Some (ph V s "rot") /\
  G ns2d "ux_fft" = Some (f1 "fft2" (ph V s "ux")) /\ G ns2d "uy_fft" = Some (f1 "fft2" (ph V s "uy")).
Proof. repeat split. eexists _, _. repeat split; try reflexivity. left. reflexivity. Qed.

Theorem c63_ns2d_strat_partial : kinematics ns2d_strat /\ G ns2d_strat "q" = Some (ph V s "rot") /\
  exists uy_fft, G ns2d_strat "uy_fft" = Some uy_fft /\
  uy_fft = f1 "uyfft_from_rotfft" (sp V s "rot_fft") /\
  G ns2d_strat "ux_fft" = Some (f1 "uxfft_from_rotfft" (sp V s "rot_fft")) /\
  G ns2d_strat "ap_fft" = Some (f2 "add" (f1 "N2_times" uy_fft) (f1 "i_omega_times" (sp V s "b_fft"))) /\
  G ns2d_strat "am_fft" = Some (f2 "sub" (f1 "N2_times" uy_fft) (f1 "i_omega_times" (sp V s "b_fft"))) /\
  G ns2d_strat "ap" = Some (f1 "ifft2" (f2 "add" (f1 "N2_times" uy_fft) (f1 "i_omega_times" (sp V s "b_fft")))) /\
  G ns2d_strat "am" = Some (f1 "ifft2" (f2 "sub" (f1 "N2_times" uy_fft) (f1 "i_omega_times" (sp V s "b_fft")))).
Proof.
  split; [|split; [reflexivity|]].
  - eexists _, _. repeat split; try reflexivity. left. reflexivity.
  - eexists. repeat split; reflexivity.
Qed.

Theorem c63_ns2d_bouss_partial : kinematics ns2d_bouss /\
  G ns2d_bouss "ux_fft" = Some (f1 "fft2" (ph V s "ux")) /\
  G ns2d_bouss "uy_fft" = Some (f1 "fft2" (ph V s "uy")) /\
  G ns2d_bouss "q" = Some (f1 "ifft2" (f2 "rotfft_from_vecfft"
     (f1 "fft2" (ph V s "ux")) (f1 "fft2" (ph V s "uy")))).
Proof. repeat split. eexists _, _. repeat split; try reflexivity. left. reflexivity. Qed.

Theorem c63_ns3d_partial sol : sol = ns3d \/ sol = ns3d_strat ->
  let vx := sp V s "vx_fft" in let vy := sp V s "vy_fft" in let vz := sp V s "vz_fft" in
  G sol "rotz_fft" = Some (f2 "rotzfft_from_vxvyfft" vx vy) /\
  G sol "rotz" = Some (f1 "ifft3d" (f2 "rotzfft_from_vxvyfft" vx vy)) /\
  G sol "divh_fft" = Some (f2 "divhfft_from_vxvyfft" vx vy) /\
  G sol "divh" = Some (f1 "ifft3d" (f2 "divhfft_from_vxvyfft" vx vy)) /\
  G sol "vp_fft" = Some (fn "vpfft_from_vecfft" [vx; vy; vz]) /\
  G sol "vp" = Some (f1 "ifft3d" (fn "vpfft_from_vecfft" [vx; vy; vz])) /\
  G sol "vt_fft" = Some (fn "vtfft_from_vecfft" [vx; vy; vz]) /\
  G sol "vt" = Some (f1 "ifft3d" (fn "vtfft_from_vecfft" [vx; vy; vz])).
Proof. intros [->| ->]; repeat split; reflexivity. Qed.

Theorem c63_plate2d_partial :
  let z := sp V s "z_fft" in
  let chi := f1 "minus_invlaplacian4_fft" (f1 "fft2" (f2 "monge_ampere_from_fft" z z)) in
  G plate2d "chi_fft" = Some chi /\ G plate2d "chi" = Some (f1 "ifft2" chi) /\
  G plate2d "Nw_fft" = Some (f1 "fft2" (f2 "monge_ampere_from_fft" z chi)) /\
  G plate2d "lapz_fft" = Some (f1 "laplacian4_fft" z).
Proof. repeat split; reflexivity. Qed.

Theorem c63_ad1d_partial :
  G ad1d "dx_s" = Some (f1 "px" (ph V s "s")) /\
  G ad1d_pseudo_spect "dx_s_fft" = Some (f1 "pxffft_from_fft" (sp V s "s_fft")) /\
  G ad1d_pseudo_spect "dx_s" = Some (f1 "ifft" (f1 "pxffft_from_fft" (sp V s "s_fft"))).
Proof. repeat split; reflexivity. Qed.

Theorem c63_sw1l_partial : kinematics sw1l /\
  G sw1l "q_fft" = Some (f2 "sub" (f2 "rotfft_from_vecfft" (sp V s "ux_fft") (sp V s "uy_fft"))
                                  (f1 "f_times" (sp V s "eta_fft"))) /\
  G sw1l "q" = Some (f2 "sub" (ph V s "rot") (f1 "f_times" (ph V s "eta"))) /\
  G sw1l "a_fft" = Some (fn "afft_from_uxuyetafft" [sp V s "ux_fft"; sp V s "uy_fft"; sp V s "eta_fft"]) /\
  exists h, G sw1l "h" = Some h /\ h = f1 "one_plus" (ph V s "eta") /\
  G sw1l "Jx" = Some (f2 "mul" h (ph V s "ux")) /\ G sw1l "Jy" = Some (f2 "mul" h (ph V s "uy")) /\
  G sw1l "Jx_fft" = Some (f1 "fft2" (f2 "mul" h (ph V s "ux"))) /\
  G sw1l "Jy_fft" = Some (f1 "fft2" (f2 "mul" h (ph V s "uy"))) /\
  G sw1l "Floc" = Some (fn "local_froude" [h; ph V s "ux"; ph V s "uy"]).
Proof.
  split.
  - eexists _, _. repeat split; try reflexivity. right. reflexivity.
  - repeat split. eexists. repeat split; reflexivity.
Qed.

Theorem c63_sw1l_exactlin_partial :
  let a := f2 "add" (sp V s "ap_fft") (sp V s "am_fft") in
  let rot := f2 "add" (f1 "rotfft_from_qfft" (sp V s "q_fft")) (f1 "rotfft_from_afft" a) in
  let div := f2 "divfft_from_apamfft" (sp V s "ap_fft") (sp V s "am_fft") in
  G sw1l_exactlin "a_fft" = Some a /\ G sw1l_exactlin "rot_fft" = Some rot /\
  G sw1l_exactlin "div_fft" = Some div /\ G sw1l_exactlin "div" = Some (f1 "ifft2" div) /\
  G sw1l_exactlin "eta_fft" = Some (f2 "add" (f1 "etafft_from_qfft" (sp V s "q_fft"))
                                             (f1 "etafft_from_afft" a)) /\
  G sw1l_exactlin "ux_fft" = Some (f2 "with_mean" (f2 "add" (f1 "uxfft_from_rotfft" rot)
                                    (f1 "uxfft_from_divfft" div)) (sp V s "ap_fft")) /\
  G sw1l_exactlin "uy_fft" = Some (f2 "with_mean" (f2 "add" (f1 "uyfft_from_rotfft" rot)
                                    (f1 "uyfft_from_divfft" div)) (sp V s "am_fft")).
Proof.
  cbv zeta. rewrite !(up_to_date_it V fn sw1l_exactlin s _ wf_sw1l_exactlin).
  repeat split; reflexivity.
Qed.

(** sw1l.modified: what is computed *)
Theorem c63_sw1l_modified_partial :
  let ux := f1 "fft2" (ph V s "ux") in
  G sw1l_modified "rot_fft" = Some (f2 "rotfft_from_vecfft" ux ux) /\
  G sw1l_modified "div_fft" = Some (f2 "divfft_from_vecfft" ux ux) /\
  G sw1l_modified "q_fft" = Some (f2 "sub" (f2 "rotfft_from_vecfft" (sp V s "ux_fft") (sp V s "uy_fft"))
                                  (f1 "f_times" (sp V s "eta_fft"))) /\
  G sw1l_modified "a_fft" = Some (fn "afft_from_uxuyetafft"
     [sp V s "ux_fft"; sp V s "uy_fft"; sp V s "eta_fft"]).
Proof. repeat split; reflexivity. Qed.

(** the variables of the state are themselves, whatever is in the cache: the physical ones of each solver *)
Theorem c63_state sol k : In (sol, k) (flat_map (fun x => map (pair (fst x)) (snd x))
  [(ns2d, ["ux"; "uy"; "rot"]); (ns2d_strat, ["ux"; "uy"; "rot"; "b"]); (ns2d_bouss, ["ux"; "uy"; "rot"; "b"]);
   (ns3d, ["vx"; "vy"; "vz"]); (ns3d_strat, ["vx"; "vy"; "vz"; "b"]); (plate2d, ["w"; "z"]); (ad1d, ["s"]); (ad1d_pseudo_spect, ["s"]);
   (sw1l, ["ux"; "uy"; "eta"; "rot"]); (sw1l_modified, ["ux"; "uy"; "eta"]); (sw1l_exactlin, ["ux"; "uy"; "eta"; "rot"]);
   (sw1l_onlywaves, ["ux"; "uy"; "eta"])]) -> fst (get_var V fn sol k s) = Some (ph V s k).
Proof.
  intros H. cbn in H. repeat (destruct H as [E|H]; [injection E as <- <-; reflexivity|]). destruct H.
Qed.

(** and the spectral ones *)
Theorem c63_state_spect sol k : In (sol, k) (flat_map (fun x => map (pair (fst x)) (snd x))
  [(ns2d, ["rot_fft"]); (ns2d_strat, ["rot_fft"; "b_fft"]); (ns2d_bouss, ["rot_fft"; "b_fft"]);
   (ns3d, ["vx_fft"; "vy_fft"; "vz_fft"]); (ns3d_strat, ["vx_fft"; "vy_fft"; "vz_fft"; "b_fft"]); (plate2d, ["w_fft"; "z_fft"]); (ad1d_pseudo_spect, ["s_fft"]);
   (sw1l, ["ux_fft"; "uy_fft"; "eta_fft"]); (sw1l_modified, ["ux_fft"; "uy_fft"; "eta_fft"]); (sw1l_exactlin, ["ap_fft"; "am_fft"; "q_fft"]);
   (sw1l_onlywaves, ["ap_fft"; "am_fft"])]) -> fst (get_var V fn sol k s) = Some (sp V s k).
Proof.
  intros H. cbn in H. repeat (destruct H as [E|H]; [injection E as <- <-; reflexivity|]). destruct H.
Qed.

(** sw1l.onlywaves: what can be computed *)
Theorem c63_sw1l_onlywaves_partial x y : let s := new_state V x y in
  let a := f2 "add" (sp V s "ap_fft") (sp V s "am_fft") in
  let rot := f1 "rotfft_from_afft" a in
  let div := f2 "divfft_from_apamfft" (sp V s "ap_fft") (sp V s "am_fft") in
  let G k := fst (get_var V fn sw1l_onlywaves k s) in
  G "a_fft" = Some a /\ G "rot_fft" = Some rot /\ G "rot" = Some (f1 "ifft2" rot) /\
  G "div_fft" = Some div /\ G "div" = Some (f1 "ifft2" div) /\ G "eta_fft" = Some (f1 "etafft_from_afft" a) /\
  G "ux_fft" = Some (f2 "with_mean" (f2 "add" (f1 "uxfft_from_rotfft" rot) (f1 "uxfft_from_divfft" div)) (sp V s "ap_fft")) /\
  fst (get_var V fn sw1l_onlywaves "uy_fft" (snd (get_var V fn sw1l_onlywaves "ux_fft" s)))
    = Some (f2 "with_mean" (f2 "add" (f1 "uyfft_from_rotfft" rot) (f1 "uyfft_from_divfft" div)) (sp V s "am_fft")) /\
  G "uy_fft" = None /\ G "q_fft" = Some (fn "zeros_K" []) /\ G "q" = Some (fn "zeros_X" []).
Proof. repeat split; reflexivity. Qed.

End Definitions.

(** FINDING: for sw1l.modified, rot_fft, rot, div_fft, div and q are computed with ux in place of
    uy, even if the physical and spectral states are consistent. *)
Theorem c63_sw1l_modified_refuted : exists V fn s,
  sp V s "ux_fft" = fn "fft2" [ph V s "ux"] /\ sp V s "uy_fft" = fn "fft2" [ph V s "uy"] /\
  up_to_date V fn sw1l_modified "ux_fft" s = Some (sp V s "ux_fft") /\
  up_to_date V fn sw1l_modified "uy_fft" s = Some (sp V s "uy_fft") /\
  up_to_date V fn sw1l_modified "rot_fft" s
    <> Some (fn "rotfft_from_vecfft" [sp V s "ux_fft"; sp V s "uy_fft"]) /\
  up_to_date V fn sw1l_modified "div_fft" s
    <> Some (fn "divfft_from_vecfft" [sp V s "ux_fft"; sp V s "uy_fft"]) /\
  up_to_date V fn sw1l_modified "q" s
    <> Some (fn "sub" [fn "ifft2" [fn "rotfft_from_vecfft" [sp V s "ux_fft"; sp V s "uy_fft"]];
                       fn "f_times" [ph V s "eta"]]).
Proof.
  exists nat, (fun _ l => fold_right plus 0 l),
   (mkSt nat (fun k => if String.eqb k "uy_fft" then 1 else 0) (fun k => if String.eqb k "uy" then 1 else 0)
     (no_cache nat) 0).
  repeat split; vm_compute; discriminate || reflexivity.
Qed.

(** ** C21: initialisation from arrays *)

Section Init.

Variable V : Type.
Variable fn : string -> list V -> V.
Variable zero : V.

(** what the arguments give for a key; zero if the key is not given *)
Definition given (kw : list (key * V)) (k : key) : V :=
  match kw_get V kw k with Some v => v | None => zero end.

Lemma init_loop_ok keys kw : NoDup (map fst kw) -> (forall k, In k (map fst kw) -> mem k keys = true) ->
  forall f, exists f', init_loop V keys kw f = (true, f') /\
    forall k, f' k = match kw_get V kw k with Some v => v | None => f k end.
Proof.
  induction kw as [|[k v] kw IH]; intros ND Hk f; simpl; [exists f; auto|].
  inversion ND as [|? ? Hn ND']; subst. rewrite (Hk k (or_introl eq_refl)).
  destruct (IH ND' (fun j Hj => Hk j (or_intror Hj)) (put V f k v)) as (f' & E & Hf).
  exists f'. split; [exact E|]. intros j. rewrite Hf. unfold kw_get, put. simpl.
  destruct (String.eqb_spec k j) as [<-|N].
  - match goal with |- context [find ?f kw] => destruct (find f kw) as [p|] eqn:F end; [|reflexivity]. exfalso. apply find_some in F.
    destruct F as [F1 F2]. apply String.eqb_eq in F2. apply Hn. rewrite <- F2. apply in_map, F1.
  - reflexivity.
Qed.

Lemma init_loop_bad keys kw k : In k (map fst kw) -> mem k keys = false ->
  forall f, fst (init_loop V keys kw f) = false.
Proof.
  induction kw as [|[j v] kw IH]; intros Hk Hm f; [destruct Hk|]. simpl in *.
  destruct (mem j keys) eqn:E; [|reflexivity]. apply IH; [|exact Hm].
  destruct Hk as [->|Hk]; [congruence|exact Hk].
Qed.

(** the base classes: exactly the given variables; ValueError for another key *)
Theorem c21_base sol kw s : NoDup (map fst kw) ->
  ((forall k, In k (map fst kw) -> mem k (keys_state_phys sol) = true) ->
   exists s', init_statephys_from V sol zero kw s = (true, s') /\ (forall k, ph V s' k = given kw k)
     /\ sp V s' = sp V s) /\
  ((forall k, In k (map fst kw) -> mem k (keys_state_spect sol) = true) ->
   exists s', init_statespect_from V sol zero kw s = (true, s') /\ (forall k, sp V s' k = given kw k)
     /\ ph V s' = ph V s) /\
  (forall k, In k (map fst kw) -> mem k (keys_state_phys sol) = false ->
     fst (init_statephys_from V sol zero kw s) = false) /\
  (forall k, In k (map fst kw) -> mem k (keys_state_spect sol) = false ->
     fst (init_statespect_from V sol zero kw s) = false).
Proof.
  intros ND. repeat split.
  - intros H. unfold init_statephys_from.
    destruct (init_loop_ok _ kw ND H (fun _ => zero)) as (f & -> & Hf). eexists. split; [reflexivity|].
    split; [exact Hf|reflexivity].
  - intros H. unfold init_statespect_from.
    destruct (init_loop_ok _ kw ND H (fun _ => zero)) as (f & -> & Hf). eexists. split; [reflexivity|].
    split; [exact Hf|reflexivity].
  - intros k Hk Hm. unfold init_statephys_from.
    pose proof (init_loop_bad _ kw k Hk Hm (fun _ => zero)) as E.
    destruct (init_loop _ _ _ _) as [ok f]. exact E.
  - intros k Hk Hm. unfold init_statespect_from.
    pose proof (init_loop_bad _ kw k Hk Hm (fun _ => zero)) as E.
    destruct (init_loop _ _ _ _) as [ok f]. exact E.
Qed.

(** ns3d: the state variables are set as in the base class; the other accepted keys give the
    velocity and zero elsewhere *)
Lemma spect_spec sol kw s : NoDup (map fst kw) ->
  (forall k, In k (map fst kw) -> mem k (keys_state_spect sol) = true) ->
  exists s', init_statespect_from V sol zero kw s = (true, s') /\ forall k, sp V s' k = given kw k.
Proof.
  intros ND H. destruct (c21_base sol kw s ND) as (_ & B & _). destruct (B H) as (s' & E & F & _). eauto.
Qed.

Theorem c21_ns3d sol kw s : sol = ns3d \/ sol = ns3d_strat -> NoDup (map fst kw) ->
  (forall k, In k (map fst kw) -> mem k (keys_state_spect sol) = true) ->
  exists s', init_statespect_from_ns3d V fn sol zero kw s = (true, s') /\
    forall k, sp V s' k = given kw k.
Proof.
  intros Hsol ND H.
  assert (E : init_statespect_from_ns3d V fn sol zero kw s = init_statespect_from V sol zero kw s).
  { destruct kw as [|[k a] [|p kw]]; try reflexivity. unfold init_statespect_from_ns3d.
    specialize (H k (or_introl eq_refl)).
    destruct (String.eqb_spec k "rotz_fft") as [->|_]; [destruct Hsol; subst; discriminate|].
    destruct (String.eqb_spec k "divh_fft") as [->|_]; [destruct Hsol; subst; discriminate|].
    destruct (String.eqb_spec k "vp_fft") as [->|_]; [destruct Hsol; subst; discriminate|].
    destruct (String.eqb_spec k "vt_fft") as [->|_]; [destruct Hsol; subst; discriminate|].
    reflexivity. }
  rewrite E. apply spect_spec; assumption.
Qed.

Theorem c21_ns3d_derived sol a s : sol = ns3d \/ sol = ns3d_strat ->
  forall name, In name ["rotz"; "divh"; "vp"; "vt"] ->
  exists s', init_statespect_from_ns3d V fn sol zero [(name ++ "_fft", a)] s = (true, s') /\
   forall k, sp V s' k =
     if String.eqb k "vx_fft" then fn ("vxfft_from_" ++ name ++ "fft") [a]
     else if String.eqb k "vy_fft" then fn ("vyfft_from_" ++ name ++ "fft") [a]
     else if String.eqb k "vz_fft" && mem name ["vp"; "vt"] then fn ("vzfft_from_" ++ name ++ "fft") [a]
     else zero.
Proof.
  intros Hsol name Hn.
  assert (X : forall k, String.eqb "vx_fft" k = String.eqb k "vx_fft" /\
     String.eqb "vy_fft" k = String.eqb k "vy_fft" /\ String.eqb "vz_fft" k = String.eqb k "vz_fft")
    by (intros; repeat split; apply String.eqb_sym).
  simpl in Hn.
  destruct Hn as [<-|[<-|[<-|[<-|[]]]]]; destruct Hsol as [->| ->];
    (eexists; split; [reflexivity|]); intros k; destruct (X k) as (X1 & X2 & X3);
    cbn [sp]; unfold put; rewrite X1, X2, ?X3;
    (destruct (String.eqb_spec k "vx_fft") as [E|_]; [clear X1 X2 X3; subst k; reflexivity|]);
    (destruct (String.eqb_spec k "vy_fft") as [E|_]; [clear X1 X2 X3; subst k; reflexivity|]);
    destruct (String.eqb_spec k "vz_fft") as [E|_]; [clear X1 X2 X3; subst k; reflexivity|reflexivity..].
Qed.

Example c21_example : NoDup (map fst [("vx_fft", zero); ("b_fft", zero)]) /\
  forall k, In k ["vx_fft"; "b_fft"] -> mem k (keys_state_spect ns3d_strat) = true.
Proof.
  split.
  - repeat constructor; simpl; intuition congruence.
  - intros k [<-|[<-|[]]]; reflexivity.
Qed.

(** ns2d: one spectral argument.  The given field is truncated; the physical state follows. *)
Theorem c21_ns2d_partial a s : exists s',
  init_statespect_from_ns2d V fn ns2d zero [("rot_fft", a)] s = (true, s') /\
  sp V s' "rot_fft" = fn "dealiasing" [a] /\
  ph V s' "rot" = fn "ifft2" [sp V s' "rot_fft"] /\
  ph V s' "ux" = fn "ifft2" [fn "uxfft_from_rotfft" [sp V s' "rot_fft"]] /\
  ph V s' "uy" = fn "ifft2" [fn "uyfft_from_rotfft" [sp V s' "rot_fft"]].
Proof. eexists. repeat split; reflexivity. Qed.

(** ns2d.strat: rot_fft alone (b is zero after truncation), and the two variables *)
Theorem c21_ns2d_strat_partial r b s : (exists s',
  init_statespect_from_ns2d_strat V fn ns2d_strat zero [("rot_fft", r)] s = (true, s') /\
  sp V s' "rot_fft" = fn "dealiasing" [r] /\ sp V s' "b_fft" = fn "dealiasing" [zero]) /\
  (exists s', init_statespect_from_ns2d_strat V fn ns2d_strat zero [("rot_fft", r); ("b_fft", b)] s = (true, s') /\
  sp V s' "rot_fft" = fn "dealiasing" [r] /\ sp V s' "b_fft" = fn "dealiasing" [b] /\
  ph V s' "b" = fn "ifft2" [sp V s' "b_fft"] /\ ph V s' "rot" = fn "ifft2" [sp V s' "rot_fft"]).
Proof. split; eexists; repeat split; reflexivity. Qed.

(** sw1l: q_fft alone, a_fft alone, eta_fft alone, or the three state variables *)
Theorem c21_sw1l_partial x y z s :
  (exists s', init_statespect_from_sw1l V fn sw1l zero [("eta_fft", z)] s = (true, s') /\
     sp V s' "eta_fft" = fn "dealiasing" [z] /\ sp V s' "ux_fft" = fn "dealiasing" [zero] /\
     sp V s' "uy_fft" = fn "dealiasing" [zero]) /\
  (exists s', init_statespect_from_sw1l V fn sw1l zero [("ux_fft", x); ("uy_fft", y); ("eta_fft", z)] s = (true, s') /\
     sp V s' "ux_fft" = x /\ sp V s' "uy_fft" = y /\ sp V s' "eta_fft" = z) /\
  (exists s', init_statespect_from_sw1l V fn sw1l zero [("ux_fft", x)] s = (true, s') /\
     sp V s' "ux_fft" = x /\ sp V s' "uy_fft" = zero /\ sp V s' "eta_fft" = zero).
Proof. repeat split; eexists; repeat split; reflexivity. Qed.

(** ns2d: the vorticity given, or that of the given component (the other one being zero), truncated; the physical state follows *)
Theorem c21_ns2d_given_partial a s : forall k r,
  In (k, r) [("rot_fft", a); ("ux_fft", fn "rotfft_from_vecfft" [a; zero]); ("uy_fft", fn "rotfft_from_vecfft" [zero; a])] -> exists s',
  init_statespect_from_ns2d V fn ns2d zero [(k, a)] s = (true, s') /\
  sp V s' "rot_fft" = fn "dealiasing" [r] /\
  ph V s' "rot" = fn "ifft2" [sp V s' "rot_fft"] /\
  ph V s' "ux" = fn "ifft2" [fn "uxfft_from_rotfft" [sp V s' "rot_fft"]] /\
  ph V s' "uy" = fn "ifft2" [fn "uyfft_from_rotfft" [sp V s' "rot_fft"]].
Proof. intros k r H. cbn in H. destruct H as [E|[E|[E|[]]]]; injection E as <- <-; eexists; repeat split; reflexivity. Qed.

(** ns2d, physical arguments: the vorticity of the given component; the whole state for the other keys; an error for an unknown key *)
Theorem c21_ns2d_phys_partial a s :
  (exists s', init_statephys_from_ns2d V fn ns2d zero [("ux", a)] s = (true, s') /\
     ph V s' "rot" = fn "ifft2" [fn "rotfft_from_vecfft" [fn "fft2" [a]; zero]]) /\
  (exists s', init_statephys_from_ns2d V fn ns2d zero [("uy", a)] s = (true, s') /\
     ph V s' "rot" = fn "ifft2" [fn "rotfft_from_vecfft" [zero; fn "fft2" [a]]]) /\
  (exists s', init_statephys_from_ns2d V fn ns2d zero [("rot", a)] s = (true, s') /\
     ph V s' "rot" = a /\ ph V s' "ux" = zero /\ ph V s' "uy" = zero) /\
  (forall k, ~ In k ["ux"; "uy"; "rot"] -> fst (init_statephys_from_ns2d V fn ns2d zero [(k, a)] s) = false).
Proof.
  split; [eexists; split; reflexivity|]. split; [eexists; split; reflexivity|]. split; [eexists; repeat split; reflexivity|].
  intros k H. unfold init_statephys_from_ns2d, init_statephys_from, init_loop.
  destruct (String.eqb_spec k "ux") as [->|_]; [exfalso; apply H; simpl; auto|]. destruct (String.eqb_spec k "uy") as [->|_]; [exfalso; apply H; simpl; auto|].
  destruct (mem k (keys_state_phys ns2d)) eqn:M; [exfalso|reflexivity]. apply H. unfold mem in M. apply existsb_exists in M. destruct M as (x & I & E).
  apply String.eqb_eq in E. subst x. exact I.
Qed.

(** ns2d.strat: one spectral argument, but b_fft *)
Theorem c21_ns2d_strat_given_partial a s : forall k r b,
  In (k, (r, b)) [("rot_fft", (a, zero)); ("ap_fft", (fn "rotfft_from_apfft" [a], fn "bfft_from_apfft" [a]));
    ("am_fft", (fn "rotfft_from_amfft" [a], fn "bfft_from_amfft" [a])); ("ux_fft", (fn "rotfft_from_vecfft" [a; zero], zero));
    ("uy_fft", (fn "rotfft_from_vecfft" [zero; a], zero))] -> exists s',
  init_statespect_from_ns2d_strat V fn ns2d_strat zero [(k, a)] s = (true, s') /\
  sp V s' "rot_fft" = fn "dealiasing" [r] /\ sp V s' "b_fft" = fn "dealiasing" [b] /\
  ph V s' "rot" = fn "ifft2" [sp V s' "rot_fft"] /\ ph V s' "b" = fn "ifft2" [sp V s' "b_fft"] /\
  ph V s' "ux" = fn "ifft2" [fn "uxfft_from_rotfft" [sp V s' "rot_fft"]] /\
  ph V s' "uy" = fn "ifft2" [fn "uyfft_from_rotfft" [sp V s' "rot_fft"]].
Proof. intros k r b H. cbn in H. destruct H as [E|[E|[E|[E|[E|[]]]]]]; injection E as <- <- <-; eexists; repeat split; reflexivity. Qed.

(** ns2d.strat and ns2d.bouss: the two variables, in any order *)
Theorem c21_ns2d_two_partial r b s : forall kw init,
  In kw [[("rot_fft", r); ("b_fft", b)]; [("b_fft", b); ("rot_fft", r)]] ->
  In init [init_statespect_from_ns2d_strat V fn ns2d_strat zero; init_statespect_from_ns2d_bouss V fn ns2d_bouss zero] -> exists s',
  init kw s = (true, s') /\ sp V s' "rot_fft" = fn "dealiasing" [r] /\ sp V s' "b_fft" = fn "dealiasing" [b] /\
  ph V s' "rot" = fn "ifft2" [sp V s' "rot_fft"] /\ ph V s' "b" = fn "ifft2" [sp V s' "b_fft"] /\
  ph V s' "ux" = fn "ifft2" [fn "uxfft_from_rotfft" [sp V s' "rot_fft"]] /\
  ph V s' "uy" = fn "ifft2" [fn "uyfft_from_rotfft" [sp V s' "rot_fft"]].
Proof. intros kw init H I. cbn in H, I. destruct H as [<-|[<-|[]]]; destruct I as [<-|[<-|[]]]; eexists; repeat split; reflexivity. Qed.

(** plate2d: w_fft alone, and the two variables *)
Theorem c21_plate2d_partial w z s :
  (exists s', init_statespect_from_plate2d V fn plate2d zero [("w_fft", w)] s = (true, s') /\
     sp V s' "w_fft" = fn "dealiasing" [w] /\ sp V s' "z_fft" = fn "dealiasing" [zero] /\
     ph V s' "w" = fn "ifft2" [sp V s' "w_fft"] /\ ph V s' "z" = fn "ifft2" [sp V s' "z_fft"]) /\
  (exists s', init_statespect_from_plate2d V fn plate2d zero [("w_fft", w); ("z_fft", z)] s = (true, s') /\
     sp V s' "w_fft" = w /\ sp V s' "z_fft" = z).
Proof. split; eexists; repeat split; reflexivity. Qed.

(** sw1l: one argument; the physical state follows *)
Theorem c21_sw1l_given_partial a s : forall k x y e,
  In (k, (x, (y, e))) [("eta_fft", (fn "dealiasing" [zero], (fn "dealiasing" [zero], fn "dealiasing" [a])));
    ("q_fft", (fn "dealiasing" [fn "uxfft_from_rotfft" [fn "rotfft_from_qfft" [a]]],
              (fn "dealiasing" [fn "uyfft_from_rotfft" [fn "rotfft_from_qfft" [a]]], fn "dealiasing" [fn "etafft_from_qfft" [a]])));
    ("a_fft", (fn "dealiasing" [fn "uxfft_from_afft" [a]], (fn "dealiasing" [fn "uyfft_from_afft" [a]], fn "dealiasing" [fn "etafft_from_afft" [a]])));
    ("rot_fft", (fn "proj_dealias_uxfft_from_rotfft" [a], (fn "proj_dealias_uyfft_from_rotfft" [a],
       fn "etafft_no_div" [fn "proj_dealias_uxfft_from_rotfft" [a]; fn "proj_dealias_uyfft_from_rotfft" [a]])))] -> exists s',
  init_statespect_from_sw1l V fn sw1l zero [(k, a)] s = (true, s') /\
  sp V s' "ux_fft" = x /\ sp V s' "uy_fft" = y /\ sp V s' "eta_fft" = e /\
  ph V s' "ux" = fn "ifft2" [x] /\ ph V s' "uy" = fn "ifft2" [y] /\ ph V s' "eta" = fn "ifft2" [e] /\
  ph V s' "rot" = fn "ifft2" [fn "rotfft_from_vecfft" [x; y]].
Proof. intros k x y e H. cbn in H. destruct H as [E|[E|[E|[E|[]]]]]; injection E as <- <- <- <-; eexists; repeat split; reflexivity. Qed.

(** sw1l, q_fft and a_fft: the elevation, and the physical state which follows *)
Theorem c21_sw1l_qa_partial q a s : exists s',
  init_statespect_from_sw1l V fn sw1l zero [("q_fft", q); ("a_fft", a)] s = (true, s') /\
  sp V s' "ux_fft" = fn "dealiasing" [fn "add" [fn "uxfft_from_rotfft" [fn "rotfft_from_qfft" [q]]; fn "uxfft_from_afft" [a]]] /\
  sp V s' "eta_fft" = fn "dealiasing" [fn "add" [fn "etafft_from_qfft" [q]; fn "etafft_from_afft" [a]]] /\
  ph V s' "ux" = fn "ifft2" [sp V s' "ux_fft"] /\ ph V s' "uy" = fn "ifft2" [sp V s' "uy_fft"] /\ ph V s' "eta" = fn "ifft2" [sp V s' "eta_fft"] /\
  ph V s' "rot" = fn "ifft2" [fn "rotfft_from_vecfft" [sp V s' "ux_fft"; sp V s' "uy_fft"]].
Proof. eexists. repeat split; reflexivity. Qed.

(** FINDINGS *)

(** ns2d.strat: b_fft alone is ignored: the state is set to zero, whatever b_fft is *)
Theorem c21_ns2d_strat_b_ignored b s : exists s',
  init_statespect_from_ns2d_strat V fn ns2d_strat zero [("b_fft", b)] s = (true, s') /\
  forall k, sp V s' k = zero.
Proof. eexists. split; reflexivity. Qed.

(** and an unknown key is accepted *)
Theorem c21_ns2d_strat_unknown_accepted k b s :
  ~ In k ["rot_fft"; "ap_fft"; "am_fft"; "ux_fft"; "uy_fft"] ->
  fst (init_statespect_from_ns2d_strat V fn ns2d_strat zero [(k, b)] s) = true.
Proof.
  intros H. unfold init_statespect_from_ns2d_strat. simpl in H.
  repeat match goal with |- context [String.eqb k ?c] =>
    destruct (String.eqb_spec k c) as [->|_]; [reflexivity|] end.
  reflexivity.
Qed.

(** plate2d: one argument which is not w_fft (in particular z_fft) is ignored *)
Theorem c21_plate2d_ignored k a s : k <> "w_fft" ->
  init_statespect_from_plate2d V fn plate2d zero [(k, a)] s = (true, s).
Proof.
  intros H. unfold init_statespect_from_plate2d. apply String.eqb_neq in H. rewrite H. reflexivity.
Qed.

(** sw1l, ns2d.bouss: two arguments, except (q_fft, a_fft), (rot_fft, b_fft), are ignored *)
Theorem c21_two_arguments_ignored s :
  (forall x y, init_statespect_from_sw1l V fn sw1l zero [("ux_fft", x); ("uy_fft", y)] s = (true, s)) /\
  (forall x k y, k <> "b_fft" ->
     init_statespect_from_ns2d_bouss V fn ns2d_bouss zero [("rot_fft", x); (k, y)] s = (true, s)).
Proof.
  split; [reflexivity|]. intros x k y Hk. unfold init_statespect_from_ns2d_bouss, kw_get.
  simpl. apply String.eqb_neq in Hk. rewrite Hk. reflexivity.
Qed.

(** ns2d: init_statephys_from(ux=...) does not set ux, does not zero uy *)
Theorem c21_ns2d_ux_unchanged a s : exists s',
  init_statephys_from_ns2d V fn ns2d zero [("ux", a)] s = (true, s') /\
  ph V s' "ux" = ph V s "ux" /\ ph V s' "uy" = ph V s "uy".
Proof. eexists. repeat split; reflexivity. Qed.

(** sw1l: with q_fft and a_fft, uy_fft gets the x component of the ageostrophic velocity *)
Theorem c21_sw1l_qa_velocity q a s : exists s',
  init_statespect_from_sw1l V fn sw1l zero [("q_fft", q); ("a_fft", a)] s = (true, s') /\
  sp V s' "ux_fft" = fn "dealiasing" [fn "add" [fn "uxfft_from_rotfft" [fn "rotfft_from_qfft" [q]];
                                                fn "uxfft_from_afft" [a]]] /\
  sp V s' "uy_fft" = fn "dealiasing" [fn "add" [fn "uyfft_from_rotfft" [fn "rotfft_from_qfft" [q]];
                                                fn "uxfft_from_afft" [a]]].
Proof. eexists. repeat split; reflexivity. Qed.

End Init.

(** the property is false for these solvers *)
Theorem c21_refuted : exists (V : Type) fn zero,
  (exists b s, ~ exists s', init_statespect_from_ns2d_strat V fn ns2d_strat zero [("b_fft", b)] s
     = (true, s') /\ sp V s' "b_fft" = b) /\
  (exists z s, ~ exists s', init_statespect_from_plate2d V fn plate2d zero [("z_fft", z)] s
     = (true, s') /\ sp V s' "z_fft" = z) /\
  (exists x y s, ~ exists s', init_statespect_from_sw1l V fn sw1l zero [("ux_fft", x); ("uy_fft", y)] s
     = (true, s') /\ sp V s' "ux_fft" = x) /\
  (exists x s, ~ exists s', init_statephys_from_ns2d V fn ns2d zero [("ux", x)] s
     = (true, s') /\ ph V s' "ux" = x) /\
  (exists q a s, ~ exists s', init_statespect_from_sw1l V fn sw1l zero [("q_fft", q); ("a_fft", a)] s
     = (true, s') /\ sp V s' "uy_fft" = fn "dealiasing" [fn "add"
        [fn "uyfft_from_rotfft" [fn "rotfft_from_qfft" [q]]; fn "uyfft_from_afft" [a]]]).
Proof.
  exists nat, (fun f l => if String.eqb f "uxfft_from_afft" then 1 else fold_right plus 0 l), 0.
  pose (s := mkSt nat (fun _ => 0) (fun _ => 0) (no_cache nat) 0).
  split; [exists 1, s; intros (s' & E & X); injection E as <-; discriminate|].
  split; [exists 1, s; intros (s' & E & X); injection E as <-; discriminate|].
  split; [exists 1, 1, s; intros (s' & E & X); injection E as <-; discriminate|].
  split; [exists 1, s; intros (s' & E & X); injection E as <-; discriminate|].
  exists 0, 0, s; intros (s' & E & X). injection E as <-. discriminate.
Qed.

Print Assumptions c20_up_to_date_partial.
Print Assumptions c20_solvers_partial.
Print Assumptions c20_refuted.
Print Assumptions c20_onlywaves_refuted.
Print Assumptions c63_declared.
Print Assumptions c63_ns2d_partial.
Print Assumptions c63_ns2d_strat_partial.
Print Assumptions c63_ns2d_bouss_partial.
Print Assumptions c63_ns3d_partial.
Print Assumptions c63_plate2d_partial.
Print Assumptions c63_ad1d_partial.
Print Assumptions c63_sw1l_partial.
Print Assumptions c63_sw1l_exactlin_partial.
Print Assumptions c63_sw1l_modified_partial.
Print Assumptions c63_sw1l_modified_refuted.
Print Assumptions c21_base.
Print Assumptions c21_ns3d.
Print Assumptions c21_ns3d_derived.
Print Assumptions c21_ns2d_partial.
Print Assumptions c21_ns2d_strat_partial.
Print Assumptions c21_sw1l_partial.
Print Assumptions c21_refuted.
Print Assumptions c21_ns2d_given_partial.
Print Assumptions c21_ns2d_phys_partial.
Print Assumptions c21_ns2d_strat_given_partial.
Print Assumptions c21_ns2d_two_partial.
Print Assumptions c21_plate2d_partial.
Print Assumptions c21_sw1l_given_partial.
Print Assumptions c21_sw1l_qa_partial.
Print Assumptions c21_ns2d_strat_b_ignored.
Print Assumptions c21_ns2d_strat_unknown_accepted.
Print Assumptions c21_plate2d_ignored.
Print Assumptions c21_two_arguments_ignored.
Print Assumptions c21_ns2d_ux_unchanged.
Print Assumptions c21_sw1l_qa_velocity.
Print Assumptions c63_state.
Print Assumptions c63_state_spect.
Print Assumptions c63_sw1l_onlywaves_partial.
