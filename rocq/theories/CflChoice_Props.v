(** * Choice of the computation of the time step: C255 *)

From Coq Require Import Ascii String List Bool QArith Lia.
From Verif Require Import CflChoice_Model.
Import ListNotations.
Local Open Scope string_scope.

(** ** Specification *)
(** the variable can be obtained with get_var *)
Definition available (s : state) (k : string) : Prop := In k (keys_phys s) \/ In k (keys_computable s) \/ exists l, keys_spect s = Some l /\ In k l.

(** the components of the velocity of a state, with the names of the solvers: v* in three dimensions, u* otherwise *)
Definition velocity3 (s : state) : Prop := available s "vx" /\ available s "vy" /\ available s "vz".
Definition no_v (s : state) : Prop := forall k, In k ["vx"; "vy"; "vz"; "uz"] -> ~ available s k.

(** ** Lemmas *)
Lemma is_in_iff k l : is_in k l = true <-> In k l.
Proof.
  unfold is_in. rewrite existsb_exists. split.
  - intros (x & A & B). apply String.eqb_eq in B. subst. exact A.
  - intros H. exists k. split; [exact H|apply String.eqb_refl].
Qed.

Lemma in_keys_state s k : In k (keys_state s) <-> available s k.
Proof.
  unfold keys_state, available. rewrite !in_app_iff. destruct (keys_spect s) as [l|].
  - split; [intros [?|[?|?]]; eauto|intros [?|[?|(l' & E & ?)]]; [eauto|eauto|injection E as <-; auto]].
  - split; [intros [?|[?|[]]]; auto|intros [?|[?|(l' & E & ?)]]; [auto|auto|discriminate]].
Qed.

Lemma has_vars_iff s keys : has_vars s keys = true <-> forall k, In k keys -> available s k.
Proof.
  unfold has_vars. rewrite forallb_forall. split; intros H k Hk.
  - apply in_keys_state. apply is_in_iff. apply H. exact Hk.
  - apply is_in_iff. apply in_keys_state. apply H. exact Hk.
Qed.

Lemma has_one s k : has_vars s [k] = true <-> available s k.
Proof. rewrite has_vars_iff. split; [intros H; apply H; left; reflexivity|intros H x [<-|[]]; exact H]. Qed.
Lemma has_one_false s k : ~ available s k -> has_vars s [k] = false.
Proof. intros H. destruct (has_vars s [k]) eqn:E; [apply has_one in E; contradiction|reflexivity]. Qed.

Lemma get_var_iff s k : get_var_ok s k = true <-> available s k.
Proof.
  unfold get_var_ok, available. rewrite !orb_true_iff, !is_in_iff. destruct (keys_spect s) as [l|].
  - rewrite is_in_iff. split; [intros [[?|?]|?]; eauto|intros [?|[?|(l' & E & ?)]]; [auto|auto|injection E as <-; auto]].
  - split; [intros [[?|?]|?]; [discriminate|auto|auto]|intros [?|[?|(l' & E & ?)]]; [auto|auto|discriminate]].
Qed.

Lemma first_call_ok s f : (forall k, In k (keys_read f) -> available s k) -> first_call s f = inl (keys_read f).
Proof.
  intros H. unfold first_call. destruct (find _ _) as [k|] eqn:E; [|reflexivity].
  apply find_some in E as [A B]. apply H, get_var_iff in A. rewrite A in B. discriminate.
Qed.

Lemma find_none_ex {A} (p : A -> bool) l x : In x l -> p x = true -> find p l <> None.
Proof. intros A0 B E. pose proof (find_none p l E x A0). congruence. Qed.

(** has_vars: the keys are in the union of the keys of the state; has_vars is true exactly when get_var gives all of them *)
Theorem c255_has_vars : forall s keys, (has_vars s keys = true <-> forall k, In k keys -> available s k)
  /\ (has_vars s keys = true <-> forall k, In k keys -> get_var_ok s k = true).
Proof.
  intros s keys. split; [apply has_vars_iff|]. rewrite has_vars_iff. split; intros H k Hk; apply get_var_iff; auto.
Qed.

(** a state with the velocity vx, vy, vz or with the velocity ux, uy (and the height), or ux: all its components are used *)
Theorem c255_velocity_partial : forall s p f, choose s p = inl (Some f) -> f <> F_U ->
  (velocity3 s -> f = F_uxuyuz /\ first_call s f = inl ["vx"; "vy"; "vz"])
  /\ (no_v s -> available s "ux" /\ (available s "uy" -> first_call s f = inl ["ux"; "uy"])
                /\ (available s "uy" -> (f = F_uxuyeta <-> available s "eta"))
                /\ (~ available s "uy" -> first_call s f = inl ["ux"])).
Proof.
  intros s p f C NU. split.
  - intros (X & Y & Z). unfold choose in C.
    rewrite (proj2 (has_one s "vx") X), (proj2 (has_one s "vy") Y), (proj2 (has_one s "vz") Z), !orb_true_r in C. cbn in C.
    injection C as <-. split; [reflexivity|]. apply first_call_ok. intros k [<-|[<-|[<-|[]]]]; assumption.
  - intros N. unfold choose in C.
    rewrite (has_one_false s "vx"), (has_one_false s "vy"), (has_one_false s "vz"), (has_one_false s "uz") in C by (apply N; cbn; auto 10).
    rewrite !orb_false_r in C. rewrite andb_false_r in C.
    destruct (has_vars s ["ux"]) eqn:X.
    2:{ cbn in C. destruct (has_U p); [injection C as <-; contradiction|destruct (use_cfl p); discriminate]. }
    apply has_one in X. split; [exact X|]. cbn [andb] in C. destruct (has_vars s ["uy"]) eqn:Y.
    + apply has_one in Y. cbn [andb] in C. destruct (has_vars s ["eta"]) eqn:E; injection C as <-.
      * split; [|split; [|intros; contradiction]].
        -- intros _. apply first_call_ok. intros k [<-|[<-|[]]]; assumption.
        -- intros _. split; [intros _; apply has_one; exact E|reflexivity].
      * split; [|split; [|intros; contradiction]].
        -- intros _. apply first_call_ok. intros k [<-|[<-|[]]]; assumption.
        -- intros _. split; [discriminate|]. intros A. apply has_one in A. congruence.
    + cbn [andb] in C. injection C as <-. split; [|split].
      * intros A. apply has_one in A. congruence.
      * intros A. apply has_one in A. congruence.
      * intros _. apply first_call_ok. intros k [<-|[]]; assumption.
Qed.

(** the choice for each set of available variables *)
Definition component (s : state) (x : string) : Prop := available s ("u" ++ x) \/ available s ("v" ++ x).
Lemma has_component s x : has_vars s ["u" ++ x] || has_vars s ["v" ++ x] = true <-> component s x.
Proof. rewrite orb_true_iff, !has_one. reflexivity. Qed.
Theorem c255_choice : forall s p f, choose s p = inl (Some f) -> f <> F_U ->
  component s "x"
  /\ (f = F_uxuyuz <-> component s "y" /\ component s "z")
  /\ (f = F_uxuyeta <-> component s "y" /\ ~ component s "z" /\ available s "eta")
  /\ (f = F_uxuy <-> component s "y" /\ ~ component s "z" /\ ~ available s "eta")
  /\ (f = F_ux <-> ~ component s "y").
Proof.
  intros s p f C NU. unfold choose in C.
  pose proof (has_component s "x") as X. pose proof (has_component s "y") as Y. pose proof (has_component s "z") as Z.
  pose proof (has_one s "eta") as E. cbn [append] in X, Y, Z.
  destruct (has_vars s ["ux"] || has_vars s ["vx"]).
  2:{ cbn in C. destruct (has_U p); [congruence|destruct (use_cfl p); discriminate]. }
  split; [apply X; reflexivity|]. clear X.
  destruct (has_vars s ["uy"] || has_vars s ["vy"]), (has_vars s ["uz"] || has_vars s ["vz"]), (has_vars s ["eta"]);
    cbn in C; injection C as <-; intuition congruence.
Qed.

(** without velocity along x: params.U, or a ValueError when the time step has to be computed *)
Theorem c255_no_velocity : forall s p, ~ available s "ux" -> ~ available s "vx" ->
  choose s p = if has_U p then inl (Some F_U) else if use_cfl p then inr "params_ts.USE_CFL but no velocity." else inl None.
Proof.
  intros s p A B. unfold choose. rewrite (has_one_false s "ux" A), (has_one_false s "vx" B). reflexivity.
Qed.

(** the CFL number *)
Lemma prefix_app a : forall b, String.prefix a b = true <-> exists r, b = a ++ r.
Proof.
  induction a as [|x a IH]; intros b.
  - split; [exists b; reflexivity|]. destruct b; reflexivity.
  - destruct b as [|y b]; [split; [discriminate|intros (r & E); discriminate]|]. cbn [String.prefix append].
    destruct (Ascii.ascii_dec x y) as [->|E].
    + rewrite IH. split; intros (r & H); exists r; [rewrite H; reflexivity|injection H; auto].
    + split; [discriminate|intros (r & H); injection H; congruence].
Qed.

Theorem c255_CFL : forall p, use_cfl p = true ->
  (forall c, cfl_coef p = Some c -> init_CFL p = inl (Some c))
  /\ (cfl_coef p = None ->
      (forall r, type_time_scheme p = "RK2" ++ r -> init_CFL p = inl (Some (4 # 10)%Q))
      /\ (forall r, type_time_scheme p = "Euler" ++ r -> init_CFL p = inl (Some (4 # 10)%Q))
      /\ (forall r, type_time_scheme p = "RK4" ++ r -> init_CFL p = inl (Some 1%Q))
      /\ ((forall r a, In a ["RK2"; "Euler"; "RK4"] -> type_time_scheme p <> a ++ r) -> init_CFL p = inr "Problem name time_scheme")).
Proof.
  intros p U. unfold init_CFL, startswith. rewrite U. split; [intros c ->; reflexivity|]. intros ->. cbn [existsb].
  split; [|split; [|split]].
  - intros r E. rewrite (proj2 (prefix_app "RK2" _) (ex_intro _ r E)). reflexivity.
  - intros r E. rewrite (proj2 (prefix_app "Euler" _) (ex_intro _ r E)). rewrite orb_true_r. reflexivity.
  - intros r E. rewrite (proj2 (prefix_app "RK4" _) (ex_intro _ r E)), E. reflexivity.
  - intros H. assert (G : forall a, In a ["RK2"; "Euler"; "RK4"] -> String.prefix a (type_time_scheme p) = false).
    { intros a Ha. destruct (String.prefix a (type_time_scheme p)) eqn:E; [|reflexivity].
      apply prefix_app in E as (r & E). destruct (H r a Ha E). }
    rewrite !G by (cbn; auto). reflexivity.
Qed.

(** ux, uy and uz: the function is chosen and it fails at its first call; vx and vy (or vx): also *)
Theorem c255_refuted : exists s s' s'' p, use_cfl p = true /\ (forall k, In k ["ux"; "uy"; "uz"] -> available s k)
  /\ init_compute_time_step s p = inl (Some 1%Q, Some F_uxuyuz) /\ first_call s F_uxuyuz = inr "No method to compute key ""vx"""
  /\ (forall k, In k ["vx"; "vy"] -> available s' k)
  /\ init_compute_time_step s' p = inl (Some 1%Q, Some F_uxuy) /\ first_call s' F_uxuy = inr "No method to compute key ""ux"""
  /\ available s'' "vx"
  /\ init_compute_time_step s'' p = inl (Some 1%Q, Some F_ux) /\ first_call s'' F_ux = inr "No method to compute key ""ux""".
Proof.
  exists (mkState ["ux"; "uy"; "uz"] [] None), (mkState ["vx"; "vy"] [] None), (mkState ["vx"] [] None), (mkParams true None "RK4" false).
  split; [reflexivity|]. split; [intros k Hk; left; exact Hk|]. split; [reflexivity|]. split; [reflexivity|].
  split; [intros k Hk; left; exact Hk|]. split; [reflexivity|]. split; [reflexivity|].
  split; [left; left; reflexivity|]. split; reflexivity.
Qed.

(** the solvers *)
Example c255_solvers : forall p, use_cfl p = true -> has_U p = false ->
  choose st_ns2d p = inl (Some F_uxuy) /\ choose st_ns3d p = inl (Some F_uxuyuz) /\ choose st_sw1l p = inl (Some F_uxuyeta)
  /\ velocity3 st_ns3d /\ no_v st_ns2d /\ no_v st_sw1l
  /\ (forall s, In s [st_plate2d; st_waves2d; st_burgers1d] -> choose s p = inr "params_ts.USE_CFL but no velocity.").
Proof.
  intros p U V. split; [reflexivity|]. split; [reflexivity|]. split; [reflexivity|]. split; [|split; [|split]].
  - split; [|split]; left; cbn; auto.
  - intros k Hk A. apply has_one in A. destruct Hk as [<-|[<-|[<-|[<-|[]]]]]; discriminate.
  - intros k Hk A. apply has_one in A. destruct Hk as [<-|[<-|[<-|[<-|[]]]]]; discriminate.
  - intros s [<-|[<-|[<-|[]]]]; cbn; rewrite U, V; reflexivity.
Qed.

Example c255_ad1d : choose st_ad1d (mkParams true None "RK2" true) = inl (Some F_U) /\ first_call st_ad1d F_U = inl []
  /\ init_compute_time_step st_ad1d (mkParams true None "RK2_trapezoid" true) = inl (Some (4 # 10)%Q, Some F_U).
Proof. split; [|split]; reflexivity. Qed.

Print Assumptions c255_has_vars.
Print Assumptions c255_velocity_partial.
Print Assumptions c255_no_velocity.
Print Assumptions c255_CFL.
Print Assumptions c255_refuted.
Print Assumptions c255_choice.
