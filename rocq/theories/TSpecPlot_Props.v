(** C287: plot_spectra of the temporal spectra. *)
From Coq Require Import Ascii String List Reals Bool Lra Lia.
From Verif Require Import TSpecPlot_Model.
Import ListNotations.

(** ** The file of the spectra *)

(** str() of the numbers and of the dtype: no underscore; the dtype is not empty and without point *)
Definition plain (x : txt) : Prop := ~ In "_"%char x.
Definition good (n : nat) (a : args) : Prop :=
  length (region a) = n /\ Forall plain (region a) /\ plain (tmin a) /\ plain (tmax a) /\ match dtype a with Some d => plain d | None => True end.

Lemma first_part : forall x y u v, plain x -> plain y -> x ++ "_"%char :: u = y ++ "_"%char :: v -> x = y /\ u = v.
Proof.
  induction x as [| c x IH]; intros [| d y] u v X Y E; cbn in E.
  - injection E as E; auto.
  - exfalso; injection E as <- E; apply Y; left; reflexivity.
  - exfalso; injection E as -> E; apply X; left; reflexivity.
  - injection E as -> E; destruct (IH y u v) as [-> ->]; auto; [intros I; apply X; right; auto | intros I; apply Y; right; auto].
Qed.

Lemma join_inj : forall l m u v, length l = length m -> l <> [] -> Forall plain l -> Forall plain m ->
  join l ++ "_"%char :: u = join m ++ "_"%char :: v -> l = m /\ u = v.
Proof.
  induction l as [| x l IH]; intros [| y m] u v L N Fl Fm E; try contradiction; try discriminate L.
  inversion Fl as [| a b Px Fl' Ea]; subst; inversion Fm as [| a b Py Fm' Eb]; subst.
  destruct l as [| x' l], m as [| y' m]; try discriminate L.
  - cbn [join] in E; destruct (first_part _ _ _ _ Px Py E) as [-> ->]; auto.
  - change (join (x :: x' :: l)) with (x ++ "_"%char :: join (x' :: l)) in E; change (join (y :: y' :: m)) with (y ++ "_"%char :: join (y' :: m)) in E.
    rewrite <- !app_assoc in E; cbn [app] in E; destruct (first_part _ _ _ _ Px Py E) as [-> E'].
    destruct (IH (y' :: m) u v) as [-> ->]; auto; discriminate.
Qed.

Lemma suffix_inj (a b s : txt) : a ++ s = b ++ s -> a = b.
Proof. apply app_inv_tail. Qed.

Theorem c287_file : forall n a b, (0 < n)%nat -> good n a -> good n b -> file_name a = file_name b -> a = b.
Proof.
  intros n [ra ta Ta da] [rb tb Tb db] Pn (La & Fa & Pa & Qa & Da) (Lb & Fb & Pb & Qb & Db) E; cbn [region tmin tmax dtype] in *.
  unfold file_name in E; cbn [region tmin tmax dtype] in E; apply app_inv_head in E.
  change (of_string "_") with ["_"%char] in E; cbn [app] in E.
  assert (Nr : ra <> []) by (intros ->; cbn in La; lia).
  assert (Lr : length ra = length rb) by congruence.
  destruct (join_inj ra rb _ _ Lr Nr Fa Fb E) as [-> E1]; destruct (first_part _ _ _ _ Pa Pb E1) as [-> E2].
  assert (P5 : plain (of_string ".h5")) by (intros I; cbn in I; repeat (destruct I as [I | I]; [discriminate I |]); exact I).
  assert (PA : forall x y, plain x -> plain y -> plain (x ++ y)) by (intros x y X Y I; apply in_app_or in I; destruct I; [apply X | apply Y]; auto).
  destruct da as [da |], db as [db |].
  - rewrite <- !app_comm_cons in E2; destruct (first_part _ _ _ _ Qa Qb E2) as [-> E3]; apply suffix_inj in E3; subst; reflexivity.
  - exfalso; cbn [app] in E2; apply (PA Tb (of_string ".h5") Qb P5); rewrite <- E2; apply in_or_app; right; left; reflexivity.
  - exfalso; cbn [app] in E2; apply (PA Ta (of_string ".h5") Qa P5); rewrite E2; apply in_or_app; right; left; reflexivity.
  - cbn [app] in E2; apply suffix_inj in E2; subst; reflexivity.
Qed.

Lemma txt_eqb_spec a b : txt_eqb a b = true <-> a = b.
Proof. unfold txt_eqb; destruct (list_eq_dec ascii_dec a b); split; auto; discriminate. Qed.

Section Files.
Variables (signals spectra : Type) (compute : signals -> args -> spectra).
Notation get := (get signals spectra compute).
Notation calls := (calls signals spectra compute).

(** with the same signals, the spectra which are drawn are those of the arguments, whatever the calls before *)
Theorem c287_cache_partial : forall n sig l a, (0 < n)%nat -> Forall (good n) l -> good n a ->
  snd (get sig (calls sig [] l) a) = compute sig a.
Proof.
  intros n sig l a Pn Fl Ga.
  assert (Inv : forall d, (forall name s, lookup spectra d name = Some s -> exists b, good n b /\ file_name b = name /\ s = compute sig b) ->
    forall b, good n b -> snd (get sig d b) = compute sig b /\
      forall name s, lookup spectra (fst (get sig d b)) name = Some s -> exists b', good n b' /\ file_name b' = name /\ s = compute sig b').
  { intros d Hd b Gb; unfold TSpecPlot_Model.get; destruct (lookup spectra d (file_name b)) as [s |] eqn:L.
    - cbn [fst snd]; split; auto; destruct (Hd _ _ L) as (b' & Gb' & E & ->); rewrite (c287_file n b' b Pn Gb' Gb E); reflexivity.
    - unfold save_spectra; cbn [fst snd lookup]; split; auto; intros name s K; destruct (txt_eqb (file_name b) name) eqn:T; [| auto].
      apply txt_eqb_spec in T; injection K as <-; exists b; auto. }
  assert (G : forall d, (forall name s, lookup spectra d name = Some s -> exists b, good n b /\ file_name b = name /\ s = compute sig b) ->
    snd (get sig (calls sig d l) a) = compute sig a).
  { induction Fl as [| b l Gb Fl IH]; intros d Hd; cbn [TSpecPlot_Model.calls]; [apply Inv; auto |].
    apply IH; apply (proj2 (Inv d Hd b Gb)). }
  apply G; cbn; discriminate.
Qed.

(** a second call with the same arguments draws the same spectra, also after other records: they are not computed again *)
Theorem c287_second : forall sig sig' d a, snd (get sig' (fst (get sig d a)) a) = snd (get sig d a).
Proof.
  intros sig sig' d a; unfold TSpecPlot_Model.get at 2 3; destruct (lookup spectra d (file_name a)) as [s |] eqn:L; cbn [fst snd].
  - unfold TSpecPlot_Model.get; rewrite L; reflexivity.
  - unfold TSpecPlot_Model.get, save_spectra; cbn [fst snd lookup].
    assert (T : txt_eqb (file_name a) (file_name a) = true) by (apply txt_eqb_spec; reflexivity); rewrite T; reflexivity.
Qed.
End Files.

(** ** The figure *)

Local Open Scope R_scope.

(** the frequency of the internal wave of the mode (nx, nz) of the domain divided by N *)
Definition wave_frequency (N Lx Lz nx nz : R) : R :=
  let kx := 2 * PI * nx / Lx in let kz := 2 * PI * nz / Lz in N * kx / sqrt (kx ^ 2 + kz ^ 2).

Theorem c287_modes : forall N Lx Ly Lz nx nz, 0 < N -> 0 < Lx -> 0 < Ly -> 0 < Lz -> 0 < nx -> 0 < nz ->
  mode (aspect_ratio 3 Lx Ly Lz) nx nz = wave_frequency N Lx Lz nx nz / N
  /\ mode (aspect_ratio 2 Lx Ly Lz) nx nz = wave_frequency N Lx Ly nx nz / N.
Proof.
  assert (G : forall N Lx Lz nx nz, 0 < N -> 0 < Lx -> 0 < Lz -> 0 < nx -> 0 < nz -> mode (Lx / Lz) nx nz = wave_frequency N Lx Lz nx nz / N).
  { intros N Lx Lz nx nz HN HL HZ Hx Hz; unfold mode, wave_frequency; cbv zeta.
    pose proof PI_RGT_0 as HP.
    assert (P1 : 0 < 2 * PI * nx / Lx) by (apply Rdiv_lt_0_compat; [apply Rmult_lt_0_compat; lra | lra]).
    assert (P2 : 0 < 2 * PI * nz / Lz) by (apply Rdiv_lt_0_compat; [apply Rmult_lt_0_compat; lra | lra]).
    set (kx := 2 * PI * nx / Lx) in *; set (kz := 2 * PI * nz / Lz) in *.
    assert (P3 : 0 < kx ^ 2 + kz ^ 2) by (apply Rplus_lt_0_compat; apply pow_lt; auto).
    assert (P4 : 0 < sqrt (kx ^ 2 + kz ^ 2)) by (apply sqrt_lt_R0; auto).
    replace (N * kx / sqrt (kx ^ 2 + kz ^ 2) / N) with (kx / sqrt (kx ^ 2 + kz ^ 2)) by (field; lra).
    assert (Pd : 0 < nx ^ 2 + (Lx / Lz) ^ 2 * nz ^ 2).
    { apply Rplus_lt_0_compat; [apply pow_lt; auto |]; apply Rmult_lt_0_compat; apply pow_lt; auto; apply Rdiv_lt_0_compat; auto. }
    assert (E : nx ^ 2 / (nx ^ 2 + (Lx / Lz) ^ 2 * nz ^ 2) = (kx / sqrt (kx ^ 2 + kz ^ 2)) ^ 2).
    { assert (Ev : (kx / sqrt (kx ^ 2 + kz ^ 2)) ^ 2 = kx ^ 2 / (kx ^ 2 + kz ^ 2)).
      { unfold Rdiv; rewrite Rpow_mult_distr, pow_inv, pow2_sqrt; lra. }
      rewrite Ev; apply Rmult_eq_reg_r with (r := (nx ^ 2 + (Lx / Lz) ^ 2 * nz ^ 2) * (kx ^ 2 + kz ^ 2)); [| apply Rgt_not_eq, Rmult_lt_0_compat; auto].
      assert (F1 : forall a b c, 0 < b -> a / b * (b * c) = a * c) by (intros; field; lra).
      assert (F2 : forall a b c, 0 < c -> a / c * (b * c) = a * b) by (intros; field; lra).
      rewrite F1, F2; auto.
      unfold kx, kz; field; lra. }
    rewrite E; apply sqrt_pow2; apply Rlt_le, Rdiv_lt_0_compat; auto. }
  intros; split; apply G; auto.
Qed.

(** the value at N: the first of the frequencies closest to N *)
Theorem c287_value_at_N : forall N l, 0 < N -> l <> [] -> exists l1 p l2, l = l1 ++ p :: l2 /\ EKN N l = Some (snd p)
  /\ (forall q, In q l1 -> Rabs (fst p - N) < Rabs (fst q - N)) /\ (forall q, In q l2 -> Rabs (fst p - N) <= Rabs (fst q - N)).
Proof.
  intros N l HN.
  assert (Sc : forall x, Rabs (x / N - 1) = Rabs (x - N) / N).
  { intros x; replace (x / N - 1) with ((x - N) * / N) by (field; lra); rewrite Rabs_mult, (Rabs_pos_eq (/ N)); [reflexivity |]; apply Rlt_le, Rinv_0_lt_compat; auto. }
  assert (Le : forall a b, a / N <= b / N <-> a <= b).
  { intros a b; split; intros K; [| apply Rmult_le_compat_r; auto; apply Rlt_le, Rinv_0_lt_compat; auto].
    apply Rmult_le_reg_r with (/ N); auto; apply Rinv_0_lt_compat; auto. }
  assert (G : l <> [] -> exists l1 p l2, l = l1 ++ p :: l2 /\ closest (map (fun p => (fst p / N, snd p)) l) = Some (fst p / N, snd p)
    /\ (forall q, In q l1 -> Rabs (fst p - N) < Rabs (fst q - N)) /\ (forall q, In q l2 -> Rabs (fst p - N) <= Rabs (fst q - N))).
  { induction l as [| a l IH]; intros Ne; [contradiction |]; destruct l as [| b l].
    - exists [], a, []; split; auto; split; [reflexivity |]; split; intros q [].
    - destruct IH as (l1 & p & l2 & E & C & A1 & A2); [discriminate |].
      change (map (fun p => (fst p / N, snd p)) (a :: b :: l)) with ((fst a / N, snd a) :: map (fun p => (fst p / N, snd p)) (b :: l)).
      cbn [closest]; cbn [closest] in C; rewrite C; cbn [fst].
      destruct (Rle_dec (Rabs (fst a / N - 1)) (Rabs (fst p / N - 1))) as [D | D]; rewrite !Sc, Le in D.
      + exists [], a, (b :: l); split; auto; split; auto; split; [intros q [] |]; intros q I; rewrite E in I; apply in_app_or in I.
        destruct I as [I | [<- | I]]; [specialize (A1 _ I); lra | lra | specialize (A2 _ I); lra].
      + exists (a :: l1), p, l2; split; [rewrite E; reflexivity |]; split; auto; split; auto; intros q [<- | I]; auto; lra. }
  intros Ne; destruct (G Ne) as (l1 & p & l2 & E & C & A); exists l1, p, l2; split; auto; split; auto; unfold EKN; rewrite C; reflexivity.
Qed.

(** the guide of slope -2 goes through this value at N *)
Theorem c287_scaling : forall ekn omega c, omega <> 0 -> c <> 0 -> scaling ekn 1 = ekn /\ scaling ekn (c * omega) = scaling ekn omega / c ^ 2.
Proof. intros ekn omega c O C; unfold scaling; split; [field | field; auto]. Qed.

(** without N the curve is the one asked for *)
Theorem c287_key_partial : forall keys k, curves false (default_key keys (Some k)) = [k].
Proof. reflexivity. Qed.

(** REFUTED: the curve which is asked for is drawn with N; the figure is the one of the present records *)
Theorem c287_refuted :
  (exists keys k, In k keys /\ ~ In k (curves true (default_key keys (Some k))))
  /\ (exists (compute : nat -> args -> nat) sig sig' a, compute sig a <> compute sig' a
      /\ snd (get nat nat compute sig' (fst (get nat nat compute sig [] a)) a) <> compute sig' a).
Proof.
  split.
  - exists ["vx"; "vy"; "vz"; "b"]%string, "vx"%string; split; [left; reflexivity |]; cbn; intros [K | [K | []]]; discriminate K.
  - exists (fun s _ => s), 1%nat, 2%nat, (mkArgs [] [] [] None); split; [discriminate |]; rewrite c287_second; cbn; discriminate.
Qed.

(** the hypotheses are met *)
Example ex_c287 : good 2 (mkArgs [of_string "0"; of_string "1.5"] (of_string "0") (of_string "10.0") (Some (of_string "complex64"))).
Proof.
  assert (P : forall s, existsb (fun c => Ascii.eqb c "_") (of_string s) = false -> plain (of_string s)).
  { intros s E I; assert (K : existsb (fun c => Ascii.eqb c "_") (of_string s) = true) by (apply existsb_exists; exists "_"%char; split; auto); congruence. }
  split; [reflexivity |]; split; [repeat constructor; apply P; reflexivity |]; split; [apply P; reflexivity |]; split; apply P; reflexivity.
Qed.

Print Assumptions c287_file.
Print Assumptions c287_cache_partial.
Print Assumptions c287_second.
Print Assumptions c287_modes.
Print Assumptions c287_value_at_N.
Print Assumptions c287_scaling.
Print Assumptions c287_key_partial.
Print Assumptions c287_refuted.
