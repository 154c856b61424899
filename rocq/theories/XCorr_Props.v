(** C155: times of the cross correlations; C156: names and values of the cross correlations; C157: loading of the spectra. *)
From Coq Require Import String Ascii ZArith QArith Qround Reals List Bool Lia Lra Lqa Arith.
From Coq Require Import FunctionalExtensionality FinFun.
From Coquelicot Require Import Complex.
From Verif Require Import XCorr_Model.
Import ListNotations.

(** ** C155 *)
Local Open Scope Q_scope.

(** a multiple of the period has been reached since the last record *)
Definition due (p last t : Q) : Prop := exists m : Z, last < inject_Z m * p /\ inject_Z m * p <= t + eps.
(** the records of the run: last record, times, records *)
Inductive sampled (p : Q) : Q -> list Q -> list Q -> Prop :=
| s_nil last : sampled p last [] []
| s_due last t ts r : due p last t -> sampled p t ts r -> sampled p last (t :: ts) (t :: r)
| s_not last t ts r : ~ due p last t -> sampled p last ts r -> sampled p last (t :: ts) r.

(** one record over n, the first one is the record number i *)
Fixpoint one_over (n i : nat) (l : list Q) : list Q :=
  match l with [] => [] | t :: l => if Nat.eqb (Nat.modulo i n) 0 then t :: one_over n (S i) l else one_over n (S i) l end.

Lemma Qfloor_spec x (m : Z) : inject_Z m <= x <-> (m <= Qfloor x)%Z.
Proof.
  split; intros H.
  - rewrite <- (Qfloor_Z m). apply Qfloor_resp_le. exact H.
  - apply Qle_trans with (inject_Z (Qfloor x)); [rewrite <- Zle_Qle; exact H|apply Qfloor_le].
Qed.

Lemma has_due p t last : 0 < p -> exists b, has_to_online_save p t last = Some b /\ (b = true <-> due p last t).
Proof.
  intros P. unfold has_to_online_save, floordiv. assert (E : Qeq_bool p 0 = false).
  { destruct (Qeq_bool p 0) eqn:E; [|reflexivity]. apply Qeq_bool_eq in E. rewrite E in P. discriminate P. }
  rewrite E. eexists. split; [reflexivity|]. rewrite Z.ltb_lt. unfold due. split.
  - intros H. exists (Qfloor ((t + eps) / p)). split.
    + apply Qnot_le_lt. intros L. assert (inject_Z (Qfloor ((t + eps) / p)) <= last / p) by (apply Qle_shift_div_l; assumption).
      apply Qfloor_spec in H0. lia.
    + assert (inject_Z (Qfloor ((t + eps) / p)) <= (t + eps) / p) by apply Qfloor_le.
      apply (Qmult_le_r _ _ p P) in H0.
      setoid_replace ((t + eps) / p * p) with (t + eps) in H0; [exact H0|]. field. intros X. rewrite X in P. discriminate P.
  - intros (m & H1 & H2). apply Z.lt_le_trans with m.
    + apply Z.nle_gt. intros L. apply Qfloor_spec in L. apply (Qmult_le_r _ _ p P) in L.
      setoid_replace (last / p * p) with last in L; [|field; intros X; rewrite X in P; discriminate P]. apply (Qlt_not_le _ _ H1). exact L.
    + apply Qfloor_spec. apply Qle_shift_div_l; assumption.
Qed.

Lemma one_over_app n l t : forall i, one_over n i (l ++ [t]) = one_over n i l ++ (if Nat.eqb (Nat.modulo (i + length l) n) 0 then [t] else []).
Proof.
  induction l as [|x l IH]; intros i; cbn [one_over app length].
  - rewrite Nat.add_0_r. destruct (Nat.eqb _ 0); reflexivity.
  - rewrite IH. replace (S i + length l)%nat with (i + S (length l))%nat by lia. destruct (Nat.eqb (Nat.modulo i n) 0); reflexivity.
Qed.

Lemma steps_spec p ts : ~ own_period p == 0 -> 0 < spectra_period p -> forall s, nb_saved_times s = length (times s) ->
  times_kzkh s = (if Nat.eqb (spectra_kzkh p) 0 then None else Some (one_over (spectra_kzkh p) 0 (times s))) ->
  exists r s', steps p ts (Some s) = Some (Some s') /\ sampled (spectra_period p) (t_last_save s) ts r /\ times s' = times s ++ r
  /\ times_kzkh s' = (if Nat.eqb (spectra_kzkh p) 0 then None else Some (one_over (spectra_kzkh p) 0 (times s'))).
Proof.
  intros O P. assert (EO : Qeq_bool (own_period p) 0 = false) by (destruct (Qeq_bool (own_period p) 0) eqn:E; [apply Qeq_bool_eq in E; contradiction|reflexivity]).
  induction ts as [|t ts IH]; intros s N K.
  - exists [], s. split; [reflexivity|]. split; [constructor|]. split; [now rewrite app_nil_r|exact K].
  - cbn [steps]. unfold one_time_step. rewrite EO. unfold online_save, online_save_of.
    destruct (has_due (spectra_period p) t (t_last_save s) P) as (b & -> & Hb). destruct b.
    + set (s1 := mkState _ _ _ _).
      assert (K1 : times_kzkh s1 = (if Nat.eqb (spectra_kzkh p) 0 then None else Some (one_over (spectra_kzkh p) 0 (times s1)))).
      { unfold s1. cbn [times_kzkh times]. unfold has_to_save_kzkh. rewrite K, N. destruct (Nat.eqb (spectra_kzkh p) 0); cbn [negb andb]; [reflexivity|].
        rewrite one_over_app. cbn [Nat.add]. destruct (Nat.eqb _ 0); [reflexivity|]. now rewrite app_nil_r. }
      assert (N1 : nb_saved_times s1 = length (times s1)) by (unfold s1; cbn [nb_saved_times times]; rewrite app_length, N; reflexivity).
      destruct (IH s1 N1 K1) as (r & s' & E & H & T & K'). exists (t :: r), s'. split; [exact E|]. split; [apply s_due; [apply Hb; reflexivity|exact H]|].
      split; [|exact K']. rewrite T. unfold s1. cbn [times]. now rewrite <- app_assoc.
    + destruct (IH s N K) as (r & s' & E & H & T & K'). exists r, s'. split; [exact E|]. split; [|split; [exact T|exact K']].
      apply s_not; [|exact H]. intros D. apply Hb in D. discriminate.
Qed.

(** exact records in terms of the parameters of the spectra *)
Theorem c155_spectra_period : forall (p : params) (t0 : Q) (ts : list Q), ~ own_period p == 0 -> 0 < spectra_period p ->
  exists r s, run p t0 ts = Some (Some s) /\ times s = t0 :: r /\ sampled (spectra_period p) t0 ts r
  /\ times_kzkh s = (if Nat.eqb (spectra_kzkh p) 0 then None else Some (one_over (spectra_kzkh p) 0 (t0 :: r))).
Proof.
  intros p t0 ts O P. unfold run, init, init_of.
  assert (E : Qeq_bool (spectra_period p) 0 = false) by (destruct (Qeq_bool (spectra_period p) 0) eqn:E; [apply Qeq_bool_eq in E; rewrite E in P; discriminate P|reflexivity]).
  rewrite E. edestruct (steps_spec p ts O P) as (r & s & Er & S & T & K); [| |exists r, s; split; [exact Er|]].
  - reflexivity.
  - cbn [times_kzkh times one_over]. destruct (Nat.eqb (spectra_kzkh p) 0) eqn:Z; [reflexivity|]. apply Nat.eqb_neq in Z. rewrite Nat.mod_0_l by exact Z. reflexivity.
  - cbn [times app t_last_save] in *. split; [exact T|]. split; [exact S|]. rewrite K, T. reflexivity.
Qed.

(** the cross correlations are saved with their own periods when the periods of the spectra are the same *)
Theorem c155_own_period_partial : forall (p : params) (t0 : Q) (ts : list Q), 0 < own_period p -> spectra_period p = own_period p -> spectra_kzkh p = own_kzkh p ->
  exists r s, run p t0 ts = Some (Some s) /\ times s = t0 :: r /\ sampled (own_period p) t0 ts r
  /\ times_kzkh s = (if Nat.eqb (own_kzkh p) 0 then None else Some (one_over (own_kzkh p) 0 (t0 :: r))).
Proof.
  intros p t0 ts P E1 E2. rewrite <- E1, <- E2. apply c155_spectra_period; [|rewrite E1; exact P]. intros X. rewrite X in P. discriminate P.
Qed.

(** the spectra are not saved: exception at the first time step *)
Theorem c155_zero_division_refuted : exists (p : params) (t0 t : Q), 0 < own_period p /\ run p t0 [t] = None.
Proof. exists (mkParams 1 0 0 0), 0, (1 # 2). split; [reflexivity|]. reflexivity. Qed.

(** the cross correlations are not to be saved: one record *)
Theorem c155_not_asked_refuted : exists (p : params) (t0 t : Q) (s : state), own_period p = 0 /\ run p t0 [t] = Some (Some s) /\ times s = [t0].
Proof. exists (mkParams 0 1 0 0), 0, 1. eexists. split; [reflexivity|]. split; reflexivity. Qed.

(** other period, and kzkh spectra which are not asked for *)
Theorem c155_other_period_refuted : exists (p : params) (t0 : Q) (ts : list Q) (s : state), 0 < own_period p /\ 0 < spectra_period p /\ own_kzkh p = O
  /\ run p t0 ts = Some (Some s) /\ ~ sampled (own_period p) t0 ts (tl (times s)) /\ times_kzkh s = Some [t0].
Proof.
  exists (mkParams 1 10 0 1), 0, [1; 2]. eexists. split; [reflexivity|]. split; [reflexivity|]. split; [reflexivity|]. split; [reflexivity|]. split; [|reflexivity].
  cbn [times tl]. intros H. inversion H as [|? ? ? ? D H1|? ? ? ? D H1]; subst. apply D. exists 1%Z. split; [reflexivity|]. unfold Qle. cbn. lia.
Qed.

Example c155_example : let p := mkParams 1 1 2 2 in 0 < own_period p /\ spectra_period p = own_period p /\ spectra_kzkh p = own_kzkh p
  /\ exists s, run p 0 [1 # 2; 1; 3 # 2; 2] = Some (Some s) /\ times s = [0; 1; 2] /\ times_kzkh s = Some [0; 2].
Proof. cbn zeta. split; [reflexivity|]. split; [reflexivity|]. split; [reflexivity|]. eexists. split; [reflexivity|]. split; reflexivity. Qed.

(** ** C156 *)
Local Open Scope string_scope.

(** vx_fft ... or b_fft *)
Definition letter_key (key : string) (c : ascii) : Prop := key = String "v" (String c "_fft") \/ key = String c "_fft".
Definition name2 (a b : ascii) : string := String a (String b "").

Lemma small_letter key c : letter_key key c -> make_small_key key = String c "".
Proof. intros [-> | ->]; reflexivity. Qed.

Lemma in_combinations {A : Type} (l : list A) d x y : In (x, y) (combinations l) <-> exists i j, (i < j)%nat /\ (j < length l)%nat /\ nth i l d = x /\ nth j l d = y.
Proof.
  induction l as [|z l IH]; cbn [combinations].
  - split; [contradiction|]. intros (i & j & H1 & H2 & _). cbn in H2. lia.
  - rewrite in_app_iff, in_map_iff, IH. split.
    + intros [(w & E & H)|(i & j & H1 & H2 & H3 & H4)].
      * injection E as -> ->. destruct (In_nth l y d H) as (j & Hj & Ej). exists O, (S j). cbn. split; [lia|]. split; [lia|]. split; [reflexivity|exact Ej].
      * exists (S i), (S j). cbn. split; [lia|]. split; [lia|]. split; assumption.
    + intros ([|i] & [|j] & H1 & H2 & H3 & H4); cbn in *; try lia.
      * left. exists y. rewrite H3. split; [reflexivity|]. rewrite <- H4. apply nth_In. lia.
      * right. exists i, j. split; [lia|]. split; [lia|]. split; assumption.
Qed.

Lemma combinations_map {A B : Type} (f : A -> B) l : combinations (map f l) = map (fun p => (f (fst p), f (snd p))) (combinations l).
Proof. induction l as [|x l IH]; [reflexivity|]. cbn. rewrite map_app, !map_map, IH. reflexivity. Qed.

Lemma NoDup_app' {A : Type} (l l' : list A) : NoDup l -> NoDup l' -> (forall x, In x l -> In x l' -> False) -> NoDup (l ++ l')%list.
Proof.
  induction l as [|x l IH]; intros H H' D; [exact H'|]. inversion H as [|? ? N M]; subst. cbn. constructor.
  - rewrite in_app_iff. intros [X|X]; [contradiction|]. apply (D x); [left; reflexivity|exact X].
  - apply IH; [exact M|exact H'|]. intros y Y Y'. apply (D y); [right; exact Y|exact Y'].
Qed.

Lemma NoDup_combinations {A : Type} (l : list A) : NoDup l -> NoDup (combinations l).
Proof.
  induction 1 as [|x l N H IH]; cbn; [constructor|]. apply NoDup_app'; [|exact IH|].
  - apply FinFun.Injective_map_NoDup; [|exact H]. intros a b E. now injection E.
  - intros [a b] H1 H2. apply in_map_iff in H1. destruct H1 as (y & E & _). injection E as <- <-.
    apply (in_combinations l x) in H2. destruct H2 as (i & j & L1 & L2 & E1 & _). apply N. rewrite <- E1. apply nth_In. lia.
Qed.

Lemma NoDup_flat_map {A B : Type} (f : A -> list B) l : NoDup l -> (forall a, NoDup (f a)) -> (forall a b x, In x (f a) -> In x (f b) -> a = b) -> NoDup (flat_map f l).
Proof.
  intros H F D. induction H as [|a l N H IH]; cbn; [constructor|]. apply NoDup_app'; [apply F|exact IH|].
  intros x X Y. apply in_flat_map in Y. destruct Y as (b & Hb & Y). assert (a = b) by (apply (D a b x); assumption). subst. contradiction.
Qed.

Section C156.
Variable mode S1 S3 : Type.
Variable spectra_1d : (mode -> R) -> S1 * S1 * S1.
Variable spectrum_3d : (mode -> R) -> S3.
Variable get_var : string -> mode -> C.
Local Notation compute := (compute mode S1 S3 spectra_1d spectrum_3d).

(** minus the real part of the product: (re, im) *)
Definition product (f g : mode -> C) : mode -> R := fun k => (- (fst (f k) * fst (g k) + snd (f k) * snd (g k)))%R.

Lemma cross_product f g : cross mode f g = product f g.
Proof. unfold cross, product. apply functional_extensionality. intros k. destruct (f k) as [a b], (g k) as [c d]. unfold Cconj, Cmult. cbn. ring. Qed.

Lemma keys_shape keys cs : Forall2 letter_key keys cs -> map make_small_key keys = map (fun c => String c "") cs.
Proof. induction 1 as [|k c keys cs H _ IH]; [reflexivity|]. cbn. rewrite (small_letter k c H), IH. reflexivity. Qed.

Lemma pairs_shape keys cs : Forall2 letter_key keys cs ->
  map (fun kk => (make_small_key (fst kk) ++ make_small_key (snd kk))%string) (combinations keys) = map (fun ab => name2 (fst ab) (snd ab)) (combinations cs).
Proof.
  intros H. transitivity (map (fun p => (fst p ++ snd p)%string) (combinations (map make_small_key keys))).
  - rewrite combinations_map, map_map. reflexivity.
  - rewrite (keys_shape keys cs H), combinations_map, map_map. reflexivity.
Qed.

Definition names1 (n : string) : list string := [("spectra_" ++ (n ++ "_kx"))%string; ("spectra_" ++ (n ++ "_ky"))%string; ("spectra_" ++ (n ++ "_kz"))%string].

Lemma names_1d keys : map fst (fst (compute keys get_var)) = flat_map names1 (map (fun kk => (make_small_key (fst kk) ++ make_small_key (snd kk))%string) (combinations keys)).
Proof.
  unfold XCorr_Model.compute. cbn [fst]. induction (combinations keys) as [|kk l IH]; [reflexivity|]. cbn [flat_map map].
  destruct (spectra_1d _) as [[cx cy] cz] eqn:E. cbn [fst snd]. rewrite map_app, IH. reflexivity.
Qed.
Lemma names_3d keys : map fst (snd (compute keys get_var)) = map (fun n => ("spectra_" ++ n)%string) (map (fun kk => (make_small_key (fst kk) ++ make_small_key (snd kk))%string) (combinations keys)).
Proof.
  unfold XCorr_Model.compute. cbn [snd]. induction (combinations keys) as [|kk l IH]; [reflexivity|]. cbn [flat_map map].
  destruct (spectra_1d _) as [[cx cy] cz] eqn:E. cbn [fst snd]. rewrite map_app, IH. reflexivity.
Qed.

(** no dataset replaces another one, one pair of variables for each *)
Theorem c156_names : forall (keys : list string) (cs : list ascii), Forall2 letter_key keys cs -> NoDup cs ->
  NoDup (map fst (fst (compute keys get_var))) /\ NoDup (map fst (snd (compute keys get_var))).
Proof.
  intros keys cs H N. rewrite names_1d, names_3d, (pairs_shape keys cs H).
  assert (NN : NoDup (map (fun ab => name2 (fst ab) (snd ab)) (combinations cs))).
  { apply FinFun.Injective_map_NoDup; [|apply NoDup_combinations; exact N]. intros [a b] [c d] E. unfold name2 in E. cbn in E. now injection E as -> ->. }
  assert (F : forall n, In n (map (fun ab => name2 (fst ab) (snd ab)) (combinations cs)) -> exists a b, n = name2 a b).
  { intros n Hn. apply in_map_iff in Hn. destruct Hn as ([a b] & <- & _). exists a, b. reflexivity. }
  split.
  - rewrite flat_map_concat_map. rewrite <- flat_map_concat_map, flat_map_concat_map, map_map, <- flat_map_concat_map.
    apply NoDup_flat_map; [apply NoDup_combinations; exact N| |].
    + intros [a b]. cbn. repeat constructor; cbn; intuition discriminate.
    + intros [a b] [c d] x X Y. unfold names1, name2 in X, Y. cbn in X, Y.
      destruct X as [X|[X|[X|[]]]], Y as [Y|[Y|[Y|[]]]]; rewrite <- Y in X; try discriminate X; injection X as -> ->; reflexivity.
  - apply FinFun.Injective_map_NoDup; [|exact NN]. intros a b E. cbn in E. now injection E.
Qed.

(** the dataset of two variables is the spectrum of minus the real part of their product *)
Theorem c156_values : forall (keys : list string) (cs : list ascii), Forall2 letter_key keys cs -> forall (n : string) (v : S3),
  In (n, v) (snd (compute keys get_var)) <-> exists i j, (i < j)%nat /\ (j < length keys)%nat
    /\ n = ("spectra_" ++ name2 (nth i cs "0"%char) (nth j cs "0"%char))%string /\ v = spectrum_3d (product (get_var (nth i keys "")) (get_var (nth j keys ""))).
Proof.
  intros keys cs H n v.
  assert (L : forall i, (i < length keys)%nat -> make_small_key (nth i keys "") = String (nth i cs "0"%char) "").
  { clear n v. induction H as [|k c keys cs Hk _ IH]; intros i Hi; cbn in Hi; [lia|]. destruct i as [|i]; cbn; [apply small_letter; exact Hk|apply IH; lia]. }
  unfold XCorr_Model.compute. cbn [snd]. rewrite in_flat_map. split.
  - intros ([k k'] & Hk & Hin). destruct (spectra_1d _) as [[cx cy] cz] eqn:E. cbn [fst snd] in Hin. destruct Hin as [Hin|[]].
    apply (in_combinations keys "") in Hk. destruct Hk as (i & j & H1 & H2 & E1 & E2). injection Hin as <- <-.
    exists i, j. split; [exact H1|]. split; [exact H2|]. rewrite <- E1, <- E2, cross_product, !L by lia. split; reflexivity.
  - intros (i & j & H1 & H2 & -> & ->). exists (nth i keys "", nth j keys ""). split.
    + apply (in_combinations keys ""). exists i, j. split; [exact H1|]. split; [exact H2|]. split; reflexivity.
    + destruct (spectra_1d _) as [[cx cy] cz] eqn:E. cbn [fst snd]. left. rewrite cross_product, !L by lia. reflexivity.
Qed.

Theorem c156_values_1d : forall (keys : list string) (cs : list ascii), Forall2 letter_key keys cs -> forall (n : string) (v : S1),
  In (n, v) (fst (compute keys get_var)) <-> exists i j, (i < j)%nat /\ (j < length keys)%nat
    /\ let s := spectra_1d (product (get_var (nth i keys "")) (get_var (nth j keys ""))) in let ab := name2 (nth i cs "0"%char) (nth j cs "0"%char) in
       (n = ("spectra_" ++ (ab ++ "_kx"))%string /\ v = fst (fst s)) \/ (n = ("spectra_" ++ (ab ++ "_ky"))%string /\ v = snd (fst s)) \/ (n = ("spectra_" ++ (ab ++ "_kz"))%string /\ v = snd s).
Proof.
  intros keys cs H n v.
  assert (L : forall i, (i < length keys)%nat -> make_small_key (nth i keys "") = String (nth i cs "0"%char) "").
  { clear n v. induction H as [|k c keys cs Hk _ IH]; intros i Hi; cbn in Hi; [lia|]. destruct i as [|i]; cbn; [apply small_letter; exact Hk|apply IH; lia]. }
  unfold XCorr_Model.compute. cbn [fst]. rewrite in_flat_map. split.
  - intros ([k k'] & Hk & Hin). cbn [fst snd] in Hin. rewrite cross_product in Hin. apply (in_combinations keys "") in Hk. destruct Hk as (i & j & H1 & H2 & E1 & E2).
    exists i, j. split; [exact H1|]. split; [exact H2|]. cbn zeta. rewrite E1, E2. rewrite <- E1, <- E2, !L, E1, E2 in Hin by lia.
    destruct (spectra_1d _) as [[cx cy] cz] eqn:E. cbn [fst snd] in *. destruct Hin as [Hin|[Hin|[Hin|[]]]]; injection Hin as <- <-.
    + left. split; reflexivity.
    + right. left. split; reflexivity.
    + right. right. split; reflexivity.
  - intros (i & j & H1 & H2 & Hv). cbn zeta in Hv. exists (nth i keys "", nth j keys ""). split.
    + apply (in_combinations keys ""). exists i, j. split; [exact H1|]. split; [exact H2|]. split; reflexivity.
    + cbn [fst snd]. rewrite cross_product, !L by lia. destruct (spectra_1d _) as [[cx cy] cz] eqn:E. cbn [fst snd] in *.
      destruct Hv as [[-> ->]|[[-> ->]|[-> ->]]]; [left|right; left|right; right; left]; reflexivity.
Qed.
End C156.

Example c156_example : Forall2 letter_key keys_ns3d ["x"; "y"; "z"]%char /\ NoDup ["x"; "y"; "z"]%char
  /\ Forall2 letter_key keys_ns3d_strat ["x"; "y"; "z"; "b"]%char /\ NoDup ["x"; "y"; "z"; "b"]%char
  /\ map fst (snd (compute unit nat nat (fun _ => (O, O, O)) (fun _ => O) keys_ns3d_strat (fun _ _ => 0%R : C)))
     = ["spectra_xy"; "spectra_xz"; "spectra_xb"; "spectra_yz"; "spectra_yb"; "spectra_zb"]%string.
Proof.
  split; [repeat constructor; left; reflexivity|]. split; [repeat constructor; cbn; intuition discriminate|].
  split; [unfold keys_ns3d_strat; repeat (constructor; [first [left; reflexivity|right; reflexivity]|]); constructor|]. split; [repeat constructor; cbn; intuition discriminate|]. reflexivity.
Qed.

(** ** C157 *)

(** with the keys given: these spectra, an error if one is not in the file *)
Theorem c157_keys : forall (saved : file -> list string) (f : file) (l : list string),
  (exists r, load_mean saved f (Some l) = Some r) <-> forall k, In k l -> In k (saved f) \/ In k (axes f).
Proof.
  intros saved f l. unfold load_mean, load_mean_file.
  assert (E : forallb (fun k => existsb (String.eqb k) (saved f ++ axes f)%list) l = true <-> forall k, In k l -> In k (saved f) \/ In k (axes f)).
  { rewrite forallb_forall. split; intros H k Hk.
    - specialize (H k Hk). apply existsb_exists in H. destruct H as (x & Hx & Ex). apply String.eqb_eq in Ex. subst. apply in_app_iff. exact Hx.
    - apply existsb_exists. exists k. split; [apply in_app_iff; apply H; exact Hk|apply String.eqb_refl]. }
  rewrite <- E. destruct (forallb _ l); split; try discriminate; [reflexivity|intros _; eexists; reflexivity|intros [r X]; discriminate].
Qed.
Theorem c157_given : forall (saved : file -> list string) (f : file) (l r : list string), load_mean saved f (Some l) = Some r -> forall k, In k l -> In k r.
Proof. intros saved f l r H k Hk. unfold load_mean, load_mean_file in H. destruct (forallb _ l); [|discriminate]. injection H as <-. apply in_app_iff. left. exact Hk. Qed.

(** without key: all the spectra, for the files 1d and 3d of ns3d.strat *)
Theorem c157_loaded_partial : forall (f : file), f <> SpectraKzKh -> exists r, load_mean saved_strat f None = Some r
  /\ (forall k, In k (saved_strat f) -> In k r) /\ forall k, In k r -> In k (saved_strat f) \/ In k (axes f) \/ k = "k"%string.
Proof.
  intros f Hf. destruct f; [| |contradiction]; eexists; (split; [reflexivity|]); cbn; split; intros k Hk; intuition.
Qed.

(** the general rule *)
Theorem c157_prefix : forall (saved : file -> list string) (f : file), exists r, load_mean saved f None = Some r
  /\ forall k, In k (saved f) -> prefix "spectr" k = true -> In k r.
Proof.
  intros saved f. unfold load_mean, load_mean_file. eexists. split; [reflexivity|]. intros k Hk P. apply in_app_iff. left. apply filter_In. split; [apply in_app_iff; left; exact Hk|exact P].
Qed.

(** ns3d: the spectra Khr and Khd are saved without the prefix, neither loaded nor plotted *)
Theorem c157_ns3d_refuted : exists (f : file) (k : string) (r : list string), In k (saved_ns3d f) /\ load_mean saved_ns3d f None = Some r /\ ~ In k r
  /\ ~ In (key_plot f "Khr" "kx") (saved_ns3d f) /\ In (key_plot f "Khr" "kx") (saved_strat f).
Proof.
  exists Spectra1D, "Khr_kx"%string. eexists. split; [cbn; intuition|]. split; [reflexivity|]. cbn. split; [intuition discriminate|]. split; [intuition discriminate|]. intuition.
Qed.
(** kzkh: nothing is loaded without key *)
Theorem c157_kzkh_refuted : exists (saved : file -> list string) (r : list string), saved = saved_strat /\ saved SpectraKzKh <> []
  /\ load_mean saved SpectraKzKh None = Some r /\ forall k, In k (saved SpectraKzKh) -> ~ In k r.
Proof.
  exists saved_strat. eexists. split; [reflexivity|]. split; [discriminate|]. split; [reflexivity|]. intros k Hk. cbn in Hk |- *. intuition (subst; discriminate).
Qed.

Example c157_example : prefix "spectr" "spectra_E_kx" = true /\ In "spectra_E_kx"%string (saved_ns3d Spectra1D) /\ In (key_plot Spectra1D "E" "kx") (saved_ns3d Spectra1D).
Proof. split; [reflexivity|]. cbn. split; intuition. Qed.

Print Assumptions c155_spectra_period.
Print Assumptions c155_own_period_partial.
Print Assumptions c155_zero_division_refuted.
Print Assumptions c155_not_asked_refuted.
Print Assumptions c155_other_period_refuted.
Print Assumptions c156_names.
Print Assumptions c156_values.
Print Assumptions c156_values_1d.
Print Assumptions c157_keys.
Print Assumptions c157_given.
Print Assumptions c157_loaded_partial.
Print Assumptions c157_prefix.
Print Assumptions c157_ns3d_refuted.
Print Assumptions c157_kzkh_refuted.
