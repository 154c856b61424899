(** C281: the spectra of ns3d drawn at several times. *)
From Coq Require Import QArith Qabs ZArith List Bool Lia Lqa Psatz.
From Verif Require Import PhysFiles_Model PhysFiles_Proofs Probes_Model Probes_Props Spec2D_Model Spec2D_Props SpecTimes_Model.
Import ListNotations.
Local Open Scope Q_scope.

(** ** Lemmas *)

Lemma maximum_last : forall l x, increasing (x :: l) -> maximum x l = nth (length l) (x :: l) 0.
Proof.
  induction l as [| y l IH]; intros x H; [reflexivity |].
  assert (E : Qle_bool x y = true).
  { apply Qle_bool_iff, Qlt_le_weak; apply (H 0%nat 1%nat); cbn; lia. }
  cbn [maximum]; rewrite E, IH.
  - reflexivity.
  - intros i j L; apply (H (S i) (S j)); cbn [length] in *; lia.
Qed.

Lemma range_from_map : forall fuel imin imax s n, (1 <= s)%nat -> (imax < fuel + imin)%nat ->
  (imin <= imax)%nat -> n = ((imax - imin) / s)%nat -> range_from fuel imin imax s = map (fun k => (imin + k * s)%nat) (seq 0 (n + 1)).
Proof.
  induction fuel as [| fuel IH]; intros imin imax s n Hs Hf Hi ->; [lia |].
  cbn [range_from]; destruct (Nat.leb_spec imin imax) as [L | L]; [| lia].
  destruct (le_lt_dec s (imax - imin)) as [C | C].
  - rewrite (IH (imin + s)%nat imax s ((imax - (imin + s)) / s)%nat) by (auto; lia).
    assert (E : ((imax - imin) / s = (imax - (imin + s)) / s + 1)%nat).
    { replace (imax - imin)%nat with (imax - (imin + s) + 1 * s)%nat by lia; rewrite Nat.div_add by lia; reflexivity. }
    rewrite E; set (n := ((imax - (imin + s)) / s)%nat).
    replace (n + 1 + 1)%nat with (S (n + 1)) by lia; cbn [seq map]; f_equal; [lia |].
    rewrite <- seq_shift, map_map; apply map_ext; intros k; lia.
  - rewrite Nat.div_small by lia; cbn [Nat.add seq map]; f_equal; [lia |].
    destruct fuel; auto; cbn [range_from]; destruct (Nat.leb_spec (imin + s) imax); auto; lia.
Qed.

Lemma combine_seq_map : forall (f : nat -> nat) n, combine (seq 0 (length (map f (seq 0 n)))) (map f (seq 0 n)) = map (fun k => (k, f k)) (seq 0 n).
Proof.
  intros f n; rewrite map_length, seq_length; generalize (seq 0 n); intros l.
  induction l as [| x l IH]; cbn; auto; rewrite IH; reflexivity.
Qed.

Lemma interval_value : forall times d, (2 <= length times)%nat -> delta_t_save times = Some d ->
  d * inject_Z (Z.of_nat (length times - 1)) == nth (length times - 1) times 0 - nth 0 times 0.
Proof.
  intros [| t0 [| t1 times]] d L E; cbn [length] in L; try lia.
  destruct (c190_interval t0 t1 times) as (d' & E' & V & _).
  assert (d = d') as -> by congruence.
  replace (length (t0 :: t1 :: times) - 1)%nat with (S (length times)) by (cbn; lia).
  rewrite V.
  assert (N : nth (length times) (t1 :: times) 0 = last (t1 :: times) t0).
  { clear; revert t1; induction times as [| a l IH]; intros t1; [reflexivity | exact (IH a)]. }
  change (nth (S (length times)) (t0 :: t1 :: times) 0) with (nth (length times) (t1 :: times) 0); rewrite N; cbn [nth]; reflexivity.
Qed.

Lemma interval_pos : forall times d, increasing times -> (2 <= length times)%nat -> delta_t_save times = Some d -> 0 < d.
Proof.
  intros times d I L E; pose proof (interval_value times d L E) as V.
  assert (0 < nth (length times - 1) times 0 - nth 0 times 0) by (assert (nth 0 times 0 < nth (length times - 1) times 0) by (apply I; lia); lra).
  assert (N : 0 < inject_Z (Z.of_nat (length times - 1))).
  { change 0 with (inject_Z 0); rewrite <- Zlt_Qlt; lia. }
  destruct (Qlt_le_dec 0 d) as [P | P]; auto; exfalso.
  set (n := inject_Z (Z.of_nat (length times - 1))) in *; nra.
Qed.

Lemma interval_some : forall times, (2 <= length times)%nat -> exists d, delta_t_save times = Some d.
Proof.
  intros [| t0 [| t1 times]] L; cbn [length] in L; try lia.
  destruct (c190_interval t0 t1 times) as (d & E & _); eauto.
Qed.

(** ** The drawn records *)

(** [s] is a number of records closest to the duration [delta] when they are saved every [d], at least one *)
Definition step_for (s : Z) (delta d : Q) : Prop := (1 <= s)%Z /\ (Qabs (inject_Z s * d - delta) <= d / 2 \/ s = 1%Z /\ delta <= d / 2).

(** One saved record or more between tmin and tmax: the drawn records are every s-th one from the one closest to tmin,
    up to the one closest to tmax; s records last delta_t (or a fraction of the duration); the colours; the average *)
Theorem c281_records_partial : forall times tmin tmax delta_t only,
  increasing times -> (2 <= length times)%nat ->
  tmin <= match tmax with Some t => t | None => nth (length times - 1) times 0 end ->
  match delta_t with Some x => 0 < x | None => True end ->
  exists imin imax s d curves,
    (imin <= imax < length times)%nat
    /\ (forall n, (n < length times)%nat -> Qabs (nth imin times 0 - tmin) <= Qabs (nth n times 0 - tmin))
    /\ match tmax with
       | Some t => forall n, (n < length times)%nat -> Qabs (nth imax times 0 - t) <= Qabs (nth n times 0 - t)
       | None => imax = (length times - 1)%nat
       end
    /\ d * inject_Z (Z.of_nat (length times - 1)) == nth (length times - 1) times 0 - nth 0 times 0
    /\ step_for s (match delta_t with
                   | Some x => x
                   | None => (nth imax times 0 - nth imin times 0) / inject_Z (Z.of_nat (Nat.min 20 (length times)))
                   end) d
    /\ plot_times times tmin tmax delta_t only = inl (curves, seq imin (imax + 1 - imin))
    /\ map fst curves = (if only then [] else map (fun k => (imin + k * Z.to_nat s)%nat) (seq 0 ((imax - imin) / Z.to_nat s + 1)))
    /\ forall k, (k < length curves)%nat -> snd (nth k curves (0%nat, 0)) * inject_Z (Z.of_nat (imax - imin)) == (if Nat.eqb imin imax then 0 else inject_Z (Z.of_nat k)).
Proof.
  intros times tmin tmax delta_t only I L T D.
  assert (Hn : times <> []) by (intros ->; cbn in L; lia).
  destruct (interval_some times L) as (d & Ed).
  pose proof (interval_pos times d I L Ed) as Pd; pose proof (interval_value times d L Ed) as Vd.
  set (tm := match tmax with Some t => t | None => nth (length times - 1) times 0 end) in *.
  set (imin := closest times tmin); set (imax := closest times tm).
  assert (Lm : (imin <= imax)%nat) by (apply closest_mono; auto).
  assert (Lx : (imax < length times)%nat) by (apply closest_lt; auto).
  set (delta := match delta_t with Some x => x | None => (nth imax times 0 - nth imin times 0) / inject_Z (Z.of_nat (Nat.min 20 (length times))) end).
  assert (Pdel : 0 <= delta).
  { unfold delta; destruct delta_t as [x |]; [lra |].
    apply Qle_shift_div_l; [change 0 with (inject_Z 0); rewrite <- Zlt_Qlt; lia |].
    destruct (Nat.eq_dec imin imax) as [-> | N]; [lra |].
    assert (nth imin times 0 < nth imax times 0) by (apply I; lia); lra. }
  set (i := round_even (delta / d)); set (s := if Z.eqb i 0 then 1%Z else i).
  pose proof (round_even_near (delta / d)) as Nr; fold i in Nr; apply Qabs_Qle_condition in Nr.
  assert (Pq : 0 <= delta / d) by (apply Qle_shift_div_l; lra).
  assert (Eq : delta / d * d == delta) by (field; lra).
  assert (Is : (0 <= i)%Z).
  { destruct (Z_lt_le_dec i 0) as [N | N]; auto; exfalso.
    assert (inject_Z i <= inject_Z (-1)) by (rewrite <- Zle_Qle; lia).
    change (inject_Z (-1)) with (-1 # 1) in H; lra. }
  assert (Ss : step_for s delta d).
  { unfold step_for, s; destruct (Z.eqb_spec i 0) as [E | E]; [split; [lia | right; split; auto] |].
    { rewrite E in Nr; change (inject_Z 0) with 0 in Nr; set (q := delta / d) in *.
      assert (q * d <= (1 # 2) * d) by (apply Qmult_le_compat_r; lra).
      assert (Eh : d / 2 == (1 # 2) * d) by field; lra. }
    split; [lia |]; left.
    apply Qabs_Qle_condition; set (q := delta / d) in *; set (zi := inject_Z i) in *.
    assert (Eh : d / 2 == (1 # 2) * d) by field.
    assert ((zi - q) * d <= (1 # 2) * d) by (apply Qmult_le_compat_r; lra).
    assert ((q - zi) * d <= (1 # 2) * d) by (apply Qmult_le_compat_r; lra).
    split; lra. }
  assert (Sp : (1 <= Z.to_nat s)%nat) by (destruct Ss; lia).
  exists imin, imax, s, d.
  set (drawn := if only then [] else map (fun k => (imin + k * Z.to_nat s)%nat) (seq 0 ((imax - imin) / Z.to_nat s + 1))).
  exists (map (fun ci => (snd ci, linspace01 (imax + 1 - imin) (fst ci))) (combine (seq 0 (length drawn)) drawn)).
  split; [lia |]; split; [intros n Hl; apply closest_min; auto |].
  split.
  { subst tm; destruct tmax as [t |]; [intros n Hl; apply closest_min; auto |]; apply closest_exact; auto; lia. }
  split; [exact Vd |]; split; [exact Ss |].
  assert (Ef : map fst (map (fun ci : nat * nat => (snd ci, linspace01 (imax + 1 - imin) (fst ci))) (combine (seq 0 (length drawn)) drawn)) = drawn).
  { rewrite map_map; cbn [fst]; generalize 0%nat; clear; induction drawn as [| x l IH]; intros n; cbn; auto; rewrite IH; reflexivity. }
  split; [| split; [exact Ef |]].
  - unfold plot_times; destruct times as [| t0 r]; [congruence |].
    assert (Em : match tmax with None => maximum t0 r | Some t => t end = tm).
    { subst tm; destruct tmax as [t |]; auto; rewrite maximum_last by auto; cbn [length]; f_equal; lia. }
    rewrite Em; fold imin imax.
    unfold step; rewrite Ed; fold delta.
    destruct (Qeq_bool d 0) eqn:Z0; [apply Qeq_bool_eq in Z0; lra |].
    cbv zeta; fold i s.
    destruct (Nat.ltb_spec (imax + 1) imin) as [B | B]; [lia |].
    assert (Er : (if only then [] else records imin imax s) = drawn); [| rewrite Er; reflexivity].
    unfold drawn; destruct only; auto; unfold records.
    destruct (Z.ltb_spec s 0) as [B' | B']; [lia |].
    unfold range; apply range_from_map; auto; lia.
  - intros k Hk; rewrite map_length, combine_length, seq_length in Hk.
    rewrite (nth_indep _ (0%nat, 0) ((fun ci : nat * nat => (snd ci, linspace01 (imax + 1 - imin) (fst ci))) (0%nat, 0%nat))) by (rewrite map_length, combine_length, seq_length; lia).
    rewrite (map_nth (fun ci : nat * nat => (snd ci, linspace01 (imax + 1 - imin) (fst ci)))), combine_nth by (rewrite seq_length; auto).
    rewrite seq_nth by lia; cbn [fst snd Nat.add].
    destruct (Nat.eqb_spec imin imax) as [E | E].
    + replace (imax + 1 - imin)%nat with 1%nat by lia; cbn [linspace01]; ring.
    + destruct (imax + 1 - imin)%nat as [| [| m]] eqn:Em; try lia; cbn [linspace01].
      replace (imax - imin)%nat with (S m) by lia; field.
      intros F; change 0 with (inject_Z 0) in F; apply Qeq_bool_iff in F; discriminate || (apply Qeq_bool_eq in F; unfold Qeq in F; cbn in F; lia).
Qed.

(** regular times, default arguments: all the records if there are at most 20, otherwise from 16 to 31 curves *)
Theorem c281_number : forall t0 h n, 0 < h -> (2 <= n)%nat ->
  exists curves, plot_times (map (fun i => t0 + inject_Z (Z.of_nat i) * h) (seq 0 n)) t0 None None false = inl (curves, seq 0 n)
    /\ ((n <= 20)%nat -> map fst curves = seq 0 n) /\ ((20 < n)%nat -> (16 <= length curves <= 31)%nat).
Proof.
  intros t0 h n Ph Ln; set (times := map (fun i => t0 + inject_Z (Z.of_nat i) * h) (seq 0 n)).
  assert (Ll : length times = n) by (unfold times; rewrite map_length, seq_length; reflexivity).
  assert (Nt : forall i, (i < n)%nat -> nth i times 0 = t0 + inject_Z (Z.of_nat i) * h).
  { intros i Li; unfold times.
    rewrite (nth_indep _ 0 ((fun i => t0 + inject_Z (Z.of_nat i) * h) 0%nat)) by (rewrite map_length, seq_length; auto).
    rewrite (map_nth (fun i => t0 + inject_Z (Z.of_nat i) * h)), seq_nth by auto; reflexivity. }
  assert (I : increasing times).
  { intros i j L; rewrite Ll in L; rewrite !Nt by lia.
    assert (inject_Z (Z.of_nat i) < inject_Z (Z.of_nat j)) by (rewrite <- Zlt_Qlt; lia).
    set (a := inject_Z (Z.of_nat i)) in *; set (b := inject_Z (Z.of_nat j)) in *; nra. }
  assert (Pn : 0 <= inject_Z (Z.of_nat (n - 1))) by (change 0 with (inject_Z 0); rewrite <- Zle_Qle; lia).
  destruct (c281_records_partial times t0 None None false I) as (imin & imax & s & d & curves & A1 & A2 & A3 & A4 & A5 & A6 & A7 & _); auto.
  { rewrite Ll; auto. }
  { rewrite Ll, Nt by lia; set (a := inject_Z (Z.of_nat (n - 1))) in *; nra. }
  cbv beta iota in A3, A5, A7; rewrite Ll in A3, A4, A5.
  assert (Em : imin = 0%nat).
  { destruct (Nat.eq_dec imin 0) as [E | E]; auto; exfalso.
    assert (H := A2 0%nat); rewrite Ll in H; specialize (H ltac:(lia)); rewrite Ll in A1.
    rewrite !Nt in H by lia; change (inject_Z (Z.of_nat 0)) with 0 in H.
    assert (0 < inject_Z (Z.of_nat imin)) by (change 0 with (inject_Z 0); rewrite <- Zlt_Qlt; lia).
    set (a := inject_Z (Z.of_nat imin)) in *.
    assert (P : 0 < a * h) by (apply Qmult_lt_0_compat; auto).
    revert H; apply (Qabs_case (t0 + a * h - t0)); apply (Qabs_case (t0 + 0 * h - t0)); intros; lra. }
  subst imin imax; exists curves.
  replace (n - 1 + 1 - 0)%nat with n in A6 by lia; split; [exact A6 |].
  replace (n - 1 - 0)%nat with (n - 1)%nat in A7 by lia.
  rewrite !Nt in A4, A5 by lia; change (inject_Z (Z.of_nat 0)) with 0 in A4, A5.
  assert (Pn' : 0 < inject_Z (Z.of_nat (n - 1))) by (change 0 with (inject_Z 0); rewrite <- Zlt_Qlt; lia).
  assert (Ed : d == h).
  { apply Qmult_inj_r with (inject_Z (Z.of_nat (n - 1))); [lra |]; rewrite A4; ring. }
  destruct A5 as (S1 & S2).
  assert (Hl : length curves = ((n - 1) / Z.to_nat s + 1)%nat).
  { rewrite <- (map_length fst), A7, map_length, seq_length; reflexivity. }
  split; intros Hn.
  - assert (s = 1%Z) as ->.
    { destruct S2 as [S2 | [S2 _]]; auto; rewrite Nat.min_r in S2 by lia.
      apply Qabs_Qle_condition in S2; destruct S2 as [_ S2]; rewrite Ed in S2.
      assert (En : inject_Z (Z.of_nat (n - 1)) == inject_Z (Z.of_nat n) - 1).
      { rewrite Nat2Z.inj_sub by lia; unfold Z.sub; rewrite inject_Z_plus; reflexivity. }
      assert (P0 : 0 < inject_Z (Z.of_nat n)) by (change 0 with (inject_Z 0); rewrite <- Zlt_Qlt; lia).
      assert (Q1 : (t0 + inject_Z (Z.of_nat (n - 1)) * h - (t0 + 0 * h)) / inject_Z (Z.of_nat n) <= h).
      { apply Qle_shift_div_r; auto; rewrite En; set (a := inject_Z (Z.of_nat n)) in *; nra. }
      destruct (Z_le_gt_dec s 1) as [G | G]; [lia |]; exfalso.
      assert (2 <= inject_Z s) by (change 2 with (inject_Z 2); rewrite <- Zle_Qle; lia).
      assert (2 * h <= inject_Z s * h) by (apply Qmult_le_compat_r; lra).
      assert (Eh : h / 2 == (1 # 2) * h) by field; lra. }
    rewrite A7; change (Z.to_nat 1) with 1%nat; rewrite Nat.div_1_r.
    replace (n - 1 + 1)%nat with n by lia.
    rewrite <- (map_id (seq 0 n)) at 2; apply map_ext; intros k; lia.
  - rewrite Hl; rewrite Nat.min_l in S2 by lia; change (inject_Z (Z.of_nat 20)) with 20 in S2.
    set (m := (n - 1)%nat) in *; assert (Hm : (20 <= m)%nat) by (unfold m; lia).
    assert (Zs : (20 * s - 10 <= Z.of_nat m <= 20 * s + 10)%Z).
    { assert (Pm : 20 <= inject_Z (Z.of_nat m)) by (change 20 with (inject_Z 20); rewrite <- Zle_Qle; lia).
      assert (Eq : (t0 + inject_Z (Z.of_nat m) * h - (t0 + 0 * h)) / 20 == inject_Z (Z.of_nat m) * h / 20) by (field).
      rewrite Eq, Ed in S2; clear Eq; set (x := inject_Z (Z.of_nat m)) in *.
      assert (E20 : x * h / 20 == (1 # 20) * (x * h)) by field; rewrite E20 in S2; clear E20.
      destruct S2 as [S2 | [S2 S3]].
      - assert (E2 : h / 2 == (1 # 2) * h) by field; rewrite E2 in S2.
        apply Qabs_Qle_condition in S2; set (y := inject_Z s) in *.
        assert (A : 20 * y - 10 <= x /\ x <= 20 * y + 10).
        { split; apply Qmult_le_l with h; auto; lra. }
        unfold x, y in A; change 20 with (inject_Z 20) in A; change 10 with (inject_Z 10) in A.
        unfold Qminus in A; rewrite <- !inject_Z_mult, <- inject_Z_opp, <- !inject_Z_plus, <- !Zle_Qle in A; lia.
      - exfalso; assert (E2 : h / 2 == (1 # 2) * h) by field; rewrite E2 in S3; nra. }
    assert (Sn : s = Z.of_nat (Z.to_nat s)) by lia; set (k := Z.to_nat s) in *; rewrite Sn in Zs.
    assert (K1 : (1 <= k)%nat) by lia.
    pose proof (Nat.div_mod m k ltac:(lia)) as Dm; pose proof (Nat.mod_upper_bound m k ltac:(lia)) as Mb.
    set (q := (m / k)%nat) in *; set (r := (m mod k)%nat) in *.
    assert (15 <= q <= 30)%nat; [| lia].
    split.
    + destruct (le_lt_dec 15 q) as [G | G]; auto; exfalso.
      assert (k * q <= k * 14)%nat by (apply Nat.mul_le_mono_l; lia).
      destruct (Nat.eq_dec k 1) as [-> | G1]; lia.
    + destruct (le_lt_dec q 30) as [G | G]; auto; exfalso.
      assert (k * 31 <= k * q)%nat by (apply Nat.mul_le_mono_l; lia); lia.
Qed.

(** the colours begin at 0, increase and are at most 1; the last record of the range has the colour 1 if all the
    records are drawn *)
Theorem c281_colors_partial : forall times tmin tmax delta_t curves avg, plot_times times tmin tmax delta_t false = inl (curves, avg) ->
  (forall k, (k < length curves)%nat -> 0 <= snd (nth k curves (0%nat, 0)))
  /\ (curves <> [] -> snd (nth 0 curves (0%nat, 0)) == 0)
  /\ (forall k, (S k < length curves)%nat -> (length curves <= length avg)%nat -> snd (nth k curves (0%nat, 0)) < snd (nth (S k) curves (0%nat, 0)) <= 1)
  /\ ((2 <= length curves)%nat -> length curves = length avg -> snd (nth (length curves - 1) curves (0%nat, 0)) == 1).
Proof.
  intros times tmin tmax delta_t curves avg H.
  assert (G : exists n drawn imin, avg = seq imin n /\ curves = map (fun ci => (snd ci, linspace01 n (fst ci))) (combine (seq 0 (length drawn)) drawn)).
  { unfold plot_times in H; destruct times as [| t0 r]; [discriminate |].
    set (tm := match tmax with None => maximum t0 r | Some t => t end) in *.
    destruct (step (t0 :: r) _ _ delta_t) as [i | e]; [| discriminate].
    destruct (Nat.ltb _ _); [discriminate |]; injection H as <- <-; eauto. }
  destruct G as (n & drawn & imin & -> & Ec).
  assert (Lc : length curves = length drawn) by (rewrite Ec, map_length, combine_length, seq_length; lia).
  assert (Nc : forall k, (k < length curves)%nat -> snd (nth k curves (0%nat, 0)) = linspace01 n k).
  { intros k Hk; rewrite Ec.
    rewrite (nth_indep _ (0%nat, 0) ((fun ci : nat * nat => (snd ci, linspace01 n (fst ci))) (0%nat, 0%nat))) by (rewrite map_length, combine_length, seq_length; lia).
    rewrite (map_nth (fun ci : nat * nat => (snd ci, linspace01 n (fst ci)))), combine_nth by (rewrite seq_length; auto).
    rewrite seq_nth by lia; reflexivity. }
  rewrite seq_length; clear H Ec.
  assert (P : forall m, 0 < inject_Z (Z.of_nat (S m))) by (intros m; change 0 with (inject_Z 0); rewrite <- Zlt_Qlt; lia).
  split; [| split; [| split]].
  - intros k Hk; rewrite Nc by auto; destruct n as [| [| m]]; cbn [linspace01]; try apply Qle_refl.
    apply Qle_shift_div_l; auto; rewrite Qmult_0_l; change 0 with (inject_Z 0); rewrite <- Zle_Qle; lia.
  - intros Hc; rewrite Nc by (destruct curves; [congruence | cbn; lia]).
    destruct n as [| [| m]]; cbn [linspace01]; try reflexivity; change (inject_Z (Z.of_nat 0)) with 0; unfold Qdiv; ring.
  - intros k Hk Hl; rewrite !Nc by lia; destruct n as [| [| m]]; try lia; cbn [linspace01]; split.
    + unfold Qdiv; apply Qmult_lt_r; [apply Qinv_lt_0_compat; auto |]; rewrite <- Zlt_Qlt; lia.
    + apply Qle_shift_div_r; auto; rewrite Qmult_1_l, <- Zle_Qle; lia.
  - intros H2 Hl; rewrite Nc by lia; destruct n as [| [| m]]; try lia; cbn [linspace01].
    rewrite Hl; replace (S (S m) - 1)%nat with (S m) by lia; assert (K := P m); field; lra.
Qed.

(** the drawn value *)
Theorem c281_value : forall k e coef, ~ k == 0 ->
  (1 # 1000000000000000 <= e -> exists v, value k e coef = Some v /\ v == e * k ^ coef)
  /\ (e < 1 # 1000000000000000 -> exists v, value k e coef = Some v /\ v == 0).
Proof.
  intros k e coef Hk; unfold value.
  assert (F : Qeq_bool k 0 = false) by (destruct (Qeq_bool k 0) eqn:E; auto; apply Qeq_bool_eq in E; contradiction).
  rewrite F; split; intros H.
  - apply Qle_bool_iff in H; rewrite H; cbn [negb].
    destruct (Z.eqb_spec coef 0) as [-> | N]; eexists; (split; [reflexivity |]); cbn; ring || reflexivity.
  - destruct (Qle_bool (1 # 1000000000000000) e) eqn:E; [apply Qle_bool_iff in E; lra |]; cbn [negb].
    destruct (Z.eqb coef 0); eexists; (split; [reflexivity |]); ring.
Qed.

(** a file with one record cannot be drawn, even its average; with a step the last colour is not reached *)
Theorem c281_refuted :
  (exists times, length times = 1%nat /\ forall tmin tmax delta_t only, plot_times times tmin tmax delta_t only = inr BadStep)
  /\ (exists times delta_t curves avg, increasing times /\ plot_times times 0 None (Some delta_t) false = inl (curves, avg)
      /\ nth (length curves - 1) (map fst curves) 0%nat = (length times - 1)%nat /\ snd (nth (length curves - 1) curves (0%nat, 0)) < 1)
  /\ (exists times tmin tmax only, increasing times /\ (2 <= length times)%nat /\ plot_times times tmin (Some tmax) None only = inr NegativeNumber).
Proof.
  split; [| split].
  - exists [0]; split; auto.
  - exists [0; 1; 2], 2; do 2 eexists; split; [exact inc_012 |]; split; [reflexivity |]; split; reflexivity.
  - exists [0; 1; 2], 2, 0, true; split; [exact inc_012 |]; split; [cbn; lia | reflexivity].
Qed.

(** the hypotheses are met *)
Example ex_c281 : increasing [0; 1; 2] /\ exists curves, plot_times [0; 1; 2] 0 None None false = inl (curves, [0; 1; 2]%nat)
  /\ map fst curves = [0; 1; 2]%nat /\ map (fun c => Qred (snd c)) curves = [0; 1 # 2; 1].
Proof. split; [exact inc_012 |]; eexists; split; [reflexivity |]; split; reflexivity. Qed.
Example ex_c281_value : ~ 2 == 0 /\ 1 # 1000000000000000 <= 3 /\ value 2 3 2 = Some 12 /\ value 0 3 2 = None.
Proof. split; [discriminate |]; split; [discriminate |]; split; reflexivity. Qed.

Print Assumptions c281_records_partial.
Print Assumptions c281_number.
Print Assumptions c281_colors_partial.
Print Assumptions c281_value.
Print Assumptions c281_refuted.
