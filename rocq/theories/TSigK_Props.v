(** * Properties of the time signals of Fourier modes *)

From Coq Require Import List Arith ZArith Reals Bool Lia Lra Sorted FinFun.
From Coquelicot Require Import Complex.
From Verif Require Import CExp DFT TSpec_Model TSpec_Props TSigK_Model.
Import ListNotations.
Local Open Scope R_scope.

(** ** The shells *)

Lemma nearest_unique x (z : Z) : IZR z - / 2 <= x < IZR z + / 2 -> nearest x = z.
Proof.
  intros H. unfold nearest. set (y := x + / 2).
  assert (Hy : IZR z <= y < IZR z + 1) by (unfold y; lra). clearbody y.
  pose proof (base_Int_part y) as B.
  assert (B1 : IZR (Int_part y) < IZR (z + 1)) by (rewrite plus_IZR; lra).
  assert (B2 : IZR z < IZR (Int_part y + 1)) by (rewrite plus_IZR; lra).
  apply lt_IZR in B1, B2. lia.
Qed.

Lemma nearest_close x : IZR (nearest x) - / 2 <= x < IZR (nearest x) + / 2.
Proof. unfold nearest. pose proof (base_Int_part (x + / 2)). lra. Qed.

Lemma pow_lt_inv a x n : 0 <= a -> a ^ n < x ^ n -> 0 <= x -> a < x.
Proof.
  intros Ha H Hx. destruct (Rlt_le_dec a x) as [L|L]; [exact L|]. exfalso.
  assert (x ^ n <= a ^ n) by (apply pow_incr; lra). lra.
Qed.

Lemma exp_pow x n : exp x ^ n = exp (INR n * x).
Proof.
  induction n as [|n IH]; [cbn; now rewrite Rmult_0_l, exp_0|].
  rewrite S_INR. cbn [pow]. rewrite IH, <- exp_plus. f_equal. ring.
Qed.

(** the modulus of a shell from integer powers *)
Lemma raw_shell_value (nx coef : R) (ns i : nat) (z : Z) : 0 < nx / 2 * coef -> (1 <= z)%Z ->
  (IZR z - / 2) ^ (ns + 3) < (nx / 2 * coef) ^ (i + 3) < (IZR z + / 2) ^ (ns + 3) ->
  raw_shell nx coef ns i = z.
Proof.
  intros Hp Hz [H1 H2]. unfold raw_shell. set (x := exp _).
  assert (Hx : 0 < x) by apply exp_pos.
  assert (Hx7 : x ^ (ns + 3) = (nx / 2 * coef) ^ (i + 3)).
  { unfold x. rewrite exp_pow. rewrite <- (exp_ln (nx / 2 * coef)) at 2 by exact Hp. rewrite exp_pow. f_equal.
    assert (INR (ns + 3) <> 0) by (apply not_0_INR; lia). field. assumption. }
  apply IZR_le in Hz. rewrite <- Hx7 in H1, H2. apply nearest_unique.
  apply pow_lt_inv in H1; [|lra|lra]. apply pow_lt_inv in H2; lra.
Qed.

Lemma separate_id p l : Sorted Z.lt (p :: l) -> separate p l = l.
Proof.
  revert p. induction l as [|m l IH]; intros p H; [reflexivity|].
  apply Sorted_inv in H as [H Hd]. inversion Hd as [|? ? Hm]; subst. cbn [separate].
  destruct (Z.eqb_spec p m); [lia|]. now rewrite IH.
Qed.

Lemma separate_up p l : Sorted Z.lt (p :: l) -> Sorted Z.lt ((p + 1)%Z :: separate (p + 1) l).
Proof.
  revert p. induction l as [|m l IH]; intros p H; [repeat constructor|].
  apply Sorted_inv in H as [H Hd]. inversion Hd as [|? ? Hm]; subst. cbn [separate].
  destruct (Z.eqb_spec (p + 1) m) as [e|e].
  - constructor; [now apply IH|constructor; lia].
  - rewrite separate_id by exact H. constructor; [exact H|constructor; lia].
Qed.

Lemma separate_app p l1 l2 : Sorted Z.lt (p :: l1) -> Sorted Z.lt l2 -> Sorted Z.le (p :: l1 ++ l2) ->
  Sorted Z.lt (p :: separate p (l1 ++ l2)).
Proof.
  revert p. induction l1 as [|m l1 IH]; intros p H1 H2 H; cbn [app] in *.
  - destruct l2 as [|m l2]; [repeat constructor|]. cbn [separate].
    apply Sorted_inv in H as [_ Hd]. inversion Hd as [|? ? Hm]; subst.
    destruct (Z.eqb_spec p m) as [e|e].
    + constructor; [now apply separate_up|constructor; lia].
    + rewrite separate_id by exact H2. constructor; [exact H2|constructor; lia].
  - apply Sorted_inv in H1 as [H1 Hd]. inversion Hd as [|? ? Hm]; subst.
    apply Sorted_inv in H as [H _]. cbn [separate]. destruct (Z.eqb_spec p m); [lia|].
    constructor; [now apply IH|constructor; lia].
Qed.

Lemma separate_close p l i : (i < length l)%nat ->
  nth i (separate p l) 0%Z = nth i l 0%Z \/ nth i (separate p l) 0%Z = (nth i l 0 + 1)%Z.
Proof.
  revert p i. induction l as [|m l IH]; intros p i H; [cbn in H; lia|]. cbn [separate].
  destruct i as [|i]; cbn [nth]; [destruct (Z.eqb p m); auto|]. apply IH. cbn in H. lia.
Qed.

(** If at most two neighbouring shells are equal (the moduli are two increasing lists one after
    the other), the shells are distinct and increasing; each one is at most one step from its
    target. *)
Theorem c180_shells_partial : forall l1 l2 : list Z,
  Sorted Z.lt l1 -> Sorted Z.lt l2 -> Sorted Z.le (l1 ++ l2) ->
  Sorted Z.lt (kh_shells (l1 ++ l2)).
Proof.
  intros [|p l1] l2 H1 H2 H; cbn [app kh_shells] in *.
  - destruct l2 as [|m l2]; [constructor|]. cbn [kh_shells]. now rewrite separate_id.
  - now apply separate_app.
Qed.

Theorem c180_close : forall (l : list Z) i, (i < length l)%nat ->
  length (kh_shells l) = length l /\
  (nth i (kh_shells l) 0 = nth i l 0 \/ nth i (kh_shells l) 0 = nth i l 0 + 1)%Z.
Proof.
  intros [|m l] i H; [cbn in H; lia|]. cbn [kh_shells]. split.
  - cbn [length]. f_equal. generalize m. clear. induction l; intros m; cbn [separate length]; [reflexivity|]. now rewrite IHl.
  - destruct i as [|i]; cbn [nth]; [auto|]. apply separate_close. cbn in H. lia.
Qed.

Example c180_shells_witness :
  raw_shells 24 (2 / 3) 4 = [2; 3; 4; 6]%Z /\ Sorted Z.lt (kh_shells ([2; 3] ++ [3; 4])%Z).
Proof.
  split.
  - unfold raw_shells. cbn [seq map].
    rewrite (raw_shell_value 24 (2 / 3) 4 0 2), (raw_shell_value 24 (2 / 3) 4 1 3), (raw_shell_value 24 (2 / 3) 4 2 4),
      (raw_shell_value 24 (2 / 3) 4 3 6); try lia; try reflexivity; try lra; cbn [Nat.add pow]; lra.
  - apply c180_shells_partial; cbn [app]; repeat constructor; lia.
Qed.

(** With the default number of shells and 12 points in one direction, two shells are the same. *)
Theorem c180_refuted : exists (nx coef : R) (ns i j : nat),
  (i < j < ns)%nat /\ ns = 4%nat /\ nx = 12 /\ coef = 2 / 3 /\
  nth i (kh_shells (raw_shells nx coef ns)) 0%Z = nth j (kh_shells (raw_shells nx coef ns)) 0%Z.
Proof.
  exists 12, (2 / 3), 4%nat, 1%nat, 3%nat. split; [lia|]. split; [reflexivity|]. split; [reflexivity|]. split; [reflexivity|].
  unfold raw_shells. cbn [seq map].
  rewrite (raw_shell_value 12 (2 / 3) 4 0 2), (raw_shell_value 12 (2 / 3) 4 1 2), (raw_shell_value 12 (2 / 3) 4 2 3),
      (raw_shell_value 12 (2 / 3) 4 3 3); try lia; try reflexivity; try lra; cbn [Nat.add pow]; lra.
Qed.

(** ** The wave numbers of a shell *)

Lemma put_length {A} i (v : A) l : forall l', put i v l = Some l' -> length l' = length l.
Proof.
  revert i. induction l as [|x l IH]; intros [|i] l' H; cbn in H; try discriminate; [now injection H as <-|].
  destruct (put i v l) as [l''|] eqn:E; [|discriminate]. injection H as <-. cbn. f_equal. eauto.
Qed.

Lemma put_none {A} i (v : A) l : put i v l = None <-> (length l <= i)%nat.
Proof.
  revert i. induction l as [|x l IH]; intros [|i]; cbn; try (split; [lia|reflexivity]); [split; [discriminate|lia]|].
  destruct (put i v l) eqn:E; cbn.
  - split; [discriminate|]. intros H. assert (length l <= i)%nat as H' by lia. apply IH in H'. congruence.
  - split; [|reflexivity]. intros _. apply IH in E. lia.
Qed.

Lemma put_nth {A} i (v : A) l : forall l' j, put i v l = Some l' -> nth j l' None = if Nat.eqb j i then Some v else nth j l None.
Proof.
  revert i. induction l as [|x l IH]; intros [|i] l' j H; cbn in H; try discriminate.
  - injection H as <-. destruct j; reflexivity.
  - destruct (put i v l) as [l''|] eqn:E; [|discriminate]. injection H as <-. destruct j as [|j]; [reflexivity|]. cbn. eauto.
Qed.

Lemma puts_none {A} (w : list (nat * A)) l : puts w l = None <-> exists i v, In (i, v) w /\ (length l <= i)%nat.
Proof.
  revert l. induction w as [|[i v] w IH]; intros l; cbn; [split; [discriminate|intros (? & ? & [] & _)]|].
  destruct (put i v l) as [l'|] eqn:E.
  - rewrite IH. rewrite (put_length _ _ _ _ E). split; [intros (j & u & H & Hj); eauto|].
    intros (j & u & [H|H] & Hj); [|eauto]. injection H as <- <-. apply (put_none i v) in Hj. congruence.
  - split; [|reflexivity]. intros _. apply put_none in E. exists i, v. auto.
Qed.

(** what is read afterwards, when no index is written twice *)
Lemma puts_nth {A} (w : list (nat * A)) l l' : puts w l = Some l' -> NoDup (map fst w) ->
  (forall i v, In (i, v) w -> nth i l' None = Some v) /\
  (forall i, ~ In i (map fst w) -> nth i l' None = nth i l None).
Proof.
  revert l. induction w as [|[i v] w IH]; intros l H ND; cbn in H.
  - injection H as ->. split; [intros ? ? []|reflexivity].
  - destruct (put i v l) as [l1|] eqn:E; [|discriminate]. cbn in ND. apply NoDup_cons_iff in ND as [Hi ND].
    destruct (IH l1 H ND) as [IH1 IH2]. split.
    + intros j u [Hj|Hj]; [|auto]. injection Hj as <- <-. rewrite IH2 by exact Hi.
      rewrite (put_nth _ _ _ _ _ E), Nat.eqb_refl. reflexivity.
    + intros j Hj. cbn in Hj. rewrite IH2 by tauto. rewrite (put_nth _ _ _ _ _ E).
      destruct (Nat.eqb_spec j i); [exfalso; apply Hj; left; congruence|reflexivity].
Qed.

Lemma puts_untouched {A} (w : list (nat * A)) l l' i : puts w l = Some l' -> ~ In i (map fst w) ->
  nth i l' None = nth i l None.
Proof.
  revert l. induction w as [|[j v] w IH]; intros l H Hi; cbn in H, Hi; [now injection H as ->|].
  destruct (put j v l) as [l1|] eqn:E; [|discriminate]. rewrite (IH l1 H) by tauto.
  rewrite (put_nth _ _ _ _ _ E). destruct (Nat.eqb_spec i j); [exfalso; apply Hi; left; congruence|reflexivity].
Qed.

Definition point (nk i : nat) (kh : R) : R * R := (kh * cos (angle nk i), kh * sin (angle nk i)).

Lemma in_writes ns nk khs : forall s0 j v, In (j, v) (writes_from ns nk s0 khs) <->
  exists s i, (s < length khs)%nat /\ (i < nk)%nat /\ j = ((s0 + s) * ns + i)%nat /\ v = point nk i (nth s khs 0).
Proof.
  induction khs as [|kh khs IH]; intros s0 j v; cbn [writes_from length].
  - split; [intros []|intros (s & i & H & _); lia].
  - rewrite in_app_iff, IH. unfold shell_writes. rewrite in_map_iff. split.
    + intros [(i & H & Hi)|(s & i & Hs & Hi & -> & ->)].
      * apply in_seq in Hi. injection H as <- <-. exists 0%nat, i. rewrite Nat.add_0_r. cbn [nth]. repeat (split; [lia || reflexivity|]). reflexivity.
      * exists (S s), i. replace (s0 + S s)%nat with (S s0 + s)%nat by lia. cbn [nth]. repeat (split; [lia || reflexivity|]). reflexivity.
    + intros (s & i & Hs & Hi & -> & ->). destruct s as [|s].
      * left. exists i. rewrite Nat.add_0_r. split; [reflexivity|apply in_seq; lia].
      * right. exists s, i. replace (s0 + S s)%nat with (S s0 + s)%nat by lia. cbn [nth]. repeat (split; [lia || reflexivity|]). reflexivity.
Qed.

Lemma NoDup_app_intro {A} (l1 l2 : list A) : NoDup l1 -> NoDup l2 -> (forall x, In x l1 -> In x l2 -> False) -> NoDup (l1 ++ l2).
Proof.
  induction l1 as [|a l1 IH]; intros H1 H2 H; cbn; [exact H2|]. apply NoDup_cons_iff in H1 as [Ha H1].
  constructor; [rewrite in_app_iff; intros [?|?]; [tauto|eapply H; [left; reflexivity|assumption]]|].
  apply IH; auto. intros x Hx Hx'. eapply H; [right; exact Hx|exact Hx'].
Qed.

Lemma nodup_writes ns nk khs s0 : (nk <= ns)%nat \/ (length khs <= 1)%nat -> NoDup (map fst (writes_from ns nk s0 khs)).
Proof.
  revert s0. induction khs as [|kh khs IH]; intros s0 H; cbn [writes_from]; [constructor|].
  rewrite map_app. apply NoDup_app_intro.
  - unfold shell_writes. rewrite map_map. cbn [fst]. apply Injective_map_NoDup; [intros a b; lia|apply seq_NoDup].
  - apply IH. cbn [length] in H. destruct H; [left; assumption|right; lia].
  - intros j Hj Hj'. unfold shell_writes in Hj. rewrite map_map in Hj. cbn [fst] in Hj. apply in_map_iff in Hj as (i & <- & Hi).
    apply in_seq in Hi. apply in_map_iff in Hj' as ([j' v] & E & Hj'). cbn [fst] in E. subst j'.
    apply in_writes in Hj' as (s & i' & Hs & Hi' & E & _). destruct H as [H|H]; [nia|]. cbn [length] in H. lia.
Qed.

(** the wave numbers of shell [s] are found at [s * nk + i], where plot and compute_spectra read
    their signals *)
Definition well_placed (khs : list R) (nk : nat) : Prop :=
  exists a, select khs nk = Some a /\ forall s i, (s < length khs)%nat -> (i < nk)%nat ->
    nth (s * nk + i) a None = Some (point nk i (nth s khs 0)).

(** one shell, or as many wave numbers per shell as shells *)
Theorem c181_partial : forall (khs : list R) nk, (2 <= nk)%nat ->
  length khs = nk \/ length khs = 1%nat -> well_placed khs nk.
Proof.
  intros khs nk Hnk H. unfold well_placed, select. set (ns := length khs) in *.
  destruct (Nat.eqb_spec nk 1); [lia|].
  destruct (puts (writes_from ns nk 0 khs) (repeat None (ns * nk))) as [a|] eqn:E.
  - exists a. split; [reflexivity|]. intros s i Hs Hi.
    apply puts_nth in E as [E _]; [|apply nodup_writes; fold ns; lia]. apply E. apply in_writes.
    exists s, i. fold ns. repeat (split; [assumption|]). split; [|reflexivity]. cbn [Nat.add]. destruct H as [->|H]; [reflexivity|].
    replace s with 0%nat by lia. lia.
  - exfalso. apply puts_none in E as (j & v & Hj & Hl). rewrite repeat_length in Hl.
    apply in_writes in Hj as (s & i & Hs & Hi & -> & _). fold ns in Hs. cbn [Nat.add] in Hl. destruct H as [H|H]; [|nia]. subst nk. nia.
Qed.

(** more shells than wave numbers per shell: IndexError *)
Theorem c181_error : forall (khs : list R) nk, (2 <= nk < length khs)%nat -> select khs nk = None.
Proof.
  intros khs nk H. unfold select. destruct (Nat.eqb_spec nk 1); [lia|]. apply puts_none.
  exists ((0 + (length khs - 1)) * length khs + (nk - 1))%nat, (point nk (nk - 1) (nth (length khs - 1) khs 0)). split.
  - apply in_writes. exists (length khs - 1)%nat, (nk - 1)%nat. repeat (split; [lia || reflexivity|]). reflexivity.
  - rewrite repeat_length. nia.
Qed.

(** less shells than wave numbers per shell: the last wave number is never written, and the one
    after those of the first shell is replaced or never written *)
Theorem c181_unset : forall (khs : list R) nk, (2 <= length khs < nk)%nat ->
  exists a, select khs nk = Some a /\ nth (length khs * nk - 1) a None = None.
Proof.
  intros khs nk H. unfold select. set (ns := length khs) in *. destruct (Nat.eqb_spec nk 1); [lia|].
  destruct (puts (writes_from ns nk 0 khs) (repeat None (ns * nk))) as [a|] eqn:E.
  - exists a. split; [reflexivity|]. rewrite (puts_untouched _ _ _ _ E).
    + generalize (ns * nk - 1)%nat as j. generalize (ns * nk)%nat as n'. clear.
      intros n' j. revert j. induction n'; intros [|j]; cbn; auto.
    + intros Hin. apply in_map_iff in Hin as ([j v] & Ej & Hin). cbn [fst] in Ej. subst j.
      apply in_writes in Hin as (s & i & Hs & Hi & Ej & _). fold ns in Hs. cbn [Nat.add] in Ej. nia.
  - exfalso. apply puts_none in E as (j & v & Hj & Hl). rewrite repeat_length in Hl.
    apply in_writes in Hj as (s & i & Hs & Hi & -> & _). fold ns in Hs. cbn [Nat.add] in Hl. nia.
Qed.

(** exactly the parameters for which the wave numbers are those of their shells *)
Theorem c181_iff_partial : forall (khs : list R) nk, (1 <= length khs)%nat -> (2 <= nk)%nat ->
  (well_placed khs nk <-> length khs = nk \/ length khs = 1%nat).
Proof.
  intros khs nk Hs Hk. split; [|now apply c181_partial].
  intros (a & Ha & H). destruct (lt_eq_lt_dec (length khs) nk) as [[L|L]|L]; [|auto|].
  - destruct (Nat.eq_dec (length khs) 1) as [e|e]; [auto|]. exfalso.
    destruct (c181_unset khs nk) as (b & Hb & Hn); [lia|]. assert (b = a) as -> by congruence.
    specialize (H (length khs - 1)%nat (nk - 1)%nat ltac:(lia) ltac:(lia)).
    replace ((length khs - 1) * nk + (nk - 1))%nat with (length khs * nk - 1)%nat in H by nia. congruence.
  - exfalso. rewrite c181_error in Ha by lia. discriminate.
Qed.

Theorem c181_one : forall khs, select khs 1 = None.
Proof. reflexivity. Qed.

Lemma angle_value nk i : angle nk i = - PI / 2 + INR i * (PI / INR (nk - 1)).
Proof. induction i as [|i IH]; cbn [angle]; [cbn; ring|]. rewrite IH, S_INR. ring. Qed.

(** the first and the last wave number of a shell are opposite, and all of them are on the shell
    with a non-negative first component *)
Theorem c181_shell : forall nk kh i, (2 <= nk)%nat -> (i < nk)%nat -> 0 <= kh ->
  fst (point nk i kh) ^ 2 + snd (point nk i kh) ^ 2 = kh ^ 2 /\ 0 <= fst (point nk i kh) /\
  point nk 0 kh = (0, - kh) /\ point nk (nk - 1) kh = (0, kh).
Proof.
  intros nk kh i Hk Hi Hkh. assert (HN : 0 < INR (nk - 1)) by (apply lt_0_INR; lia). pose proof PI_RGT_0 as HP. unfold point. cbn [fst snd].
  split; [|split; [|split]].
  - pose proof (sin2_cos2 (angle nk i)) as E. unfold Rsqr in E. nra.
  - apply Rmult_le_pos; [exact Hkh|]. rewrite angle_value.
    assert (H : 0 <= INR i * (PI / INR (nk - 1)) <= PI).
    { split; [apply Rmult_le_pos; [apply pos_INR|apply Rlt_le, Rdiv_lt_0_compat; lra]|].
      apply Rle_trans with (INR (nk - 1) * (PI / INR (nk - 1))); [|right; field; lra].
      apply Rmult_le_compat_r; [apply Rlt_le, Rdiv_lt_0_compat; lra|apply le_INR; lia]. }
    apply cos_ge_0; lra.
  - cbn [angle]. replace (- PI / 2) with (- (PI / 2)) by lra. rewrite cos_neg, sin_neg, cos_PI2, sin_PI2. f_equal; ring.
  - rewrite angle_value. replace (- PI / 2 + INR (nk - 1) * (PI / INR (nk - 1))) with (PI / 2) by (field; lra).
    rewrite cos_PI2, sin_PI2. f_equal; ring.
Qed.

Example c181_witness : well_placed [2; 3; 4; 5] 4 /\ ~ well_placed [2; 3] 4 /\ ~ well_placed [2; 3; 4; 5] 3.
Proof.
  split; [apply c181_partial; [lia|left; reflexivity]|].
  split; intros H; apply c181_iff_partial in H; cbn [length] in *; lia.
Qed.

Theorem c181_refuted : exists (khs : list R) (nk : nat),
  length khs = 2%nat /\ nk = 4%nat /\ ~ well_placed khs nk /\ select (khs ++ khs) 3 = None.
Proof.
  exists [2; 3], 4%nat. split; [reflexivity|]. split; [reflexivity|]. split; [apply c181_witness|].
  apply c181_error. cbn [app length]. lia.
Qed.

(** ** The mode of a wave number *)

(** a wave number in the grid is replaced by the closest one *)
Theorem c182_partial : forall (nkx ny : nat) (dkx dky kx ky : R), 0 < dkx -> 0 < dky ->
  0 <= kx -> kx / dkx < INR nkx - / 2 -> Rabs (ky / dky) < INR ny / 2 - / 2 ->
  exists kx' ky', saved_kx nkx dkx kx = Some kx' /\ saved_ky ny dky ky = Some ky' /\
    Rabs (kx' - kx) <= dkx / 2 /\ Rabs (ky' - ky) <= dky / 2.
Proof.
  intros nkx ny dkx dky kx ky Hx Hy H0 H1 H2.
  pose proof (nearest_close (kx / dkx)) as Nx. pose proof (nearest_close (ky / dky)) as Ny.
  assert (Px : 0 <= kx / dkx) by (apply Rmult_le_pos; [lra|apply Rlt_le, Rinv_0_lt_compat; lra]).
  set (ix := nearest (kx / dkx)) in *. set (iy := nearest (ky / dky)) in *.
  assert (Bx : (0 <= ix < Z.of_nat nkx)%Z).
  { split; apply Z.lt_succ_r || idtac.
    - apply lt_IZR. unfold Z.succ. rewrite plus_IZR. lra.
    - apply lt_IZR. rewrite <- INR_IZR_INZ. lra. }
  apply Rabs_def2 in H2 as [H2 H3].
  assert (By : (- Z.of_nat ny < 2 * iy < Z.of_nat ny)%Z).
  { split; apply lt_IZR; rewrite ?opp_IZR, mult_IZR, <- INR_IZR_INZ; lra. }
  assert (close : forall d k (z : Z), 0 < d -> IZR z - / 2 <= k / d < IZR z + / 2 -> Rabs (d * IZR z - k) <= d / 2).
  { intros d k z Hd [A B]. assert (E : k = k / d * d) by (field; lra). set (q := k / d) in *. clearbody q. subst k.
    apply Rabs_le. split; nra. }
  exists (dkx * IZR ix), (dky * IZR iy). split; [|split; [|split]].
  - unfold saved_kx. fold ix. destruct (Z.leb_spec (Z.of_nat nkx) ix); [lia|]. destruct (Z.ltb_spec ix (- Z.of_nat nkx)); [lia|]. cbn [orb].
    destruct (Z.ltb_spec ix 0); [lia|reflexivity].
  - unfold saved_ky, wave_ky. fold iy. set (n := Z.of_nat ny) in *. destruct (Z.ltb_spec iy 0) as [L|L].
    + destruct (Z.ltb_spec (n + iy) 0); [lia|]. cbn [orb]. destruct (Z.leb_spec n (n + iy)); [lia|].
      destruct (Z.ltb_spec (n + iy) 0); [lia|]. cbn [orb]. destruct (Z.leb_spec (2 * (n + iy)) n); [lia|]. do 3 f_equal. lia.
    + rewrite !(proj2 (Z.ltb_ge iy 0)), (proj2 (Z.leb_gt n iy)), (proj2 (Z.leb_le (2 * iy) n)) by lia. reflexivity.
  - now apply close.
  - now apply close.
Qed.

Example c182_witness : exists kx' ky', saved_kx 9 1 (2 * cos 0) = Some kx' /\ saved_ky 16 1 (-3) = Some ky' /\
  Rabs (kx' - 2 * cos 0) <= 1 / 2 /\ Rabs (ky' - -3) <= 1 / 2.
Proof.
  apply c182_partial; try lra; rewrite ?cos_0; cbn [INR]; try lra.
  replace (-3 / 1) with (- (3)) by field. rewrite Rabs_Ropp, Rabs_right; lra.
Qed.

(** In a square domain with 256 x 64 points and the default parameters, the last shell is at 45
    deltak and its last wave number is (0, 45), outside of the grid of the second direction: the
    saved mode is (0, -19). *)
Theorem c182_refuted : exists (nx : R) (ny : nat) (khs : list Z) (ky : R),
  khs = kh_shells (raw_shells nx (2 / 3) 4) /\ nx = 256 /\ ny = 64%nat /\
  ky = snd (point 4 3 (IZR (nth 3 khs 0%Z))) /\ ky = 45 /\
  saved_ky ny 1 ky = Some (-19).
Proof.
  exists 256, 64%nat, [7; 13; 24; 45]%Z, 45.
  assert (E : [7; 13; 24; 45]%Z = kh_shells (raw_shells 256 (2 / 3) 4)).
  { unfold raw_shells. cbn [seq map].
    rewrite (raw_shell_value 256 (2 / 3) 4 0 7), (raw_shell_value 256 (2 / 3) 4 1 13), (raw_shell_value 256 (2 / 3) 4 2 24),
      (raw_shell_value 256 (2 / 3) 4 3 45); try lia; try reflexivity; try lra; cbn [Nat.add pow]; lra. }
  split; [exact E|]. split; [reflexivity|]. split; [reflexivity|]. split; [|split; [reflexivity|]].
  - destruct (c181_shell 4 45 0) as (_ & _ & _ & H); [lia|lia|lra|]. cbn [Nat.sub] in H. cbn [nth]. rewrite H. reflexivity.
  - unfold saved_ky. rewrite (nearest_unique (45 / 1) 45) by (split; lra). cbn. do 2 f_equal. lra.
Qed.

(** ** The period of the records *)

(** the period is the one of the parameters, whatever the frequencies *)
Theorem c183_value : forall b param w, period_save b param w = if b then param else 0.
Proof. intros [|] param w; reflexivity. Qed.

Theorem c183_partial : forall b param w, 0 < w -> 0 < param <= PI / (8 * w) ->
  16 * period_save b param w <= 2 * PI / w.
Proof.
  intros b param w Hw H. rewrite c183_value. pose proof PI_RGT_0.
  replace (2 * PI / w) with (16 * (PI / (8 * w))) by (field; lra). destruct b; nra.
Qed.

Example c183_witness : 0 < 1 /\ 0 < PI / 16 <= PI / (8 * 1).
Proof. pose proof PI_RGT_0. lra. Qed.

(** The period computed in order to have 16 records per period of the fastest selected mode is
    lost: with the value True of the solver (a period of 1) and a frequency 10, there is less than
    one record per period. *)
Theorem c183_refuted : exists param w, 0 < w /\ 0 < param /\ 2 * PI / w < period_save true param w.
Proof.
  exists 1, 10. rewrite c183_value. pose proof PI_4. lra.
Qed.

(** ** The records of the file *)

Lemma put_resized {A} (v : A) l n : (n <= length l)%nat ->
  put n v (resized (n + 1) l) = Some (firstn n l ++ [Some v]).
Proof.
  revert n. induction l as [|x l IH]; intros [|n] H; cbn in H; try lia; try reflexivity.
  change (S n + 1)%nat with (S (n + 1)). unfold resized. cbn [firstn length Nat.sub app put].
  fold (resized (n + 1) l). rewrite IH by lia. reflexivity.
Qed.

Lemma add_records_from {A} (vs : list A) l n : (n <= length l)%nat -> vs <> [] ->
  add_records (l, n) vs = Some (firstn n l ++ map Some vs, (n + length vs)%nat).
Proof.
  revert l n. induction vs as [|v vs IH]; intros l n H Hv; [congruence|]. cbn [add_records add_record].
  rewrite put_resized by exact H. cbn [option_map]. assert (Hl : length (firstn n l ++ [Some v]) = S n) by (rewrite app_length, firstn_length; cbn; lia).
  destruct vs as [|v' vs].
  - cbn [add_records map length]. do 2 f_equal. lia.
  - rewrite IH; [|lia|discriminate]. cbn [map length]. rewrite firstn_all2 by lia. rewrite <- app_assoc. cbn [app]. do 2 f_equal. lia.
Qed.

(** a new file contains all the records *)
Theorem c184_new_partial : forall (A : Type) (now : A) vs, exists n,
  add_records (init_files None now) vs = Some (map Some (now :: vs), n) /\ n = S (length vs).
Proof.
  intros A now [|v vs]; cbn [init_files]; [now exists 1%nat|].
  exists (S (length (v :: vs))). split; [|reflexivity]. rewrite add_records_from by (cbn; [lia|discriminate] || (cbn; lia) || discriminate). reflexivity.
Qed.

(** when the file exists, the first record is kept and all the others are lost as soon as a
    record is added *)
Theorem c184_restart_partial : forall (A : Type) (r now : A) old vs, vs <> [] -> exists n,
  add_records (init_files (Some (map Some (r :: old))) now) vs = Some (map Some (r :: vs), n).
Proof.
  intros A r now old vs H. cbn [init_files map]. rewrite add_records_from by (cbn; lia || assumption). eexists. reflexivity.
Qed.

Example c184_witness : add_records (init_files None 0%nat) [1; 2]%nat = Some ([Some 0; Some 1; Some 2]%nat, 3%nat).
Proof. reflexivity. Qed.

Theorem c184_refuted : exists (run1 run2 : list nat) (now : nat) file1 file2 n1 n2,
  add_records (init_files None 0%nat) run1 = Some (file1, n1) /\
  add_records (init_files (Some file1) now) run2 = Some (file2, n2) /\
  In (Some 2%nat) file1 /\ ~ In (Some 2%nat) file2 /\ (length file2 < length file1)%nat.
Proof.
  exists [1; 2; 3]%nat, [4%nat], 3%nat. do 4 eexists. split; [reflexivity|]. split; [reflexivity|].
  cbn. split; [auto|]. split; [|lia]. intros [H|[H|[]]]; discriminate.
Qed.

(** ** The spectra in time *)

Lemma pow2_even n : ((2 ^ n) mod 2 = if Nat.eqb n 0 then 1 else 0)%nat.
Proof.
  destruct n as [|n]; [reflexivity|]. cbn [Nat.eqb]. rewrite Nat.pow_succ_r', Nat.mul_comm. apply Nat.mod_mul. lia.
Qed.

(** at least 2 samples, an even number, one tenth of the records or less *)
Lemma nt_of_spec Nt : (2 <= nt_of Nt /\ (nt_of Nt = 2 \/ 10 * nt_of Nt <= Nt) /\ nt_of Nt mod 2 = 0 /\ (Nt < 40 -> nt_of Nt = 2))%nat.
Proof.
  unfold nt_of. set (k := Nat.log2 (Nt / 10)). assert (Hd : (10 * (Nt / 10) <= Nt < 10 * (Nt / 10) + 10)%nat).
  { pose proof (Nat.div_mod_eq Nt 10). pose proof (Nat.mod_upper_bound Nt 10). lia. }
  destruct (Nat.ltb_spec (2 ^ k) 2) as [L|L].
  - cbn. lia.
  - assert (Hk : k <> 0%nat) by (intros e; rewrite e in L; cbn in L; lia).
    pose proof (pow2_even k) as E. destruct (Nat.eqb_spec k 0); [lia|]. rewrite E. cbn [Nat.eqb].
    assert (Hq : (0 < Nt / 10)%nat).
    { destruct (Nt / 10)%nat eqn:Q; [|lia]. exfalso. apply Hk. unfold k. reflexivity. }
    pose proof (Nat.log2_spec (Nt / 10) Hq) as [S1 S2]. fold k in S1, S2.
    split; [exact L|]. split; [right; lia|]. split; [exact E|]. intros H40.
    assert (k = 1)%nat as ->; [|reflexivity]. destruct k as [|[|k]]; [lia|reflexivity|]. cbn [Nat.pow] in S1. pose proof (Nat.pow_nonzero 2 k). lia.
Qed.

Lemma windows_from_in fuel it0 step nt Nt : (1 <= step)%nat -> (Nt <= fuel + it0)%nat -> forall w,
  In w (windows_from fuel it0 step nt Nt) <-> exists k, w = (it0 + k * step)%nat /\ (w + nt < Nt)%nat.
Proof.
  intros Hs. revert it0. induction fuel as [|fuel IH]; intros it0 Hf w; cbn [windows_from].
  - split; [intros []|]. intros (k & -> & H). lia.
  - destruct (Nat.ltb_spec (it0 + nt) Nt) as [L|L].
    + cbn [In]. rewrite IH by lia. split.
      * intros [<-|(k & -> & H)]; [exists 0%nat; lia|]. exists (S k). lia.
      * intros ([|k] & -> & H); [left; lia|]. right. exists k. lia.
    + split; [intros []|]. intros (k & -> & H). lia.
Qed.

(** the windows are all those at the multiples of half a window which end before the last sample *)
Theorem c185_windows : forall nt Nt w, (2 <= nt)%nat ->
  (In w (windows nt Nt) <-> exists k, w = (k * (nt / 2))%nat /\ (w + nt < Nt)%nat).
Proof.
  intros nt Nt w H. unfold windows. rewrite windows_from_in; [reflexivity| |lia].
  apply (Nat.div_le_mono 2 nt 2); lia.
Qed.

Lemma folded_sum_even m raw : (1 <= m)%nat -> rsum (m + 1) (folded (2 * m) raw) = rsum (2 * m) raw.
Proof.
  intros Hm. replace (2 * m)%nat with ((m + 1) + (m - 1))%nat at 2 by lia. rewrite (rsum_split (m + 1) (m - 1) raw).
  transitivity (rsum (m + 1) (fun j => raw j + (if (1 <=? j)%nat && (j <? m)%nat then raw (2 * m - j)%nat else 0))).
  { apply rsum_ext. intros j _. unfold folded.
    replace ((2 * m) mod 2)%nat with 0%nat by (rewrite Nat.mul_comm; symmetry; apply Nat.mod_mul; lia).
    replace (2 * m / 2)%nat with m by (rewrite Nat.mul_comm; symmetry; apply Nat.div_mul; lia). reflexivity. }
  rewrite rsum_plus. f_equal.
  replace (m + 1)%nat with (S (S (m - 1))) at 1 by lia.
  set (g := fun j : nat => if (1 <=? j)%nat && (j <? m)%nat then _ else _).
  change (rsum (S (S (m - 1))) g) with (rsum (S (m - 1)) g + g (S (m - 1))). unfold g at 2.
  rewrite (proj2 (Nat.ltb_ge (S (m - 1)) m)) by lia. rewrite andb_false_r, Rplus_0_r.
  rewrite rsum_shift. unfold g.
  cbn [Nat.leb andb]. rewrite Rplus_0_l.
  rewrite <- (rsum_rev (m - 1) (fun i => raw (m + 1 + i)%nat)). apply rsum_ext. intros i Hi.
  rewrite (proj2 (Nat.ltb_lt (S i) m)) by lia. f_equal. lia.
Qed.

Lemma folded_sum_odd m raw : rsum (m + 1) (folded (2 * m + 1) raw) = rsum (2 * m + 1) raw.
Proof.
  replace (2 * m + 1)%nat with ((m + 1) + m)%nat at 2 by lia. rewrite (rsum_split (m + 1) m raw).
  transitivity (rsum (m + 1) (fun j => raw j + (if (1 <=? j)%nat && (j <? m + 1)%nat then raw (2 * m + 1 - j)%nat else 0))).
  { apply rsum_ext. intros j _. unfold folded.
    replace ((2 * m + 1) mod 2)%nat with 1%nat by (rewrite Nat.add_comm, Nat.mul_comm; symmetry; apply Nat.mod_add; lia).
    replace ((2 * m + 1) / 2)%nat with m by (rewrite Nat.add_comm, Nat.mul_comm, Nat.div_add by lia; reflexivity). reflexivity. }
  rewrite rsum_plus. f_equal.
  replace (m + 1)%nat with (S m) at 1 by lia. rewrite rsum_shift. cbn [Nat.leb andb]. rewrite Rplus_0_l.
  rewrite <- (rsum_rev m (fun i => raw (m + 1 + i)%nat)). apply rsum_ext. intros i Hi.
  rewrite (proj2 (Nat.ltb_lt (S i) (m + 1))) by lia. f_equal. lia.
Qed.

Lemma folded_sum nt raw : (2 <= nt)%nat -> rsum (nt / 2 + 1) (folded nt raw) = rsum nt raw.
Proof.
  intros H. pose proof (Nat.div_mod_eq nt 2) as E. pose proof (Nat.mod_upper_bound nt 2) as B. set (m := (nt / 2)%nat) in *.
  destruct (nt mod 2)%nat as [|[|r]] eqn:R; [| |lia].
  - replace nt with (2 * m)%nat by lia. apply folded_sum_even. lia.
  - replace nt with (2 * m + 1)%nat by lia. apply folded_sum_odd.
Qed.

(** the integral of the spectrum is the mean over the windows of half the mean square of the
    windowed signal *)
Theorem c185_energy_partial : forall nt Nt domega sig, (2 <= nt)%nat -> (nt < Nt)%nat -> domega <> 0 ->
  exists spect, (forall j, time_spectrum nt Nt domega sig j = Some (spect j)) /\
    rsum (nt / 2 + 1) spect * domega =
      rsum_list (windows nt Nt) (fun it0 => mean_square nt (fun n => RtoC (hann nt n) * sig (it0 + n)%nat)%C / 2)
      / INR (length (windows nt Nt)).
Proof.
  intros nt Nt domega sig H2 HN Hd.
  assert (Hw : In 0%nat (windows nt Nt)) by (apply c185_windows; [exact H2|]; exists 0%nat; lia).
  unfold time_spectrum. destruct (windows nt Nt) as [|w ws]; [destruct Hw|]. set (l := w :: ws).
  eexists. split; [intros j; reflexivity|]. unfold Rdiv at 1. rewrite rsum_scal_r.
  rewrite rsum_rsum_list.
  rewrite (rsum_list_ext l _ (fun it0 => / domega * (mean_square nt (fun n => RtoC (hann nt n) * sig (it0 + n)%nat)%C / 2))).
  2:{ intros it0 _. rewrite folded_sum by exact H2. unfold raw_spectrum.
      rewrite <- parseval_periodogram by lia.
      rewrite (rsum_ext nt _ (fun k => periodogram nt (fun n => (RtoC (hann nt n) * sig (it0 + n)%nat)%C) k * (/ 2 * / domega))) by (intros; unfold Rdiv; ring).
      rewrite rsum_scal_r. unfold Rdiv. ring. }
  rewrite rsum_list_scal. field. split; [|exact Hd]. apply not_0_INR. discriminate.
Qed.

(** there is a spectrum for 3 records or more *)
Theorem c185_defined_partial : forall Nt domega sig j,
  time_spectrum (nt_of Nt) Nt domega sig j = None <-> (Nt <= 2)%nat.
Proof.
  intros Nt domega sig j. destruct (nt_of_spec Nt) as (H2 & H10 & _ & H40). unfold time_spectrum. split.
  - intros H. destruct (le_lt_dec Nt 2) as [L|L]; [exact L|]. exfalso.
    assert (Hw : In 0%nat (windows (nt_of Nt) Nt)) by (apply c185_windows; [exact H2|]; exists 0%nat; lia).
    destruct (windows (nt_of Nt) Nt); [destruct Hw|discriminate].
  - intros H. destruct (windows (nt_of Nt) Nt) as [|w ws] eqn:E; [reflexivity|]. exfalso.
    assert (Hw : In w (windows (nt_of Nt) Nt)) by (rewrite E; left; reflexivity).
    apply c185_windows in Hw; [|exact H2]. destruct Hw as (k & -> & Hw). lia.
Qed.

Lemma hann_2 n : (n < 2)%nat -> hann 2 n = 0.
Proof.
  intros H. unfold hann. cbn [Nat.sub INR]. destruct n as [|[|n]]; [| |lia]; cbn [INR].
  - replace (2 * PI * 0 / 1) with 0 by field. rewrite cos_0. lra.
  - replace (2 * PI * 1 / 1) with (2 * PI) by field. rewrite cos_2PI. lra.
Qed.

(** with less than 40 records all the spectra are zero *)
Theorem c185_short : forall Nt domega sig j, (3 <= Nt < 40)%nat -> (j <= 1)%nat ->
  time_spectrum (nt_of Nt) Nt domega sig j = Some 0.
Proof.
  intros Nt domega sig j H Hj. destruct (nt_of_spec Nt) as (H2 & H10 & _ & H40). rewrite H40 by lia.
  unfold time_spectrum. destruct (windows 2 Nt) as [|w ws] eqn:E.
  - exfalso. assert (Hw : In 0%nat (windows 2 Nt)) by (apply c185_windows; [lia|]; exists 0%nat; lia). rewrite E in Hw. destruct Hw.
  - f_equal. rewrite (rsum_list_ext (w :: ws) _ (fun _ => 0 * 0)).
    + rewrite rsum_list_scal. unfold Rdiv. ring.
    + intros it0 _. assert (Z : forall k, raw_spectrum 2 domega (fun n => sig (it0 + n)%nat) k = 0).
      { intros k. unfold raw_spectrum, periodogram, fft_time. cbn [nsum]. rewrite !hann_2 by lia.
        match goal with |- cnorm2 ?z / _ / _ / _ = _ => assert (Ez : z = RtoC 0) by (apply C_eq; cbn; ring); rewrite Ez end.
        unfold cnorm2. cbn [RtoC fst snd]. unfold Rdiv. ring. }
      unfold folded. rewrite !Z. destruct (_ =? _)%nat, (_ && _)%bool; ring.
Qed.

Example c185_witness : exists spect, forall j, time_spectrum 4 40 1 (fun _ => RtoC 1) j = Some (spect j).
Proof. destruct (c185_energy_partial 4 40 1 (fun _ => RtoC 1)) as (s & H & _); [lia|lia|lra|]. exists s. exact H. Qed.

Theorem c185_refuted : exists (Nt : nat) (sig : nat -> C), Nt = 39%nat /\ (forall n, sig n = RtoC 1) /\
  forall domega j, (j <= nt_of Nt / 2)%nat -> time_spectrum (nt_of Nt) Nt domega sig j = Some 0.
Proof.
  exists 39%nat, (fun _ => RtoC 1). split; [reflexivity|]. split; [reflexivity|].
  intros domega j Hj. apply c185_short; [lia|]. change (nt_of 39 / 2)%nat with 1%nat in Hj. exact Hj.
Qed.

(** ** The frequencies *)

(** the frequency of the mode [j] of the transform of [nt] samples at [dt]: its phase increases by
    2 pi j during nt dt *)
Definition bin_frequency (dt : R) (nt j : nat) : R := 2 * PI * INR j / (INR nt * dt).

Lemma bin_frequency_spec dt nt j n : (0 < nt)%nat -> 0 < dt ->
  chi nt (Z.of_nat j) n = cis (bin_frequency dt nt j * (INR n * dt)).
Proof.
  intros Hn Hd. unfold chi, bin_frequency. rewrite <- INR_IZR_INZ. f_equal. field.
  split; [lra|]. apply not_0_INR. lia.
Qed.

(** the axis is too large by nt / (nt - 1) *)
Theorem c186_axis_partial : forall (t0 dt : R) nt j, (2 <= nt)%nat -> 0 < dt ->
  omega_axis (fun n => t0 + INR n * dt) nt j = bin_frequency dt nt j * (INR nt / INR (nt - 1)).
Proof.
  intros t0 dt nt j Hn Hd. unfold omega_axis, deltaomega, bin_frequency.
  assert (INR nt <> 0) by (apply not_0_INR; lia). assert (INR (nt - 1) <> 0) by (apply not_0_INR; lia).
  replace (t0 + INR (nt - 1) * dt - (t0 + INR 0 * dt)) with (INR (nt - 1) * dt) by (change (INR 0) with 0; ring).
  field. split; [assumption|]. split; [lra|assumption].
Qed.

Example c186_witness : (2 <= 8)%nat /\ 0 < 1.
Proof. split; [lia|lra]. Qed.

Theorem c186_refuted : exists (t : nat -> R) (dt : R) (nt j : nat), 0 < dt /\ nt = nt_of 40 /\ (forall n, t n = INR n * dt) /\
  omega_axis t nt j = 4 / 3 * bin_frequency dt nt j /\ omega_axis t nt j <> bin_frequency dt nt j.
Proof.
  exists (fun n => INR n * 1), 1, 4%nat, 1%nat. split; [lra|]. split; [reflexivity|]. split; [reflexivity|].
  assert (E : omega_axis (fun n => INR n * 1) 4 1 = 4 / 3 * bin_frequency 1 4 1).
  { unfold omega_axis, deltaomega, bin_frequency. cbn [Nat.sub]. rewrite !INR_IZR_INZ. cbn [Z.of_nat Pos.of_succ_nat Pos.succ]. field. }
  split; [exact E|]. rewrite E. unfold bin_frequency. rewrite !INR_IZR_INZ. cbn [Z.of_nat Pos.of_succ_nat Pos.succ]. pose proof PI_RGT_0. lra.
Qed.

(** a second call works only if the number of samples of a spectrum is the same *)
Theorem c186_again_partial : forall Nt1 Nt2 n1, compute_sizes None Nt1 = Some n1 ->
  (compute_sizes (Some n1) Nt2 <> None <-> nt_of Nt2 = nt_of Nt1).
Proof.
  intros Nt1 Nt2 n1 H. unfold compute_sizes, fft_size in *. rewrite Nat.eqb_refl in H. injection H as <-.
  destruct (Nat.eqb_spec (nt_of Nt1) (nt_of Nt2)); split; congruence.
Qed.

Theorem c186_again_refuted : exists Nt1 Nt2 n1, (Nt1 < Nt2)%nat /\ compute_sizes None Nt1 = Some n1 /\
  compute_sizes (Some n1) Nt2 = None /\ compute_sizes None Nt2 <> None.
Proof. exists 40%nat, 80%nat, 4%nat. split; [lia|]. split; [reflexivity|]. split; [reflexivity|discriminate]. Qed.

(** ** The eigenmodes *)

(** the linear shallow-water equations for one mode *)
Definition linear_tendency (f c2 kx ky : R) (u : C * C * C) : C * C * C :=
  let '(ux, uy, eta) := u in
  (RtoC f * uy - RtoC c2 * (Ci * RtoC kx * eta),
   - RtoC f * ux - RtoC c2 * (Ci * RtoC ky * eta),
   - (Ci * (RtoC kx * ux + RtoC ky * uy)))%C.

Definition modes_of (f c2 kx ky : R) (u : C * C * C) : C * C * C :=
  let '(ux, uy, eta) := u in eigenmodes f c2 kx ky ux uy eta.

(** q is steady, and d with the normalised a turn at the frequency of the dispersion relation *)
Theorem c187_modes : forall f c2 kx ky u q d a q' d' a',
  0 < c2 -> 0 < f ^ 2 + c2 * (kx ^ 2 + ky ^ 2) ->
  modes_of f c2 kx ky u = (q, d, a) ->
  modes_of f c2 kx ky (linear_tendency f c2 kx ky u) = (q', d', a') ->
  let w := omega_from_wavenumber f c2 (sqrt (kx ^ 2 + ky ^ 2)) in
  let co := RtoC (coef_norm_a c2 w) in
  q' = RtoC 0 /\ d' = (RtoC w * (co * a))%C /\ (co * a' = - (RtoC w * d))%C.
Proof.
  intros f c2 kx ky [[[ux1 ux2] [uy1 uy2]] [e1 e2]] q d a q' d' a' Hc Hw H H' w co.
  assert (Hww : w * w = f ^ 2 + c2 * (kx ^ 2 + ky ^ 2)).
  { unfold w, omega_from_wavenumber. rewrite pow2_sqrt by nra. rewrite sqrt_sqrt; [reflexivity|lra]. }
  assert (Hw0 : w <> 0) by (intros e; rewrite e in Hww; lra).
  unfold modes_of, eigenmodes, linear_tendency in *. injection H as <- <- <-. injection H' as <- <- <-.
  unfold co, coef_norm_a.
  assert (Hc0 : c2 <> 0) by lra.
  split; [|split].
  - apply C_eq; cbn; ring.
  - unfold Cdiv. rewrite <- RtoC_inv by exact Hc0. apply C_eq; cbn; field; auto.
  - assert (Ew : w = (f ^ 2 + c2 * (kx ^ 2 + ky ^ 2)) / w) by (rewrite <- Hww; field; exact Hw0).
    rewrite Ew at 2. unfold Cdiv. rewrite <- RtoC_inv by exact Hc0. apply C_eq; cbn; field; auto.
Qed.

Example c187_witness : 0 < 1 /\ 0 < 1 ^ 2 + 1 * (1 ^ 2 + 0 ^ 2).
Proof. lra. Qed.

Print Assumptions c180_shells_partial.
Print Assumptions c180_close.
Print Assumptions c180_refuted.
Print Assumptions c181_partial.
Print Assumptions c181_error.
Print Assumptions c181_unset.
Print Assumptions c181_iff_partial.
Print Assumptions c181_one.
Print Assumptions c181_shell.
Print Assumptions c181_refuted.
Print Assumptions c182_partial.
Print Assumptions c182_refuted.
Print Assumptions c183_value.
Print Assumptions c183_partial.
Print Assumptions c183_refuted.
Print Assumptions c184_new_partial.
Print Assumptions c184_restart_partial.
Print Assumptions c184_refuted.
Print Assumptions c185_windows.
Print Assumptions c185_energy_partial.
Print Assumptions c185_defined_partial.
Print Assumptions c185_short.
Print Assumptions c185_refuted.
Print Assumptions c186_axis_partial.
Print Assumptions c186_refuted.
Print Assumptions c186_again_partial.
Print Assumptions c186_again_refuted.
Print Assumptions c187_modes.
