(** * Theorems on the loading of the time series of the probes (C130, C131) *)

From Coq Require Import ZArith List Bool Lia Sorted.
From Verif Require Import TSLoad_Model.
Import ListNotations.
Open Scope Z_scope.

(** ** Specification *)

Section Spec.
Context {V : Type}.

(** everything saved by a rank, in the order of time *)
Definition saved (fs : list (tfile V)) : list (Z * V) := concat (map fsamples fs).

(** what one asks for: the instants saved between tmin and tmax *)
Definition wanted (tmin tmax : Z) (fs : list (tfile V)) : list (Z * V) :=
  filter (fun s => (tmin <=? fst s) && (fst s <=? tmax)) (saved fs).

(** The files of a rank as they are written: no empty file, the start of the file is its first
    instant, the instants increase. *)
Definition archive (fs : list (tfile V)) : Prop :=
  (forall f, In f fs -> exists v r, fsamples f = (fstart f, v) :: r)
  /\ StronglySorted Z.lt (map fst (saved fs)).

(** No file lasts longer than the time between the starts of two successive files: true when
    all the files contain the same number of instants and the instants are regular. *)
Definition regular (fs : list (tfile V)) : Prop :=
  forall l1 f g l2 h s, fs = l1 ++ f :: g :: l2 -> In h fs -> In s (fsamples h) ->
    fst s - fstart h < fstart g - fstart f.

(** The ranks save at the same instants, in files of the same name. *)
Definition same_instants (fs gs : list (tfile V)) : Prop :=
  map fstart fs = map fstart gs /\ map ftimes fs = map ftimes gs.

End Spec.

(** ** Lemmas *)

Lemma find_first_spec p l k :
  find_index_first p l = Ok k ->
  (k < length l)%nat /\ (forall d, p (nth k l d) = true)
  /\ (forall i d, (i < k)%nat -> p (nth i l d) = false).
Proof.
  revert k; induction l as [|v r IH]; cbn; intros k H; [discriminate|].
  destruct (p v) eqn:E.
  - injection H as <-. repeat split; [lia|auto|intros; lia].
  - destruct (find_index_first p r) as [j| |]; try discriminate. cbn in H.
    injection H as <-. destruct (IH j eq_refl) as (H1 & H2 & H3).
    split; [lia|]. split; [auto|]. intros [|i] d Hi; [exact E|apply H3; lia].
Qed.

Lemma find_first_app p a b :
  (forall x, In x a -> p x = false) ->
  match b with [] => True | x :: _ => p x = true end -> b <> [] ->
  find_index_first p (a ++ b) = Ok (length a).
Proof.
  induction a as [|x a IH]; cbn; intros H Hb Hn.
  - destruct b; [congruence|]. cbn. now rewrite Hb.
  - rewrite H by auto. rewrite IH; auto.
Qed.

Lemma find_first_exists p l : (exists x, In x l /\ p x = true) -> exists k, find_index_first p l = Ok k.
Proof.
  induction l as [|v r IH]; cbn; intros (x & Hx & Hp); [easy|].
  destruct (p v) eqn:E; [eauto|]. destruct Hx as [->|Hx]; [congruence|].
  destruct IH as [k ->]; [eauto|]. cbn. eauto.
Qed.

Lemma sorted_app (a b : list Z) :
  StronglySorted Z.lt (a ++ b) ->
  StronglySorted Z.lt a /\ StronglySorted Z.lt b /\ (forall x y, In x a -> In y b -> x < y).
Proof.
  induction a as [|x a IH]; cbn; intros H.
  - repeat split; [constructor|exact H|easy].
  - inversion H as [|? ? H1 H2]; subst. destruct (IH H1) as (A & B & D).
    rewrite Forall_forall in H2. repeat split; auto.
    + constructor; [exact A|]. rewrite Forall_forall. intros y Hy. apply H2, in_or_app; auto.
    + intros x' y [<-|Hx] Hy; [apply H2, in_or_app; auto|auto].
Qed.

Lemma filter_nil {A} (p : A -> bool) l : (forall x, In x l -> p x = false) -> filter p l = [].
Proof. induction l as [|x l IH]; cbn; intros H; [easy|]. rewrite H by auto. auto. Qed.
Lemma filter_all {A} (p : A -> bool) l : (forall x, In x l -> p x = true) -> filter p l = l.
Proof. induction l as [|x l IH]; cbn; intros H; [easy|]. rewrite H by auto. f_equal; auto. Qed.
Lemma filter_map {A B} (f : A -> B) (p : B -> bool) l :
  filter p (map f l) = map f (filter (fun x => p (f x)) l).
Proof. induction l as [|x l IH]; cbn; [easy|]. destruct (p (f x)); cbn; now rewrite IH. Qed.

(** the three parts of an increasing list *)
Lemma sorted_split {A} (key : A -> Z) (l : list A) lo hi :
  StronglySorted Z.lt (map key l) -> lo <= hi ->
  exists a b, l = a ++ filter (fun x => (lo <=? key x) && (key x <=? hi)) l ++ b
    /\ (forall x, In x a -> key x < lo) /\ (forall x, In x b -> hi < key x).
Proof.
  induction l as [|x l IH]; intros Hs Hle.
  - exists [], []. easy.
  - cbn in Hs. inversion Hs as [|? ? H1 H2]; subst. rewrite Forall_forall in H2.
    assert (Hk : forall y, In y l -> key x < key y) by (intros y Hy; apply H2, in_map, Hy).
    destruct (IH H1 Hle) as (a & b & E & Ha & Hb). cbn [filter].
    destruct (Z.leb_spec lo (key x)); cbn [andb].
    + destruct (Z.leb_spec (key x) hi).
      * destruct a as [|y a].
        -- exists [], b. cbn in E |- *. repeat split; [now f_equal|easy|exact Hb].
        -- exfalso. assert (In y l) by (rewrite E; now left).
           specialize (Ha y (or_introl eq_refl)). specialize (Hk y H3). lia.
      * exists [], (x :: l). rewrite filter_nil; [|intros y Hy].
        -- repeat split; [easy|]. intros y [<-|Hy]; [lia|]. specialize (Hk y Hy). lia.
        -- specialize (Hk y Hy). destruct (Z.leb_spec (key y) hi); [lia|]. apply andb_false_r.
    + exists (x :: a), b. cbn. repeat split; [now f_equal| |exact Hb].
      intros y [<-|Hy]; [lia|auto].
Qed.

Lemma last_in (l : list Z) d : l <> [] -> In (last l d) l.
Proof.
  induction l as [|x l IH]; intros H; [easy|]. destruct l as [|y l]; [now left|].
  right. apply IH. easy.
Qed.

Lemma last_app_nonempty (a b : list Z) d : b <> [] -> last (a ++ b) d = last b d.
Proof.
  induction a as [|x a IH]; intros H; [easy|]. cbn [app].
  rewrite <- IH by exact H. cbn. destruct (a ++ b) eqn:E; [|easy].
  destruct a; cbn in E; [congruence|discriminate].
Qed.

Lemma sorted_last (l : list Z) d x : StronglySorted Z.lt l -> In x l -> x <= last l d.
Proof.
  induction l as [|y l IH]; intros Hs Hx; [easy|].
  inversion Hs as [|? ? H1 H2]; subst. rewrite Forall_forall in H2.
  destruct l as [|z l]; [destruct Hx as [->|[]]; cbn; lia|].
  change (last (y :: z :: l) d) with (last (z :: l) d).
  destruct Hx as [->|Hx]; [|auto].
  assert (In (last (z :: l) d) (z :: l)) by (apply last_in; easy). specialize (H2 _ H). lia.
Qed.

(** get_arange_minmax selects the instants between the bounds *)
Lemma get_arange_parts (a m b : list Z) lo hi :
  StronglySorted Z.lt (a ++ m ++ b) ->
  (forall x, In x a -> x < lo) -> (forall x, In x m -> lo <= x <= hi) ->
  (forall x, In x b -> hi < x) -> m <> [] ->
  get_arange_minmax (a ++ m ++ b) lo hi = Ok (length a, (length a + length m)%nat).
Proof.
  intros Hs Ha Hm Hb Hn. unfold get_arange_minmax.
  destruct (a ++ m ++ b) as [|t0 rest] eqn:E; [destruct a; [destruct m; easy|easy]|].
  rewrite <- E in Hs |- *.
  assert (Hmne : m ++ b <> []) by (destruct m; easy).
  assert (E1 : (if lo <=? t0 then Ok O else find_index_first (fun v => lo <=? v) (a ++ m ++ b))
               = Ok (length a)).
  { destruct a as [|x a].
    - cbn in E |- *. destruct m as [|y m]; [easy|]. cbn in E. injection E as <- <-.
      destruct (Z.leb_spec lo y); [reflexivity|]. specialize (Hm y (or_introl eq_refl)). lia.
    - cbn in E. injection E as <- <-. specialize (Ha x (or_introl eq_refl)) as Hx.
      destruct (Z.leb_spec lo x); [lia|]. apply find_first_app.
      + intros y Hy. destruct (Z.leb_spec lo y); [specialize (Ha y Hy); lia|easy].
      + destruct m as [|y m]; [easy|]. cbn. specialize (Hm y (or_introl eq_refl)).
        destruct (Z.leb_spec lo y); [easy|lia].
      + exact Hmne. }
  rewrite E1. cbn [bind].
  assert (E2 : (if last (a ++ m ++ b) 0 <=? hi then Ok (length (a ++ m ++ b))
               else find_index_first (fun v => hi <? v) (a ++ m ++ b))
               = Ok (length a + length m)%nat).
  { destruct b as [|y b].
    - rewrite app_nil_r in *. rewrite last_app_nonempty by exact Hn.
      pose proof (last_in m 0 Hn) as Hl. specialize (Hm _ Hl).
      destruct (Z.leb_spec (last m 0) hi); [|lia]. now rewrite app_length.
    - assert (Hl : In (last (a ++ m ++ y :: b) 0) (y :: b)).
      { rewrite !last_app_nonempty by easy. apply last_in. easy. }
      specialize (Hb _ Hl) as Hl'. destruct (Z.leb_spec (last (a ++ m ++ y :: b) 0) hi); [lia|].
      rewrite app_assoc. rewrite find_first_app; [now rewrite app_length| | |easy].
      + intros x Hx. apply in_app_or in Hx as [Hx|Hx].
        * destruct (Z.ltb_spec hi x); [|easy].
          destruct m as [|z m]; [easy|]. specialize (Ha x Hx).
          specialize (Hm z (or_introl eq_refl)). lia.
        * destruct (Z.ltb_spec hi x); [specialize (Hm x Hx); lia|easy].
      + specialize (Hb y (or_introl eq_refl)). destruct (Z.ltb_spec hi y); [easy|lia]. }
  now rewrite E2.
Qed.

Lemma take_parts {A} (a m b : list A) n1 n2 :
  n1 = length a -> n2 = (length a + length m)%nat ->
  take_arange (n1, n2) (a ++ m ++ b) = m.
Proof.
  intros -> ->. unfold take_arange. cbn.
  replace (length a + length m - length a)%nat with (length m) by lia.
  rewrite skipn_app, skipn_all, Nat.sub_diag. cbn.
  rewrite firstn_app, firstn_all, Nat.sub_diag. cbn. apply app_nil_r.
Qed.

Section Lemmas.
Context {V : Type}.
Implicit Types fs gs a b : list (tfile V).
Implicit Types s t : (Z * V)%type.

Lemma archive_app (a b : list (tfile V)) : archive (a ++ b) -> archive a /\ archive b
  /\ (forall s t : Z * V, In s (saved a) -> In t (saved b) -> fst s < fst t).
Proof.
  intros [H1 H2]. unfold saved in *. rewrite map_app, concat_app, map_app in H2.
  destruct (sorted_app _ _ H2) as (A & B & D).
  split; [|split].
  - split; [|exact A]. intros f Hf. apply H1, in_or_app; auto.
  - split; [|exact B]. intros f Hf. apply H1, in_or_app; auto.
  - intros s t Hs Ht. apply D; now apply in_map.
Qed.

Lemma saved_in f fs s : In f fs -> In s (fsamples f) -> In s (saved fs).
Proof. intros H1 H2. unfold saved. apply in_concat. exists (fsamples f). split; [now apply in_map|exact H2]. Qed.

Lemma saved_inv fs s : In s (saved fs) -> exists f, In f fs /\ In s (fsamples f).
Proof.
  unfold saved. intros H. apply in_concat in H as (l & Hl & Hs).
  apply in_map_iff in Hl as (f & <- & Hf). eauto.
Qed.

Lemma archive_start fs f : archive fs -> In f fs -> exists v, In (fstart f, v) (fsamples f).
Proof. intros [H _] Hf. destruct (H f Hf) as (v & r & ->). exists v. now left. Qed.

(** in a file, the start is the smallest instant *)
Lemma start_le fs f s : archive fs -> In f fs -> In s (fsamples f) -> fstart f <= fst s.
Proof.
  intros HA Hf Hs. apply in_split in Hf as (a & b & ->).
  apply archive_app in HA as (_ & HA & _).
  destruct HA as [H1 H2]. destruct (H1 f (or_introl eq_refl)) as (v & r & E).
  unfold saved in H2. cbn in H2. rewrite map_app in H2.
  apply sorted_app in H2 as (H2 & _ & _). rewrite E in H2, Hs. cbn in H2.
  inversion H2 as [|? ? _ H3]; subst. rewrite Forall_forall in H3.
  destruct Hs as [<-|Hs]; [cbn; lia|]. specialize (H3 (fst s) (in_map fst _ _ Hs)). lia.
Qed.

(** the minimum of the differences *)
Lemma np_min_in l m : np_min l = Ok m -> In m l /\ (forall x, In x l -> m <= x).
Proof.
  destruct l as [|a r]; cbn; [discriminate|]. intros H. injection H as <-.
  revert a; induction r as [|b r IH]; cbn; intros a.
  - split; [auto|]. intros x [<-|[]]. lia.
  - destruct (IH (Z.min a b)) as [H1 H2]. split.
    + destruct H1 as [H1|H1]; [|auto].
      rewrite <- H1. destruct (Z.min_spec a b) as [[_ ->]|[_ ->]]; auto.
    + intros x [<-|[<-|Hx]].
      * specialize (H2 _ (or_introl eq_refl)). lia.
      * specialize (H2 _ (or_introl eq_refl)). lia.
      * apply H2. now right.
Qed.

Lemma np_max_in l m : np_max l = Ok m -> In m l /\ (forall x, In x l -> x <= m).
Proof.
  destruct l as [|a r]; cbn; [discriminate|]. intros H. injection H as <-.
  revert a; induction r as [|b r IH]; cbn; intros a.
  - split; [auto|]. intros x [<-|[]]. lia.
  - destruct (IH (Z.max a b)) as [H1 H2]. split.
    + destruct H1 as [H1|H1]; [|auto].
      rewrite <- H1. destruct (Z.max_spec a b) as [[_ ->]|[_ ->]]; auto.
    + intros x [<-|[<-|Hx]].
      * specialize (H2 _ (or_introl eq_refl)). lia.
      * specialize (H2 _ (or_introl eq_refl)). lia.
      * apply H2. now right.
Qed.

Lemma np_diff_in fs m : In m (np_diff (map fstart fs)) ->
  exists l1 f g l2, fs = l1 ++ f :: g :: l2 /\ m = fstart g - fstart f.
Proof.
  induction fs as [|f [|g r] IH]; cbn; intros H; [easy|easy|].
  destruct H as [<-|H].
  - exists [], f, g, r. split; [reflexivity|lia].
  - destruct (IH H) as (l1 & f' & g' & l2 & E & ->). exists (f :: l1), f', g', l2.
    split; [now rewrite E|reflexivity].
Qed.

Lemma np_diff_pair l x y r : In (y - x) (np_diff (l ++ x :: y :: r)).
Proof.
  induction l as [|a l IH]; cbn [app].
  - now left.
  - destruct (l ++ x :: y :: r) eqn:E; [destruct l; discriminate|]. rewrite <- E in *.
    rewrite E in IH |- *. cbn. right. exact IH.
Qed.

Lemma np_min_ok l : l <> [] -> exists m, np_min l = Ok m.
Proof. destruct l; [easy|]. cbn. eauto. Qed.
Lemma np_max_ok l : l <> [] -> exists m, np_max l = Ok m.
Proof. destruct l; [easy|]. cbn. eauto. Qed.

(** filter_tmins_paths drops first files, and with regular files nothing after tmin *)
Lemma filter_shape tmin fs l : filter_tmins_paths tmin fs = Ok l -> exists a, fs = a ++ l.
Proof.
  unfold filter_tmins_paths. destruct fs as [|f [|g r]]; cbn [map np_diff np_min bind]; intros H.
  - discriminate.
  - injection H as <-. now exists [].
  - remember (find_index_first _ _) as k. destruct k as [k| |]; try discriminate.
    cbn [bind] in H. injection H as <-. exists (firstn k (f :: g :: r)). now rewrite firstn_skipn.
Qed.

Lemma filter_ok tmin fs :
  archive fs -> regular fs -> (exists s, In s (saved fs) /\ tmin <= fst s) ->
  exists a l, filter_tmins_paths tmin fs = Ok l /\ fs = a ++ l /\ l <> []
    /\ (forall s, In s (saved a) -> fst s < tmin)
    /\ (forall f g r, l = f :: g :: r -> tmin < fstart g).
Proof.
  intros HA HR (s & Hs & Ht). unfold filter_tmins_paths.
  destruct fs as [|f [|g r]].
  - destruct Hs.
  - exists [], [f]. repeat split; [discriminate| |discriminate]. intros ? [].
  - set (fs := f :: g :: r) in *.
    destruct (np_min_ok (np_diff (map fstart fs))) as [delta Hd]; [easy|].
    rewrite Hd. cbn [bind].
    destruct (np_min_in _ _ Hd) as [Hin Hmin].
    destruct (np_diff_in _ _ Hin) as (l1 & f1 & g1 & l2 & E & Ed).
    assert (Hreg : forall h s', In h fs -> In s' (fsamples h) -> fst s' - fstart h < delta).
    { intros h s' Hh Hs'. rewrite Ed. eapply HR; eauto. }
    destruct (find_first_exists (fun x => x <? delta) (map (fun f => tmin - fstart f) fs)) as [k Hk].
    { destruct (saved_inv _ _ Hs) as (h & Hh & Hsh). exists (tmin - fstart h). split.
      - apply in_map_iff. eauto.
      - specialize (Hreg h s Hh Hsh). apply Z.ltb_lt. lia. }
    rewrite Hk. cbn [bind]. exists (firstn k fs), (skipn k fs).
    apply find_first_spec in Hk as (K1 & K2 & K3). rewrite map_length in K1.
    split; [reflexivity|]. split; [now rewrite firstn_skipn|]. split.
    { intros E0. apply (f_equal (@length _)) in E0. rewrite skipn_length in E0. cbn [length] in E0. lia. }
    split; cycle 1.
    { intros f' g' r' El.
      assert (Efs : fs = firstn k fs ++ f' :: g' :: r') by (rewrite <- El; now rewrite firstn_skipn).
      assert (Hgap : delta <= fstart g' - fstart f').
      { apply Hmin. rewrite Efs, map_app. cbn [map]. apply np_diff_pair. }
      specialize (K2 (tmin - fstart f)). rewrite (map_nth (fun f => tmin - fstart f)) in K2.
      assert (Ek : nth k fs f = f').
      { rewrite Efs. rewrite app_nth2; rewrite firstn_length; [|lia].
        replace (k - Nat.min k (length fs))%nat with O by lia. reflexivity. }
      rewrite Ek in K2. apply Z.ltb_lt in K2. lia. }
    intros t Hts. apply saved_inv in Hts as (h & Hh & Hth).
    apply In_nth with (d := f) in Hh as (i & Hi & Ei).
    rewrite firstn_length in Hi.
    assert (Hik : (i < k)%nat) by lia.
    assert (Enth : nth i (firstn k fs) f = nth i fs f).
    { rewrite <- (firstn_skipn k fs) at 2. rewrite app_nth1; [reflexivity|]. rewrite firstn_length. lia. }
    rewrite Enth in Ei.
    specialize (K3 i (tmin - fstart f) Hik).
    rewrite (map_nth (fun f => tmin - fstart f)) in K3. rewrite Ei in K3.
    apply Z.ltb_ge in K3.
    assert (In h fs) by (rewrite <- Ei; apply nth_In; lia).
    specialize (Hreg h t H Hth). lia.
Qed.

(** the loop on the times *)
Lemma times_loop_spec tmin tmax ip fs : archive fs ->
  concat (fst (times_loop tmin tmax ip fs)) = map fst (wanted tmin tmax fs).
Proof.
  revert ip; induction fs as [|f fs IH]; intros ip HA; [reflexivity|].
  cbn [times_loop]. destruct (Z.ltb_spec tmax (fstart f)).
  - cbn [fst concat]. unfold wanted. rewrite filter_nil; [reflexivity|].
    intros s Hs. destruct (Z.leb_spec (fst s) tmax); [|apply andb_false_r]. exfalso.
    destruct (saved_inv _ _ Hs) as (h & [<-|Hh] & Hsh).
    + assert (fstart f <= fst s) by (eapply start_le; [exact HA|now left|exact Hsh]). lia.
    + change (f :: fs) with ([f] ++ fs) in HA.
      destruct (archive_start _ f HA) as [v Hv]; [now left|].
      apply archive_app in HA as (_ & _ & HA).
      specialize (HA (fstart f, v) s). cbn in HA. rewrite app_nil_r in HA.
      specialize (HA Hv (saved_in h fs s Hh Hsh)). lia.
  - change (f :: fs) with ([f] ++ fs) in HA. apply archive_app in HA as (_ & HA & _).
    specialize (IH (S ip) HA). destruct (times_loop tmin tmax (S ip) fs) as [ts ip'].
    cbn in IH |- *. rewrite IH. unfold wanted, saved. cbn [map concat].
    rewrite filter_app, map_app. f_equal. unfold ftimes. apply filter_map.
Qed.

Lemma times_loop_nil tmin tmax ip fs :
  fst (times_loop tmin tmax ip fs) = [] -> wanted tmin tmax fs = [] \/ exists f r, fs = f :: r /\ tmax < fstart f.
Proof.
  destruct fs as [|f r]; cbn; [auto|]. destruct (Z.ltb_spec tmax (fstart f)).
  - intros _. right. eauto.
  - destruct (times_loop tmin tmax (S ip) r). cbn. discriminate.
Qed.

(** no break: the index left is the one of the last file; break: a file after tmax *)
Lemma times_loop_ip tmin tmax ip fs : fs <> [] ->
  ((forall f, In f fs -> fstart f <= tmax) /\ snd (times_loop tmin tmax ip fs) = (ip + length fs - 1)%nat)
  \/ exists a f b, fs = a ++ f :: b /\ tmax < fstart f
       /\ snd (times_loop tmin tmax ip fs) = (ip + length a)%nat.
Proof.
  revert ip; induction fs as [|f fs IH]; intros ip Hn; [easy|].
  cbn [times_loop]. destruct (Z.ltb_spec tmax (fstart f)).
  - right. exists [], f, fs. cbn. repeat split; [lia|lia].
  - destruct fs as [|g fs].
    + left. cbn. split; [intros h [<-|[]]; lia|lia].
    + specialize (IH (S ip)). destruct IH as [[H1 H2]|(a & h & b & H1 & H2 & H3)]; [easy| |];
        destruct (times_loop tmin tmax (S ip) (g :: fs)) as [ts ip']; cbn [snd] in *.
      * left. split; [intros h [<-|Hh]; auto|]. rewrite H2. cbn [length]. lia.
      * right. exists (f :: a), h, b. rewrite H1. repeat split; [lia|]. rewrite H3. cbn [length]. lia.
Qed.

Lemma wanted_app tmin tmax a b : wanted tmin tmax (a ++ b) = wanted tmin tmax a ++ wanted tmin tmax b.
Proof. unfold wanted, saved. now rewrite map_app, concat_app, filter_app. Qed.

Lemma wanted_before tmin tmax a : (forall s, In s (saved a) -> fst s < tmin) -> wanted tmin tmax a = [].
Proof. intros H. apply filter_nil. intros s Hs. specialize (H s Hs). destruct (Z.leb_spec tmin (fst s)); [lia|easy]. Qed.

Lemma wanted_in tmin tmax fs s : In s (wanted tmin tmax fs) <-> In s (saved fs) /\ tmin <= fst s <= tmax.
Proof.
  unfold wanted. rewrite filter_In, andb_true_iff, Z.leb_le, Z.leb_le. tauto.
Qed.

Lemma saved_sorted fs : archive fs -> StronglySorted Z.lt (map fst (saved fs)).
Proof. now intros [_ H]. Qed.

Lemma sorted_filter {A} (key : A -> Z) p l :
  StronglySorted Z.lt (map key l) -> StronglySorted Z.lt (map key (filter p l)).
Proof.
  induction l as [|x l IH]; cbn; intros H; [constructor|].
  inversion H as [|? ? H1 H2]; subst. destruct (p x); cbn; [|auto].
  constructor; [auto|]. rewrite Forall_forall in *. intros y Hy. apply H2.
  apply in_map_iff in Hy as (z & <- & Hz). apply filter_In in Hz as [Hz _]. now apply in_map.
Qed.

End Lemmas.

(** ** The selection in one file and in one rank *)

Section Ranks.
Context {V : Type}.
Implicit Types fs gs l : list (tfile V).

Definition sel (tmin tmax : Z) (f : tfile V) : list (Z * V) :=
  filter (fun s => (tmin <=? fst s) && (fst s <=? tmax)) (fsamples f).

Lemma wanted_cons tmin tmax f fs : wanted tmin tmax (f :: fs) = sel tmin tmax f ++ wanted tmin tmax fs.
Proof. unfold wanted, saved, sel. cbn. apply filter_app. Qed.

Lemma file_sorted fs f : archive fs -> In f fs -> StronglySorted Z.lt (ftimes f).
Proof.
  intros HA Hf. apply in_split in Hf as (a & b & ->). apply archive_app in HA as (_ & [_ HA] & _).
  unfold saved in HA. cbn in HA. rewrite map_app in HA. apply sorted_app in HA as (HA & _ & _). exact HA.
Qed.

Lemma file_select tmin tmax f :
  StronglySorted Z.lt (ftimes f) -> tmin <= tmax -> sel tmin tmax f <> [] ->
  exists r, get_arange_minmax (ftimes f) tmin tmax = Ok r
    /\ take_arange r (map snd (fsamples f)) = map snd (sel tmin tmax f)
    /\ take_arange r (ftimes f) = map fst (sel tmin tmax f).
Proof.
  intros Hs Hle Hn.
  destruct (sorted_split fst (fsamples f) tmin tmax Hs Hle) as (a & b & E & Ha & Hb).
  change (filter _ (fsamples f)) with (sel tmin tmax f) in E.
  exists (length a, (length a + length (sel tmin tmax f))%nat). unfold ftimes in *.
  split; [|split].
  - rewrite E, !map_app.
    replace (length a) with (length (map fst a)) by apply map_length.
    replace (length (sel tmin tmax f)) with (length (map fst (sel tmin tmax f))) by apply map_length.
    apply get_arange_parts.
    + rewrite <- !map_app, <- E. exact Hs.
    + intros x Hx. apply in_map_iff in Hx as (s & <- & Hx). auto.
    + intros x Hx. apply in_map_iff in Hx as (s & <- & Hx). unfold sel in Hx.
      apply filter_In in Hx as [_ Hx]. apply andb_true_iff in Hx as [H1 H2].
      apply Z.leb_le in H1, H2. lia.
    + intros x Hx. apply in_map_iff in Hx as (s & <- & Hx). auto.
    + destruct (sel tmin tmax f); [easy|discriminate].
  - rewrite E at 1. rewrite !map_app. apply take_parts; now rewrite ?map_length.
  - rewrite E at 1. rewrite !map_app. apply take_parts; now rewrite ?map_length.
Qed.

Lemma same_starts tmin fs gs : map fstart fs = map fstart gs -> map ftimes fs = map ftimes gs ->
  forall tmax, map fst (wanted tmin tmax fs) = map fst (wanted tmin tmax gs).
Proof.
  intros _ H tmax. revert gs H; induction fs as [|f fs IH]; intros [|g gs] H; try discriminate; [reflexivity|].
  cbn in H. injection H as H1 H2. rewrite !wanted_cons, !map_app. f_equal; [|now apply IH].
  unfold sel. rewrite <- !(filter_map fst (fun t => (tmin <=? t) && (t <=? tmax))).
  unfold ftimes in H1. now rewrite H1.
Qed.

Lemma same_filter tmin fs gs l : map fstart fs = map fstart gs ->
  filter_tmins_paths tmin fs = Ok l -> exists l', filter_tmins_paths tmin gs = Ok l' /\ map fstart l = map fstart l'.
Proof.
  intros E H. unfold filter_tmins_paths in *.
  destruct fs as [|f [|g r]], gs as [|f' [|g' r']]; try discriminate.
  - injection H as <-. exists [f']. auto.
  - set (fs := f :: g :: r) in *. set (gs := f' :: g' :: r') in *.
    assert (Em : map (fun f => tmin - fstart f) fs = map (fun f => tmin - fstart f) gs).
    { rewrite <- (map_map fstart (fun x => tmin - x)), E, map_map. reflexivity. }
    rewrite <- E, <- Em. destruct (np_min _) as [d| |]; try discriminate. cbn [bind] in *.
    destruct (find_index_first _ _) as [k| |]; try discriminate. cbn [bind] in *.
    injection H as <-. exists (skipn k gs). split; [reflexivity|]. rewrite <- !skipn_map. now rewrite E.
Qed.

(** *** The spatiotemporal loop *)

Lemma set_col_app (a : list (option V)) x b v : set_col (a ++ x :: b) (length a) v = a ++ Some v :: b.
Proof. induction a as [|y a IH]; cbn; [easy|now rewrite IH]. Qed.

Lemma write_cols_spec (done : list V) (data : list V) n :
  write_cols (map Some done ++ repeat None (length data + n)) (length done) (length data) data
  = Ok (map Some (done ++ data) ++ repeat None n).
Proof.
  revert done; induction data as [|v data IH]; intros done; cbn [length write_cols repeat plus].
  - now rewrite app_nil_r.
  - rewrite <- (map_length Some done) at 1. rewrite set_col_app.
    specialize (IH (done ++ [v])). rewrite app_length in IH. cbn in IH.
    rewrite Nat.add_1_r in IH. rewrite map_app in IH. rewrite <- !app_assoc in IH. cbn in IH.
    exact IH.
Qed.

Lemma st_loop_spec tmin tmax fs_all : archive fs_all -> tmin <= tmax ->
  (exists s, In s (saved fs_all) /\ fst s = tmin) ->
  forall l pre w, fs_all = pre ++ l -> w = wanted tmin tmax fs_all ->
  st_loop tmin tmax (map fst w) l
    (map Some (map snd (wanted tmin tmax pre)) ++ repeat None (length (wanted tmin tmax l)))
  = Ok (map Some (map snd w)).
Proof.
  intros HA Hle Hex l. induction l as [|f l IH]; intros pre w E Ew.
  - cbn. rewrite app_nil_r in *. now subst.
  - cbn [st_loop]. destruct (Z.ltb_spec tmax (fstart f)) as [Hlt|Hge].
    + (* after the last useful file *)
      assert (Hw : wanted tmin tmax (f :: l) = []).
      { apply filter_nil. intros s Hs. destruct (Z.leb_spec (fst s) tmax); [|apply andb_false_r]. exfalso.
        rewrite E in HA. apply archive_app in HA as (_ & HA & _).
        destruct (saved_inv _ _ Hs) as (h & [<-|Hh] & Hsh).
        - assert (fstart f <= fst s) by (eapply start_le; [exact HA|now left|exact Hsh]). lia.
        - destruct (archive_start _ f HA) as [v Hv]; [now left|].
          change (f :: l) with ([f] ++ l) in HA. apply archive_app in HA as (_ & _ & HA).
          specialize (HA (fstart f, v) s). cbn in HA. rewrite app_nil_r in HA.
          specialize (HA Hv (saved_in h l s Hh Hsh)). lia. }
      rewrite Hw. cbn. rewrite app_nil_r. subst w. rewrite E, wanted_app, Hw, app_nil_r. reflexivity.
    + assert (Hf : In f fs_all) by (rewrite E; apply in_or_app; right; now left).
      destruct (proj1 HA f Hf) as (v0 & r0 & Er).
      assert (Eft : ftimes f = fstart f :: map fst r0) by (unfold ftimes; now rewrite Er).
      pose proof (file_sorted _ _ HA Hf) as Hsf.
      rewrite Eft. rewrite <- Eft.
      assert (Hpre : forall X, wanted tmin tmax (pre ++ [f]) = X -> X = wanted tmin tmax pre ++ sel tmin tmax f).
      { intros X <-. rewrite wanted_app, wanted_cons. unfold wanted at 2, saved. cbn. now rewrite app_nil_r. }
      specialize (Hpre _ eq_refl).
      assert (E' : fs_all = (pre ++ [f]) ++ l) by (rewrite <- app_assoc; exact E).
      destruct (Z.ltb_spec (last (ftimes f) 0) tmin) as [Hbe|Hin].
      * (* a file before tmin *)
        assert (Hsel : sel tmin tmax f = []).
        { apply filter_nil. intros s Hs. destruct (Z.leb_spec tmin (fst s)); [|easy].
          assert (fst s <= last (ftimes f) 0) by (apply sorted_last; [exact Hsf|now apply in_map]). lia. }
        specialize (IH (pre ++ [f]) w E' Ew). rewrite Hpre, Hsel, app_nil_r in IH.
        rewrite wanted_cons, Hsel. exact IH.
      * assert (Hsel : sel tmin tmax f <> []).
        { assert (exists s, In s (fsamples f) /\ tmin <= fst s <= tmax) as (s & Hs & Hr).
          { destruct Hex as (s & Hs & Hst). rewrite E in Hs. unfold saved in Hs.
            rewrite map_app, concat_app in Hs. cbn in Hs. apply in_app_or in Hs as [Hs|Hs].
            - (* tmin is in a file before *)
              exists (fstart f, v0). split; [rewrite Er; now left|]. cbn. split; [|lia].
              rewrite E in HA. apply archive_app in HA as (_ & _ & HA).
              specialize (HA s (fstart f, v0) Hs). cbn in HA. unfold saved in HA. cbn in HA.
              rewrite Er in HA. specialize (HA (or_introl eq_refl)). lia.
            - apply in_app_or in Hs as [Hs|Hs]; [exists s; split; [exact Hs|lia]|].
              exfalso. rewrite E' in HA. apply archive_app in HA as (_ & _ & HA).
              assert (Hl : In (last (ftimes f) 0) (ftimes f)) by (apply last_in; rewrite Eft; easy).
              apply in_map_iff in Hl as (q & Eq & Hq).
              assert (Hq' : In q (saved (pre ++ [f]))).
              { apply saved_in with f; [apply in_or_app; right; now left|exact Hq]. }
              specialize (HA q s Hq' Hs). lia. }
          intros E0. assert (Hi : In s (sel tmin tmax f)); [|rewrite E0 in Hi; destruct Hi].
          apply filter_In. split; [exact Hs|]. apply andb_true_iff. rewrite !Z.leb_le. lia. }
        destruct (file_select tmin tmax f Hsf Hle Hsel) as (r & E1 & E2 & E3).
        rewrite E1. cbn [bind]. rewrite E3, E2.
        remember (sel tmin tmax f) as S eqn:ES.
        assert (Hall : w = wanted tmin tmax pre ++ S ++ wanted tmin tmax l).
        { rewrite Ew, E, wanted_app, wanted_cons, <- ES. reflexivity. }
        assert (Hso : StronglySorted Z.lt (map fst w)).
        { rewrite Ew. apply sorted_filter, saved_sorted, HA. }
        destruct S as [|s0 S']; [congruence|]. cbn [map].
        set (S := s0 :: S') in *.
        change (fst s0 :: map fst S') with (map fst S).
        assert (Hg : get_arange_minmax (map fst w) (fst s0) (last (map fst S) 0)
                     = Ok (length (wanted tmin tmax pre), (length (wanted tmin tmax pre) + length S)%nat)).
        { rewrite Hall, !map_app.
          replace (length (wanted tmin tmax pre)) with (length (map fst (wanted tmin tmax pre))) by apply map_length.
          replace (length S) with (length (map fst S)) by apply map_length.
          rewrite Hall, !map_app in Hso.
          destruct (sorted_app _ _ Hso) as (_ & Hso2 & Hso3).
          destruct (sorted_app _ _ Hso2) as (HsoS & _ & Hso4).
          apply get_arange_parts; [exact Hso| | | |].
          - intros x Hx. apply Hso3; [exact Hx|]. apply in_or_app. left. now left.
          - intros x Hx. split; [|now apply sorted_last].
            unfold S in Hx, HsoS. cbn in Hx, HsoS. inversion HsoS as [|? ? _ HF]; subst.
            rewrite Forall_forall in HF. destruct Hx as [<-|Hx]; [lia|]. specialize (HF x Hx). lia.
          - intros x Hx. apply Hso4; [|exact Hx]. apply last_in. easy.
          - easy. }
        rewrite Hg. cbn [bind fst snd].
        replace (length (wanted tmin tmax pre) + length S - length (wanted tmin tmax pre))%nat
          with (length (map snd S)) by (rewrite map_length; lia).
        replace (length (wanted tmin tmax (f :: l)))
          with (length (map snd S) + length (wanted tmin tmax l))%nat
          by (rewrite wanted_cons, <- ES, app_length, map_length; reflexivity).
        rewrite <- (map_length snd (wanted tmin tmax pre)).
        rewrite write_cols_spec. cbn [bind].
        specialize (IH (pre ++ [f]) w E' Ew). rewrite Hpre, map_app in IH. exact IH.
Qed.

Lemma map_ranks_ok {A B} (g : A -> res B) (h : A -> B) (l : list A) :
  (forall a, In a l -> g a = Ok (h a)) -> map_ranks g l = Ok (map h l).
Proof.
  induction l as [|a l IH]; cbn; intros H; [easy|]. rewrite H by auto. cbn [bind].
  rewrite IH by auto. reflexivity.
Qed.

(** the times found and their bounds *)
Lemma load_times tmin tmax first :
  archive first -> regular first -> wanted tmin tmax first <> [] ->
  exists l ts ip tmin' tmax',
    filter_tmins_paths tmin first = Ok l /\ times_loop tmin tmax 0 l = (ts, ip)
    /\ np_concatenate ts = Ok (map fst (wanted tmin tmax first))
    /\ np_min (map fst (wanted tmin tmax first)) = Ok tmin'
    /\ np_max (map fst (wanted tmin tmax first)) = Ok tmax'
    /\ tmin <= tmin' /\ tmin' <= tmax' /\ tmax' <= tmax
    /\ (exists s, In s (saved first) /\ fst s = tmin')
    /\ (forall s, In s (saved first) -> tmin <= fst s -> tmin' <= fst s \/ tmax < fst s)
    /\ (forall s, In s (saved first) -> fst s <= tmax -> fst s <= tmax' \/ fst s < tmin).
Proof.
  intros HA HR Hn.
  destruct (wanted tmin tmax first) as [|s0 w] eqn:Ew; [congruence|]. rewrite <- Ew in *.
  assert (H0 : In s0 (wanted tmin tmax first)) by (rewrite Ew; now left).
  apply wanted_in in H0 as [H0 H0r].
  destruct (filter_ok tmin first HA HR) as (a & l & Ef & El & Hne & Hbef & _).
  { exists s0. split; [exact H0|lia]. }
  destruct (times_loop tmin tmax 0 l) as [ts ip] eqn:Et.
  assert (HAl : archive l) by (rewrite El in HA; now apply archive_app in HA as (_ & ? & _)).
  assert (Ec : concat ts = map fst (wanted tmin tmax first)).
  { pose proof (times_loop_spec tmin tmax 0 l HAl) as H. rewrite Et in H. cbn in H. rewrite H.
    rewrite El, wanted_app, (wanted_before tmin tmax a Hbef). reflexivity. }
  assert (Hw : map fst (wanted tmin tmax first) <> []) by (rewrite Ew; easy).
  destruct (np_min_ok _ Hw) as [tmin' Hmin]. destruct (np_max_ok _ Hw) as [tmax' Hmax].
  exists l, ts, ip, tmin', tmax'. split; [exact Ef|]. split; [exact Et|]. split.
  { destruct ts as [|t ts]; [exfalso; now rewrite <- Ec in Hw|]. unfold np_concatenate. now rewrite Ec. }
  split; [exact Hmin|]. split; [exact Hmax|].
  destruct (np_min_in _ _ Hmin) as [I1 I2]. destruct (np_max_in _ _ Hmax) as [A1 A2].
  apply in_map_iff in I1 as (s1 & Es1 & I1). apply in_map_iff in A1 as (s2 & Es2 & A1).
  pose proof (I2 tmax') as I3. rewrite <- Es2 in I3. specialize (I3 (in_map fst _ _ A1)). rewrite Es2 in I3.
  apply wanted_in in I1 as [I1 I1r]. apply wanted_in in A1 as [A1 A1r].
  repeat split; try lia; [now exists s1| |].
  - intros s Hs Hr. destruct (Z.le_gt_cases (fst s) tmax) as [Hs2|Hs2]; [|right; lia]. left.
    apply I2, in_map, wanted_in. split; [exact Hs|lia].
  - intros s Hs Hr. destruct (Z.le_gt_cases tmin (fst s)) as [Hs2|Hs2]; [|right; lia]. left.
    apply A2, in_map, wanted_in. split; [exact Hs|lia].
Qed.

Lemma wanted_bounds tmin tmax tmin' tmax' fs :
  tmin <= tmin' -> tmax' <= tmax ->
  (forall s, In s (saved fs) -> tmin <= fst s -> tmin' <= fst s \/ tmax < fst s) ->
  (forall s, In s (saved fs) -> fst s <= tmax -> fst s <= tmax' \/ fst s < tmin) ->
  wanted tmin' tmax' fs = wanted tmin tmax fs.
Proof.
  intros H1 H2 H3 H4. unfold wanted. apply filter_ext_in. intros s Hs.
  specialize (H3 s Hs). specialize (H4 s Hs).
  destruct (Z.leb_spec tmin' (fst s)), (Z.leb_spec (fst s) tmax'),
    (Z.leb_spec tmin (fst s)), (Z.leb_spec (fst s) tmax); cbn; auto; lia.
Qed.

(** transfer of the instants to another rank *)
Lemma same_saved fs gs : map ftimes fs = map ftimes gs ->
  map fst (saved fs) = map fst (saved gs).
Proof.
  revert gs; induction fs as [|f fs IH]; intros [|g gs] H; try discriminate; [reflexivity|].
  cbn in H. injection H as H1 H2. unfold saved in *. cbn. rewrite !map_app. f_equal; auto.
Qed.

Lemma same_saved_in fs gs s : map ftimes fs = map ftimes gs -> In s (saved gs) ->
  exists s', In s' (saved fs) /\ fst s' = fst s.
Proof.
  intros H Hs. apply same_saved in H. apply (in_map fst) in Hs. rewrite <- H in Hs.
  apply in_map_iff in Hs as (s' & E & Hs'). eauto.
Qed.

End Ranks.

(** ** C130: the time series of the spatiotemporal spectra *)

Section C130.
Context {V : Type}.

(** With regular files, and for any range containing a saved instant, the times loaded are the
    saved instants of the range and each rank gives, in the same order, the data it saved at
    these instants; no element of the array is left unset. *)
Theorem c130_load_partial : forall tmin tmax (first : list (tfile V)) rest,
  archive first -> regular first -> wanted tmin tmax first <> [] ->
  (forall r, In r rest -> archive r /\ regular r /\ same_instants first r) ->
  load_spatiotemporal tmin tmax (first :: rest)
  = Ok (map fst (wanted tmin tmax first),
        map (fun r => map Some (map snd (wanted tmin tmax r))) (first :: rest)).
Proof.
  intros tmin tmax first rest HA HR Hn Hrest.
  destruct (load_times tmin tmax first HA HR Hn)
    as (l & ts & ip & tmin' & tmax' & E1 & E2 & E3 & E4 & E5 & H1 & H2 & H3 & H4 & H5 & H6).
  unfold load_spatiotemporal. rewrite E1. cbn [bind]. rewrite E2, E3. cbn [bind].
  rewrite E4. cbn [bind]. rewrite E5. cbn [bind].
  rewrite (map_ranks_ok _ (fun r => map Some (map snd (wanted tmin tmax r)))); [reflexivity|].
  intros r Hr.
  assert (Hr' : archive r /\ regular r /\ same_instants first r).
  { destruct Hr as [<-|Hr]; [|auto]. repeat split; auto; apply HA. }
  destruct Hr' as (HAr & HRr & [_ HSr]).
  assert (Hex : exists s, In s (saved r) /\ fst s = tmin').
  { destruct H4 as (s & Hs & Es). destruct (same_saved_in r first s) as (s' & Hs' & Es'); [now symmetry|exact Hs|].
    exists s'. split; [exact Hs'|congruence]. }
  assert (Hw : wanted tmin' tmax' r = wanted tmin tmax r).
  { apply wanted_bounds; auto.
    - intros s Hs. destruct (same_saved_in first r s HSr Hs) as (s' & Hs' & Es'). rewrite <- Es'. now apply H5.
    - intros s Hs. destruct (same_saved_in first r s HSr Hs) as (s' & Hs' & Es'). rewrite <- Es'. now apply H6. }
  assert (Ht : map fst (wanted tmin tmax first) = map fst (wanted tmin' tmax' r)).
  { rewrite Hw. clear - HSr. revert r HSr. induction first as [|f fs IH]; intros [|g gs] H; try discriminate; [reflexivity|].
    cbn in H. injection H as I1 I2. rewrite !wanted_cons, !map_app. f_equal; [|now apply IH].
    unfold sel. rewrite <- !(filter_map fst (fun t => (tmin <=? t) && (t <=? tmax))).
    unfold ftimes in I1. now rewrite I1. }
  destruct (filter_ok tmin' r HAr HRr) as (a & l' & Ef & El & _ & Hbef & _).
  { destruct Hex as (s & Hs & Es). exists s. split; [exact Hs|lia]. }
  unfold st_rank_series. rewrite Ef. cbn [bind].
  pose proof (wanted_before tmin' tmax' a Hbef) as Ha0.
  pose proof (st_loop_spec tmin' tmax' r HAr H2 Hex l' a (wanted tmin' tmax' r) El eq_refl) as Hst.
  rewrite Ha0 in Hst. cbn [map app] in Hst.
  assert (Elen : length (wanted tmin' tmax' l') = length (map fst (wanted tmin tmax first))).
  { rewrite Ht, map_length. rewrite (f_equal (wanted tmin' tmax') El). now rewrite wanted_app, Ha0. }
  rewrite Ht at 1. rewrite <- Elen. rewrite <- Hw. exact Hst.
Qed.

End C130.

(** Three files of three instants, two ranks. *)
Definition ex_file (t : Z) (v : nat) : tfile nat :=
  mkFile t [(t, v); (t + 10, S v); (t + 20, S (S v))].
Definition ex_files (v : nat) : list (tfile nat) :=
  [ex_file 0 v; ex_file 30 (v + 3); ex_file 60 (v + 6)].

Lemma ex_archive v : archive (ex_files v).
Proof.
  split.
  - intros f [<-|[<-|[<-|[]]]]; cbn; eauto.
  - cbn. repeat constructor; cbn; lia.
Qed.
Lemma ex_regular v : regular (ex_files v).
Proof.
  intros l1 f g l2 h s E Hh Hs.
  assert (Hgap : fstart g - fstart f = 30).
  { destruct l1 as [|a [|b [|c [|d l1]]]]; cbn in E; try discriminate.
    - injection E as <- <- <-. reflexivity.
    - injection E as <- <- <- <-. reflexivity.
  }
  rewrite Hgap.
  destruct Hh as [<-|[<-|[<-|[]]]]; cbn in Hs |- *; destruct Hs as [<-|[<-|[<-|[]]]]; cbn; lia.
Qed.

Example c130_example :
  load_spatiotemporal 15 45 [ex_files 0; ex_files 100]
  = Ok ([20; 30; 40], [map Some (seq 2 3); map Some (seq 102 3)]).
Proof.
  rewrite c130_load_partial; [reflexivity|apply ex_archive|apply ex_regular|discriminate|].
  intros r [<-|[]]. split; [apply ex_archive|]. split; [apply ex_regular|]. split; reflexivity.
Qed.

(** Without the regularity the beginning of the range is silently lost: three files of 10
    instants then a file which begins 10 time units after the previous one (the run was
    restarted with another file_max_size): a request from 50 begins at 100. *)
Definition ex_irregular : list (tfile nat) :=
  [mkFile 0 (map (fun i => (10 * Z.of_nat i, i)) (seq 0 10));
   mkFile 100 (map (fun i => (10 * Z.of_nat i, i)) (seq 10 10));
   mkFile 200 [(200, 20%nat)]; mkFile 210 [(210, 21%nat)]].

Theorem c130_load_refuted : exists (fs : list (tfile nat)) tmin tmax times series,
  archive fs /\ load_spatiotemporal tmin tmax [fs] = Ok (times, series)
  /\ load_temporal tmin tmax [fs] = Ok (times, map (map (fun o => match o with Some v => v | None => O end)) series)
  /\ (exists s, In s (saved fs) /\ tmin <= fst s <= tmax /\ ~ In (fst s) times)
  /\ times <> map fst (wanted tmin tmax fs).
Proof.
  exists ex_irregular, 50, 210, (map (fun i => 10 * Z.of_nat i) (seq 10 12)), [map Some (seq 10 12)].
  split; [|split; [|split; [|split]]].
  - split.
    + intros f [<-|[<-|[<-|[<-|[]]]]]; cbn; eauto.
    + cbn. repeat constructor; cbn; lia.
  - vm_compute. reflexivity.
  - vm_compute. reflexivity.
  - exists (50, 5%nat). split; [cbn; tauto|]. split; [cbn; lia|]. cbn. lia.
  - vm_compute. discriminate.
Qed.

(** ** C131: the time series of the temporal spectra *)

Section C131.
Context {V : Type}.

Lemma series_loop_ok tmin tmax tmins ip tf (l : list (tfile V)) :
  nth_error tmins ip = Some tf -> tf <= tmax -> tmin <= tmax ->
  (forall f, In f l -> StronglySorted Z.lt (ftimes f) /\ sel tmin tmax f <> []) ->
  exists d, series_loop tmin tmax tmins ip l = Ok d /\ length d = length l
    /\ concat d = map snd (wanted tmin tmax l).
Proof.
  intros Hn Htf Hle. induction l as [|f l IH]; intros H.
  - exists []. easy.
  - destruct IH as (d & E & Hl & Hc); [intros g Hg; apply H; now right|].
    cbn [series_loop]. rewrite Hn. destruct (Z.ltb_spec tmax tf); [lia|].
    destruct (H f (or_introl eq_refl)) as [Hs Hsel].
    destruct (file_select tmin tmax f Hs Hle Hsel) as (r & E1 & E2 & _).
    rewrite E1. cbn [bind]. rewrite E. cbn [bind].
    eexists. split; [reflexivity|]. split; [cbn; now rewrite Hl|].
    cbn [concat]. rewrite E2, Hc, wanted_cons, map_app. reflexivity.
Qed.

Lemma sel_in tmin tmax (f : tfile V) s : In s (fsamples f) -> tmin <= fst s <= tmax -> sel tmin tmax f <> [].
Proof.
  intros H1 H2 E. assert (H : In s (sel tmin tmax f)); [|rewrite E in H; destruct H].
  apply filter_In. split; [exact H1|]. apply andb_true_iff. rewrite !Z.leb_le. lia.
Qed.

(** one rank of the temporal spectra, with the index of the last file kept *)
Lemma rank_series_ok tmin tmax tmin' tmax' ip (r : list (tfile V)) :
  archive r -> regular r -> tmin <= tmin' -> tmin' <= tmax' -> tmax' <= tmax ->
  (forall f, In f r -> fstart f <= tmax) ->
  (tmin' = tmin \/ forall s, In s (saved r) -> tmin' <= fst s) ->
  (exists s, In s (saved r) /\ fst s = tmin') ->
  (forall s, In s (saved r) -> fst s <= tmax -> fst s <= tmax' \/ fst s < tmin) ->
  (forall l, filter_tmins_paths tmin r = Ok l -> ip = (length l - 1)%nat) ->
  filter_tmins_paths tmin' r = filter_tmins_paths tmin r ->
  rank_series tmin' tmax' ip r = Ok (map snd (wanted tmin' tmax' r)).
Proof.
  intros HA HR H1 H2 H3 Hst Htm Hex Hb Hip Hsame.
  destruct (filter_ok tmin' r HA HR) as (a & l & Ef & El & Hne & Hbef & Hnext).
  { destruct Hex as (s & Hs & Es). exists s. split; [exact Hs|lia]. }
  unfold rank_series. rewrite Ef. cbn [bind].
  assert (Eip : ip = (length l - 1)%nat) by (apply Hip; now rewrite <- Hsame).
  assert (Hl : exists pre f, l = pre ++ [f]) by (destruct (exists_last Hne) as (p & f & ->); eauto).
  destruct Hl as (pre & fl & Epre).
  assert (Hnth : nth_error (map fstart l) ip = Some (fstart fl)).
  { rewrite Eip, Epre, app_length, map_app, nth_error_app2 by (rewrite map_length; cbn; lia).
    rewrite map_length. cbn. replace (length pre + 1 - 1 - length pre)%nat with O by lia. reflexivity. }
  assert (Hinl : forall f, In f l -> In f r) by (intros f Hf; rewrite El; apply in_or_app; auto).
  assert (Hstart : forall f, In f l -> fstart f <= tmax').
  { intros f Hf. destruct (archive_start _ f HA (Hinl f Hf)) as [v Hv].
    assert (Hs : In (fstart f, v) (saved r)) by (eapply saved_in; eauto).
    destruct (Hb _ Hs) as [Hx|Hx]; [cbn; auto|exact Hx|cbn in Hx; lia]. }
  assert (Hsel : forall f, In f l -> sel tmin' tmax' f <> []).
  { intros f Hf. destruct l as [|f0 l]; [easy|].
    destruct Hex as (s & Hs & Es).
    assert (Hsl : In s (saved (f0 :: l))).
    { rewrite El in Hs. unfold saved in Hs. rewrite map_app, concat_app in Hs.
      apply in_app_or in Hs as [Hs|Hs]; [specialize (Hbef s Hs); lia|exact Hs]. }
    assert (Hnextle : forall g, In g l -> tmin' < fstart g).
    { intros g Hg. destruct l as [|g0 l]; [easy|]. specialize (Hnext f0 g0 l eq_refl).
      destruct Hg as [<-|Hg]; [exact Hnext|].
      rewrite El in HA. apply archive_app in HA as (_ & HA & _).
      destruct (archive_start _ g0 HA) as [v0 Hv0]; [right; now left|].
      destruct (archive_start _ g HA) as [v Hv]; [right; right; exact Hg|].
      change (f0 :: g0 :: l) with ([f0; g0] ++ l) in HA. apply archive_app in HA as (_ & _ & HA).
      specialize (HA (fstart g0, v0) (fstart g, v)). cbn in HA.
      assert (fstart g0 < fstart g); [|lia]. apply HA.
      - unfold saved. cbn. apply in_or_app. right. now rewrite app_nil_r.
      - eapply saved_in; eauto. }
    destruct Hf as [<-|Hf].
    - apply saved_inv in Hsl as (h & [<-|Hh] & Hsh).
      + eapply sel_in; [exact Hsh|lia].
      + exfalso. specialize (Hnextle h Hh).
        assert (fstart h <= fst s) by (eapply start_le; [exact HA|apply Hinl; now right|exact Hsh]). lia.
    - destruct (archive_start _ f HA (Hinl f (or_intror Hf))) as [v Hv].
      eapply sel_in; [exact Hv|]. cbn. specialize (Hnextle f Hf). specialize (Hstart f (or_intror Hf)). lia. }
  destruct (series_loop_ok tmin' tmax' (map fstart l) ip (fstart fl) l Hnth) as (d & Ed & Hld & Hcd).
  - apply Hstart. rewrite Epre. apply in_or_app. right. now left.
  - exact H2.
  - intros f Hf. split; [|now apply Hsel]. eapply file_sorted; [exact HA|now apply Hinl].
  - rewrite Ed. cbn [bind]. destruct d as [|d0 d].
    + destruct l; [easy|discriminate].
    + unfold np_concatenate. f_equal. rewrite Hcd. rewrite El, wanted_app.
      now rewrite (wanted_before tmin' tmax' a Hbef).
Qed.

(** When no file begins after tmax and tmin is a saved instant (or before all of them), the
    data of each rank at the saved instants of the range are loaded. *)
Theorem c131_load_partial : forall tmin tmax (first : list (tfile V)) rest,
  archive first -> regular first -> wanted tmin tmax first <> [] ->
  (forall r, In r rest -> archive r /\ regular r /\ same_instants first r) ->
  (forall f, In f first -> fstart f <= tmax) ->
  (exists s, In s (saved first) /\ fst s = tmin) \/ (forall s, In s (saved first) -> tmin <= fst s) ->
  load_temporal tmin tmax (first :: rest)
  = Ok (map fst (wanted tmin tmax first),
        map (fun r => map snd (wanted tmin tmax r)) (first :: rest)).
Proof.
  intros tmin tmax first rest HA HR Hn Hrest Hst Htm.
  destruct (load_times tmin tmax first HA HR Hn)
    as (l & ts & ip & tmin' & tmax' & E1 & E2 & E3 & E4 & E5 & H1 & H2 & H3 & H4 & H5 & H6).
  unfold load_temporal. rewrite E1. cbn [bind]. rewrite E2, E3. cbn [bind].
  rewrite E4. cbn [bind]. rewrite E5. cbn [bind].
  assert (Htm' : tmin' = tmin \/ forall s, In s (saved first) -> tmin' <= fst s).
  { destruct Htm as [(s & Hs & Es)|Hall].
    - left. destruct (H5 s Hs) as [H|H]; [lia|lia|].
      destruct Hn. apply filter_nil. intros q Hq.
      destruct (Z.leb_spec tmin (fst q)), (Z.leb_spec (fst q) tmax); cbn; auto; lia.
    - right. intros s Hs. destruct (H5 s Hs (Hall s Hs)) as [H|H]; [exact H|].
      destruct H4 as (q & Hq & Eq). lia. }
  assert (Hipl : ip = (length l - 1)%nat).
  { assert (Hne : l <> []).
    { intros ->. cbn in E2. injection E2 as <- <-. cbn in E3. discriminate. }
    destruct (times_loop_ip tmin tmax 0 l Hne) as [[_ H]|(a & f & b & Ea & Hlt & _)].
    - rewrite E2 in H. cbn in H. lia.
    - destruct (filter_shape _ _ _ E1) as [a' Ea'].
      specialize (Hst f). rewrite Ea', Ea in Hst.
      assert (fstart f <= tmax); [|lia]. apply Hst. apply in_or_app. right. apply in_or_app. right. now left. }
  rewrite (map_ranks_ok _ (fun r => map snd (wanted tmin tmax r))); [reflexivity|].
  intros r Hr.
  assert (Hr' : archive r /\ regular r /\ same_instants first r).
  { destruct Hr as [<-|Hr]; [|auto]. repeat split; auto; apply HA. }
  destruct Hr' as (HAr & HRr & [HFr HSr]).
  assert (Htr : forall s, In s (saved r) -> exists s', In s' (saved first) /\ fst s' = fst s)
    by (intros s Hs; now apply (same_saved_in first r s HSr)).
  assert (Htf : forall s, In s (saved first) -> exists s', In s' (saved r) /\ fst s' = fst s)
    by (intros s Hs; now apply (same_saved_in r first s (eq_sym HSr))).
  assert (Hw : wanted tmin' tmax' r = wanted tmin tmax r).
  { apply wanted_bounds; auto.
    - intros s Hs. destruct (Htr s Hs) as (s' & Hs' & <-). now apply H5.
    - intros s Hs. destruct (Htr s Hs) as (s' & Hs' & <-). now apply H6. }
  assert (Hstr : forall f, In f r -> fstart f <= tmax).
  { intros f Hf. apply (in_map fstart) in Hf. rewrite <- HFr in Hf.
    apply in_map_iff in Hf as (g & <- & Hg). auto. }
  assert (Hexr : exists s, In s (saved r) /\ fst s = tmin').
  { destruct H4 as (s & Hs & <-). destruct (Htf s Hs) as (s' & Hs' & E). eauto. }
  assert (Htmr : tmin' = tmin \/ forall s, In s (saved r) -> tmin' <= fst s).
  { destruct Htm' as [H|H]; [now left|]. right. intros s Hs. destruct (Htr s Hs) as (s' & Hs' & <-). auto. }
  rewrite <- Hw. eapply rank_series_ok with (tmin := tmin) (tmax := tmax); try eassumption.
  - intros s Hs. destruct (Htr s Hs) as (s' & Hs' & <-). now apply H6.
  - intros l' El'. rewrite Hipl. destruct (same_filter tmin first r l HFr E1) as (l2 & El2 & Em).
    rewrite El2 in El'. injection El' as <-. apply (f_equal (@length Z)) in Em. rewrite !map_length in Em. now rewrite Em.
  - destruct Htmr as [->|Hall]; [reflexivity|].
    (* tmin and tmin' are not after the first instant: all the files are kept *)
    assert (Hwhole : forall t, (forall s, In s (saved r) -> t <= fst s) -> filter_tmins_paths t r = Ok r).
    { intros t Ht. destruct (filter_ok t r HAr HRr) as (a & l' & Ef & El & Hne & Hbef & _).
      { destruct Hexr as (s & Hs & _). exists s. split; [exact Hs|auto]. }
      destruct a as [|f a]; [now rewrite Ef, El|]. exfalso.
      destruct (archive_start _ f HAr) as [v Hv]; [rewrite El; now left|].
      assert (Hs : In (fstart f, v) (saved (f :: a))) by (apply saved_in with f; [now left|exact Hv]).
      specialize (Hbef _ Hs). specialize (Ht (fstart f, v)).
      assert (In (fstart f, v) (saved r)) by (apply saved_in with f; [rewrite El; now left|exact Hv]).
      specialize (Ht H). lia. }
    rewrite (Hwhole tmin' Hall). symmetry. apply Hwhole. intros s Hs. specialize (Hall s Hs). lia.
Qed.

Lemma find_first_mono p q l k : (forall x, q x = true -> p x = true) ->
  find_index_first p l = Ok k -> forall k', find_index_first q l = Ok k' -> (k <= k')%nat.
Proof.
  intros H Hk k' Hk'. destruct (Nat.le_gt_cases k k') as [|Hlt]; [assumption|].
  apply find_first_spec in Hk as (_ & _ & K3). apply find_first_spec in Hk' as (_ & K2' & _).
  specialize (K3 k' 0 Hlt). rewrite (H _ (K2' 0)) in K3. discriminate.
Qed.

Lemma find_first_shift p l d k : find_index_first p (map (fun x : tfile V => d - fstart x) l) = Ok k ->
  (k < length l)%nat.
Proof. intros H. apply find_first_spec in H as [H _]. now rewrite map_length in H. Qed.

Lemma skipn_twice {A} (x y : nat) (l : list A) : skipn x (skipn y l) = skipn (x + y) l.
Proof.
  revert l; induction y as [|y IH]; intros l; [now rewrite Nat.add_0_r|].
  rewrite Nat.add_succ_r. destruct l as [|a l]; [now rewrite !skipn_nil|]. cbn. apply IH.
Qed.

Lemma filter_later tmin tmin' (fs l l' : list (tfile V)) : tmin <= tmin' ->
  filter_tmins_paths tmin fs = Ok l -> filter_tmins_paths tmin' fs = Ok l' ->
  exists k, l' = skipn k l /\ l' <> [].
Proof.
  intros Hle H H'. unfold filter_tmins_paths in *. destruct fs as [|f [|g r]].
  - discriminate.
  - injection H as <-. injection H' as <-. exists O. split; easy.
  - set (fs := f :: g :: r) in *. destruct (np_min _) as [d| |]; try discriminate. cbn [bind] in *.
    destruct (find_index_first _ (map (fun f => tmin - _) fs)) as [k| |] eqn:Ek; try discriminate.
    destruct (find_index_first _ (map (fun f => tmin' - _) fs)) as [k'| |] eqn:Ek'; try discriminate.
    cbn [bind] in *. injection H as <-. injection H' as <-.
    pose proof (find_first_shift _ _ _ _ Ek') as Hlt.
    assert (Hkk : (k <= k')%nat).
    { destruct (Nat.le_gt_cases k k') as [|Hg]; [assumption|].
      apply find_first_spec in Ek as (_ & _ & K3). apply find_first_spec in Ek' as (_ & K2 & _).
      specialize (K3 k' (tmin - fstart f) Hg). specialize (K2 (tmin' - fstart f)).
      rewrite (map_nth (fun f => tmin - fstart f)) in K3. rewrite (map_nth (fun f => tmin' - fstart f)) in K2.
      apply Z.ltb_ge in K3. apply Z.ltb_lt in K2. lia. }
    exists (k' - k)%nat. split.
    + rewrite skipn_twice. f_equal. lia.
    + intros E0. apply (f_equal (@length _)) in E0. rewrite skipn_length in E0. cbn [length] in E0. lia.
Qed.

(** As soon as one file begins after tmax, whatever the files are, the loading fails: the loop
    on the ranks tests the start of the file at which the loop on the times has stopped. *)
Theorem c131_tmax_never : forall tmin tmax (first : list (tfile V)) rest,
  archive first -> (exists f, In f first /\ tmax < fstart f) ->
  forall r, load_temporal tmin tmax (first :: rest) <> Ok r.
Proof.
  intros tmin tmax first rest HA (f0 & Hf0 & Hlt0) r H. unfold load_temporal in H.
  destruct (filter_tmins_paths tmin first) as [l| |] eqn:E1; try discriminate. cbn [bind] in H.
  destruct (times_loop tmin tmax 0 l) as [ts ip] eqn:E2.
  destruct (np_concatenate ts) as [times| |] eqn:E3; try discriminate. cbn [bind] in H.
  destruct (np_min times) as [tmin'| |] eqn:E4; try discriminate. cbn [bind] in H.
  destruct (np_max times) as [tmax'| |] eqn:E5; try discriminate. cbn [bind] in H.
  destruct (filter_shape _ _ _ E1) as [a Ea].
  assert (HAl : archive l) by (rewrite Ea in HA; now apply archive_app in HA as (_ & ? & _)).
  assert (Hne : l <> []).
  { intros ->. cbn in E2. injection E2 as <- <-. discriminate. }
  assert (Hc : concat ts = map fst (wanted tmin tmax l)).
  { pose proof (times_loop_spec tmin tmax 0 l HAl) as Hs. now rewrite E2 in Hs. }
  assert (Ht : times = map fst (wanted tmin tmax l)).
  { destruct ts; [discriminate|]. cbn [np_concatenate] in E3. injection E3 as <-. exact Hc. }
  destruct (np_min_in _ _ E4) as [I1 _]. destruct (np_max_in _ _ E5) as [A1 _].
  rewrite Ht in I1, A1. apply in_map_iff in I1 as (s1 & Es1 & I1). apply in_map_iff in A1 as (s2 & Es2 & A1).
  apply wanted_in in I1 as [_ I1]. apply wanted_in in A1 as [_ A1].
  assert (Htmin : tmin <= tmin') by lia. assert (Htmax : tmax' <= tmax) by lia.
  (* starts increase *)
  assert (Hinc : forall (p : list (tfile V)) f q g s, archive (p ++ f :: q ++ g :: s) -> fstart f < fstart g).
  { intros p f q g s HH. apply archive_app in HH as (_ & HH & _).
    destruct (archive_start _ f HH) as [v Hv]; [now left|].
    destruct (archive_start _ g HH) as [v' Hv']; [right; apply in_or_app; right; now left|].
    change (f :: q ++ g :: s) with ([f] ++ (q ++ g :: s)) in HH. apply archive_app in HH as (_ & _ & HH).
    specialize (HH (fstart f, v) (fstart g, v')). cbn in HH. apply HH.
    - unfold saved. cbn. now rewrite app_nil_r.
    - apply saved_in with g; [apply in_or_app; right; now left|exact Hv']. }
  assert (Hbreak : exists b1 f b2, l = b1 ++ f :: b2 /\ tmax < fstart f /\ ip = length b1).
  { destruct (times_loop_ip tmin tmax 0 l Hne) as [[Hall _]|(b1 & f & b2 & E & Hf & Hi)].
    - exfalso. destruct (exists_last Hne) as (p & fl & Ep).
      assert (Hfl : fstart fl <= tmax) by (apply Hall; rewrite Ep; apply in_or_app; right; now left).
      rewrite Ea in Hf0. apply in_app_or in Hf0 as [Hf0|Hf0].
      + apply in_split in Hf0 as (u & w & ->). rewrite Ep in Ea.
        assert (fstart f0 < fstart fl); [|lia].
        apply (Hinc u f0 (w ++ p) fl []). rewrite Ea in HA. rewrite <- !app_assoc in HA. cbn in HA.
        rewrite <- !app_assoc. exact HA.
      + specialize (Hall f0 Hf0). lia.
    - exists b1, f, b2. repeat split; [exact E|exact Hf|]. rewrite E2 in Hi. cbn in Hi. exact Hi. }
  destruct Hbreak as (b1 & fb & b2 & El & Hfb & Eip).
  cbn [map_ranks] in H.
  destruct (rank_series tmin' tmax' ip first) as [d| |] eqn:E6; try discriminate.
  unfold rank_series in E6.
  destruct (filter_tmins_paths tmin' first) as [l'| |] eqn:E7; try discriminate. cbn [bind] in E6.
  destruct (filter_later tmin tmin' first l l' Htmin E1 E7) as (k & Ek & Hne').
  destruct l' as [|g l']; [easy|].
  cbn [series_loop] in E6.
  destruct (nth_error (map fstart (g :: l')) ip) as [tf|] eqn:En; [|discriminate].
  assert (Htf : tmax' < tf).
  { rewrite Ek, <- skipn_map in En.
    assert (En' : nth_error (map fstart l) (k + ip) = Some tf).
    { clear - En. revert En. generalize (map fstart l). induction k as [|k IH]; cbn; intros m En; [exact En|].
      destruct m as [|x m]; [now destruct ip|]. cbn. now apply IH. }
    rewrite El, map_app in En'. rewrite nth_error_app2 in En' by (rewrite map_length; lia).
    rewrite map_length in En'. replace (k + ip - length b1)%nat with k in En' by lia.
    destruct k as [|k]; cbn in En'; [injection En' as <-; lia|].
    apply nth_error_In in En'. apply in_map_iff in En' as (h & <- & Hh).
    apply in_split in Hh as (u & w & Eb). rewrite El, Eb in HAl.
    specialize (Hinc _ _ _ _ _ HAl). lia. }
  destruct (Z.ltb_spec tmax' tf); [|lia]. cbn in E6. discriminate.
Qed.

End C131.

Example c131_example :
  load_temporal 10 70 [ex_files 0; ex_files 100]
  = Ok ([10; 20; 30; 40; 50; 60; 70], [seq 1 7; seq 101 7]).
Proof.
  rewrite c131_load_partial; [reflexivity|apply ex_archive|apply ex_regular|discriminate| | |].
  - intros r [<-|[]]. split; [apply ex_archive|]. split; [apply ex_regular|]. split; reflexivity.
  - intros f [<-|[<-|[<-|[]]]]; cbn; lia.
  - left. exists (10, 1%nat). split; [cbn; auto|reflexivity].
Qed.

Example c131_never_example :
  load_temporal 0 45 [ex_files 0] = ValueError /\ wanted 0 45 (ex_files 0) <> [].
Proof. split; [reflexivity|discriminate]. Qed.

(** Regular files and ranges which contain saved instants: the loading fails when tmax is before
    the start of the last file, and when tmin is between the last instant of a file and the
    start of the next file. *)
Theorem c131_load_refuted : exists (fs : list (tfile nat)),
  archive fs /\ regular fs
  /\ (exists tmin tmax, wanted tmin tmax fs <> [] /\ load_temporal tmin tmax [fs] = ValueError
        /\ load_spatiotemporal tmin tmax [fs]
            = Ok (map fst (wanted tmin tmax fs), [map Some (map snd (wanted tmin tmax fs))]))
  /\ (exists tmin tmax, wanted tmin tmax fs <> [] /\ (forall f, In f fs -> fstart f <= tmax)
        /\ load_temporal tmin tmax [fs] = IndexError
        /\ load_spatiotemporal tmin tmax [fs]
            = Ok (map fst (wanted tmin tmax fs), [map Some (map snd (wanted tmin tmax fs))])).
Proof.
  exists (ex_files 0). split; [apply ex_archive|]. split; [apply ex_regular|]. split.
  - exists 0, 45. split; [discriminate|]. split; reflexivity.
  - exists 25, 80. split; [discriminate|]. split; [|split; reflexivity].
    intros f [<-|[<-|[<-|[]]]]; cbn; lia.
Qed.

Print Assumptions c130_load_partial.
Print Assumptions c130_load_refuted.
Print Assumptions c131_load_partial.
Print Assumptions c131_tmax_never.
Print Assumptions c131_load_refuted.
