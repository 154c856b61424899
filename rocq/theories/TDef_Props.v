(** C228, C229: the times taken by default and the use of the saved periodograms. *)
From Coq Require Import String Ascii QArith List Bool Arith Lia.
From Verif Require Import TCache_Model TCache_Props TDef_Model.
Import ListNotations.
Local Open Scope string_scope.

(** ** C228: get_spectra *)

(** a dtype is given *)
Definition given (c : call) : Prop := exists a b t ur, c = (a, b, Some t, ur) /\ word t.
(** the spectra of ur and ud are saved (3d) or not (2d) *)
Definition given_ur (u : bool) (c : call) : Prop := exists a b dt, c = (a, b, dt, u) /\ good_dtype dt.

Section Proofs.
  Variable str_float : Q -> string.
  Variable float_str : string -> option Q.
  Hypothesis F : formats str_float float_str.

  Lemma given_good c : given c -> good c.
  Proof using. intros (a & b & t & ur & -> & H). exact H. Qed.

  Lemma saved_inv d : saved str_float float_str given d -> forall c, given c ->
    (read d (name_of str_float false c) = None /\ read d (name_of str_float true c) = None)
    \/ exists c', same_call c c' /\ read d (name_of str_float false c) = Some c' /\ read d (name_of str_float true c) = Some c'.
  Proof.
    intros S. induction S as [|d c0 d' S IH G0 E]; intros c Gc; [left; split; reflexivity|].
    assert (W := saved_wf str_float float_str F given d given_good S).
    assert (E' : d' = write (write d (name_of str_float false c0) c0) (name_of str_float true c0) c0).
    { destruct G0 as (a & b & t & ur & -> & Ht). unfold save_spectra in E.
      rewrite (get_path_dtype str_float float_str F false (map fst d) a b t ur Ht W) in E.
      rewrite (get_path_dtype str_float float_str F true) in E; [|exact Ht|].
      2: apply (wf_write str_float d _ _ false (a, b, Some t, ur) W); [exact Ht|reflexivity].
      apply some_inj in E. symmetry. exact E. }
    subst d'. rewrite !read_write.
    assert (N : forall k k', k <> k' -> String.eqb (name_of str_float k c0) (name_of str_float k' c) = false).
    { intros k k' H. apply String.eqb_neq. intros H'. apply (name_of_inj str_float float_str F) in H'; try (apply given_good; assumption).
      destruct H' as [H' _]. contradiction. }
    rewrite (N true false), (N false true) by discriminate.
    destruct (String.eqb (name_of str_float false c0) (name_of str_float false c)) eqn:E1.
    - apply String.eqb_eq in E1. apply (name_of_inj str_float float_str F) in E1; try (apply given_good; assumption). destruct E1 as [_ E1].
      rewrite (name_same str_float float_str F true _ _ E1), String.eqb_refl. right. exists c0. split; [|split; reflexivity].
      destruct c0 as [[[a b] dt] ur], c as [[[a' b'] dt'] ur']. cbn in E1 |- *. intuition; symmetry; assumption.
    - destruct (String.eqb (name_of str_float true c0) (name_of str_float true c)) eqn:E2.
      + apply String.eqb_eq in E2. apply (name_of_inj str_float float_str F) in E2; try (apply given_good; assumption). destruct E2 as [_ E2].
        rewrite (name_same str_float float_str F false _ _ E2), String.eqb_refl in E1. discriminate.
      + apply IH. exact Gc.
  Qed.

  Lemma get_path_in (temporal : bool) files tmin tmax dt ur : good_dtype dt -> wf str_float files ->
    exists path, get_path str_float float_str temporal files tmin tmax dt ur = Some path
    /\ (In path files \/ path = name_of str_float temporal (tmin, tmax, dt, ur)).
  Proof.
    intros G W. unfold get_path. destruct (search_sound str_float float_str F temporal tmin tmax dt ur files G W) as (r & -> & H).
    destruct r as [path|].
    - destruct H as (H & _). exists path. auto.
    - eexists. split; [reflexivity|]. right. reflexivity.
  Qed.

  (** the names are those of calls with the same save_urud *)
  Lemma saved_names u d : saved str_float float_str (given_ur u) d ->
    forall n, In n (map fst d) -> exists k a b dt, good_dtype dt /\ n = name_of str_float k (a, b, dt, u).
  Proof.
    intros S. induction S as [|d c0 d' S IH G0 E]; [intros n []|].
    assert (W : wf str_float (map fst d)).
    { apply (saved_wf str_float float_str F (given_ur u)); [|exact S]. intros c (a & b & dt & -> & H). exact H. }
    destruct G0 as (a & b & dt & -> & G). unfold save_spectra in E.
    destruct (get_path_in false (map fst d) a b dt u G W) as (p1 & E1 & H1). rewrite E1 in E.
    assert (I1 : forall n, In n (map fst (write d p1 (a, b, dt, u))) -> exists k a b dt, good_dtype dt /\ n = name_of str_float k (a, b, dt, u)).
    { intros n Hn. apply map_fst_write in Hn. destruct Hn as [->|Hn]; [|apply IH; exact Hn].
      destruct H1 as [H1| ->]; [apply IH; exact H1|exists false, a, b, dt; auto]. }
    assert (W1 : wf str_float (map fst (write d p1 (a, b, dt, u)))).
    { intros n Hn. destruct (I1 n Hn) as (k & a' & b' & dt' & G' & ->). exists k, (a', b', dt', u). split; [exact G'|reflexivity]. }
    destruct (get_path_in true _ a b dt u G W1) as (p2 & E2 & H2). rewrite E2 in E. apply some_inj in E. subst d'.
    intros n Hn. apply map_fst_write in Hn. destruct Hn as [->|Hn]; [|apply I1; exact Hn].
    destruct H2 as [H2| ->]; [apply I1; exact H2|exists true, a, b, dt; auto].
  Qed.

  Lemma read_in (d : disk) n c : read d n = Some c -> In n (map fst d).
  Proof using.
    induction d as [|[m c'] d IH]; [discriminate|]. cbn. destruct (String.eqb m n) eqn:E.
    - apply String.eqb_eq in E. auto.
    - auto.
  Qed.
End Proofs.

(** 3d, with a dtype: what get_spectra computes is saved, and loaded by the next call; what it loads is for these
    arguments *)
Theorem c228_get_spectra_partial : forall str_float float_str (d : disk) tmin tmax t, formats str_float float_str ->
  saved str_float float_str given d -> word t ->
  let c := (tmin, tmax, Some t, true) in
  (exists d', get_spectra str_float float_str true d tmin tmax (Some t) = Ok (computed c, computed c, d')
    /\ save_spectra str_float float_str d c = Some d'
    /\ get_spectra str_float float_str true d' tmin tmax (Some t) = Ok (loaded c, loaded c, d'))
  \/ exists c', get_spectra str_float float_str true d tmin tmax (Some t) = Ok (loaded c', loaded c', d) /\ same_call c c'
    /\ load_spectra str_float float_str d c = Some c'.
Proof.
  intros str_float float_str d tmin tmax t F S Ht c.
  assert (Gc : given c) by (exists tmin, tmax, t, true; auto).
  assert (W := saved_wf str_float float_str F given d given_good S).
  assert (Q : forall d, wf str_float (map fst d) -> forall c', read d (name_of str_float false c) = Some c' -> read d (name_of str_float true c) = Some c' ->
    get_spectra str_float float_str true d tmin tmax (Some t) = Ok (loaded c', loaded c', d) /\ load_spectra str_float float_str d c = Some c').
  { intros d0 W0 c' R1 R2. unfold get_spectra, load_spectra, load_temporal, is_file, c.
    rewrite !(get_path_dtype str_float float_str F false (map fst d0) tmin tmax t true Ht W0).
    rewrite !(get_path_dtype str_float float_str F true (map fst d0) tmin tmax t true Ht W0). fold c. rewrite R1, R2. split; reflexivity. }
  destruct (saved_inv str_float float_str F d S c Gc) as [[R1 R2]|(c' & Sc & R1 & R2)].
  - left. destruct (c142_dtype_partial str_float float_str d c F S Gc) as (d' & E & _). exists d'.
    split; [|split; [exact E|]].
    + unfold get_spectra. rewrite (get_path_dtype str_float float_str F false (map fst d) tmin tmax t true Ht W). fold c.
      unfold is_file. rewrite R1, E. reflexivity.
    + assert (S' : saved str_float float_str given d') by (eapply saved_one; eassumption).
      assert (W' := saved_wf str_float float_str F given d' given_good S').
      assert (E' : d' = write (write d (name_of str_float false c) c) (name_of str_float true c) c).
      { unfold save_spectra, c in E. rewrite (get_path_dtype str_float float_str F false (map fst d) tmin tmax t true Ht W) in E.
        rewrite (get_path_dtype str_float float_str F true) in E; [|exact Ht|].
        2: apply (wf_write str_float d _ _ false c W); [exact Ht|reflexivity].
        apply some_inj in E. symmetry. exact E. }
      destruct (saved_inv str_float float_str F d' S' c Gc) as [[R _]|(c' & _ & R3 & R4)].
      * subst d'. rewrite !read_write, String.eqb_refl in R. destruct (String.eqb _ _); discriminate.
      * assert (c' = c) as ->. { subst d'. rewrite !read_write, String.eqb_refl in R4. congruence. }
        apply Q; assumption.
  - right. exists c'. destruct (Q d W c' R1 R2) as [H1 H2]. auto.
Qed.

(** 2d: get_spectra never uses what was saved *)
Theorem c228_two_dim : forall str_float float_str (d : disk) tmin tmax dt, formats str_float float_str ->
  saved str_float float_str (given_ur false) d -> good_dtype dt ->
  let c := (tmin, tmax, dt, false) in
  exists d', get_spectra str_float float_str false d tmin tmax dt = Ok (computed c, computed c, d')
  /\ save_spectra str_float float_str d c = Some d'.
Proof.
  intros str_float float_str d tmin tmax dt F S G c.
  assert (W : wf str_float (map fst d)).
  { apply (saved_wf str_float float_str F (given_ur false)); [|exact S]. intros x (a & b & dt' & -> & H). exact H. }
  destruct (get_path_sound str_float float_str F false (map fst d) tmin tmax dt true G W) as (a & b & dt' & ur' & E & G' & _ & _ & _ & U).
  rewrite (U eq_refl) in E. unfold get_spectra. rewrite E. unfold is_file.
  destruct (read d (name_of str_float false (a, b, dt', true))) as [x|] eqn:R.
  - exfalso. apply read_in in R. destruct (saved_names str_float float_str F false d S _ R) as (k & a2 & b2 & dt2 & G2 & E2).
    apply (name_of_inj str_float float_str F) in E2; [|exact G'|exact G2]. destruct E2 as (_ & _ & _ & _ & H). discriminate H.
  - assert (exists d', save_spectra str_float float_str d c = Some d') as (d' & E').
    { unfold save_spectra, c. destruct (get_path_in str_float float_str F false (map fst d) tmin tmax dt false G W) as (p1 & E1 & H1). rewrite E1.
      assert (W1 : wf str_float (map fst (write d p1 (tmin, tmax, dt, false)))).
      { intros n Hn. apply map_fst_write in Hn. destruct Hn as [->|Hn]; [|apply W; exact Hn].
        destruct H1 as [H1| ->]; [apply W; exact H1|exists false, (tmin, tmax, dt, false)]. split; [exact G|reflexivity]. }
      destruct (get_path_in str_float float_str F true _ tmin tmax dt false G W1) as (p2 & E2 & _). rewrite E2. eexists. reflexivity. }
    exists d'. fold c. rewrite E'. split; reflexivity.
Qed.

(** 2d: two identical calls compute twice *)
Theorem c228_recomputed_refuted : exists str_float float_str tmin tmax dt d c,
  formats str_float float_str
  /\ get_spectra str_float float_str false [] tmin tmax dt = Ok (computed c, computed c, d)
  /\ load_spectra str_float float_str d c = Some c
  /\ get_spectra str_float float_str false d tmin tmax dt = Ok (computed c, computed c, d).
Proof.
  exists str_ex, float_ex, 0, 1, None. do 2 eexists. split; [exact formats_ex|].
  split; [vm_compute; reflexivity|]. split; vm_compute; reflexivity.
Qed.

Example c228_example : saved str_ex float_ex given [] /\ saved str_ex float_ex (given_ur false) [] /\ word "complex64".
Proof. split; [constructor|split; [constructor|]]. split; [reflexivity|split; [reflexivity|discriminate]]. Qed.

(** ** C229: the times by default *)

Lemma last_tmin_spec l f : last_tmin l = Some f -> In f l /\ forall g, In g l -> tmin_of g <= tmin_of f.
Proof.
  revert f. induction l as [|x l IH]; intros f E; [discriminate|]. cbn [last_tmin] in E. destruct (last_tmin l) as [m|] eqn:El.
  - destruct (IH m eq_refl) as [I M]. destruct (Qle_bool (tmin_of x) (tmin_of m)) eqn:L; apply some_inj in E; subst f.
    + apply Qle_bool_iff in L. split; [right; exact I|]. intros g [<-|Hg]; [exact L|apply M; exact Hg].
    + assert (tmin_of m < tmin_of x). { apply Qnot_le_lt. intros H. apply Qle_bool_iff in H. congruence. }
      split; [left; reflexivity|]. intros g [<-|Hg]; [apply Qle_refl|].
      eapply Qle_trans; [apply M; exact Hg|apply Qlt_le_weak; assumption].
  - apply some_inj in E. subst x. destruct l as [|y l]; [|cbn in El; destruct (last_tmin l); [destruct (Qle_bool _ _)|]; discriminate].
    split; [left; reflexivity|]. intros g [<-|[]]. apply Qle_refl.
Qed.

Lemma last_tmin_none l : last_tmin l = None -> l = [].
Proof. destruct l as [|x l]; [reflexivity|]. cbn. destruct (last_tmin l); [destruct (Qle_bool _ _)|]; discriminate. Qed.

Lemma first_rank_spec f r : (exists g, In g (f :: r) /\ rank_of g = first_rank f r) /\ forall g, In g (f :: r) -> (first_rank f r <= rank_of g)%nat.
Proof.
  unfold first_rank. induction r as [|x r ((g & I & E) & M)]; cbn [fold_right].
  - split; [exists f; split; [left; reflexivity|reflexivity]|]. intros g [<-|[]]. lia.
  - split.
    + destruct (Nat.min_spec (rank_of x) (fold_right (fun g m => Nat.min (rank_of g) m) (rank_of f) r)) as [[_ ->]|[_ ->]].
      * exists x. split; [right; left; reflexivity|reflexivity].
      * exists g. split; [|exact E]. destruct I as [I|I]; [left; exact I|right; right; exact I].
    + intros g' [<-|[<-|H]]; [pose proof (M f (or_introl eq_refl)); lia|lia|pose proof (M g' (or_intror H)); lia].
Qed.

(** the times of a file increase *)
Fixpoint increasing (l : list Q) : Prop :=
  match l with [] => True | x :: r => (forall y, In y r -> x <= y) /\ increasing r end.

Lemma last_item_spec (l : list Q) : l <> [] -> increasing l -> exists x, last_item l = Ok x /\ In x l /\ forall y, In y l -> y <= x.
Proof.
  unfold last_item. induction l as [|a l IH]; [contradiction|]. intros _ [M I]. destruct l as [|b l].
  - exists a. split; [reflexivity|]. split; [left; reflexivity|]. intros y [<-|[]]. apply Qle_refl.
  - destruct IH as (x & E & Hx & Mx); [discriminate|exact I|]. exists x. cbn [rev] in E |- *.
    destruct (rev l ++ [b])%list as [|z r] eqn:Er; [discriminate|]. cbn [app]. split; [exact E|]. split; [right; exact Hx|].
    intros y [<-|Hy]; [apply M; exact Hx|apply Mx; exact Hy].
Qed.

(** with signals: the last time of the first rank, if the files do not overlap *)
Theorem c229_default_tmax : forall ranks periodo t_end, ranks <> [] ->
  (forall f, In f ranks -> times_of f <> [] /\ increasing (times_of f)) ->
  (forall f g x y, In f ranks -> In g ranks -> rank_of f = rank_of g -> tmin_of f < tmin_of g -> In x (times_of f) -> In y (times_of g) -> x <= y) ->
  (forall f g, In f ranks -> In g ranks -> rank_of f = rank_of g -> tmin_of f == tmin_of g -> f = g) ->
  exists x, default_tmax ranks periodo t_end = Ok x
  /\ exists f, In f ranks /\ In x (times_of f) /\ (forall g, In g ranks -> (rank_of f <= rank_of g)%nat)
  /\ forall g y, In g ranks -> rank_of g = rank_of f -> In y (times_of g) -> y <= x.
Proof.
  intros ranks periodo t_end NE T O U. destruct ranks as [|f0 r0]; [contradiction|]. unfold default_tmax.
  set (ranks := f0 :: r0) in *. destruct (first_rank_spec f0 r0) as ((g0 & I0 & E0) & M0). fold ranks in I0, M0.
  destruct (last_tmin _) as [f|] eqn:L.
  2: { apply last_tmin_none in L. exfalso. assert (H : In g0 (filter (fun g => Nat.eqb (rank_of g) (first_rank f0 r0)) ranks)).
       { apply filter_In. split; [exact I0|]. apply Nat.eqb_eq. exact E0. } rewrite L in H. exact H. }
  apply last_tmin_spec in L. destruct L as [I M]. apply filter_In in I as [I R]. apply Nat.eqb_eq in R.
  destruct (T f I) as [N Inc]. destruct (last_item_spec (times_of f) N Inc) as (x & E & Hx & Mx). exists x. split; [exact E|].
  exists f. split; [exact I|]. split; [exact Hx|]. split; [intros g Hg; rewrite R; apply M0; exact Hg|].
  intros g y Hg Rg Hy. assert (L : tmin_of g <= tmin_of f) by (apply M; apply filter_In; split; [exact Hg|apply Nat.eqb_eq; congruence]).
  apply Qle_lteq in L as [L|L]; [eapply (O g f); eassumption|]. assert (g = f) as -> by (apply U; assumption). apply Mx. exact Hy.
Qed.

(** without signals: the greatest tmax of the saved periodograms, or the end of the simulation *)
Theorem c229_default_tmax_saved : forall periodo t_end, (forall t, In t periodo -> 0 <= t) ->
  exists x, default_tmax [] periodo t_end = Ok x
  /\ (periodo = [] -> x = t_end) /\ (periodo <> [] -> (exists t, In t periodo /\ t == x) /\ forall t, In t periodo -> t <= x).
Proof.
  intros periodo t_end P. destruct periodo as [|t0 periodo]; [exists t_end; split; [reflexivity|]; split; [reflexivity|contradiction]|].
  eexists. split; [reflexivity|]. split; [discriminate|]. intros _.
  assert (G : forall l a, (exists t, In t (a :: l) /\ t == fold_left py_max l a) /\ forall t, In t (a :: l) -> t <= fold_left py_max l a).
  { induction l as [|b l IH]; intros a.
    - cbn. split; [exists a; split; [left; reflexivity|reflexivity]|]. intros t [<-|[]]. apply Qle_refl.
    - cbn [fold_left]. destruct (IH (py_max a b)) as ((t & It & Et) & M). split.
      + exists t. split; [|exact Et]. destruct It as [<-|It]; [|right; right; exact It]. unfold py_max. destruct (Qle_bool b a); [left|right; left]; reflexivity.
      + assert (B := M _ (or_introl eq_refl)). unfold py_max in B at 1. destruct (Qle_bool b a) eqn:L.
        * apply Qle_bool_iff in L. intros t' [<-|[<-|H]]; [exact B|eapply Qle_trans; eassumption|apply M; right; exact H].
        * assert (a < b) by (apply Qnot_le_lt; intros H; apply Qle_bool_iff in H; congruence).
          intros t' [<-|[<-|H']]; [eapply Qle_trans; [apply Qlt_le_weak; eassumption|exact B]|exact B|apply M; right; exact H']. }
  cbn [fold_left]. assert (P0 : 0 <= t0) by (apply P; left; reflexivity).
  destruct (G periodo (py_max 0 t0)) as ((t & It & Et) & M).
  assert (E0 : py_max 0 t0 == t0).
  { unfold py_max. destruct (Qle_bool t0 0) eqn:L; [|reflexivity]. apply Qle_bool_iff in L. apply Qle_antisym; assumption. }
  split.
  - destruct It as [<-|It]; [exists t0; split; [left; reflexivity|rewrite <- Et, E0; reflexivity]|exists t; split; [right; exact It|exact Et]].
  - intros t' [<-|H]; [apply Qle_trans with (py_max 0 t0); [apply Qle_lteq; right; symmetry; exact E0|apply M; left; reflexivity]|apply M; right; exact H].
Qed.

(** the formatted floats come before "temporal" *)
Definition before_temporal (str_float : Q -> string) : Prop :=
  forall x, exists ch s, str_float x = String ch s /\ Ascii.compare ch "t"%char = Lt.

Lemma compare_prefix p a b : String.compare (p ++ a) (p ++ b) = String.compare a b.
Proof.
  induction p as [|c p IH]; [reflexivity|]. cbn [append String.compare].
  replace (Ascii.compare c c) with Eq; [exact IH|]. symmetry. unfold Ascii.compare. apply N.compare_refl.
Qed.

Section Sorted.
  Variable str_float : Q -> string.
  Variable float_str : string -> option Q.
  Hypothesis F : formats str_float float_str.
  Hypothesis B : before_temporal str_float.

  Lemma temporal_last a b dt ur a' b' dt' ur' :
    String.ltb (name_of str_float true (a, b, dt, ur)) (name_of str_float false (a', b', dt', ur')) = false
    /\ String.ltb (name_of str_float false (a', b', dt', ur')) (name_of str_float true (a, b, dt, ur)) = true.
  Proof.
    destruct (B a') as (ch & s & E & L). unfold name_of. rewrite E, !complete_name_eq. unfold base. rewrite !append_assoc'.
    change "periodogram_temporal_" with ("periodogram_" ++ "temporal_"). rewrite !append_assoc'. unfold String.ltb. rewrite !compare_prefix.
    cbn [append String.compare]. unfold Ascii.compare in *. rewrite (N.compare_antisym (N_of_ascii ch)). rewrite L. split; reflexivity.
  Qed.

  Lemma last_sorted_in l m : last_sorted l = Some m -> In m l.
  Proof using.
    revert m. induction l as [|x l IH]; intros m E; [discriminate|]. cbn [last_sorted] in E. destruct (last_sorted l) as [m'|].
    - destruct (String.ltb m' x); apply some_inj in E; subst m; [left; reflexivity|right; apply IH; reflexivity].
    - apply some_inj in E. left. exact E.
  Qed.

  Lemma last_sorted_temporal l c : wf str_float l -> In (name_of str_float true c) l ->
    exists c', good c' /\ last_sorted l = Some (name_of str_float true c') /\ In (name_of str_float true c') l.
  Proof.
    revert c. induction l as [|x l IH]; intros c W I; [destruct I|].
    assert (Wl : wf str_float l) by (intros n Hn; apply W; right; exact Hn).
    cbn [last_sorted]. destruct (last_sorted l) as [m|] eqn:E.
    - assert (Im := last_sorted_in l m E). destruct (Wl m Im) as (km & cm & Gm & ->).
      destruct (W x (or_introl eq_refl)) as (kx & cx & Gx & ->).
      destruct km.
      + destruct kx.
        * destruct (String.ltb _ _); [exists cx|exists cm]; (split; [assumption|split; [reflexivity|]]); [left; reflexivity|right; exact Im].
        * destruct cm as [[[a b] dt] ur], cx as [[[a' b'] dt'] ur']. destruct (temporal_last a b dt ur a' b' dt' ur') as [-> _].
          exists (a, b, dt, ur). split; [exact Gm|split; [reflexivity|right; exact Im]].
      + destruct I as [I|I].
        * destruct kx; [|exfalso]. 2: { destruct c as [[[a b] dt] ur], cx as [[[a' b'] dt'] ur'].
            destruct (temporal_last a b dt ur a' b' dt' ur') as [H H']. rewrite I in H, H'. congruence. }
          destruct cm as [[[a b] dt] ur], cx as [[[a' b'] dt'] ur']. destruct (temporal_last a' b' dt' ur' a b dt ur) as [_ ->].
          exists (a', b', dt', ur'). split; [exact Gx|split; [reflexivity|left; reflexivity]].
        * destruct (IH c Wl I) as (c' & G' & E' & I'). apply some_inj in E'. exfalso.
          destruct cm as [[[a b] dt] ur], c' as [[[a' b'] dt'] ur']. destruct (temporal_last a' b' dt' ur' a b dt ur) as [H H']. rewrite E' in H, H'. congruence.
    - destruct l as [|y l]; [|cbn in E; destruct (last_sorted l); [destruct (String.ltb _ _)|]; discriminate].
      destruct I as [->|[]]. destruct (W _ (or_introl eq_refl)) as (k & c' & G' & Ec). destruct k.
      + exists c'. rewrite Ec. split; [exact G'|split; [reflexivity|left; reflexivity]].
      + exfalso. destruct c as [[[a b] dt] ur], c' as [[[a' b'] dt'] ur']. destruct (temporal_last a b dt ur a' b' dt' ur') as [H H']. rewrite Ec in H, H'. congruence.
  Qed.

  Lemma split_h5 s : split_underscore (s ++ ".h5") = (removelast (split_underscore s) ++ [(last (split_underscore s) "" ++ ".h5")%string])%list.
  Proof using.
    induction s as [|c s IH]; [reflexivity|]. cbn [append split_underscore]. destruct (Ascii.eqb c "_"%char).
    - rewrite IH. pose proof (split_nonempty s). destruct (split_underscore s) as [|f r]; [contradiction|]. reflexivity.
    - rewrite IH. pose proof (split_nonempty s). destruct (split_underscore s) as [|f r]; [contradiction|]. destruct r; reflexivity.
  Qed.

  Lemma third_field a b dt ur : good_dtype dt -> nth_error (split_underscore (name_of str_float true (a, b, dt, ur))) 2 = Some (str_float a).
  Proof.
    intros G. assert (E := name_of_fields str_float float_str F true a b dt ur G). unfold name_of in *. rewrite complete_name_eq in *.
    rewrite stem_h5 in E. rewrite split_h5, E. destruct dt, ur; reflexivity.
  Qed.

  Lemma periodogram_glob k c : glob "periodogram_*.h5" (name_of str_float k c) = true.
  Proof using.
    destruct c as [[[a b] dt] ur]. change "periodogram_*.h5" with ("periodogram_" ++ String "*" ".h5").
    apply glob_lit; [reflexivity|]. unfold name_of. rewrite complete_name_eq. unfold base.
    destruct k.
    - change "periodogram_temporal_" with ("periodogram_" ++ "temporal_"). rewrite !append_assoc'. eexists. split; [reflexivity|].
      apply glob_star. rewrite <- !append_assoc'. do 2 eexists. split; [reflexivity|reflexivity].
    - rewrite !append_assoc'. eexists. split; [reflexivity|].
      apply glob_star. rewrite <- !append_assoc'. do 2 eexists. split; [reflexivity|reflexivity].
  Qed.

  Lemma filter_all files : wf str_float files -> filter (glob "periodogram_*.h5") files = files.
  Proof using.
    induction files as [|x l IH]; intros W; [reflexivity|]. cbn [filter]. destruct (W x (or_introl eq_refl)) as (k & c & _ & ->).
    rewrite periodogram_glob, IH; [reflexivity|]. intros n Hn. apply W. right. exact Hn.
  Qed.
End Sorted.

(** as soon as temporal spectra are saved, tmin is the one of some saved temporal spectra, and plot_temporal_spectra works
    without tmin *)
Theorem c229_default_tmin_partial : forall str_float float_str (d : disk) c, formats str_float float_str -> before_temporal str_float ->
  wf str_float (map fst d) -> In (name_of str_float true c) (map fst d) ->
  exists a b dt ur x, In (name_of str_float true (a, b, dt, ur)) (map fst d) /\ a == x
  /\ default_tmin float_str (map fst d) None = Ok (Some x)
  /\ forall nb3 tmax dt', good_dtype dt' ->
     exists o d', plot_temporal str_float float_str nb3 d None tmax dt' = Ok (o, d')
     /\ plot_temporal str_float float_str nb3 d (Some x) tmax dt' = Ok (o, d').
Proof.
  intros str_float float_str d c F B W I.
  destruct (last_sorted_temporal str_float B (map fst d) c W I) as (c' & G' & E & I').
  destruct c' as [[[a b] dt] ur]. destruct F as (F1 & F'). destruct (F1 a) as (x & Fx & Ex).
  assert (F : formats str_float float_str) by (split; assumption).
  assert (D : default_tmin float_str (map fst d) None = Ok (Some x)).
  { unfold default_tmin. rewrite (filter_all str_float (map fst d) W), E, (third_field str_float float_str F a b dt ur G'), Fx. reflexivity. }
  exists a, b, dt, ur, x. split; [exact I'|]. split; [exact Ex|]. split; [exact D|].
  intros nb3 tmax dt' Gd. unfold plot_temporal. rewrite D.
  destruct (get_path_in str_float float_str F true (map fst d) x tmax dt' nb3 Gd W) as (path & P & _). rewrite P.
  unfold is_file, load_temporal, save_temporal. rewrite P. destruct (read d path) as [c'|]; do 2 eexists; split; reflexivity.
Qed.

(** nothing saved: plot_temporal_spectra() is a TypeError, although plot_temporal_spectra(tmin=0) computes the spectra *)
Theorem c229_nothing_saved_refuted : exists str_float float_str nb3 tmax dt, formats str_float float_str
  /\ plot_temporal str_float float_str nb3 [] None tmax dt = TypeError
  /\ exists o d', plot_temporal str_float float_str nb3 [] (Some 0) tmax dt = Ok (o, d').
Proof.
  exists str_ex, float_ex, true, 1, None. split; [exact formats_ex|]. split; [vm_compute; reflexivity|].
  do 2 eexists. vm_compute. reflexivity.
Qed.

(** the last tmin is the last one in the order of the characters: 9.0 is after 10.0 *)
Theorem c229_last_refuted : exists files, forall float_str, float_str "9.0" = Some 9 -> float_str "10.0" = Some 10 ->
  In "periodogram_temporal_10.0_20.0.h5" files /\ default_tmin float_str files None = Ok (Some 9).
Proof.
  exists ["periodogram_temporal_10.0_20.0.h5"; "periodogram_temporal_9.0_20.0.h5"]. intros fs E _. split; [left; reflexivity|].
  unfold default_tmin. cbn -[split_underscore]. cbn. rewrite E. reflexivity.
Qed.

Example c229_example : before_temporal str_ex /\ wf str_ex [name_of str_ex true (0, 1, None, true)]
  /\ default_tmax [(1%nat, (0, [0; 3])); (0%nat, (2, [2; 3])); (0%nat, (0, [0; 1]))] [7] 10 = Ok 3
  /\ default_tmax [] [2; 5; 3] 10 = Ok 5 /\ default_tmax [] [] 10 = Ok 10.
Proof.
  split; [|split; [|split; [reflexivity|split; reflexivity]]].
  - intros x. unfold str_ex. destruct (_ <? _)%Z; cbn [append]; eexists; eexists; (split; [reflexivity|]); reflexivity.
  - intros n [<-|[]]. exists true, (0, 1, None, true). split; [exact I|reflexivity].
Qed.

Print Assumptions c228_get_spectra_partial.
Print Assumptions c228_two_dim.
Print Assumptions c228_recomputed_refuted.
Print Assumptions c229_default_tmax.
Print Assumptions c229_default_tmax_saved.
Print Assumptions c229_default_tmin_partial.
Print Assumptions c229_nothing_saved_refuted.
Print Assumptions c229_last_refuted.
