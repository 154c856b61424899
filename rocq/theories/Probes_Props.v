(** C143: each probe is recorded once, at its position; C144: save_data_as_phys_fields. *)
From Coq Require Import QArith Qround Qabs ZArith List Bool Lia Lqa Permutation Sorted.
From Verif Require Import Probes_Model.
Import ListNotations.
Local Open Scope Z_scope.

(** ** Specification *)

Definition in_block (b : block) (g : Z) : Prop := fst b <= g < fst b + snd b.
Definition in_box (b : box) (g : Z * Z * Z) : Prop :=
  let '(bx, by_, bz) := b in let '(gx, gy, gz) := g in in_block bx gx /\ in_block by_ gy /\ in_block bz gz.
Definition in_grid (nx ny nz : Z) (g : Z * Z * Z) : Prop :=
  let '(gx, gy, gz) := g in 0 <= gx < nx /\ 0 <= gy < ny /\ 0 <= gz < nz.
(** each point of the grid is in the box of exactly one process *)
Definition distributed (nx ny nz : Z) (boxes : list box) : Prop :=
  (forall b g, In b boxes -> in_box b g -> in_grid nx ny nz g)
  /\ forall g, in_grid nx ny nz g ->
     exists p, (exists b, nth_error boxes p = Some b /\ in_box b g)
       /\ forall q b, nth_error boxes q = Some b -> in_box b g -> q = p.

(** the grid point at a position *)
Definition at_position (dx dy dz : Q) (g : Z * Z * Z) (x y z : Q) : Prop :=
  let '(gx, gy, gz) := g in (dx * inject_Z gx == x /\ dy * inject_Z gy == y /\ dz * inject_Z gz == z)%Q.

(** ** Rounding *)

Lemma Qfloor_spec x : (inject_Z (Qfloor x) <= x /\ x < inject_Z (Qfloor x) + 1)%Q.
Proof.
  split; [apply Qfloor_le|]. pose proof (Qlt_floor x) as H. rewrite inject_Z_plus in H. exact H.
Qed.

Lemma Zle_of_Q a b : (inject_Z a <= inject_Z b)%Q -> a <= b.
Proof. rewrite Zle_Qle. auto. Qed.
Lemma Zlt_of_Q a b : (inject_Z a < inject_Z b)%Q -> a < b.
Proof. rewrite Zlt_Qlt. auto. Qed.
Lemma inject_1 : (inject_Z 1 == 1)%Q. Proof. reflexivity. Qed.

Lemma Qfloor_inject x k : (x == inject_Z k)%Q -> Qfloor x = k.
Proof. intros ->. apply Qfloor_Z. Qed.

Lemma round_even_near x : (Qabs (inject_Z (round_even x) - x) <= 1 # 2)%Q.
Proof.
  destruct (Qfloor_spec x) as [A B]. unfold round_even. apply Qabs_Qle_condition.
  destruct (Qcompare_spec (x - inject_Z (Qfloor x)) (1 # 2)) as [E|E|E].
  - destruct (Z.even (Qfloor x)); [|rewrite inject_Z_plus, inject_1]; lra.
  - lra.
  - rewrite inject_Z_plus, inject_1. lra.
Qed.

Lemma round_even_inject x k : (x == inject_Z k)%Q -> round_even x = k.
Proof.
  intros E. unfold round_even. rewrite (Qfloor_inject x k E).
  destruct (Qcompare_spec (x - inject_Z k) (1 # 2)) as [H|H|H]; [exfalso; lra|reflexivity|exfalso; lra].
Qed.

Lemma int_of_inject x k : (x == inject_Z k)%Q -> 0 <= k -> int_of x = k.
Proof.
  intros E K. unfold int_of. destruct (Qle_bool 0 x) eqn:B; [apply Qfloor_inject; exact E|].
  exfalso. assert (H : (0 <= x)%Q) by (rewrite E; change 0%Q with (inject_Z 0); rewrite <- Zle_Qle; exact K).
  apply Qle_bool_iff in H. congruence.
Qed.

(** ** One direction *)

Section Direction.
  Variable dx delta xmin xmax : Q.
  Hypothesis Hdx : (0 < dx)%Q.

  Definition g0 : Z := round_even (xmin / dx).
  Definition gm : Z := Z.max 1 (round_even (delta / dx)).

  Lemma probes_delta_eq : (probes_delta dx delta == dx * inject_Z gm)%Q.
  Proof.
    unfold probes_delta, gm. set (m := round_even (delta / dx)).
    destruct (Qle_bool dx (dx * inject_Z m)) eqn:B.
    - apply Qle_bool_iff in B. rewrite Z.max_r; [reflexivity|].
      apply Zle_of_Q. rewrite inject_1. apply Qmult_le_l with (z := dx); [exact Hdx|]. lra.
    - rewrite Z.max_l; [rewrite inject_1; ring|].
      destruct (Z_lt_le_dec 1 m) as [H|H]; [|exact H]. exfalso.
      assert (C : (dx <= dx * inject_Z m)%Q).
      { rewrite <- (Qmult_1_r dx) at 1. apply Qmult_le_l; [exact Hdx|]. rewrite <- inject_1, <- Zle_Qle. lia. }
      apply Qle_bool_iff in C. congruence.
  Qed.

  Lemma gm_pos : 1 <= gm. Proof. unfold gm. lia. Qed.

  Definition number : nat := length (probes_seq dx delta xmin xmax).
  Definition position (i : nat) : Q := (dx * inject_Z g0 + inject_Z (Z.of_nat i) * probes_delta dx delta)%Q.

  Lemma probes_seq_eq : probes_seq dx delta xmin xmax = map position (seq 0 number).
  Proof. unfold number, probes_seq, arange. rewrite map_length, seq_length. reflexivity. Qed.

  Lemma position_grid i : (position i == dx * inject_Z (g0 + Z.of_nat i * gm))%Q.
  Proof. unfold position. rewrite probes_delta_eq, inject_Z_plus, inject_Z_mult. ring. Qed.

  Lemma grid_inj a b : (dx * inject_Z a == dx * inject_Z b)%Q -> a = b.
  Proof. intros E. apply Qmult_inj_l in E; [|lra]. apply inject_Z_injective. exact E. Qed.

  Lemma position_inj i j : (position i == position j)%Q -> i = j.
  Proof.
    rewrite !position_grid. intros E. apply grid_inj in E. pose proof gm_pos. nia.
  Qed.

  Lemma grid_le a b : (dx * inject_Z a <= dx * inject_Z b)%Q <-> a <= b.
  Proof. rewrite (Zle_Qle a b). apply Qmult_le_l. exact Hdx. Qed.

  Lemma probe_index_grid b x g : (x == dx * inject_Z g)%Q -> in_block b g -> fst b + probe_index dx b x = g.
  Proof.
    intros E [H1 H2]. unfold probe_index. rewrite (int_of_inject _ (g - fst b)); [lia| |lia].
    rewrite E. unfold X_min. unfold Z.sub. rewrite inject_Z_plus, inject_Z_opp. field. lra.
  Qed.

  Lemma loc_grid b x g : (x == dx * inject_Z g)%Q ->
    Qle_bool (X_min dx b) x && Qle_bool x (X_max dx b) = true <-> in_block b g.
  Proof.
    intros E. rewrite andb_true_iff, !Qle_bool_iff, E. unfold X_min, X_max. rewrite !grid_le. unfold in_block. lia.
  Qed.

  Definition gloc (b : block) : list Z := map (fun x => fst b + probe_index dx b x) (probes_loc dx b (probes_seq dx delta xmin xmax)).

  Lemma in_gloc b g : In g (gloc b) <-> in_block b g /\ exists i, (i < number)%nat /\ g = g0 + Z.of_nat i * gm.
  Proof.
    unfold gloc, probes_loc. rewrite probes_seq_eq. rewrite in_map_iff. split.
    - intros (x & <- & Hx). apply filter_In in Hx as [Hx Hf]. apply in_map_iff in Hx as (i & <- & Hi). apply in_seq in Hi.
      apply (loc_grid b _ _ (position_grid i)) in Hf. rewrite (probe_index_grid b _ _ (position_grid i) Hf).
      split; [exact Hf|]. exists i. split; [lia|reflexivity].
    - intros (Hb & i & Hi & ->). exists (position i). split; [apply (probe_index_grid b _ _ (position_grid i) Hb)|].
      apply filter_In. split; [apply in_map; apply in_seq; lia|]. apply (loc_grid b _ _ (position_grid i)). exact Hb.
  Qed.

  Lemma NoDup_map_on {A B} (f : A -> B) (l : list A) : (forall x y, In x l -> In y l -> f x = f y -> x = y) -> NoDup l -> NoDup (map f l).
  Proof.
    intros Inj N. induction N as [|x l Hx N IH]; [constructor|]. cbn. constructor.
    - intros H. apply in_map_iff in H as (y & E & Hy). apply Hx. rewrite (Inj x y); [exact Hy|left; reflexivity|right; exact Hy|auto].
    - apply IH. intros a b Ha Hb. apply Inj; right; assumption.
  Qed.

  Lemma NoDup_gloc b : NoDup (gloc b).
  Proof.
    unfold gloc, probes_loc. rewrite probes_seq_eq. apply NoDup_map_on.
    - intros x y Hx Hy E. apply filter_In in Hx as [Hx Fx]. apply filter_In in Hy as [Hy Fy].
      apply in_map_iff in Hx as (i & <- & _). apply in_map_iff in Hy as (j & <- & _).
      apply (loc_grid b _ _ (position_grid i)) in Fx. apply (loc_grid b _ _ (position_grid j)) in Fy.
      rewrite (probe_index_grid b _ _ (position_grid i) Fx), (probe_index_grid b _ _ (position_grid j) Fy) in E.
      f_equal. apply position_inj. rewrite !position_grid, E. reflexivity.
    - apply NoDup_filter. apply NoDup_map_on; [|apply seq_NoDup]. intros i j _ _ E. apply position_inj. rewrite E. reflexivity.
  Qed.
End Direction.

(** ** Products *)

Lemma NoDup_flat_map {A B} (f : A -> list B) (l : list A) : NoDup l -> (forall a, In a l -> NoDup (f a)) ->
  (forall a a' x, In a l -> In a' l -> In x (f a) -> In x (f a') -> a = a') -> NoDup (flat_map f l).
Proof.
  intros N. induction N as [|a l Ha N IH]; intros H D; [constructor|]. cbn.
  assert (App : forall l1 l2 : list B, NoDup l1 -> NoDup l2 -> (forall x, In x l1 -> ~ In x l2) -> NoDup (l1 ++ l2)).
  { intros l1 l2 N1 N2 Dj. induction N1 as [|x l1 Hx N1 IH1]; [exact N2|]. cbn. constructor.
    - intros Hi. apply in_app_or in Hi as [Hi|Hi]; [contradiction|]. apply (Dj x); [left; reflexivity|exact Hi].
    - apply IH1. intros y Hy. apply Dj. right. exact Hy. }
  apply App.
  - apply H. left. reflexivity.
  - apply IH; [intros b Hb; apply H; right; exact Hb|]. intros b b' x Hb Hb'. apply D; right; assumption.
  - intros x Hx Hi. apply in_flat_map in Hi as (b & Hb & Hi). apply Ha. rewrite (D a b x); [exact Hb|left; reflexivity|right; exact Hb|exact Hx|exact Hi].
Qed.

Section Product.
  Variables dx dy dz ax ay az x0 x1 y0 y1 z0 z1 : Q.
  Hypothesis Hx : (0 < dx)%Q.
  Hypothesis Hy : (0 < dy)%Q.
  Hypothesis Hz : (0 < dz)%Q.
  Let sx := probes_seq dx ax x0 x1.
  Let sy := probes_seq dy ay y0 y1.
  Let sz := probes_seq dz az z0 z1.

  Lemma records_eq bx by_ bz : records dx dy dz sx sy sz (bx, by_, bz)
    = flat_map (fun a => flat_map (fun b => map (fun c => (a, b, c)) (gloc dz az z0 z1 bz)) (gloc dy ay y0 y1 by_)) (gloc dx ax x0 x1 bx).
  Proof.
    unfold records, gloc. fold sx sy sz. rewrite !flat_map_concat_map, map_map. f_equal. apply map_ext. intros x.
    rewrite !flat_map_concat_map, map_map. f_equal. apply map_ext. intros y. rewrite map_map. reflexivity.
  Qed.

  Lemma in_records bx by_ bz gx gy gz : In (gx, gy, gz) (records dx dy dz sx sy sz (bx, by_, bz))
    <-> In gx (gloc dx ax x0 x1 bx) /\ In gy (gloc dy ay y0 y1 by_) /\ In gz (gloc dz az z0 z1 bz).
  Proof.
    rewrite records_eq, in_flat_map. split.
    - intros (a & Ha & H). apply in_flat_map in H as (b & Hb & H). apply in_map_iff in H as (c & E & Hc). injection E as -> -> ->. auto.
    - intros (Ha & Hb & Hc). exists gx. split; [exact Ha|]. apply in_flat_map. exists gy. split; [exact Hb|]. apply in_map_iff. exists gz. auto.
  Qed.

  Lemma NoDup_records b : NoDup (records dx dy dz sx sy sz b).
  Proof.
    destruct b as [[bx by_] bz]. rewrite records_eq. apply NoDup_flat_map.
    - apply NoDup_gloc. exact Hx.
    - intros a _. apply NoDup_flat_map.
      + apply NoDup_gloc. exact Hy.
      + intros b _. apply NoDup_map_on; [|apply NoDup_gloc; exact Hz]. intros c c' _ _ E. congruence.
      + intros b b' x _ _ H1 H2. apply in_map_iff in H1 as (c & <- & _). apply in_map_iff in H2 as (c' & E & _). congruence.
    - intros a a' x _ _ H1 H2. apply in_flat_map in H1 as (b & _ & H1). apply in_map_iff in H1 as (c & <- & _).
      apply in_flat_map in H2 as (b' & _ & H2). apply in_map_iff in H2 as (c' & E & _). congruence.
  Qed.
End Product.

Lemma mesh_pos L n : (0 < L)%Q -> 0 < n -> (0 < mesh L n)%Q.
Proof.
  intros HL Hn. unfold mesh. apply Qlt_shift_div_l; [change 0%Q with (inject_Z 0); rewrite <- Zlt_Qlt; exact Hn|lra].
Qed.

(** a probe in the domain is on a point of the grid *)
Lemma probe_point L n delta xmin xmax x : (0 < L)%Q -> 0 < n -> In x (probes_seq (mesh L n) delta xmin xmax) -> (0 <= x /\ x < L)%Q ->
  exists i, (i < number (mesh L n) delta xmin xmax)%nat
    /\ let g := g0 (mesh L n) xmin + Z.of_nat i * gm (mesh L n) delta in 0 <= g < n /\ (mesh L n * inject_Z g == x)%Q.
Proof.
  intros HL Hn Hi [H1 H2]. pose proof (mesh_pos L n HL Hn) as D. set (dx := mesh L n) in *.
  rewrite probes_seq_eq in Hi. apply in_map_iff in Hi as (i & <- & Hi). apply in_seq in Hi. exists i. split; [lia|].
  cbn zeta. rewrite (position_grid dx delta xmin D) in H1, H2 |- *. set (g := g0 dx xmin + Z.of_nat i * gm dx delta) in *.
  split; [|reflexivity].
  assert (EL : (L == dx * inject_Z n)%Q).
  { unfold dx, mesh. field. intros E. unfold Qeq in E. cbn in E. lia. }
  split.
  - apply (grid_le dx D 0 g). change (inject_Z 0) with 0%Q. rewrite Qmult_0_r. exact H1.
  - rewrite EL in H2. destruct (Z_lt_le_dec g n) as [H|H]; [exact H|]. apply (grid_le dx D n g) in H. exfalso. lra.
Qed.

(** ** C143 *)

(** the probes at positions of the domain are recorded once, at a point of the grid which is at the position; nothing else is recorded *)
Theorem c143_recorded_partial : forall (Lx Ly Lz : Q) (nx ny nz : Z) (boxes : list box) (ax ay az x0 x1 y0 y1 z0 z1 : Q),
  (0 < Lx)%Q -> (0 < Ly)%Q -> (0 < Lz)%Q -> 0 < nx -> 0 < ny -> 0 < nz -> distributed nx ny nz boxes ->
  let dx := mesh Lx nx in let dy := mesh Ly ny in let dz := mesh Lz nz in
  let sx := probes_seq dx ax x0 x1 in let sy := probes_seq dy ay y0 y1 in let sz := probes_seq dz az z0 z1 in
  (forall x y z, In x sx -> In y sy -> In z sz -> (0 <= x /\ x < Lx)%Q -> (0 <= y /\ y < Ly)%Q -> (0 <= z /\ z < Lz)%Q ->
     exists p i b g, nth_error boxes p = Some b /\ nth_error (records dx dy dz sx sy sz b) i = Some g /\ at_position dx dy dz g x y z
     /\ forall p' i' b' g', nth_error boxes p' = Some b' -> nth_error (records dx dy dz sx sy sz b') i' = Some g' -> at_position dx dy dz g' x y z ->
        p' = p /\ i' = i)
  /\ forall b g, In b boxes -> In g (records dx dy dz sx sy sz b) ->
     in_box b g /\ exists x y z, In x sx /\ In y sy /\ In z sz /\ at_position dx dy dz g x y z.
Proof.
  intros Lx Ly Lz nx ny nz boxes ax ay az x0 x1 y0 y1 z0 z1 HLx HLy HLz Hnx Hny Hnz [D1 D2] dx dy dz sx sy sz.
  pose proof (mesh_pos Lx nx HLx Hnx) as Dx. pose proof (mesh_pos Ly ny HLy Hny) as Dy. pose proof (mesh_pos Lz nz HLz Hnz) as Dz.
  fold dx in Dx. fold dy in Dy. fold dz in Dz.
  assert (Sec : forall b g, In g (records dx dy dz sx sy sz b) -> in_box b g /\ exists x y z, In x sx /\ In y sy /\ In z sz /\ at_position dx dy dz g x y z).
  { intros [[bx by_] bz] [[gx gy] gz] H. apply in_records in H. destruct H as (Hx & Hy & Hz).
    apply (in_gloc dx ax x0 x1 Dx) in Hx as (Bx & i & Hi & ->). apply (in_gloc dy ay y0 y1 Dy) in Hy as (By & j & Hj & ->).
    apply (in_gloc dz az z0 z1 Dz) in Hz as (Bz & k & Hk & ->). split; [cbn; auto|].
    exists (position dx ax x0 i), (position dy ay y0 j), (position dz az z0 k).
    unfold sx, sy, sz. rewrite !probes_seq_eq.
    split; [apply in_map, in_seq; lia|]. split; [apply in_map, in_seq; lia|]. split; [apply in_map, in_seq; lia|].
    cbn. rewrite (position_grid dx ax x0 Dx), (position_grid dy ay y0 Dy), (position_grid dz az z0 Dz). repeat split; reflexivity. }
  split; [|intros b g _; apply Sec].
  intros x y z Hx Hy Hz Rx Ry Rz.
  destruct (probe_point Lx nx ax x0 x1 x HLx Hnx Hx Rx) as (i & Hi & Gx & Ex).
  destruct (probe_point Ly ny ay y0 y1 y HLy Hny Hy Ry) as (j & Hj & Gy & Ey).
  destruct (probe_point Lz nz az z0 z1 z HLz Hnz Hz Rz) as (k & Hk & Gz & Ez).
  fold dx in Hi, Gx, Ex. fold dy in Hj, Gy, Ey. fold dz in Hk, Gz, Ez. cbn zeta in Gx, Ex, Gy, Ey, Gz, Ez.
  set (gx := g0 dx x0 + Z.of_nat i * gm dx ax) in *. set (gy := g0 dy y0 + Z.of_nat j * gm dy ay) in *. set (gz := g0 dz z0 + Z.of_nat k * gm dz az) in *.
  destruct (D2 (gx, gy, gz) (conj Gx (conj Gy Gz))) as (p & ([[bx by_] bz] & Hp & Hb) & Up).
  assert (In (gx, gy, gz) (records dx dy dz sx sy sz (bx, by_, bz))) as Hin.
  { destruct Hb as (B1 & B2 & B3). apply in_records. split; [|split].
    - apply in_gloc; [exact Dx|]. split; [exact B1|]. exists i. auto.
    - apply in_gloc; [exact Dy|]. split; [exact B2|]. exists j. auto.
    - apply in_gloc; [exact Dz|]. split; [exact B3|]. exists k. auto. }
  apply In_nth_error in Hin as (e & He). exists p, e, (bx, by_, bz), (gx, gy, gz).
  split; [exact Hp|]. split; [exact He|]. split; [cbn; auto|].
  intros p' i' b' [[gx' gy'] gz'] Hp' He' (Px & Py & Pz).
  rewrite <- Ex in Px. rewrite <- Ey in Py. rewrite <- Ez in Pz.
  apply (grid_inj dx Dx) in Px. apply (grid_inj dy Dy) in Py. apply (grid_inj dz Dz) in Pz. subst gx' gy' gz'.
  assert (p' = p).
  { apply (Up p' b' Hp'). apply (Sec b'). apply (nth_error_In _ _ He'). }
  split; [assumption|]. subst p'. rewrite Hp in Hp'. injection Hp' as <-.
  pose proof (NoDup_records dx dy dz ax ay az x0 x1 y0 y1 z0 z1 Dx Dy Dz (bx, by_, bz)) as ND.
  rewrite NoDup_nth_error in ND. apply ND.
  - apply nth_error_Some. unfold sx, sy, sz in He'. rewrite He'. discriminate.
  - unfold sx, sy, sz in He, He'. rewrite He, He'. reflexivity.
Qed.

(** the whole domain, 4 points, a probe each: the probe at x = Lx is recorded by no process *)
Theorem c143_boundary_refuted : exists (L delta : Q) (n : Z) (boxes : list box) (x : Q), (0 < L)%Q /\ 0 < n /\ distributed n 1 1 boxes
  /\ let dx := mesh L n in let d1 := mesh L 1 in let sx := probes_seq dx delta 0 L in let s1 := probes_seq d1 L 0 0 in
     In x sx /\ (x == L)%Q /\ forall b g, In b boxes -> In g (records dx d1 d1 sx s1 s1 b) -> ~ (dx * inject_Z (fst (fst g)) == x)%Q.
Proof.
  exists 1%Q, (1 # 4), 4, [((0, 4), (0, 1), (0, 1))], (nth 4 (probes_seq (mesh 1 4) (1 # 4) 0 1) 0%Q).
  split; [reflexivity|]. split; [reflexivity|]. split.
  { split.
    - intros b [[gx gy] gz] [<-|[]]. cbn. unfold in_block. cbn. lia.
    - intros [[gx gy] gz] G. cbn in G. exists O. split.
      + eexists. split; [reflexivity|]. cbn. unfold in_block. cbn. lia.
      + intros [|[|q]] b E _; [reflexivity|discriminate|discriminate]. }
  cbn zeta. split; [vm_compute; tauto|]. split; [reflexivity|].
  intros b g [<-|[]] H. vm_compute in H. repeat (destruct H as [<-|H]; [intros E; vm_compute in E; discriminate|]). destruct H.
Qed.

(** "make sure probes region is not empty": one wanted probe between two points of the grid *)
Theorem c143_empty_refuted : exists (dx delta x : Q), (0 < dx)%Q /\ (0 < x)%Q /\ probes_seq dx delta x x = [].
Proof. exists 1%Q, 1%Q, (3 # 4). split; [reflexivity|]. split; reflexivity. Qed.

Example c143_example : distributed 4 1 1 [((0, 2), (0, 1), (0, 1)); ((2, 2), (0, 1), (0, 1))]
  /\ In (nth 2 (probes_seq (mesh 1 4) (1 # 4) 0 1) 0%Q) (probes_seq (mesh 1 4) (1 # 4) 0 1).
Proof.
  split; [|vm_compute; tauto]. split.
  - intros b [[gx gy] gz] [<-|[<-|[]]]; cbn; unfold in_block; cbn; lia.
  - intros [[gx gy] gz] G. cbn in G. destruct (Z_lt_le_dec gx 2).
    + exists O. split.
      * eexists. split; [reflexivity|]. cbn. unfold in_block. cbn. lia.
      * intros [|[|[|q]]] b E; cbn in E; try discriminate; injection E as <-; cbn; unfold in_block; cbn; lia.
    + exists 1%nat. split.
      * eexists. split; [reflexivity|]. cbn. unfold in_block. cbn. lia.
      * intros [|[|[|q]]] b E; cbn in E; try discriminate; injection E as <-; cbn; unfold in_block; cbn; lia.
Qed.

(** ** C144: the files of the fields of the probes *)

Lemma Q_dec' (x y : Q) : {x = y} + {x <> y}.
Proof. decide equality; [apply Pos.eq_dec|apply Z.eq_dec]. Defined.

Section Save.
  Variable V : Type.

  Lemma last_in (l : list Q) (d : Q) : l <> [] -> In (last l d) l.
  Proof.
    induction l as [|a l IH]; [contradiction|]. intros _. destruct l as [|b l]; [left; reflexivity|]. right. apply IH. discriminate.
  Qed.

  Lemma sorted_app_lt (l1 l2 : list Q) : StronglySorted Qlt (l1 ++ l2) -> forall a b, In a l1 -> In b l2 -> (a < b)%Q.
  Proof.
    induction l1 as [|x l1 IH]; intros S a b Ha Hb; [destruct Ha|]. cbn in S. apply StronglySorted_inv in S as [S F].
    destruct Ha as [<-|Ha]; [|apply IH; assumption]. rewrite Forall_forall in F. apply F. apply in_or_app. right. exact Hb.
  Qed.

  Lemma sorted_app_l (l1 l2 : list Q) : StronglySorted Qlt (l1 ++ l2) -> StronglySorted Qlt l1 /\ StronglySorted Qlt l2.
  Proof.
    induction l1 as [|x l1 IH]; intros S; [split; [constructor|exact S]|]. cbn in S. apply StronglySorted_inv in S as [S F].
    destruct (IH S) as [S1 S2]. split; [|exact S2]. constructor; [exact S1|]. rewrite Forall_forall in F |- *. intros y Hy. apply F. apply in_or_app.
    left. exact Hy.
  Qed.

  Lemma sorted_last (l : list Q) d t : StronglySorted Qlt l -> In t l -> (t <= last l d)%Q.
  Proof.
    induction l as [|a l IH]; intros S Ht; [destruct Ht|]. apply StronglySorted_inv in S as [S F].
    destruct l as [|b l]; [destruct Ht as [<-|[]]; apply Qle_refl|]. change (last (a :: b :: l) d) with (last (b :: l) d).
    destruct Ht as [<-|Ht]; [|apply IH; assumption]. apply Qlt_le_weak. rewrite Forall_forall in F. apply F. apply last_in. discriminate.
  Qed.

  Lemma values_at_sorted (f : tfile V) t : StronglySorted Qlt (times_of V f) -> In t (times_of V f) ->
    exists vals, In (t, vals) f /\ values_at V t f = Some vals.
  Proof.
    unfold values_at. induction f as [|[t0 v0] f IH]; intros S Ht; [destruct Ht|].
    cbn [times_of map fst] in S, Ht. apply StronglySorted_inv in S as [S F]. rewrite Forall_forall in F.
    cbn [filter fst]. destruct Ht as [<-|Ht].
    - exists v0. split; [left; reflexivity|]. replace (Qeq_bool t0 t0) with true by (symmetry; apply Qeq_bool_iff; reflexivity).
      replace (filter (fun r => Qeq_bool (fst r) t0) f) with (@nil (Q * list V)); [reflexivity|]. symmetry.
      clear IH S. induction f as [|[t1 v1] f IH]; [reflexivity|]. cbn [filter fst]. destruct (Qeq_bool t1 t0) eqn:E.
      + apply Qeq_bool_iff in E. specialize (F t1 (or_introl eq_refl)). lra.
      + apply IH. intros x Hx. apply F. right. exact Hx.
    - destruct (IH S Ht) as (vals & H1 & H2). exists vals. split; [right; exact H1|].
      destruct (Qeq_bool t0 t) eqn:E; [|exact H2]. apply Qeq_bool_iff in E. specialize (F t Ht). lra.
  Qed.

  Lemma find_holds (files : list (tfile V)) t : StronglySorted Qlt (flat_map (times_of V) files) -> In t (flat_map (times_of V) files) ->
    exists f vals, find (holds V t) files = Some f /\ In f files /\ In (t, vals) f /\ values_at V t f = Some vals.
  Proof.
    induction files as [|f files IH]; intros S Ht; [destruct Ht|]. cbn [flat_map] in S, Ht.
    destruct (sorted_app_l _ _ S) as [S1 S2]. cbn [find].
    destruct (in_dec (fun x y => Q_dec' x y) t (times_of V f)) as [Hf|Hf].
    - destruct (values_at_sorted f t S1 Hf) as (vals & H1 & H2). exists f, vals.
      replace (holds V t f) with true; [split; [reflexivity|split; [left; reflexivity|split; assumption]]|]. symmetry.
      unfold holds. destruct f as [|[t0 v0] f]; [destruct Hf|]. apply andb_true_intro. rewrite !Qle_bool_iff. split.
      + cbn [times_of map fst] in S1, Hf. apply StronglySorted_inv in S1 as [_ F]. rewrite Forall_forall in F.
        destruct Hf as [<-|Hf]; [apply Qle_refl|apply Qlt_le_weak, F; exact Hf].
      + apply sorted_last; assumption.
    - apply in_app_or in Ht as [Ht|Ht]; [contradiction|]. destruct (IH S2 Ht) as (f' & vals & H1 & H2 & H3). exists f', vals.
      replace (holds V t f) with false; [split; [exact H1|split; [right; exact H2|exact H3]]|]. symmetry.
      unfold holds. destruct f as [|[t0 v0] f]; [reflexivity|]. apply andb_false_intro2.
      destruct (Qle_bool t (last (times_of V ((t0, v0) :: f)) t0)) eqn:E; [|reflexivity]. apply Qle_bool_iff in E. exfalso.
      assert (L : (last (times_of V ((t0, v0) :: f)) t0 < t)%Q) by (apply (sorted_app_lt _ _ S); [apply last_in; discriminate|exact Ht]).
      lra.
  Qed.

  Section Put.
    Variables dx dy dz : Q.
    Variables sx sy sz : Q * Q.

    (** the element of the arrays in which a grid point is put *)
    Definition key (g : Z * Z * Z) : Z * Z * Z :=
      let '(gx, gy, gz) := g in (probe_number dz sz gz, probe_number dy sy gy, probe_number dx sx gx).

    Definition put_all (f : Z * Z * Z -> V) (gs : list (Z * Z * Z)) (a : array3 V) : array3 V :=
      fold_left (fun a g => let '(iz, iy, ix) := key g in set3 V a iz iy ix (f g)) gs a.

    Lemma put_all_cons f g gs a : put_all f (g :: gs) a = put_all f gs (let '(iz, iy, ix) := key g in set3 V a iz iy ix (f g)).
    Proof. reflexivity. Qed.

    Lemma put_rank_all f recs a : put_rank V dx dy dz sx sy sz a recs (map f recs) = put_all f recs a.
    Proof.
      unfold put_rank, put_all. revert a. induction recs as [|[[gx gy] gz] recs IH]; intros a; [reflexivity|]. cbn. apply IH.
    Qed.

    Lemma set3_get (a : array3 V) iz iy ix v jz jy jx : set3 V a iz iy ix v jz jy jx = Some v \/ (jz, jy, jx) <> (iz, iy, ix) /\ set3 V a iz iy ix v jz jy jx = a jz jy jx.
    Proof.
      unfold set3. destruct (Z.eqb_spec jz iz), (Z.eqb_spec jy iy), (Z.eqb_spec jx ix); cbn; [left; reflexivity| | | | | | |]; right; split; congruence.
    Qed.

    Lemma put_all_none f gs : forall a iz iy ix, (forall g, In g gs -> key g <> (iz, iy, ix)) -> put_all f gs a iz iy ix = a iz iy ix.
    Proof.
      induction gs as [|g gs IH]; intros a iz iy ix H; [reflexivity|]. rewrite put_all_cons. destruct (key g) as [[kz ky] kx] eqn:E.
      rewrite IH by (intros g' Hg'; apply H; right; exact Hg').
      unfold set3. destruct (Z.eqb_spec iz kz), (Z.eqb_spec iy ky), (Z.eqb_spec ix kx); try reflexivity. exfalso.
      apply (H g (or_introl eq_refl)). congruence.
    Qed.

    Lemma put_all_some f gs v : forall a iz iy ix, (forall g, In g gs -> key g = (iz, iy, ix) -> f g = v) ->
      (a iz iy ix = Some v \/ exists g, In g gs /\ key g = (iz, iy, ix)) -> put_all f gs a iz iy ix = Some v.
    Proof.
      induction gs as [|g gs IH]; intros a iz iy ix H [Ha|(g' & Hg & Ek)]; [exact Ha|destruct Hg| |].
      - rewrite put_all_cons. destruct (key g) as [[kz ky] kx] eqn:E. apply IH; [intros g' Hg'; apply H; right; exact Hg'|]. left.
        unfold set3. destruct (Z.eqb_spec iz kz), (Z.eqb_spec iy ky), (Z.eqb_spec ix kx); try exact Ha. cbn. f_equal. apply H; [left; reflexivity|congruence].
      - rewrite put_all_cons. destruct (key g) as [[kz ky] kx] eqn:E. apply IH; [intros g'' Hg'; apply H; right; exact Hg'|].
        destruct Hg as [<-|Hg].
        + left. rewrite Ek in E. injection E as <- <- <-. unfold set3. rewrite !Z.eqb_refl. cbn. f_equal. apply H; [left; reflexivity|exact Ek].
        + right. exists g'. auto.
    Qed.

    Lemma fields_at_all (field : Q -> Z * Z * Z -> V) t ranks : forall a,
      (forall recs files, In (recs, files) ranks -> StronglySorted Qlt (flat_map (times_of V) files) /\ In t (flat_map (times_of V) files)
         /\ forall f t vals, In f files -> In (t, vals) f -> vals = map (field t) recs) ->
      fields_at V dx dy dz sx sy sz t a ranks = Some (put_all (field t) (flat_map fst ranks) a).
    Proof.
      induction ranks as [|[recs files] ranks IH]; intros a H; [reflexivity|]. cbn [fields_at flat_map fst].
      destruct (H recs files (or_introl eq_refl)) as (S & Ht & Hv). destruct (find_holds files t S Ht) as (f & vals & E1 & H1 & H2 & E2).
      rewrite E1, E2, (Hv f t vals H1 H2), put_rank_all, IH by (intros r fs Hr; apply H; right; exact Hr).
      unfold put_all. rewrite fold_left_app. reflexivity.
    Qed.
  End Put.

  Lemma read_write_file (d : list (Z * array3 V)) k a k' : read_file V (write_file V d k a) k' = if k =? k' then Some a else read_file V d k'.
  Proof.
    induction d as [|[m b] d IH]; [reflexivity|]. cbn [write_file]. destruct (Z.eqb_spec m k) as [->|N].
    - cbn [read_file]. destruct (k =? k'); reflexivity.
    - cbn [read_file]. rewrite IH. destruct (Z.eqb_spec m k') as [->|]; [|reflexivity]. destruct (Z.eqb_spec k k'); [congruence|reflexivity].
  Qed.

  (** names of the files *)
  Lemma name_field_inj t t' : (1 # 1000 < t' - t)%Q -> name_field t < name_field t'.
  Proof.
    intros H. unfold name_field. pose proof (round_even_near (1000 * t)) as A. pose proof (round_even_near (1000 * t')) as B.
    apply Qabs_Qle_condition in A, B. apply Zlt_of_Q. lra.
  Qed.

  Lemma save_times_spec dx dy dz sx sy sz (ranks : list (prank V)) (A : Q -> array3 V) : forall times d,
    (forall t, In t times -> fields_at V dx dy dz sx sy sz t (fun _ _ _ => None) ranks = Some (A t)) ->
    StronglySorted (fun t t' => 1 # 1000 < t' - t)%Q times ->
    exists d', save_times V dx dy dz sx sy sz ranks times d = Some d'
    /\ (forall t, In t times -> read_file V d' (name_field t) = Some (A t))
    /\ forall k, (forall t, In t times -> name_field t <> k) -> read_file V d' k = read_file V d k.
  Proof.
    induction times as [|t times IH]; intros d H S; [exists d; split; [reflexivity|split; [intros t []|reflexivity]]|].
    cbn [save_times]. rewrite (H t (or_introl eq_refl)). apply StronglySorted_inv in S as [S F]. rewrite Forall_forall in F.
    destruct (IH (write_file V d (name_field t) (A t)) (fun t' Ht' => H t' (or_intror Ht')) S) as (d' & E & H1 & H2).
    exists d'. split; [exact E|]. split.
    - intros t' [<-|Ht']; [|apply H1; exact Ht']. rewrite H2.
      + rewrite read_write_file, Z.eqb_refl. reflexivity.
      + intros t' Ht' E'. specialize (F t' Ht'). apply name_field_inj in F. lia.
    - intros k Hk. rewrite H2 by (intros t' Ht'; apply Hk; right; exact Ht'). rewrite read_write_file.
      destruct (Z.eqb_spec (name_field t) k) as [E'|]; [|reflexivity]. exfalso. apply (Hk t (or_introl eq_refl)). exact E'.
  Qed.
End Save.

(** what the processes have in their files: those with probes, the values of the fields at the records for the same times *)
Definition recorded {V : Type} (recs : list (list (Z * Z * Z))) (times : list Q) (field : Q -> Z * Z * Z -> V) (ranks : list (prank V)) : Prop :=
  map fst ranks = filter (fun l => negb (Nat.eqb (length l) 0)) recs
  /\ forall r files, In (r, files) ranks -> flat_map (times_of V) files = times
     /\ forall f t vals, In f files -> In (t, vals) f -> vals = map (field t) r.

Section Number.
  Variable dx delta xmin xmax : Q.
  Hypothesis Hdx : (0 < dx)%Q.

  Lemma spacing_seq a : spacing (probes_seq dx delta xmin xmax) = Some a ->
    (fst a == dx * inject_Z (g0 dx xmin) /\ snd a == dx * inject_Z (gm dx delta))%Q.
  Proof.
    rewrite probes_seq_eq. destruct (number dx delta xmin xmax) as [|[|n]]; [discriminate|discriminate|].
    cbn [seq map spacing]. intros E. injection E as <-. cbn [fst snd]. rewrite !(position_grid dx delta xmin Hdx).
    change (Z.of_nat 0) with 0. change (Z.of_nat 1) with 1. rewrite !Z.mul_0_l, Z.mul_1_l, Z.add_0_r, inject_Z_plus. split; ring.
  Qed.

  Lemma probe_number_seq a i : spacing (probes_seq dx delta xmin xmax) = Some a ->
    probe_number dx a (g0 dx xmin + Z.of_nat i * gm dx delta) = Z.of_nat i.
  Proof.
    intros S. destruct (spacing_seq a S) as [E1 E2]. unfold probe_number. apply round_even_inject. rewrite E1, E2, inject_Z_plus, inject_Z_mult.
    pose proof (gm_pos dx delta) as P. field. split; [|lra]. intros E. unfold Qeq in E. cbn in E. lia.
  Qed.

  Lemma nth_error_probes i x : nth_error (probes_seq dx delta xmin xmax) i = Some x ->
    (i < number dx delta xmin xmax)%nat /\ (x == dx * inject_Z (g0 dx xmin + Z.of_nat i * gm dx delta))%Q.
  Proof.
    rewrite probes_seq_eq. intros E. assert (L : (i < number dx delta xmin xmax)%nat).
    { assert (H : nth_error (map (position dx delta xmin) (seq 0 (number dx delta xmin xmax))) i <> None) by congruence.
      apply nth_error_Some in H. rewrite map_length, seq_length in H. exact H. }
    split; [exact L|]. rewrite (map_nth_error _ i (seq 0 _) (d := i)) in E.
    - injection E as <-. apply (position_grid dx delta xmin Hdx).
    - rewrite (nth_error_nth' _ O) by (rewrite seq_length; exact L). rewrite seq_nth by exact L. reflexivity.
  Qed.
End Number.

(** if the saved times differ by more than a millisecond and there are at least two probes in each direction, each time
    has its file, in which the element (k, j, i) is the value of the field at the probe number i, j, k, if it is in the domain *)
Theorem c144_files_partial : forall (V : Type) (Lx Ly Lz : Q) (nx ny nz : Z) (boxes : list box) (ax ay az x0 x1 y0 y1 z0 z1 : Q)
  (times : list Q) (field : Q -> Z * Z * Z -> V) (ranks : list (prank V)),
  (0 < Lx)%Q -> (0 < Ly)%Q -> (0 < Lz)%Q -> 0 < nx -> 0 < ny -> 0 < nz -> distributed nx ny nz boxes ->
  let dx := mesh Lx nx in let dy := mesh Ly ny in let dz := mesh Lz nz in
  let sx := probes_seq dx ax x0 x1 in let sy := probes_seq dy ay y0 y1 in let sz := probes_seq dz az z0 z1 in
  (2 <= length sx)%nat -> (2 <= length sy)%nat -> (2 <= length sz)%nat ->
  recorded (map (records dx dy dz sx sy sz) boxes) times field ranks -> ranks <> [] ->
  StronglySorted (fun t t' => 1 # 1000 < t' - t)%Q times -> (exists t, In t times /\ 0 < t)%Q ->
  exists d, save_data_as_phys_fields V dx dy dz sx sy sz ranks = Some d
  /\ forall t, In t times -> exists a, read_file V d (name_field t) = Some a
     /\ forall i j k x y z, nth_error sx i = Some x -> nth_error sy j = Some y -> nth_error sz k = Some z ->
        (0 <= x /\ x < Lx)%Q -> (0 <= y /\ y < Ly)%Q -> (0 <= z /\ z < Lz)%Q ->
        exists g, at_position dx dy dz g x y z /\ a (Z.of_nat k) (Z.of_nat j) (Z.of_nat i) = Some (field t g).
Proof.
  intros V Lx Ly Lz nx ny nz boxes ax ay az x0 x1 y0 y1 z0 z1 times field ranks HLx HLy HLz Hnx Hny Hnz Dist dx dy dz sx sy sz
    Nx Ny Nz [R1 R2] Rne ST (tp & Htp & Ptp).
  pose proof (c143_recorded_partial Lx Ly Lz nx ny nz boxes ax ay az x0 x1 y0 y1 z0 z1 HLx HLy HLz Hnx Hny Hnz Dist) as C. cbn zeta in C.
  fold dx dy dz in C. fold sx sy sz in C. destruct C as [C1 C2].
  pose proof (mesh_pos Lx nx HLx Hnx) as Dx. pose proof (mesh_pos Ly ny HLy Hny) as Dy. pose proof (mesh_pos Lz nz HLz Hnz) as Dz.
  fold dx in Dx. fold dy in Dy. fold dz in Dz.
  assert (SS : forall l : list Q, (2 <= length l)%nat -> exists s, spacing l = Some s).
  { intros [|u [|v l]] H; cbn in H; try lia. eexists. reflexivity. }
  destruct (SS sx Nx) as (px & Epx). destruct (SS sy Ny) as (py & Epy). destruct (SS sz Nz) as (pz & Epz).
  assert (Sorted1 : StronglySorted Qlt times).
  { clear - ST. induction ST as [|t l S IH F]; constructor; [exact IH|]. rewrite Forall_forall in F |- *. intros y Hy. specialize (F y Hy). cbn beta in F. lra. }
  unfold save_data_as_phys_fields. destruct ranks as [|[r0 f0] ranks']; [contradiction|]. set (ranks := (r0, f0) :: ranks') in *.
  assert (E0 : flat_map (times_of V) f0 = times) by (apply (R2 r0 f0); left; reflexivity).
  rewrite E0. replace (existsb (fun t => negb (Qle_bool t 0)) times) with true.
  2:{ symmetry. apply existsb_exists. exists tp. split; [exact Htp|]. destruct (Qle_bool tp 0) eqn:B; [|reflexivity]. apply Qle_bool_iff in B. lra. }
  rewrite Epx, Epy, Epz.
  destruct (save_times_spec V dx dy dz px py pz ranks (fun t => put_all V dx dy dz px py pz (field t) (flat_map fst ranks) (fun _ _ _ => None)) times [])
    as (d & Ed & Hd & _).
  { intros t Ht. apply fields_at_all. intros recs files Hr. destruct (R2 recs files Hr) as [T1 T2]. rewrite T1. auto. }
  { exact ST. }
  exists d. split; [exact Ed|]. intros t Ht. eexists. split; [apply Hd; exact Ht|].
  intros i j k x y z Hi Hj Hk Rx Ry Rz.
  destruct (C1 x y z) as (p & e & b & [[gx gy] gz] & Hp & He & (Px & Py & Pz) & _); try assumption; try (eapply nth_error_In; eassumption).
  exists (gx, gy, gz). split; [cbn; auto|].
  destruct (nth_error_probes dx ax x0 x1 Dx i x Hi) as [_ Ex]. destruct (nth_error_probes dy ay y0 y1 Dy j y Hj) as [_ Ey].
  destruct (nth_error_probes dz az z0 z1 Dz k z Hk) as [_ Ez].
  rewrite Ex in Px. rewrite Ey in Py. rewrite Ez in Pz. apply (grid_inj dx Dx) in Px. apply (grid_inj dy Dy) in Py. apply (grid_inj dz Dz) in Pz.
  assert (RC : flat_map fst ranks = concat (filter (fun l => negb (Nat.eqb (length l) 0)) (map (records dx dy dz sx sy sz) boxes))).
  { rewrite flat_map_concat_map. f_equal. exact R1. }
  assert (Hin : In (gx, gy, gz) (flat_map fst ranks)).
  { rewrite RC. apply in_concat.
    exists (records dx dy dz sx sy sz b). split; [|eapply nth_error_In; exact He]. apply filter_In. split; [apply in_map; eapply nth_error_In; exact Hp|].
    destruct (records dx dy dz sx sy sz b); [destruct e; discriminate|reflexivity]. }
  assert (Hrec : forall g, In g (flat_map fst ranks) -> exists i' j' k', g = (g0 dx x0 + Z.of_nat i' * gm dx ax, g0 dy y0 + Z.of_nat j' * gm dy ay, g0 dz z0 + Z.of_nat k' * gm dz az)).
  { intros [[hx hy] hz] Hg. rewrite RC in Hg. apply in_concat in Hg as (l & Hl & Hg). apply filter_In in Hl as [Hl _].
    apply in_map_iff in Hl as ([[bx by_] bz] & <- & _). apply in_records in Hg as (A1 & A2 & A3).
    apply (in_gloc dx ax x0 x1 Dx) in A1 as (_ & i' & _ & ->). apply (in_gloc dy ay y0 y1 Dy) in A2 as (_ & j' & _ & ->).
    apply (in_gloc dz az z0 z1 Dz) in A3 as (_ & k' & _ & ->). exists i', j', k'. reflexivity. }
  apply put_all_some.
  - intros g Hg Ek. destruct (Hrec g Hg) as (i' & j' & k' & ->). cbn [key] in Ek.
    rewrite (probe_number_seq dx ax x0 x1 Dx px i' Epx), (probe_number_seq dy ay y0 y1 Dy py j' Epy), (probe_number_seq dz az z0 z1 Dz pz k' Epz) in Ek.
    injection Ek as Ek Ej Ei. apply Nat2Z.inj in Ei, Ej, Ek. subst i' j' k'. rewrite Px, Py, Pz. reflexivity.
  - right. exists (gx, gy, gz). split; [exact Hin|]. cbn [key]. rewrite Px, Py, Pz.
    rewrite (probe_number_seq dx ax x0 x1 Dx px i Epx), (probe_number_seq dy ay y0 y1 Dy py j Epy), (probe_number_seq dz az z0 z1 Dz pz k Epz). reflexivity.
Qed.

(** two points and two probes in each direction, one process *)
Definition ex_seq : list Q := probes_seq (mesh 1 2) (1 # 2) 0 (1 # 2).
Definition ex_ranks (times : list Q) : list (prank Q) :=
  let r := records (mesh 1 2) (mesh 1 2) (mesh 1 2) ex_seq ex_seq ex_seq ((0, 2), (0, 2), (0, 2)) in
  [(r, [map (fun t => (t, map (fun _ => t) r)) times])].

(** two times at less than a millisecond: the file of the first one is overwritten *)
Theorem c144_times_refuted : exists (times : list Q) (d : list (Z * array3 Q)) (t t' : Q),
  recorded (map (records (mesh 1 2) (mesh 1 2) (mesh 1 2) ex_seq ex_seq ex_seq) [((0, 2), (0, 2), (0, 2))]) times (fun t _ => t) (ex_ranks times)
  /\ save_data_as_phys_fields Q (mesh 1 2) (mesh 1 2) (mesh 1 2) ex_seq ex_seq ex_seq (ex_ranks times) = Some d
  /\ times = [t; t'] /\ (t < t')%Q /\ exists a, read_file Q d (name_field t) = Some a /\ a 0 0 0 = Some t'.
Proof.
  exists [1 # 1; 10001 # 10000]. eexists. exists (1 # 1), (10001 # 10000). split; [|split; [vm_compute; reflexivity|]].
  - split; [reflexivity|]. intros r files [E|[]]. injection E as <- <-. split; [reflexivity|].
    intros f t vals [<-|[]] H. destruct H as [E|[E|[]]]; injection E as <- <-; reflexivity.
  - split; [reflexivity|]. split; [reflexivity|]. eexists. split; [vm_compute; reflexivity|]. reflexivity.
Qed.

(** the whole domain: the elements at x = Lx are not set *)
Theorem c144_boundary_refuted : exists (d : list (Z * array3 Q)) (a : array3 Q),
  let sx := probes_seq (mesh 1 2) (1 # 2) 0 1 in
  let r := records (mesh 1 2) (mesh 1 2) (mesh 1 2) sx ex_seq ex_seq ((0, 2), (0, 2), (0, 2)) in
  length sx = 3%nat
  /\ save_data_as_phys_fields Q (mesh 1 2) (mesh 1 2) (mesh 1 2) sx ex_seq ex_seq [(r, [[(1%Q, map (fun _ => 1%Q) r)]])] = Some d
  /\ read_file Q d (name_field 1) = Some a /\ a 0 0 1 = Some 1%Q /\ a 0 0 2 = None.
Proof. eexists. eexists. cbn zeta. split; [reflexivity|]. split; [vm_compute; reflexivity|]. split; [vm_compute; reflexivity|]. split; reflexivity. Qed.

(** one probe in a direction: IndexError *)
Theorem c144_one_probe : forall (V : Type) dx dy dz (lx ly lz : list Q) ranks, (length lx < 2 \/ length ly < 2 \/ length lz < 2)%nat ->
  save_data_as_phys_fields V dx dy dz lx ly lz ranks = None.
Proof.
  intros V dx dy dz lx ly lz ranks H. unfold save_data_as_phys_fields. destruct ranks as [|[r f] ranks]; [reflexivity|].
  destruct (existsb _ _); [|reflexivity].
  assert (S : forall l : list Q, (length l < 2)%nat -> spacing l = None) by (intros [|u [|v l]] L; cbn in L; [reflexivity|reflexivity|lia]).
  destruct H as [H|[H|H]]; rewrite (S _ H); [reflexivity|destruct (spacing lx); reflexivity|destruct (spacing lx), (spacing ly); reflexivity].
Qed.

Example c144_example : recorded (map (records (mesh 1 2) (mesh 1 2) (mesh 1 2) ex_seq ex_seq ex_seq) [((0, 2), (0, 2), (0, 2))]) [1 # 1; 2 # 1] (fun t _ => t) (ex_ranks [1 # 1; 2 # 1])
  /\ (2 <= length ex_seq)%nat /\ StronglySorted (fun t t' => 1 # 1000 < t' - t)%Q [1 # 1; 2 # 1].
Proof.
  split; [|split].
  - split; [reflexivity|]. intros r files [E|[]]. injection E as <- <-. split; [reflexivity|].
    intros f t vals [<-|[]] H. destruct H as [E|[E|[]]]; injection E as <- <-; reflexivity.
  - vm_compute. lia.
  - repeat constructor.
Qed.

Print Assumptions c143_recorded_partial.
Print Assumptions c143_boundary_refuted.
Print Assumptions c143_empty_refuted.
Print Assumptions c144_files_partial.
Print Assumptions c144_times_refuted.
Print Assumptions c144_boundary_refuted.
Print Assumptions c144_one_probe.
