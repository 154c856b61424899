(** C145: the horizontal means; C146: their time average. *)
From Coq Require Import String Reals List Bool Lia Lra Arith.
From Verif Require Import HMeans_Model.
Import ListNotations.
Local Open Scope R_scope.

(** ** Specification *)

(** horizontal mean of a field of the whole grid *)
Definition hm (ny nx : nat) (f : arr3) (iz : nat) : R := sumn ny (fun iy => sumn nx (fun ix => f iz iy ix)) / (INR ny * INR nx).
(** covariance *)
Definition cov (ny nx : nat) (f g : arr3) (iz : nat) : R :=
  hm ny nx (fun z y x => f z y x * g z y x) iz - hm ny nx f iz * hm ny nx g iz.

(** process, first index in y, first index in x *)
Definition part : Type := hproc * nat * nat.
Definition holds (p : part) (iz iy ix : nat) : bool :=
  let '(h, y0, x0) := p in
  ((iz_start h <=? iz) && (iz <? iz_start h + nz_local h) && ((y0 <=? iy) && (iy <? y0 + ny_local h)) && ((x0 <=? ix) && (ix <? x0 + nx_local h)))%nat.
(** each point of the grid is in one process *)
Definition distributed (nz ny nx : nat) (parts : list part) : Prop :=
  (forall h y0 x0, In (h, y0, x0) parts -> (y0 + ny_local h <= ny /\ x0 + nx_local h <= nx)%nat)
  /\ forall iz iy ix, (iz < nz)%nat -> (iy < ny)%nat -> (ix < nx)%nat -> length (filter (fun p => holds p iz iy ix) parts) = 1%nat.
(** the array of a process *)
Definition local (f : arr3) (p : part) : arr3 := let '(h, y0, x0) := p in fun iz iy ix => f (iz_start h + iz)%nat (y0 + iy)%nat (x0 + ix)%nat.
Definition proc (p : part) : hproc := fst (fst p).

(** ** Sums *)

Lemma sumn_ext n f g : (forall i, (i < n)%nat -> f i = g i) -> sumn n f = sumn n g.
Proof. induction n as [|n IH]; intros H; [reflexivity|]. cbn. rewrite IH by (intros; apply H; lia). now rewrite H by lia. Qed.
Lemma sumn_plus n f g : sumn n (fun i => f i + g i) = sumn n f + sumn n g.
Proof. induction n as [|n IH]; cbn; [lra|]. rewrite IH. ring. Qed.
Lemma sumn_scal n c f : sumn n (fun i => c * f i) = c * sumn n f.
Proof. induction n as [|n IH]; cbn; [lra|]. rewrite IH. ring. Qed.
Lemma sumn_zero n : sumn n (fun _ => 0) = 0.
Proof. induction n as [|n IH]; cbn; [reflexivity|]. rewrite IH. ring. Qed.
Lemma sumn_const n c : sumn n (fun _ => c) = INR n * c.
Proof. induction n as [|n IH]; [cbn; ring|]. cbn [sumn]. rewrite IH, S_INR. ring. Qed.

Lemma sumn_add a m g : sumn (a + m) g = sumn a g + sumn m (fun i => g (a + i)%nat).
Proof. induction m as [|m IH]; [cbn; rewrite Nat.add_0_r; ring|]. rewrite Nat.add_succ_r. cbn [sumn]. rewrite IH. ring. Qed.

Lemma sumn_window n a m g : (a + m <= n)%nat ->
  sumn m (fun i => g (a + i)%nat) = sumn n (fun i => if ((a <=? i) && (i <? a + m))%nat then g i else 0).
Proof.
  intros H. replace n with ((a + m) + (n - a - m))%nat by lia. rewrite sumn_add.
  rewrite (sumn_ext (n - a - m) _ (fun _ => 0)), sumn_zero, Rplus_0_r.
  - rewrite sumn_add. rewrite (sumn_ext a _ (fun _ => 0)), sumn_zero, Rplus_0_l.
    + apply sumn_ext. intros i Hi. destruct (Nat.leb_spec a (a + i)), (Nat.ltb_spec (a + i) (a + m)); try lia. reflexivity.
    + intros i Hi. destruct (Nat.leb_spec a i); try lia. reflexivity.
  - intros i Hi. destruct (Nat.ltb_spec (a + m + i) (a + m)); try lia. rewrite andb_false_r. reflexivity.
Qed.

Fixpoint suml {A : Type} (l : list A) (f : A -> R) : R := match l with [] => 0 | a :: r => f a + suml r f end.
Lemma suml_ext {A} (l : list A) f g : (forall a, In a l -> f a = g a) -> suml l f = suml l g.
Proof. induction l as [|a l IH]; intros H; [reflexivity|]. cbn. rewrite IH by (intros; apply H; right; assumption). now rewrite H by (left; reflexivity). Qed.
Lemma suml_sumn {A} (l : list A) n (f : A -> nat -> R) : suml l (fun a => sumn n (f a)) = sumn n (fun i => suml l (fun a => f a i)).
Proof. induction l as [|a l IH]; cbn; [now rewrite sumn_zero|]. now rewrite IH, sumn_plus. Qed.
Lemma suml_filter {A} (l : list A) (b : A -> bool) c : suml l (fun a => if b a then c else 0) = INR (length (filter b l)) * c.
Proof.
  induction l as [|a l IH]; [cbn; ring|]. cbn [suml filter]. rewrite IH. destruct (b a); [|ring]. cbn [length]. rewrite S_INR. ring.
Qed.

(** ** The profile gathered by the process 0 *)

Lemma fold_slices (l : list (hproc * arr3)) : forall acc iz,
  fold_left (fun acc pa => add_slice acc (iz_start (fst pa)) (nz_local (fst pa)) (sum_local (fst pa) (snd pa))) l acc iz
  = acc iz + suml l (fun pa => if ((iz_start (fst pa) <=? iz) && (iz <? iz_start (fst pa) + nz_local (fst pa)))%nat
                               then sum_local (fst pa) (snd pa) (iz - iz_start (fst pa)) else 0).
Proof.
  induction l as [|pa l IH]; intros acc iz; [cbn; ring|]. cbn [fold_left suml]. rewrite IH. unfold add_slice at 1.
  destruct (_ && _)%bool; ring.
Qed.

Lemma combine_parts (f : arr3) (parts : list part) : combine (map proc parts) (map (local f) parts) = map (fun p => (proc p, local f p)) parts.
Proof. induction parts as [|p l IH]; [reflexivity|]. cbn. now rewrite IH. Qed.

Lemma suml_map {A B} (h : A -> B) (l : list A) f : suml (map h l) f = suml l (fun a => f (h a)).
Proof. induction l as [|a l IH]; [reflexivity|]. cbn. now rewrite IH. Qed.

Lemma slice_part (f : arr3) ny nx (p : part) iz :
  (snd (fst p) + ny_local (proc p) <= ny)%nat -> (snd p + nx_local (proc p) <= nx)%nat ->
  (if ((iz_start (proc p) <=? iz) && (iz <? iz_start (proc p) + nz_local (proc p)))%nat
   then sum_local (proc p) (local f p) (iz - iz_start (proc p)) else 0)
  = sumn ny (fun iy => sumn nx (fun ix => if holds p iz iy ix then f iz iy ix else 0)).
Proof.
  destruct p as [[h y0] x0]. unfold proc. cbn [fst snd]. intros Hy Hx.
  destruct ((iz_start h <=? iz) && (iz <? iz_start h + nz_local h))%nat eqn:Z.
  - unfold sum_local. cbn [local].
    apply andb_prop in Z as [Z1 Z2]. apply Nat.leb_le in Z1. apply Nat.ltb_lt in Z2.
    replace (iz_start h + (iz - iz_start h))%nat with iz by lia.
    rewrite (sumn_window ny y0 (ny_local h) (fun iy => sumn (nx_local h) (fun ix => f iz iy (x0 + ix)%nat)) Hy).
    apply sumn_ext. intros iy _. cbn [holds].
    replace (iz_start h <=? iz)%nat with true by (symmetry; apply Nat.leb_le; exact Z1).
    replace (iz <? iz_start h + nz_local h)%nat with true by (symmetry; apply Nat.ltb_lt; exact Z2). cbn [andb].
    destruct ((y0 <=? iy) && (iy <? y0 + ny_local h))%nat; cbn [andb]; [|now rewrite sumn_zero].
    rewrite (sumn_window nx x0 (nx_local h) (fun ix => f iz iy ix) Hx). reflexivity.
  - symmetry. rewrite (sumn_ext ny _ (fun _ => 0)); [apply sumn_zero|]. intros iy _.
    rewrite (sumn_ext nx _ (fun _ => 0)); [apply sumn_zero|]. intros ix _. cbn [holds]. rewrite Z. reflexivity.
Qed.

Lemma hmean_parallel nz ny nx (f : arr3) (parts : list part) iz : distributed nz ny nx parts -> (iz < nz)%nat ->
  fold_left (fun acc pa => add_slice acc (iz_start (fst pa)) (nz_local (fst pa)) (sum_local (fst pa) (snd pa)))
    (combine (map proc parts) (map (local f) parts)) (fun _ => 0) iz / INR (nx * ny) = hm ny nx f iz.
Proof.
  intros [D1 D2] Hz. unfold hm. rewrite mult_INR, (Rmult_comm (INR nx)). unfold Rdiv. f_equal.
  rewrite fold_slices, Rplus_0_l, combine_parts, suml_map. cbn [fst snd].
  rewrite (suml_ext parts _ (fun p => sumn ny (fun iy => sumn nx (fun ix => if holds p iz iy ix then f iz iy ix else 0)))).
  2:{ intros p Hp. apply slice_part; destruct p as [[h y0] x0]; unfold proc; cbn [fst snd]; apply (D1 h y0 x0 Hp). }
  rewrite suml_sumn. apply sumn_ext. intros iy Hy. rewrite suml_sumn. apply sumn_ext. intros ix Hx.
  rewrite suml_filter, (D2 iz iy ix Hz Hy Hx). cbn. ring.
Qed.

Lemma hmean_correct nz ny nx (f : arr3) (parts : list part) iz : (0 < nz)%nat -> (0 < ny)%nat -> (0 < nx)%nat ->
  distributed nz ny nx parts -> (iz < nz)%nat ->
  compute_hmean (INR (nx * ny)) (map proc parts) (map (local f) parts) iz = hm ny nx f iz.
Proof.
  intros Nz Ny Nx D Hz. unfold compute_hmean. pose proof (hmean_parallel nz ny nx f parts iz D Hz) as P.
  destruct parts as [|p [|q parts]]; [exact P| |exact P].
  cbn [map]. destruct p as [[h y0] x0]. destruct D as [D1 D2]. destruct (D1 h y0 x0 (or_introl eq_refl)) as [B1 B2].
  assert (H : forall z y x, (z < nz)%nat -> (y < ny)%nat -> (x < nx)%nat -> holds (h, y0, x0) z y x = true).
  { intros z y x A1 A2 A3. specialize (D2 z y x A1 A2 A3). cbn [filter] in D2. destruct (holds _ z y x); [reflexivity|discriminate]. }
  assert (T : forall z y x, holds (h, y0, x0) z y x = true ->
    (iz_start h <= z < iz_start h + nz_local h /\ y0 <= y < y0 + ny_local h /\ x0 <= x < x0 + nx_local h)%nat).
  { intros z y x E. cbn [holds] in E. repeat (apply andb_prop in E as [E ?]).
    repeat match goal with Hh : (_ && _)%bool = true |- _ => apply andb_prop in Hh as [? ?] end.
    rewrite !Nat.leb_le, !Nat.ltb_lt in *. lia. }
  pose proof (T _ _ _ (H O O O Nz Ny Nx)) as T0.
  pose proof (T _ _ _ (H (nz - 1)%nat (ny - 1)%nat (nx - 1)%nat ltac:(lia) ltac:(lia) ltac:(lia))) as T1.
  unfold hm, sum_local, proc. cbn [fst local].
  assert (y0 = O) by lia. assert (x0 = O) by lia. assert (ny_local h = ny) by lia. assert (nx_local h = nx) by lia. assert (iz_start h = O) by lia.
  subst y0 x0. replace (ny_local h) with ny by lia. replace (nx_local h) with nx by lia. replace (iz_start h) with O by lia. reflexivity.
Qed.

(** ** Fluctuations *)

Lemma sub_local (f : arr3) (m : nat -> R) (parts : list part) :
  map2 (fun p a => minus3 a (hmean_to_3d_local p m)) (map proc parts) (map (local f) parts)
  = map (local (fun z y x => f z y x - m z)) parts.
Proof.
  induction parts as [|[[h y0] x0] parts IH]; [reflexivity|]. cbn. rewrite IH. reflexivity.
Qed.

Lemma times_local (f g : arr3) (parts : list part) :
  map2 times3 (map (local f) parts) (map (local g) parts) = map (local (fun z y x => f z y x * g z y x)) parts.
Proof. induction parts as [|[[h y0] x0] parts IH]; [reflexivity|]. cbn. rewrite IH. reflexivity. Qed.

Lemma hm_cov ny nx (f g : arr3) iz (m m' : nat -> R) : (0 < ny)%nat -> (0 < nx)%nat -> m iz = hm ny nx f iz -> m' iz = hm ny nx g iz ->
  hm ny nx (fun z y x => (f z y x - m z) * (g z y x - m' z)) iz = cov ny nx f g iz.
Proof.
  intros Ny Nx E E'. unfold cov. unfold hm at 1.
  rewrite (sumn_ext ny _ (fun iy => sumn nx (fun ix => f iz iy ix * g iz iy ix) + (- m' iz) * sumn nx (fun ix => f iz iy ix)
    + ((- m iz) * sumn nx (fun ix => g iz iy ix) + INR nx * (m iz * m' iz)))).
  2:{ intros iy _. rewrite <- !sumn_scal, <- sumn_const, <- !sumn_plus. apply sumn_ext. intros ix _. ring. }
  rewrite !sumn_plus, !sumn_scal, sumn_const, E, E'. unfold hm.
  assert (A : INR ny <> 0) by (apply not_0_INR; lia). assert (B : INR nx <> 0) by (apply not_0_INR; lia). field. auto.
Qed.

(** ** C145 *)

(** the nine profiles, for any distribution of the grid between the processes *)
Theorem c145_profiles : forall (nz ny nx : nat) (parts : list part) (vx vy vz : arr3), (0 < nz)%nat -> (0 < ny)%nat -> (0 < nx)%nat ->
  distributed nz ny nx parts ->
  Forall2 (fun p q => fst p = fst q /\ forall iz, (iz < nz)%nat -> snd p iz = snd q iz)
    (compute (INR (nx * ny)) (map proc parts) (map (local vx) parts) (map (local vy) parts) (map (local vz) parts))
    [("vx"%string, hm ny nx vx); ("vy"%string, hm ny nx vy); ("vz"%string, hm ny nx vz);
     ("vxp_vxp"%string, cov ny nx vx vx); ("vyp_vyp"%string, cov ny nx vy vy); ("vzp_vzp"%string, cov ny nx vz vz);
     ("vyp_vxp"%string, cov ny nx vy vx); ("vzp_vxp"%string, cov ny nx vz vx); ("vzp_vyp"%string, cov ny nx vz vy)].
Proof.
  intros nz ny nx parts vx vy vz Nz Ny Nx D. unfold compute. cbn zeta. rewrite !sub_local, !times_local.
  assert (M : forall f iz, (iz < nz)%nat -> compute_hmean (INR (nx * ny)) (map proc parts) (map (local f) parts) iz = hm ny nx f iz)
    by (intros f iz Hz; apply (hmean_correct nz); assumption).
  repeat (constructor; [split; [reflexivity|cbn [snd]; intros iz Hz]|]); try apply M; try assumption; try (rewrite M by assumption; apply hm_cov; try assumption; apply M; assumption).
  constructor.
Qed.

(** the variances are not negative and zero only for uniform layers *)
Lemma sumn_nonneg n f : (forall i, (i < n)%nat -> 0 <= f i) -> 0 <= sumn n f.
Proof. induction n as [|n IH]; intros H; cbn; [lra|]. pose proof (IH (fun i Hi => H i (Nat.lt_lt_succ_r _ _ Hi))). pose proof (H n ltac:(lia)). lra. Qed.
Lemma sumn_zero_terms n f : (forall i, (i < n)%nat -> 0 <= f i) -> sumn n f = 0 -> forall i, (i < n)%nat -> f i = 0.
Proof.
  induction n as [|n IH]; intros H E i Hi; [lia|]. cbn in E.
  pose proof (sumn_nonneg n f (fun i Hi => H i (Nat.lt_lt_succ_r _ _ Hi))). pose proof (H n ltac:(lia)).
  destruct (Nat.eq_dec i n) as [->|N]; [lra|]. apply IH; [intros; apply H; lia|lra|lia].
Qed.

Theorem c145_variance : forall (ny nx : nat) (f : arr3) (iz : nat), (0 < ny)%nat -> (0 < nx)%nat ->
  0 <= cov ny nx f f iz /\ (cov ny nx f f iz = 0 -> forall iy ix, (iy < ny)%nat -> (ix < nx)%nat -> f iz iy ix = hm ny nx f iz).
Proof.
  intros ny nx f iz Ny Nx. rewrite <- (hm_cov ny nx f f iz (hm ny nx f) (hm ny nx f) Ny Nx eq_refl eq_refl). unfold hm at 1 4.
  assert (A : 0 < INR ny) by (apply lt_0_INR; lia). assert (B : 0 < INR nx) by (apply lt_0_INR; lia).
  set (g := fun iy ix => (f iz iy ix - hm ny nx f iz) * (f iz iy ix - hm ny nx f iz)).
  change (fun iy => sumn nx (fun ix => (f iz iy ix - hm ny nx f iz) * (f iz iy ix - hm ny nx f iz))) with (fun iy => sumn nx (g iy)).
  assert (P : forall iy ix, 0 <= g iy ix) by (intros iy ix; unfold g; apply Rle_0_sqr).
  assert (S : forall iy, 0 <= sumn nx (g iy)) by (intros iy; apply sumn_nonneg; intros; apply P).
  assert (I : 0 < / (INR ny * INR nx)) by (apply Rinv_0_lt_compat, Rmult_lt_0_compat; assumption).
  split.
  - unfold Rdiv. apply Rmult_le_pos; [apply sumn_nonneg; intros; apply S|lra].
  - intros E iy ix Hy Hx. unfold Rdiv in E. apply Rmult_integral in E as [E|E]; [|lra].
    pose proof (sumn_zero_terms ny (fun iy => sumn nx (g iy)) (fun i _ => S i) E iy Hy) as E1. cbn beta in E1.
    pose proof (sumn_zero_terms nx (g iy) (fun i _ => P iy i) E1 ix Hx) as E2. unfold g in E2. apply Rmult_integral in E2. lra.
Qed.

(** two processes with 2 x 1 x 2 points each (pencils) *)
Example c145_example : distributed 2 2 2 [(mkHproc 0 2 1 2, 0%nat, 0%nat); (mkHproc 0 2 1 2, 1%nat, 0%nat)].
Proof.
  split.
  - intros h y0 x0 [E|[E|[]]]; injection E as <- <- <-; cbn; lia.
  - intros iz iy ix Hz Hy Hx. destruct iz as [|[|iz]], iy as [|[|iy]], ix as [|[|ix]]; try lia; reflexivity.
Qed.

(** ** C146: load *)

Lemma argmin_from_spec (l : list R) : forall ib best i, let j := argmin_from ib best i l in
  (j = ib /\ (forall k, (k < length l)%nat -> best <= nth k l 0))
  \/ (exists k, (k < length l)%nat /\ j = (i + k)%nat /\ nth k l 0 < best
      /\ (forall k', (k' < length l)%nat -> nth k l 0 <= nth k' l 0) /\ forall k', (k' < k)%nat -> nth k l 0 < nth k' l 0).
Proof.
  induction l as [|x l IH]; intros ib best i; cbn [argmin_from].
  - left. split; [reflexivity|]. intros k Hk. cbn in Hk. lia.
  - destruct (Rlt_dec x best) as [L|L].
    + right. destruct (IH i x (S i)) as [[E H]|(k & Hk & E & H1 & H2 & H3)].
      * exists O. rewrite E. cbn. split; [lia|]. split; [lia|]. split; [exact L|]. split.
        -- intros [|k'] Hk'; [lra|]. apply H. lia.
        -- intros k' Hk'. lia.
      * exists (S k). cbn. split; [lia|]. split; [rewrite E; lia|]. split; [lra|]. split.
        -- intros [|k'] Hk'; [lra|]. apply H2. lia.
        -- intros [|k'] Hk'; [exact H1|]. apply H3. lia.
    + apply Rnot_lt_le in L. destruct (IH ib best (S i)) as [[E H]|(k & Hk & E & H1 & H2 & H3)].
      * left. split; [exact E|]. intros [|k] Hk; [exact L|]. cbn in Hk |- *. apply H. lia.
      * right. exists (S k). cbn. split; [lia|]. split; [rewrite E; lia|]. split; [exact H1|]. split.
        -- intros [|k'] Hk'; [lra|]. apply H2. lia.
        -- intros [|k'] Hk'; [lra|]. apply H3. lia.
Qed.

Lemma argmin_spec (l : list R) : l <> [] -> let j := argmin l in
  (j < length l)%nat /\ (forall k, (k < length l)%nat -> nth j l 0 <= nth k l 0) /\ forall k, (k < j)%nat -> nth j l 0 < nth k l 0.
Proof.
  destruct l as [|x l]; [contradiction|]. intros _. cbn zeta. unfold argmin. destruct (argmin_from_spec l 0 x 1) as [[E H]|(k & Hk & E & H1 & H2 & H3)]; rewrite E.
  - split; [cbn; lia|]. split; [|intros k Hk; lia]. intros [|k] Hk; cbn; [lra|]. apply H. cbn in Hk. lia.
  - cbn [Nat.add length nth]. split; [lia|]. split.
    + intros [|k'] Hk'; [lra|]. apply H2. lia.
    + intros [|k'] Hk'; [exact H1|]. apply H3. lia.
Qed.

(** index of a saved time which is the nearest to t *)
Definition nearest (times : list R) (t : R) (i : nat) : Prop :=
  (i < length times)%nat /\ forall k, (k < length times)%nat -> Rabs (nth i times 0 - t) <= Rabs (nth k times 0 - t).

Lemma index_time_spec times t : times <> [] -> nearest times t (index_time times t)
  /\ forall k, (k < index_time times t)%nat -> Rabs (nth (index_time times t) times 0 - t) < Rabs (nth k times 0 - t).
Proof.
  intros N. unfold index_time, nearest. set (l := map (fun s => Rabs (s - t)) times).
  assert (Nl : l <> []) by (unfold l; destruct times; [contradiction|discriminate]).
  assert (Hn : forall k, (k < length times)%nat -> nth k l 0 = Rabs (nth k times 0 - t)).
  { intros k Hk. unfold l. rewrite (nth_indep _ 0 (Rabs (0 - t))) by (rewrite map_length; exact Hk). apply (map_nth (fun s => Rabs (s - t))). }
  assert (Hl : length l = length times) by apply map_length.
  destruct (argmin_spec l Nl) as (H1 & H2 & H3). rewrite Hl in H1, H2.
  split; [split; [exact H1|]|].
  - intros k Hk. rewrite <- !Hn by assumption. apply H2. exact Hk.
  - intros k Hk. rewrite <- !Hn by lia. apply H3. exact Hk.
Qed.

Definition increasing (times : list R) : Prop := forall i j, (i < j)%nat -> (j < length times)%nat -> nth i times 0 < nth j times 0.

Lemma nth_range {A} (l : list A) d : forall i n, (i + n <= length l)%nat -> firstn n (skipn i l) = map (fun k => nth k l d) (seq i n).
Proof.
  intros i n. revert l i. induction n as [|n IH]; intros l i H; [reflexivity|].
  assert (Hs : skipn i l = nth i l d :: skipn (S i) l).
  { clear IH. revert l H. induction i as [|i IH]; intros [|x l] H; cbn in H; try lia; [reflexivity|]. cbn [skipn nth]. apply IH. lia. }
  rewrite Hs. cbn [firstn seq map]. f_equal. apply IH. lia.
Qed.

(** the mean of the records between the saved times which are the nearest to tmin and to tmax, in this order *)
Theorem c146_load : forall (records : list (R * (nat -> R))) (tmin tmax : R), records <> [] -> increasing (map fst records) -> tmin <= tmax ->
  exists i j m, nearest (map fst records) tmin i /\ nearest (map fst records) tmax j /\ (i <= j)%nat
  /\ load_mean records (Some tmin) (Some tmax) = Some m
  /\ forall iz, m iz * INR (j + 1 - i) = sumn (j + 1 - i) (fun k => snd (nth (i + k)%nat records (0, fun _ => 0)) iz).
Proof.
  intros records tmin tmax N I T. set (times := map fst records) in *.
  assert (Nt : times <> []) by (unfold times; destruct records; [contradiction|discriminate]).
  destruct (index_time_spec times tmin Nt) as [A1 A2]. destruct (index_time_spec times tmax Nt) as [B1 B2].
  set (i := index_time times tmin) in *. set (j := index_time times tmax) in *.
  assert (O : (i <= j)%nat).
  { destruct (le_lt_dec i j) as [H|H]; [exact H|]. exfalso. specialize (A2 j H). destruct B1 as [Bj B1]. destruct A1 as [Ai A1]. specialize (B1 i Ai).
    specialize (I j i H Ai). set (x := nth i times 0) in *. set (y := nth j times 0) in *.
    unfold Rabs in A2, B1. repeat destruct (Rcase_abs _); lra. }
  assert (Lr : length times = length records) by apply map_length.
  exists i, j. destruct A1 as [Ai A1], B1 as [Bj B1]. unfold load_mean. fold times. fold i j.
  rewrite (nth_range records (0, fun _ => 0) i (j + 1 - i)) by lia.
  set (rows := map (fun k => nth k records (0, fun _ => 0)) (seq i (j + 1 - i))).
  assert (Lrows : length rows = (j + 1 - i)%nat) by (unfold rows; rewrite map_length, seq_length; reflexivity).
  assert (M : forall X : option (nat -> R), match rows with [] => None | _ :: _ => X end = X) by (intros X; destruct rows; [cbn in Lrows; lia|reflexivity]).
  rewrite M.
  eexists. split; [split; assumption|]. split; [split; assumption|]. split; [exact O|]. split; [reflexivity|].
  intros iz. rewrite Lrows. unfold Rdiv. rewrite Rmult_assoc, Rinv_l by (apply not_0_INR; lia). rewrite Rmult_1_r.
  unfold rows. rewrite map_map. clear. generalize (j + 1 - i)%nat. intros n. generalize i. clear i j times.
  assert (G : forall n i, sum_list (map (fun x => snd (nth x records (0, fun _ => 0)) iz) (seq i n)) = sumn n (fun k => snd (nth (i + k) records (0, fun _ => 0)) iz)).
  { clear n. induction n as [|n IH]; intros i; [reflexivity|]. rewrite seq_S, map_app. cbn [map sumn].
    unfold sum_list. rewrite fold_right_app. cbn [fold_right]. rewrite Rplus_0_r.
    assert (F : forall l a, fold_right Rplus a l = fold_right Rplus 0 l + a) by (induction l as [|x l IHl]; intros a; cbn; [lra|rewrite IHl; lra]).
    rewrite F. fold (sum_list (map (fun x => snd (nth x records (0, fun _ => 0)) iz) (seq i n))). rewrite IH. reflexivity. }
  intros i. apply G.
Qed.

(** without tmin and tmax: the mean of all the records *)
Theorem c146_all : forall (records : list (R * (nat -> R))), records <> [] ->
  exists m, load_mean records None None = Some m /\ forall iz, m iz = sum_list (map (fun r => snd r iz) records) / INR (length records).
Proof.
  intros records N. unfold load_mean. cbn [skipn]. rewrite Nat.sub_0_r.
  replace (length records - 1 + 1)%nat with (length records) by (destruct records; [contradiction|cbn; lia]). rewrite firstn_all.
  destruct records as [|r records]; [contradiction|]. eexists. split; [reflexivity|]. reflexivity.
Qed.

Example c146_example : let records := [(0, fun _ : nat => 1); (1, fun _ => 3)] in records <> [] /\ increasing (map fst records) /\ 0 <= 1.
Proof.
  cbn zeta. split; [discriminate|]. split; [|lra]. intros i j H L. cbn in L. destruct i as [|i], j as [|[|j]]; try lia. cbn. lra.
Qed.

Print Assumptions c145_profiles.
Print Assumptions c145_variance.
Print Assumptions c146_load.
Print Assumptions c146_all.
