(** C158: the means over regions; C159: the fluxes through their limits; C160: the records; C161: the pressure. *)
From Coq Require Import String ZArith Reals List Bool Lia Lra Arith.
From Coquelicot Require Import Complex.
From Verif Require Import HMeans_Model HMeans_Props MeanVals_Props Regions_Model.
Import ListNotations.
Local Open Scope R_scope.

(** ** Specification *)

(** a process with its first indices in z and y *)
Definition rpart : Type := nat * nat * proc.
Definition z0 (q : rpart) : nat := fst (fst q).
Definition y0 (q : rpart) : nat := snd (fst q).
Definition pr (q : rpart) : proc := snd q.
Definition x0 (q : rpart) : nat := ix_start (pr q).
Definition within (a n i : nat) : bool := ((a <=? i) && (i <? a + n))%nat.
Definition has (q : rpart) (iz iy ix : nat) : bool :=
  within (z0 q) (nz_loc (pr q)) iz && (within (y0 q) (ny_loc (pr q)) iy && within (x0 q) (nx_loc (pr q)) ix).
(** each point of the grid is in one process *)
Definition shared (nz ny nx : nat) (parts : list rpart) : Prop :=
  parts <> []
  /\ (forall q, In q parts -> (z0 q + nz_loc (pr q) <= nz /\ y0 q + ny_loc (pr q) <= ny /\ x0 q + nx_loc (pr q) <= nx)%nat)
  /\ forall iz iy ix, (iz < nz)%nat -> (iy < ny)%nat -> (ix < nx)%nat -> length (filter (fun q => has q iz iy ix) parts) = 1%nat.
(** the array of a process *)
Definition local_of (f : arr3) (q : rpart) : arr3 := fun iz iy ix => f (z0 q + iz)%nat (y0 q + iy)%nat (x0 q + ix)%nat.
(** mean over the planes from i to j (included), mean over a plane *)
Definition planes_mean (nz ny i j : nat) (f : arr3) : R :=
  sumn nz (fun iz => sumn ny (fun iy => sumn (j + 1 - i) (fun k => f iz iy (i + k)%nat))) / (INR nz * INR ny * INR (j + 1 - i)).
Definition plane_mean (nz ny ix : nat) (f : arr3) : R := sumn nz (fun iz => sumn ny (fun iy => f iz iy ix)) / (INR nz * INR ny).
(** nearest points of the grid to the limits of the region, given in units of Lx *)
Definition limits_of (Lx : R) (nx : nat) (xmin xmax : R) (i j : nat) : Prop :=
  nearest (x_seq Lx nx) (Lx * xmin) i /\ nearest (x_seq Lx nx) (Lx * xmax) j /\ (i <= j < nx)%nat.
(** the processes with their regions and their arrays *)
Definition all_procs {A : Type} (Lx : R) (nx : nat) (xmin xmax : R) (parts : list rpart) (a : rpart -> A) : list (lproc A) :=
  map (fun q => (pr q, make_info Lx nx (pr q) xmin xmax, a q)) parts.

(** ** Sums over the processes *)

Lemma allreduce_suml {A} (l : list A) f : allreduce l f = suml l f.
Proof. induction l as [|a l IH]; [reflexivity|]. cbn. unfold allreduce in IH. now rewrite IH. Qed.

Lemma sumn_if (b : bool) n f : sumn n (fun i => if b then f i else 0) = if b then sumn n f else 0.
Proof. destruct b; [reflexivity|apply sumn_zero]. Qed.

Lemma sum_part nz ny nx (q : rpart) (G : arr3) :
  (z0 q + nz_loc (pr q) <= nz /\ y0 q + ny_loc (pr q) <= ny /\ x0 q + nx_loc (pr q) <= nx)%nat ->
  sum3 (pr q) (fun iz iy ix => G (z0 q + iz)%nat (y0 q + iy)%nat (x0 q + ix)%nat)
  = sumn nz (fun iz => sumn ny (fun iy => sumn nx (fun ix => if has q iz iy ix then G iz iy ix else 0))).
Proof.
  intros (Hz & Hy & Hx). unfold sum3.
  rewrite (sumn_window nz (z0 q) (nz_loc (pr q)) (fun iz => sumn (ny_loc (pr q)) (fun iy => sumn (nx_loc (pr q)) (fun ix => G iz (y0 q + iy)%nat (x0 q + ix)%nat))) Hz).
  apply sumn_ext. intros iz _. unfold has. fold (within (z0 q) (nz_loc (pr q)) iz).
  destruct (within (z0 q) (nz_loc (pr q)) iz); cbn [andb].
  2:{ rewrite (sumn_ext ny _ (fun _ => 0)); [now rewrite sumn_zero|]. intros iy _. apply sumn_zero. }
  rewrite (sumn_window ny (y0 q) (ny_loc (pr q)) (fun iy => sumn (nx_loc (pr q)) (fun ix => G iz iy (x0 q + ix)%nat)) Hy).
  apply sumn_ext. intros iy _. fold (within (y0 q) (ny_loc (pr q)) iy).
  destruct (within (y0 q) (ny_loc (pr q)) iy); cbn [andb]; [|now rewrite sumn_zero].
  rewrite (sumn_window nx (x0 q) (nx_loc (pr q)) (fun ix => G iz iy ix) Hx). reflexivity.
Qed.

Lemma sum_parts nz ny nx parts (G : arr3) : shared nz ny nx parts ->
  suml parts (fun q => sum3 (pr q) (fun iz iy ix => G (z0 q + iz)%nat (y0 q + iy)%nat (x0 q + ix)%nat))
  = sumn nz (fun iz => sumn ny (fun iy => sumn nx (fun ix => G iz iy ix))).
Proof.
  intros (_ & D1 & D2). rewrite (suml_ext parts _ _ (fun q Hq => sum_part nz ny nx q G (D1 q Hq))).
  rewrite suml_sumn. apply sumn_ext. intros iz Hz. rewrite suml_sumn. apply sumn_ext. intros iy Hy.
  rewrite suml_sumn. apply sumn_ext. intros ix Hx. rewrite suml_filter, (D2 iz iy ix Hz Hy Hx). cbn. ring.
Qed.

Lemma sum3_ext p f g : (forall iz iy ix, (iz < nz_loc p)%nat -> (iy < ny_loc p)%nat -> (ix < nx_loc p)%nat -> f iz iy ix = g iz iy ix) -> sum3 p f = sum3 p g.
Proof. intros H. unfold sum3. apply sumn_ext. intros iz Hz. apply sumn_ext. intros iy Hy. apply sumn_ext. intros ix Hx. now apply H. Qed.

(** ** The limits *)

Lemma x_seq_length Lx nx : length (x_seq Lx nx) = nx.
Proof. unfold x_seq. now rewrite map_length, seq_length. Qed.
Lemma x_seq_nth Lx nx i : (i < nx)%nat -> nth i (x_seq Lx nx) 0 = Lx / INR nx * INR i.
Proof.
  intros H. unfold x_seq. rewrite (nth_indep _ 0 (Lx / INR nx * INR 0)) by (rewrite map_length, seq_length; exact H).
  rewrite (map_nth (fun i => Lx / INR nx * INR i)), seq_nth by exact H. reflexivity.
Qed.
Lemma x_seq_increasing Lx nx : 0 < Lx -> increasing (x_seq Lx nx).
Proof.
  intros L i j H J. rewrite x_seq_length in J. rewrite !x_seq_nth by lia.
  assert (0 < Lx / INR nx) by (apply Rdiv_lt_0_compat; [exact L|apply lt_0_INR; lia]).
  apply Rmult_lt_compat_l; [assumption|]. now apply lt_INR.
Qed.
Lemma limits_found Lx nx xmin xmax : 0 < Lx -> (0 < nx)%nat -> xmin <= xmax ->
  limits_of Lx nx xmin xmax (index_time (x_seq Lx nx) (Lx * xmin)) (index_time (x_seq Lx nx) (Lx * xmax)).
Proof.
  intros L N X. assert (Ne : x_seq Lx nx <> []) by (intros E; apply (f_equal (@length R)) in E; rewrite x_seq_length in E; cbn in E; lia).
  split; [apply index_time_spec; exact Ne|]. split; [apply index_time_spec; exact Ne|].
  split; [apply index_time_order; [exact Ne|now apply x_seq_increasing|now apply Rmult_le_compat_l; [lra|]]|].
  destruct (index_time_spec (x_seq Lx nx) (Lx * xmax) Ne) as [[H _] _]. now rewrite x_seq_length in H.
Qed.

(** ** C158 *)

Section Means.
Variables (Lx xmin xmax : R) (nz ny nx : nat) (parts : list rpart).
Hypotheses (HL : 0 < Lx) (Hz : (0 < nz)%nat) (Hy : (0 < ny)%nat) (Hx : (1 < nx)%nat) (HX : xmin <= xmax) (HS : shared nz ny nx parts).

Let i := index_time (x_seq Lx nx) (Lx * xmin).
Let j := index_time (x_seq Lx nx) (Lx * xmax).

Lemma mask_local q ix : (ix < nx_loc (pr q))%nat -> (x0 q <= j + 1)%nat -> (i < x0 q + nx_loc (pr q))%nat ->
  mask (pr q) (make_info Lx nx (pr q) xmin xmax) ix = if within i (j + 1 - i) (x0 q + ix)%nat then 1 else 0.
Proof.
  intros H1 H2 H3. unfold mask. destruct (limits_found Lx nx xmin xmax HL ltac:(lia) HX) as (_ & _ & IJ). fold i j in IJ.
  assert (E : in_slice (nx_loc (pr q)) (ixmin_loc (make_info Lx nx (pr q) xmin xmax)) (ixstop_loc (make_info Lx nx (pr q) xmin xmax)) ix
              = within i (j + 1 - i) (x0 q + ix)%nat); [|now rewrite E].
  unfold make_info. cbn [ixmin_loc ixstop_loc]. fold i j. fold (x0 q). unfold in_slice, in_process, within.
  clearbody i j. set (x := x0 q) in *. set (n := nx_loc (pr q)) in *. clearbody x n.
  destruct (Z.ltb_spec (Z.of_nat i - Z.of_nat x) 0), (Z.ltb_spec (Z.of_nat n - 1) (Z.of_nat i - Z.of_nat x)); cbn [orb]; try lia;
  destruct (Z.ltb_spec (Z.of_nat j - Z.of_nat x + 1) 0); try lia;
  match goal with |- ((?a <=? ?b) && (?c <? ?d))%Z = ((?e <=? ?f)%nat && (?g <? ?h)%nat) =>
    destruct (Z.leb_spec a b), (Z.ltb_spec c d), (Nat.leb_spec e f), (Nat.ltb_spec g h) end; cbn [andb]; try reflexivity; lia.
Qed.

Variable A : Type.
Variable a : rpart -> A.

(** each process has a plane of the region, or begins just after it *)
Definition touched : Prop := forall q, In q parts -> (x0 q <= j + 1)%nat /\ (i < x0 q + nx_loc (pr q))%nat.

Lemma masked_sum (field : A -> arr3) (F : arr3) : touched ->
  (forall q iz iy ix, In q parts -> field (a q) iz iy ix = local_of F q iz iy ix) ->
  allreduce (all_procs Lx nx xmin xmax parts a) (fun x => let '(p, r, a) := x in sum3 p (fun iz iy ix => mask p r ix * field a iz iy ix))
  = sumn nz (fun iz => sumn ny (fun iy => sumn (j + 1 - i) (fun k => F iz iy (i + k)%nat))).
Proof.
  intros T HF. unfold all_procs. rewrite allreduce_suml, suml_map.
  rewrite (suml_ext parts _ (fun q => sum3 (pr q) (fun iz iy ix => (fun iz iy ix => if within i (j + 1 - i) ix then F iz iy ix else 0) (z0 q + iz)%nat (y0 q + iy)%nat (x0 q + ix)%nat))).
  - pose proof (sum_parts nz ny nx parts (fun iz iy ix => if within i (j + 1 - i) ix then F iz iy ix else 0) HS) as SP. cbn beta in SP |- *. rewrite SP.
    apply sumn_ext. intros iz _. apply sumn_ext. intros iy _.
    destruct (limits_found Lx nx xmin xmax HL ltac:(lia) HX) as (_ & _ & IJ). fold i j in IJ.
    symmetry. rewrite (sumn_window nx i (j + 1 - i) (fun ix => F iz iy ix)) by lia. reflexivity.
  - intros q Hq. apply sum3_ext. intros iz iy ix _ _ Hi. destruct (T q Hq) as [T1 T2]. rewrite (mask_local q ix Hi T1 T2), (HF q iz iy ix Hq).
    unfold local_of. cbn beta. destruct (within _ _ _); ring.
Qed.

Lemma nb_points_eq : touched -> nb_points (all_procs Lx nx xmin xmax parts a) = INR nz * INR ny * INR (j + 1 - i).
Proof.
  intros T. unfold nb_points. rewrite allreduce_suml.
  rewrite (suml_ext _ _ (fun x => let '(p, r, a) := x in sum3 p (fun iz iy ix => mask p r ix * (fun _ _ _ _ => 1) a iz iy ix))).
  2:{ intros [[p r] a0] _. apply sum3_ext. intros. ring. }
  rewrite <- allreduce_suml. etransitivity; [exact (masked_sum (fun _ _ _ _ => 1) (fun _ _ _ => 1) T (fun _ _ _ _ _ => eq_refl))|].
  rewrite (sumn_ext nz _ (fun _ => INR ny * (INR (j + 1 - i) * 1))).
  2:{ intros iz _. rewrite (sumn_ext ny _ (fun _ => INR (j + 1 - i) * 1)) by (intros; apply sumn_const). apply sumn_const. }
  rewrite sumn_const. ring.
Qed.

Lemma mean_eq (field : A -> arr3) (F : arr3) : touched ->
  (forall q iz iy ix, In q parts -> field (a q) iz iy ix = local_of F q iz iy ix) ->
  compute_mean_region (all_procs Lx nx xmin xmax parts a) field = planes_mean nz ny i j F.
Proof. intros T HF. unfold compute_mean_region, planes_mean. now rewrite (masked_sum field F T HF), (nb_points_eq T). Qed.
End Means.

(** the mean over the planes between the points of the grid which are the nearest to the limits; for the distributions of the
    processes in which each process has a plane of the region *)
Theorem c158_means_partial : forall (Lx xmin xmax : R) (nz ny nx : nat) (parts : list rpart) (f : arr3), 0 < Lx -> (0 < nz)%nat -> (0 < ny)%nat -> (1 < nx)%nat ->
  xmin <= xmax -> shared nz ny nx parts ->
  exists i j, limits_of Lx nx xmin xmax i j
  /\ ((forall q, In q parts -> (x0 q <= j + 1)%nat /\ (i < x0 q + nx_loc (pr q))%nat) ->
      compute_mean_region (all_procs Lx nx xmin xmax parts (local_of f)) (fun a => a) = planes_mean nz ny i j f).
Proof.
  intros Lx xmin xmax nz ny nx parts f HL Hz Hy Hx HX HS.
  eexists _, _. split; [apply limits_found; [exact HL|lia|exact HX]|]. intros T.
  now apply (mean_eq Lx xmin xmax nz ny nx parts HL Hz Hy Hx HX HS arr3 (local_of f) (fun a => a) f T).
Qed.

(** in particular when x is not distributed *)
Theorem c158_slabs : forall (Lx xmin xmax : R) (nz ny nx : nat) (parts : list rpart) (f : arr3), 0 < Lx -> (0 < nz)%nat -> (0 < ny)%nat -> (1 < nx)%nat ->
  xmin <= xmax -> shared nz ny nx parts -> (forall q, In q parts -> x0 q = O /\ nx_loc (pr q) = nx) ->
  exists i j, limits_of Lx nx xmin xmax i j
  /\ compute_mean_region (all_procs Lx nx xmin xmax parts (local_of f)) (fun a => a) = planes_mean nz ny i j f.
Proof.
  intros Lx xmin xmax nz ny nx parts f HL Hz Hy Hx HX HS D.
  destruct (c158_means_partial Lx xmin xmax nz ny nx parts f HL Hz Hy Hx HX HS) as (i & j & IJ & H). exists i, j. split; [exact IJ|].
  apply H. intros q Hq. destruct (D q Hq) as [-> ->]. destruct IJ as (_ & _ & IJ). lia.
Qed.

(** the mean over planes is linear *)
Theorem c158_linear : forall (nz ny i j : nat) (c d : R) (f g : arr3),
  planes_mean nz ny i j (fun iz iy ix => c * f iz iy ix + d * g iz iy ix) = c * planes_mean nz ny i j f + d * planes_mean nz ny i j g.
Proof.
  intros. unfold planes_mean. set (n := (j + 1 - i)%nat).
  rewrite (sumn_ext nz _ (fun iz => c * sumn ny (fun iy => sumn n (fun k => f iz iy (i + k)%nat)) + d * sumn ny (fun iy => sumn n (fun k => g iz iy (i + k)%nat)))).
  - rewrite sumn_plus, !sumn_scal. unfold Rdiv. ring.
  - intros iz _. rewrite (sumn_ext ny _ (fun iy => c * sumn n (fun k => f iz iy (i + k)%nat) + d * sumn n (fun k => g iz iy (i + k)%nat))).
    + now rewrite sumn_plus, !sumn_scal.
    + intros iy _. now rewrite sumn_plus, !sumn_scal.
Qed.

(** four points along x, two processes with two points each *)
Definition two_procs : list rpart := [(0%nat, 0%nat, mkProc 0 1 1 2); (0%nat, 0%nat, mkProc 2 1 1 2)].
Lemma two_procs_shared : shared 1 1 4 two_procs.
Proof.
  split; [discriminate|]. split.
  - intros q [<-|[<-|[]]]; cbn; lia.
  - intros iz iy ix Z Y X. destruct iz as [|iz], iy as [|iy]; try lia. destruct ix as [|[|[|[|ix]]]]; try lia; reflexivity.
Qed.
Lemma Rabs_zero x : Rabs x = 0 -> x = 0.
Proof. unfold Rabs. destruct (Rcase_abs x); lra. Qed.
Lemma nearest4 k : (k < 4)%nat -> index_time (x_seq 4 4) (4 * (INR k / 4)) = k.
Proof.
  intros K. assert (Ne : x_seq 4 4 <> []) by (intros E; apply (f_equal (@length R)) in E; rewrite x_seq_length in E; discriminate).
  destruct (index_time_spec (x_seq 4 4) (4 * (INR k / 4)) Ne) as [[L H] _]. rewrite x_seq_length in L, H.
  specialize (H k K). rewrite !x_seq_nth in H by assumption.
  replace (4 / INR 4) with 1 in H by (cbn; field). replace (1 * INR k - 4 * (INR k / 4)) with 0 in H by field. rewrite Rabs_R0 in H.
  pose proof (Rabs_pos (1 * INR (index_time (x_seq 4 4) (4 * (INR k / 4))) - 4 * (INR k / 4))) as P.
  assert (Z : Rabs (1 * INR (index_time (x_seq 4 4) (4 * (INR k / 4))) - 4 * (INR k / 4)) = 0) by lra.
  apply Rabs_zero in Z. apply INR_eq. lra.
Qed.

(** the region made of the first plane: the mask of the second process is not empty (slice with a negative end) *)
Theorem c158_distributed_refuted : exists (Lx xmin xmax : R) (nz ny nx : nat) (parts : list rpart) (f : arr3), 0 < Lx /\ (1 < nx)%nat /\ xmin <= xmax /\ shared nz ny nx parts
  /\ (forall i j, limits_of Lx nx xmin xmax i j ->
      compute_mean_region (all_procs Lx nx xmin xmax parts (local_of f)) (fun a => a) <> planes_mean nz ny i j f).
Proof.
  exists 4, 0, 0, 1%nat, 1%nat, 4%nat, two_procs, (fun _ _ ix => INR ix). split; [lra|]. split; [lia|]. split; [lra|]. split; [exact two_procs_shared|].
  intros i j (Hi & Hj & IJ).
  assert (U : forall k, nearest (x_seq 4 4) (4 * 0) k -> k = O).
  { intros k [L H]. rewrite x_seq_length in L, H. specialize (H O ltac:(lia)). rewrite !x_seq_nth in H by lia.
    replace (4 / INR 4) with 1 in H by (cbn; field). cbn [INR] in H. replace (1 * 0 - 4 * 0) with 0 in H by ring. rewrite Rabs_R0 in H.
    pose proof (Rabs_pos (1 * INR k - 4 * 0)) as P. assert (Z : Rabs (1 * INR k - 4 * 0) = 0) by lra. apply Rabs_zero in Z. apply (INR_eq k 0). cbn. lra. }
  rewrite (U i Hi), (U j Hj). unfold compute_mean_region, nb_points, all_procs, two_procs. cbn [map allreduce fold_right pr snd].
  pose proof (nearest4 0 ltac:(lia)) as E. replace (4 * (INR 0 / 4)) with (4 * 0) in E by (cbn; field).
  unfold mask, make_info. rewrite E. cbn -[Rdiv Rmult Rplus IZR INR]. unfold planes_mean, local_of. cbn. lra.
Qed.

Example c158_example : shared 1 1 4 [(0%nat, 0%nat, mkProc 0 1 1 4)].
Proof.
  split; [discriminate|]. split; [intros q [<-|[]]; cbn; lia|].
  intros iz iy ix Z Y X. destruct iz as [|iz], iy as [|iy]; try lia. destruct ix as [|[|[|[|ix]]]]; try lia; reflexivity.
Qed.

(** ** C159 *)

Section Fluxes.
Variables (Lx xmin xmax : R) (nz ny nx : nat) (parts : list rpart).
Hypotheses (Hz : (0 < nz)%nat) (Hy : (0 < ny)%nat) (HS : shared nz ny nx parts).
Variable A : Type.
Variable a : rpart -> A.
Variable surf : info -> option Z.
Variable s : nat.
Hypothesis Hs : (s < nx)%nat.
Hypothesis Hsurf : forall q, surf (make_info Lx nx (pr q) xmin xmax) = in_process (pr q) (Z.of_nat s - Z.of_nat (x0 q)).

Lemma in_process_within q : in_process (pr q) (Z.of_nat s - Z.of_nat (x0 q)) = if within (x0 q) (nx_loc (pr q)) s then Some (Z.of_nat s - Z.of_nat (x0 q))%Z else None.
Proof.
  unfold in_process, within. destruct (Z.ltb_spec (Z.of_nat s - Z.of_nat (x0 q)) 0), (Z.ltb_spec (Z.of_nat (nx_loc (pr q)) - 1) (Z.of_nat s - Z.of_nat (x0 q))); cbn [orb];
  destruct (Nat.leb_spec (x0 q) s), (Nat.ltb_spec s (x0 q + nx_loc (pr q))); cbn [andb]; try reflexivity; lia.
Qed.

Lemma sumn_single n k c : sumn n (fun i => if Nat.eqb i k then c else 0) = if (k <? n)%nat then c else 0.
Proof.
  induction n as [|n IH]; [reflexivity|]. cbn [sumn]. rewrite IH.
  destruct (Nat.ltb_spec k n), (Nat.ltb_spec k (S n)), (Nat.eqb_spec n k); try lia; ring.
Qed.

Lemma plane_sum (g : nat -> nat -> R) :
  suml parts (fun q => if within (x0 q) (nx_loc (pr q)) s then sumn (nz_loc (pr q)) (fun iz => sumn (ny_loc (pr q)) (fun iy => g (z0 q + iz)%nat (y0 q + iy)%nat)) else 0)
  = sumn nz (fun iz => sumn ny (fun iy => g iz iy)).
Proof.
  rewrite (suml_ext parts _ (fun q => sum3 (pr q) (fun iz iy ix => (fun iz iy ix => if Nat.eqb ix s then g iz iy else 0) (z0 q + iz)%nat (y0 q + iy)%nat (x0 q + ix)%nat))).
  - pose proof (sum_parts nz ny nx parts (fun iz iy ix => if Nat.eqb ix s then g iz iy else 0) HS) as SP. cbn beta in SP |- *. rewrite SP.
    apply sumn_ext. intros iz _. apply sumn_ext. intros iy _.
    rewrite sumn_single. destruct (Nat.ltb_spec s nx); [reflexivity|lia].
  - intros q _. unfold sum3.
    assert (E : forall iz iy, sumn (nx_loc (pr q)) (fun ix => if Nat.eqb (x0 q + ix) s then g (z0 q + iz)%nat (y0 q + iy)%nat else 0)
                = if within (x0 q) (nx_loc (pr q)) s then g (z0 q + iz)%nat (y0 q + iy)%nat else 0).
    { intros iz iy. unfold within. destruct (Nat.leb_spec (x0 q) s) as [L|L]; cbn [andb].
      - rewrite (sumn_ext _ _ (fun ix => if Nat.eqb ix (s - x0 q) then g (z0 q + iz)%nat (y0 q + iy)%nat else 0)).
        + rewrite sumn_single. destruct (Nat.ltb_spec (s - x0 q) (nx_loc (pr q))), (Nat.ltb_spec s (x0 q + nx_loc (pr q))); try reflexivity; lia.
        + intros ix _. destruct (Nat.eqb_spec (x0 q + ix) s), (Nat.eqb_spec ix (s - x0 q)); try reflexivity; lia.
      - rewrite (sumn_ext _ _ (fun _ => 0)); [apply sumn_zero|]. intros ix _. destruct (Nat.eqb_spec (x0 q + ix) s); [lia|reflexivity]. }
    cbn beta. rewrite <- sumn_if. apply sumn_ext. intros iz _. rewrite <- sumn_if. apply sumn_ext. intros iy _. now rewrite E.
Qed.

Lemma nb_surface_eq : nb_points_surface surf (all_procs Lx nx xmin xmax parts a) = INR nz * INR ny.
Proof.
  unfold nb_points_surface, all_procs. rewrite allreduce_suml, suml_map.
  rewrite (suml_ext parts _ (fun q => if within (x0 q) (nx_loc (pr q)) s then sumn (nz_loc (pr q)) (fun iz => sumn (ny_loc (pr q)) (fun iy => (fun _ _ => 1) (z0 q + iz)%nat (y0 q + iy)%nat)) else 0)).
  - rewrite (plane_sum (fun _ _ => 1)). rewrite (sumn_ext nz _ (fun _ => INR ny * 1)) by (intros; apply sumn_const). rewrite sumn_const. ring.
  - intros q _. rewrite Hsurf, in_process_within. destruct (within _ _ s); [|reflexivity]. cbn beta.
    rewrite (sumn_ext (nz_loc (pr q)) _ (fun _ => INR (ny_loc (pr q)) * 1)) by (intros; apply sumn_const). rewrite sumn_const. ring.
Qed.

Lemma flux_eq (field v : A -> arr3) (F V : arr3) len :
  (forall q iz iy ix, In q parts -> field (a q) iz iy ix = local_of F q iz iy ix) ->
  (forall q iz iy ix, In q parts -> v (a q) iz iy ix = local_of V q iz iy ix) ->
  compute_flux surf (all_procs Lx nx xmin xmax parts a) field v len = plane_mean nz ny s (fun iz iy ix => V iz iy ix * F iz iy ix) / len.
Proof.
  intros HF HV. unfold compute_flux, plane_mean. rewrite nb_surface_eq. f_equal. f_equal.
  unfold all_procs. rewrite allreduce_suml, suml_map.
  rewrite <- (plane_sum (fun iz iy => V iz iy s * F iz iy s)). apply suml_ext. intros q Hq. rewrite Hsurf, in_process_within.
  destruct (within (x0 q) (nx_loc (pr q)) s) eqn:W; [|reflexivity]. unfold within in W. apply andb_prop in W as [W1 W2]. apply Nat.leb_le in W1. apply Nat.ltb_lt in W2.
  apply sumn_ext. intros iz _. apply sumn_ext. intros iy _. rewrite (HF q _ _ _ Hq), (HV q _ _ _ Hq). unfold local_of.
  replace (x0 q + Z.to_nat (Z.of_nat s - Z.of_nat (x0 q)))%nat with s by lia. reflexivity.
Qed.
End Fluxes.

(** the surface and the abscissa of the end of a region: periodic when the region is the whole domain *)
Definition end_plane (nx i j : nat) : nat := if Nat.eqb j (nx - 1) && Nat.eqb i 0 then O else j.
Definition end_abscissa (Lx : R) (nx i j : nat) : R := if Nat.eqb j (nx - 1) && Nat.eqb i 0 then Lx else Lx / INR nx * INR j.

Lemma info_values Lx nx p xmin xmax : 0 < Lx -> (1 < nx)%nat -> xmin <= xmax ->
  let i := index_time (x_seq Lx nx) (Lx * xmin) in let j := index_time (x_seq Lx nx) (Lx * xmax) in
  xmin_r (make_info Lx nx p xmin xmax) = Lx / INR nx * INR i /\ xmax_r (make_info Lx nx p xmin xmax) = end_abscissa Lx nx i j
  /\ ixmin_loc (make_info Lx nx p xmin xmax) = in_process p (Z.of_nat i - Z.of_nat (ix_start p))
  /\ ixmax_surf_loc (make_info Lx nx p xmin xmax) = in_process p (Z.of_nat (end_plane nx i j) - Z.of_nat (ix_start p)).
Proof.
  intros HL Hx HX i j. destruct (limits_found Lx nx xmin xmax HL ltac:(lia) HX) as (_ & _ & IJ). fold i j in IJ.
  unfold make_info. cbn [xmin_r xmax_r ixmin_loc ixmax_surf_loc]. fold i j. unfold end_abscissa, end_plane. clearbody i j.
  rewrite !x_seq_nth by lia. split; [reflexivity|].
  destruct (Nat.eqb_spec j (nx - 1)) as [E|E], (Nat.eqb_spec i 0) as [E'|E']; cbn [andb].
  1:{ split; [|split; [reflexivity|]].
      - subst j. rewrite minus_INR by lia. cbn [INR]. field. apply not_0_INR. lia.
      - do 2 f_equal. replace (j + 1)%nat with nx by lia. now rewrite Nat.mod_same by lia. }
  all: split; [reflexivity|split; [reflexivity|]]; do 2 f_equal; now rewrite Nat.mod_small by lia.
Qed.

Section FluxesRegion.
Variables (Lx xmin xmax : R) (nz ny nx : nat) (parts : list rpart).
Hypotheses (HL : 0 < Lx) (Hz : (0 < nz)%nat) (Hy : (0 < ny)%nat) (Hx : (1 < nx)%nat) (HX : xmin <= xmax) (HS : shared nz ny nx parts).
Variable A : Type.
Variable a : rpart -> A.
Let i := index_time (x_seq Lx nx) (Lx * xmin).
Let j := index_time (x_seq Lx nx) (Lx * xmax).

Lemma fluxes_eq (field v : A -> arr3) (F V : arr3) :
  (forall q iz iy ix, In q parts -> field (a q) iz iy ix = local_of F q iz iy ix) ->
  (forall q iz iy ix, In q parts -> v (a q) iz iy ix = local_of V q iz iy ix) ->
  compute_fluxes_region (all_procs Lx nx xmin xmax parts a) field v
  = (plane_mean nz ny i (fun iz iy ix => V iz iy ix * F iz iy ix) / (end_abscissa Lx nx i j - Lx / INR nx * INR i),
     - (plane_mean nz ny (end_plane nx i j) (fun iz iy ix => V iz iy ix * F iz iy ix) / (end_abscissa Lx nx i j - Lx / INR nx * INR i))).
Proof.
  intros HF HV. destruct (limits_found Lx nx xmin xmax HL ltac:(lia) HX) as (_ & _ & IJ). fold i j in IJ.
  assert (Ej : (end_plane nx i j < nx)%nat) by (unfold end_plane; destruct (_ && _)%bool; lia).
  assert (S1 : forall q, ixmin_loc (make_info Lx nx (pr q) xmin xmax) = in_process (pr q) (Z.of_nat i - Z.of_nat (x0 q))) by (intros q; apply (info_values Lx nx (pr q) xmin xmax HL Hx HX)).
  assert (S2 : forall q, ixmax_surf_loc (make_info Lx nx (pr q) xmin xmax) = in_process (pr q) (Z.of_nat (end_plane nx i j) - Z.of_nat (x0 q))) by (intros q; apply (info_values Lx nx (pr q) xmin xmax HL Hx HX)).
  assert (F1 := fun len => flux_eq Lx xmin xmax nz ny nx parts Hz Hy HS A a ixmin_loc i ltac:(lia) S1 field v F V len HF HV).
  assert (F2 := fun len => flux_eq Lx xmin xmax nz ny nx parts Hz Hy HS A a ixmax_surf_loc (end_plane nx i j) Ej S2 field v F V len HF HV).
  assert (G : forall q l, all_procs Lx nx xmin xmax parts a = q :: l -> compute_fluxes_region (q :: l) field v
     = (compute_flux ixmin_loc (q :: l) field v (end_abscissa Lx nx i j - Lx / INR nx * INR i), - compute_flux ixmax_surf_loc (q :: l) field v (end_abscissa Lx nx i j - Lx / INR nx * INR i))).
  { intros q l E. unfold all_procs in E. destruct parts as [|q0 ps]; [discriminate|]. injection E as Eq El. subst q l. cbn [compute_fluxes_region].
    destruct (info_values Lx nx (pr q0) xmin xmax HL Hx HX) as (-> & -> & _). reflexivity. }
  destruct (all_procs Lx nx xmin xmax parts a) as [|q l] eqn:E.
  - destruct HS as [N _]. unfold all_procs in E. destruct parts; [contradiction|discriminate].
  - rewrite (G q l eq_refl), F1, F2. reflexivity.
Qed.
End FluxesRegion.

(** the fluxes through the two limits for every distribution of the processes *)
Theorem c159_fluxes : forall (Lx xmin xmax : R) (nz ny nx : nat) (parts : list rpart) (f v : arr3), 0 < Lx -> (0 < nz)%nat -> (0 < ny)%nat -> (1 < nx)%nat ->
  xmin <= xmax -> shared nz ny nx parts ->
  exists i j, limits_of Lx nx xmin xmax i j
  /\ let S s := plane_mean nz ny s (fun iz iy ix => v iz iy ix * f iz iy ix) in
     let fluxes := compute_fluxes_region (all_procs Lx nx xmin xmax parts (fun q => (local_of f q, local_of v q))) fst snd in
     ((i = O /\ j = (nx - 1)%nat) -> fluxes = (S O / Lx, - (S O / Lx)) /\ fst fluxes + snd fluxes = 0)
     /\ (~ (i = O /\ j = (nx - 1)%nat) -> let x k := Lx / INR nx * INR k in
         fluxes = (S i / (x j - x i), - (S j / (x j - x i)))
         /\ ((i < j)%nat -> (fst fluxes + snd fluxes) * (x j - x i) = S i - S j)).
Proof.
  intros Lx xmin xmax nz ny nx parts f v HL Hz Hy Hx HX HS. eexists _, _. split; [apply limits_found; [exact HL|lia|exact HX]|].
  pose proof (limits_found Lx nx xmin xmax HL ltac:(lia) HX) as (_ & _ & IJ). cbn zeta.
  rewrite (fluxes_eq Lx xmin xmax nz ny nx parts HL Hz Hy Hx HX HS (arr3 * arr3) (fun q => (local_of f q, local_of v q)) fst snd f v) by reflexivity.
  set (i := index_time (x_seq Lx nx) (Lx * xmin)) in *. set (j := index_time (x_seq Lx nx) (Lx * xmax)) in *. clearbody i j.
  unfold end_plane, end_abscissa. split.
  - intros [-> ->]. rewrite !Nat.eqb_refl. cbn [andb INR fst snd]. rewrite Rmult_0_r, Rminus_0_r. split; [reflexivity|lra].
  - intros W. replace (Nat.eqb j (nx - 1) && Nat.eqb i 0)%bool with false.
    2:{ destruct (Nat.eqb_spec j (nx - 1)), (Nat.eqb_spec i 0); try reflexivity. exfalso. apply W. now split. }
    split; [reflexivity|]. intros L. cbn [fst snd].
    assert (0 < Lx / INR nx * INR j - Lx / INR nx * INR i).
    { rewrite <- Rmult_minus_distr_l. apply Rmult_lt_0_compat; [apply Rdiv_lt_0_compat; [exact HL|apply lt_0_INR; lia]|]. apply lt_INR in L. lra. }
    set (u := Lx / INR nx * INR i) in *. set (w := Lx / INR nx * INR j) in *. clearbody u w. field. lra.
Qed.

(** two regions with a common limit: what goes out of one goes into the other *)
Theorem c159_adjacent : forall (Lx xa xb xc : R) (nz ny nx : nat) (parts : list rpart) (f v : arr3), 0 < Lx -> (0 < nz)%nat -> (0 < ny)%nat -> (1 < nx)%nat ->
  xa <= xb <= xc -> shared nz ny nx parts ->
  exists i j k, limits_of Lx nx xa xb i j /\ limits_of Lx nx xb xc j k
  /\ let fluxes a b := compute_fluxes_region (all_procs Lx nx a b parts (fun q => (local_of f q, local_of v q))) fst snd in
     let x s := Lx / INR nx * INR s in
     ((0 < i < j)%nat -> (j < k)%nat -> snd (fluxes xa xb) * (x j - x i) + fst (fluxes xb xc) * (x k - x j) = 0).
Proof.
  intros Lx xa xb xc nz ny nx parts f v HL Hz Hy Hx [H1 H2] HS. eexists _, _, _.
  split; [apply limits_found; [exact HL|lia|exact H1]|]. split; [apply limits_found; [exact HL|lia|exact H2]|]. cbn zeta. cbv beta.
  rewrite (fluxes_eq Lx xa xb nz ny nx parts HL Hz Hy Hx H1 HS (arr3 * arr3) (fun q => (local_of f q, local_of v q)) fst snd f v) by reflexivity.
  rewrite (fluxes_eq Lx xb xc nz ny nx parts HL Hz Hy Hx H2 HS (arr3 * arr3) (fun q => (local_of f q, local_of v q)) fst snd f v) by reflexivity.
  set (i := index_time (x_seq Lx nx) (Lx * xa)) in *. set (j := index_time (x_seq Lx nx) (Lx * xb)) in *. set (k := index_time (x_seq Lx nx) (Lx * xc)) in *. clearbody i j k.
  intros [I0 Iij] Jk. unfold end_plane, end_abscissa.
  replace (Nat.eqb i 0) with false by (symmetry; apply Nat.eqb_neq; lia). replace (Nat.eqb j 0) with false by (symmetry; apply Nat.eqb_neq; lia). rewrite !andb_false_r. cbn [fst snd].
  assert (P : 0 < Lx / INR nx) by (apply Rdiv_lt_0_compat; [exact HL|apply lt_0_INR; lia]).
  apply lt_INR in Iij, Jk.
  assert (Q1 : 0 < Lx / INR nx * INR j - Lx / INR nx * INR i) by (rewrite <- Rmult_minus_distr_l; apply Rmult_lt_0_compat; lra).
  assert (Q2 : 0 < Lx / INR nx * INR k - Lx / INR nx * INR j) by (rewrite <- Rmult_minus_distr_l; apply Rmult_lt_0_compat; lra).
  set (u := Lx / INR nx * INR i) in *. set (w := Lx / INR nx * INR j) in *. set (y := Lx / INR nx * INR k) in *. clearbody u w y. field. split; lra.
Qed.

(** ** C160 *)

(** the fields of a process *)
Definition local_fields (g : fields) (q : rpart) : fields :=
  mkFields (local_of (vx g) q) (local_of (vy g) q) (local_of (vz g) q) (local_of (b g) q)
    (local_of (d_vx g) q) (local_of (d_vy g) q) (local_of (d_vz g) q) (local_of (d_b g) q)
    (local_of (fx g) q) (local_of (fy g) q) (local_of (P_nl g) q) (local_of (P_forcing g) q) (local_of (P_dz_b g) q).

(** with a forcing: the energies, the dissipations, the conversion and the injection of the region *)
Theorem c160_values_partial : forall (N deltat Lx xmin xmax : R) (nz ny nx : nat) (parts : list rpart) (g : fields), 0 < Lx -> (0 < nz)%nat -> (0 < ny)%nat -> (1 < nx)%nat ->
  xmin <= xmax -> shared nz ny nx parts -> (forall q, In q parts -> x0 q = O /\ nx_loc (pr q) = nx) ->
  exists i j v, limits_of Lx nx xmin xmax i j
  /\ compute_values N deltat true (all_procs Lx nx xmin xmax parts (local_fields g)) = Some v
  /\ let mean := planes_mean nz ny i j in
     EK v = mean (fun z y x => (vx g z y x ^ 2 + vy g z y x ^ 2 + vz g z y x ^ 2) / 2)
     /\ EKz v = mean (fun z y x => vz g z y x ^ 2 / 2)
     /\ EA v = mean (fun z y x => b g z y x ^ 2 / (2 * N ^ 2))
     /\ conv_K2A v = - mean (fun z y x => b g z y x * vz g z y x)
     /\ epsK v = mean (fun z y x => vx g z y x * d_vx g z y x + vy g z y x * d_vy g z y x + vz g z y x * d_vz g z y x)
     /\ epsA v = mean (fun z y x => b g z y x * d_b g z y x) / N ^ 2
     /\ PK v = mean (fun z y x => vx g z y x * fx g z y x + vy g z y x * fy g z y x) + deltat / 2 * mean (fun z y x => fx g z y x ^ 2 + fy g z y x ^ 2).
Proof.
  intros N deltat Lx xmin xmax nz ny nx parts g HL Hz Hy Hx HX HS D.
  pose proof (limits_found Lx nx xmin xmax HL ltac:(lia) HX) as LF.
  assert (T : touched Lx xmin xmax nx parts).
  { intros q Hq. destruct (D q Hq) as [-> ->]. destruct LF as (_ & _ & IJ). lia. }
  pose proof (fun field F => mean_eq Lx xmin xmax nz ny nx parts HL Hz Hy Hx HX HS fields (local_fields g) field F T) as M.
  eexists _, _, _. split; [exact LF|]. split; [reflexivity|]. cbn zeta. cbn [EK EKz EA conv_K2A epsK epsA PK].
  set (i := index_time (x_seq Lx nx) (Lx * xmin)) in *. set (j := index_time (x_seq Lx nx) (Lx * xmax)) in *. clearbody i j.
  assert (E : forall F G, (forall z y x, F z y x = G z y x) -> planes_mean nz ny i j F = planes_mean nz ny i j G).
  { intros F G H. unfold planes_mean. f_equal. apply sumn_ext. intros. apply sumn_ext. intros. apply sumn_ext. intros. apply H. }
  assert (L := fun c d f h => c158_linear nz ny i j c d f h).
  split; [|split; [|split; [|split; [|split; [|split]]]]].
  - rewrite (M _ (fun z y x => 1 / 2 * (vx g z y x * vx g z y x + vy g z y x * vy g z y x))) by reflexivity.
    rewrite (M _ (fun z y x => 1 / 2 * vz g z y x * vz g z y x)) by reflexivity.
    rewrite (E (fun z y x => (vx g z y x ^ 2 + vy g z y x ^ 2 + vz g z y x ^ 2) / 2)
      (fun z y x => 1 * (1 / 2 * (vx g z y x * vx g z y x + vy g z y x * vy g z y x)) + 1 * (1 / 2 * vz g z y x * vz g z y x))) by (intros; field).
    rewrite (L 1 1 (fun z y x => 1 / 2 * (vx g z y x * vx g z y x + vy g z y x * vy g z y x)) (fun z y x => 1 / 2 * vz g z y x * vz g z y x)). ring.
  - rewrite (M _ (fun z y x => 1 / 2 * vz g z y x * vz g z y x)) by reflexivity. apply E. intros. field.
  - rewrite (M _ (fun z y x => 1 / 2 / N ^ 2 * b g z y x * b g z y x)) by reflexivity. apply E. intros. unfold Rdiv. rewrite Rinv_mult. ring.
  - f_equal. now apply M.
  - now apply M.
  - f_equal. now apply M.
  - rewrite (M _ (fun z y x => vx g z y x * fx g z y x + vy g z y x * fy g z y x + (Rabs (fx g z y x) ^ 2 + Rabs (fy g z y x) ^ 2) * deltat / 2)) by reflexivity.
    rewrite (E _ (fun z y x => 1 * (vx g z y x * fx g z y x + vy g z y x * fy g z y x) + deltat / 2 * (fx g z y x ^ 2 + fy g z y x ^ 2))).
    + rewrite (L 1 (deltat / 2) (fun z y x => vx g z y x * fx g z y x + vy g z y x * fy g z y x) (fun z y x => fx g z y x ^ 2 + fy g z y x ^ 2)). ring.
    + intros. rewrite !pow2_abs. field.
Qed.

(** the columns of the file have the right names *)
Definition named (t : R) (v : values) : list (string * R) :=
  [("time", t); ("EK", EK v); ("EKz", EKz v); ("EA", EA v); ("epsK", epsK v); ("epsA", epsA v); ("conv_K2A", conv_K2A v); ("PK", PK v); ("PA", 0);
   ("flux_Pnl_xmin", fst (flux_Pnl v)); ("flux_Pnl_xmax", snd (flux_Pnl v)); ("flux_v2_xmin", fst (flux_v2 v)); ("flux_v2_xmax", snd (flux_v2 v));
   ("flux_P_dz_b_xmin", fst (flux_P_dz_b v)); ("flux_P_dz_b_xmax", snd (flux_P_dz_b v));
   ("flux_Pforcing_xmin", fst (flux_Pforcing v)); ("flux_Pforcing_xmax", snd (flux_Pforcing v));
   ("flux_A_xmin", fst (flux_A v)); ("flux_A_xmax", snd (flux_A v))]%string.

Theorem c160_columns : forall (xmin xmax : R) (records : list (R * values)) (f : file), init_file xmin xmax None = Some f ->
  let f' := fold_left (fun f r => append_row f (row (fst r) (snd r))) records f in
  map fst (named 0 (mkValues 0 0 0 0 0 0 0 (0, 0) (0, 0) (0, 0) (0, 0) (0, 0))) = names f'
  /\ (forall n, (n < length (names f'))%nat ->
      load_key f' (fst (nth n (named 0 (mkValues 0 0 0 0 0 0 0 (0, 0) (0, 0) (0, 0) (0, 0) (0, 0))) (""%string, 0)))
      = Some (map (fun r => snd (nth n (named (fst r) (snd r)) (""%string, 0))) records))
  /\ init_file xmin xmax (Some f') = Some f'.
Proof.
  intros xmin xmax records f Hf. injection Hf as <-. cbn zeta.
  assert (G : forall rs f, fold_left (fun f r => append_row f (row (fst r) (snd r))) rs f
    = mkFile (f_xmin f) (f_xmax f) (names f) (rows f ++ map (fun r => row (fst r) (snd r)) rs)).
  { induction rs as [|r rs IH]; intros f0; [destruct f0; cbn; now rewrite app_nil_r|]. cbn [fold_left]. rewrite IH. unfold append_row. cbn [f_xmin f_xmax names rows map].
    now rewrite <- app_assoc. }
  rewrite G. cbn [f_xmin f_xmax names rows app]. split; [reflexivity|]. split.
  - intros n Hn. cbn [length columns] in Hn.
    do 19 (destruct n as [|n]; [unfold load_key; cbn [names rows]; match goal with |- context [position ?k columns] => let r := eval vm_compute in (position k columns) in change (position k columns) with r end; cbn iota beta; f_equal; rewrite map_map; apply map_ext; intros; reflexivity|]). lia.
  - cbn [init_file f_xmin f_xmax]. destruct (Req_EM_T xmin xmin); [|contradiction]. destruct (Req_EM_T xmax xmax); [reflexivity|contradiction].
Qed.

(** a restart with other limits is refused *)
Theorem c160_restart : forall (xmin xmax : R) (f : file), init_file xmin xmax (Some f) = Some f <-> f_xmin f = xmin /\ f_xmax f = xmax.
Proof.
  intros. cbn [init_file]. destruct (Req_EM_T (f_xmin f) xmin), (Req_EM_T (f_xmax f) xmax); split; intros H; try reflexivity; try (split; assumption); try discriminate; destruct H; contradiction.
Qed.

Theorem c160_limits : forall (xmin xmax : limits),
  (forall l, regions xmin xmax = Some l -> map fst l = given xmin /\ map snd l = given xmax)
  /\ (regions xmin xmax = None <-> length (given xmin) <> length (given xmax)).
Proof.
  intros xmin xmax. unfold regions. generalize (given xmin) (given xmax). intros l l'. destruct (Nat.eqb_spec (length l') (length l)) as [E|E].
  - split; [|split; [discriminate|intros H; congruence]]. intros c H. injection H as <-. revert l' E. induction l as [|a l IH]; intros [|a' l'] E; try discriminate; [split; reflexivity|].
    cbn [combine map fst snd]. destruct (IH l') as [-> ->]; [cbn in E; congruence|]. split; reflexivity.
  - split; [discriminate|]. split; [intros _; congruence|reflexivity].
Qed.

(** the terms of the budget: the fluxes of the total pressure and of the potential energy *)
Theorem c160_budget : forall (t : R) (v : values),
  all_terms columns (row t v) = PK v - epsK v - epsA v
    + (fst (flux_Pnl v) + fst (flux_Pforcing v) + fst (flux_P_dz_b v) + fst (flux_A v))
    + (snd (flux_Pnl v) + snd (flux_Pforcing v) + snd (flux_P_dz_b v) + snd (flux_A v)).
Proof. intros t v. unfold all_terms, get. cbn. ring. Qed.

(** for the whole domain there is no flux *)
Theorem c160_whole_domain : forall (N deltat Lx t : R) (nz ny nx : nat) (parts : list rpart) (g : fields), 0 < Lx -> (0 < nz)%nat -> (0 < ny)%nat -> (1 < nx)%nat ->
  shared nz ny nx parts ->
  exists v, compute_values N deltat true (all_procs Lx nx 0 1 parts (local_fields g)) = Some v /\ all_terms columns (row t v) = PK v - epsK v - epsA v.
Proof.
  intros N deltat Lx t nz ny nx parts g HL Hz Hy Hx HS. eexists. split; [reflexivity|]. rewrite c160_budget. cbn [PK epsK epsA flux_Pnl flux_Pforcing flux_P_dz_b flux_A].
  assert (I0 : index_time (x_seq Lx nx) (Lx * 0) = O).
  { assert (Ne : x_seq Lx nx <> []) by (intros E; apply (f_equal (@length R)) in E; rewrite x_seq_length in E; cbn in E; lia).
    destruct (index_time_spec (x_seq Lx nx) (Lx * 0) Ne) as [[L H] F]. rewrite x_seq_length in L, H.
    destruct (index_time (x_seq Lx nx) (Lx * 0)) as [|k] eqn:E; [reflexivity|]. exfalso. specialize (F O ltac:(lia)). rewrite !x_seq_nth in F by lia.
    cbn [INR] in F. replace (Lx / INR nx * 0 - Lx * 0) with 0 in F by ring. rewrite Rabs_R0 in F. pose proof (Rabs_pos (Lx / INR nx * INR (S k) - Lx * 0)). cbn [INR] in *. lra. }
  assert (I1 : index_time (x_seq Lx nx) (Lx * 1) = (nx - 1)%nat).
  { assert (Ne : x_seq Lx nx <> []) by (intros E; apply (f_equal (@length R)) in E; rewrite x_seq_length in E; cbn in E; lia).
    destruct (index_time_spec (x_seq Lx nx) (Lx * 1) Ne) as [[L H] _]. rewrite x_seq_length in L, H.
    set (k := index_time (x_seq Lx nx) (Lx * 1)) in *. clearbody k. destruct (Nat.eq_dec k (nx - 1)) as [E|E]; [exact E|]. exfalso.
    specialize (H (nx - 1)%nat ltac:(lia)). rewrite !x_seq_nth in H by lia.
    assert (P : 0 < Lx / INR nx) by (apply Rdiv_lt_0_compat; [exact HL|apply lt_0_INR; lia]).
    assert (Q : Lx * 1 = Lx / INR nx * INR nx) by (field; apply not_0_INR; lia). rewrite Q in H.
    rewrite <- !Rmult_minus_distr_l, !Rabs_mult, (Rabs_right (Lx / INR nx)) in H by lra. apply Rmult_le_reg_l in H; [|exact P].
    assert (B1 : INR k < INR (nx - 1)) by (apply lt_INR; lia). assert (B2 : INR (nx - 1) < INR nx) by (apply lt_INR; lia).
    rewrite !Rabs_left in H by lra. lra. }
  assert (Z : forall field F, (forall q iz iy ix, In q parts -> field (local_fields g q) iz iy ix = local_of F q iz iy ix) ->
     fst (compute_fluxes_region (all_procs Lx nx 0 1 parts (local_fields g)) field vx) + snd (compute_fluxes_region (all_procs Lx nx 0 1 parts (local_fields g)) field vx) = 0).
  { intros field F HF. rewrite (fluxes_eq Lx 0 1 nz ny nx parts HL Hz Hy Hx ltac:(lra) HS fields (local_fields g) field vx F (vx g) HF ltac:(reflexivity)).
    rewrite I0, I1. unfold end_plane. rewrite !Nat.eqb_refl. cbn [andb fst snd]. ring. }
  pose proof (Z P_nl (P_nl g) ltac:(reflexivity)). pose proof (Z P_forcing (P_forcing g) ltac:(reflexivity)). pose proof (Z P_dz_b (P_dz_b g) ltac:(reflexivity)).
  pose proof (Z (fun f iz iy ix => 1 / 2 / N ^ 2 * b f iz iy ix * b f iz iy ix) (fun iz iy ix => 1 / 2 / N ^ 2 * b g iz iy ix * b g iz iy ix) ltac:(reflexivity)).
  cbn beta in *. lra.
Qed.

(** without forcing the output fails, for every state *)
Theorem c160_no_forcing_refuted : exists forcing : bool, forall (N deltat : R) (l : list (lproc fields)), compute_values N deltat forcing l = None.
Proof. exists false. reflexivity. Qed.

Example c160_example : exists l, regions (Number 0) (Sequence [1]) = Some l /\ l = [(0, 1)].
Proof. eexists. split; reflexivity. Qed.

(** ** C161 *)

(** the total pressure is the solution of the Poisson equation, with zero mean *)
Theorem c161_pressure : forall (kx ky kz : R) (ax ay az f1 f2 f3 buoy : C),
  let P := (P_nl_fft kx ky kz ax ay az + P_forcing_fft kx ky kz f1 f2 f3 + P_dz_b_fft kx ky kz buoy)%C in
  (RtoC (- (kx ^ 2 + ky ^ 2 + kz ^ 2)) * P)%C
  = (Ci * RtoC kx * ax + Ci * RtoC ky * ay + Ci * RtoC kz * az + (Ci * RtoC kx * f1 + Ci * RtoC ky * f2 + Ci * RtoC kz * f3) + Ci * RtoC kz * buoy)%C
  /\ (kx = 0 -> ky = 0 -> kz = 0 -> P = RtoC 0).
Proof.
  intros kx ky kz ax ay az f1 f2 f3 buoy. unfold P_nl_fft, P_forcing_fft, P_dz_b_fft, div, i_k, K2_not0. destruct (Req_EM_T _ 0) as [E|E].
  - assert (kx = 0 /\ ky = 0 /\ kz = 0) as (-> & -> & ->).
    { pose proof (pow2_ge_0 kx). pose proof (pow2_ge_0 ky). pose proof (pow2_ge_0 kz).
      split; [|split]; apply (pow_eq_0 _ 2)%R || (apply Rsqr_0_uniq; unfold Rsqr; nra). }
    cbn zeta. split; intros; apply injective_projections; cbn; field.
  - assert (E' : RtoC (kx ^ 2 + ky ^ 2 + kz ^ 2) <> RtoC 0) by (intros H; apply RtoC_inj in H; contradiction).
    cbn zeta. split.
    + rewrite RtoC_opp. set (K2 := RtoC (kx ^ 2 + ky ^ 2 + kz ^ 2)) in *. field. exact E'.
    + intros -> -> ->. exfalso. apply E. ring.
Qed.

Example c161_example : P_dz_b_fft 0 0 1 (RtoC 1) = (- Ci)%C.
Proof. unfold P_dz_b_fft, i_k, K2_not0. destruct (Req_EM_T _ 0) as [E|E]; [lra|]. replace (0 ^ 2 + 0 ^ 2 + 1 ^ 2) with 1 by ring. apply injective_projections; cbn; field. Qed.

Print Assumptions c158_means_partial.
Print Assumptions c158_slabs.
Print Assumptions c158_linear.
Print Assumptions c158_distributed_refuted.
Print Assumptions c159_fluxes.
Print Assumptions c159_adjacent.
Print Assumptions c160_values_partial.
Print Assumptions c160_columns.
Print Assumptions c160_restart.
Print Assumptions c160_limits.
Print Assumptions c160_budget.
Print Assumptions c160_whole_domain.
Print Assumptions c160_no_forcing_refuted.
Print Assumptions c161_pressure.
