(** The description of the files for Paraview (C220). *)
From Coq Require Import String Ascii List QArith Bool Lia.
From Verif Require Import Xmf_Model.
Import ListNotations.
Local Open Scope nat_scope.

(** * Specification *)
(** an item refers to an array of a file of the list *)
Definition refers (files : list h5file) (i : item) : Prop := exists f, In f files /\ fst i = name f /\ In (snd i) (keys f).
Definition components (ndim : nat) : list string := (if Nat.eqb ndim 2 then ["x"; "y"] else ["x"; "y"; "z"])%string.
(** a grid of an array of shape dims with the steps *)
Definition describes (ndim : nat) (dims : list nat) (deltas : list Q) (f : h5file) (g : grid) : Prop :=
  g_time g = time f /\ g_ndim g = ndim /\ g_dims g = dims /\ g_origins g = repeat 0%Q ndim /\ g_deltas g = deltas
  /\ g_scalars g = map (fun k => (k, (name f, k))) (keys f)
  /\ (forall v, In v (map v_name (g_vectors g)) <-> forall c, In c (components ndim) -> In (v ++ c)%string (keys f))
  /\ (forall a, In a (g_vectors g) -> v_dims a = dims ++ [ndim] /\ v_ndim a = ndim /\ v_join a = seq 0 ndim).

(** * Proofs *)
Lemma strip_x_iff : forall s v, strip_x s = Some v <-> s = (v ++ "x")%string.
Proof.
  induction s as [|c s IH]; intros v.
  - split; [discriminate|]. destruct v; discriminate.
  - cbn. destruct s as [|d s].
    + destruct (Ascii.eqb_spec c "x") as [->|n]; split.
      * intros [= <-]. reflexivity.
      * destruct v as [|e [|e' v]]; try discriminate. reflexivity.
      * discriminate.
      * destruct v as [|e [|e' v]]; intros [= ->]; contradiction.
    + destruct (strip_x (String d s)) as [r|] eqn:E.
      * split; [intros [= <-]|intros H].
        { cbn [append]. f_equal. now apply IH. }
        { destruct v as [|e v]; [discriminate|]. cbn [append] in H. injection H as -> H. apply IH in H. congruence. }
      * split; [discriminate|]. intros H. destruct v as [|e v]; [discriminate|]. cbn [append] in H. injection H as -> H. apply IH in H. discriminate.
Qed.
Lemma mem_iff : forall s l, mem s l = true <-> In s l.
Proof. intros s l. unfold mem. rewrite existsb_exists. split; [intros [x [A B]]; apply String.eqb_eq in B; now subst|intros H; exists s; split; [exact H|apply String.eqb_refl]]. Qed.
Lemma vectors_iff : forall ndim ks v, ndim = 2 \/ ndim = 3 -> In v (vectors ndim ks) <-> forall c, In c (components ndim) -> In (v ++ c)%string ks.
Proof.
  intros ndim ks v N. unfold vectors.
  assert (E : match ndim with 2 => ["x"; "y"] | _ => ["x"; "y"; "z"] end%string = components ndim) by (destruct N as [-> | ->]; reflexivity). rewrite E.
  assert (X : In "x"%string (components ndim)) by (destruct N as [-> | ->]; now left). clear E.
  rewrite in_flat_map. split.
  - intros [k [A B]]. destruct (strip_x k) as [r|]; [|contradiction]. destruct (forallb _ (components ndim)) eqn:F; [|contradiction]. destruct B as [<-|[]].
    rewrite forallb_forall in F. intros c Hc. apply mem_iff. now apply F.
  - intros H. exists (v ++ "x")%string. split; [now apply H|]. rewrite (proj2 (strip_x_iff (v ++ "x") v) eq_refl).
    replace (forallb (fun c => mem (v ++ c) ks) (components ndim)) with true; [now left|]. symmetry. apply forallb_forall. intros c Hc. apply mem_iff. now apply H.
Qed.

(** * C220 *)
(** 3D: all the files with the keys of the first one are described, and all the items are arrays of the files *)
Theorem c220_3d : forall f fs nx Lx ny Ly nz Lz, p_x f = Some (nx, Lx) -> p_y f = Some (ny, Ly) -> p_z f = Some (nz, Lz) -> (forall g, In g fs -> keys g = keys f) ->
  exists gs, create_description (f :: fs) = Done gs
   /\ Forall2 (describes 3 [nz; ny; nx] [(Lz / inject_Z (Z.of_nat nz))%Q; (Ly / inject_Z (Z.of_nat ny))%Q; (Lx / inject_Z (Z.of_nat nx))%Q]) (f :: fs) gs
   /\ (forall g a, In g gs -> In a (g_vectors g) -> length (v_items a) = 3 /\ forall i, In i (v_items a) -> refers (f :: fs) i)
   /\ (forall g k, In g gs -> In k (g_scalars g) -> refers (f :: fs) (snd k)).
Proof.
  intros f fs nx Lx ny Ly nz Lz Hx Hy Hz Hk. unfold create_description. rewrite Hx, Hy, Hz. eexists. split; [reflexivity|].
  assert (K : forall g, In g (f :: fs) -> keys g = keys f) by (intros g [<-|H]; [reflexivity|now apply Hk]).
  split; [|split].
  - induction (f :: fs) as [|g l IH]; cbn [map]; constructor; [|apply IH; intros h Hh; apply K; now right].
    assert (Kg : keys g = keys f) by (apply K; now left).
    split; [reflexivity|]. split; [reflexivity|]. split; [reflexivity|]. split; [reflexivity|]. split; [reflexivity|]. split; [cbn; now rewrite Kg|]. split.
    + intros v. cbn [grid_of g_vectors]. rewrite map_map. cbn [v_name]. rewrite map_id, Kg. apply vectors_iff. now right.
    + intros a Ha. cbn [grid_of g_vectors] in Ha. apply in_map_iff in Ha. destruct Ha as [v [<- _]]. split; [reflexivity|split; reflexivity].
  - intros g a Hg Ha. apply in_map_iff in Hg. destruct Hg as [h [<- Hh]]. cbn [grid_of g_vectors] in Ha. apply in_map_iff in Ha. destruct Ha as [v [<- Hv]].
    rewrite vectors_iff in Hv by (now right). split; [reflexivity|]. intros i Hi. exists h. split; [exact Hh|]. cbn [v_items] in Hi.
    destruct Hi as [<-|[<-|[<-|[]]]]; cbn [fst snd]; (split; [reflexivity|]); rewrite (K h Hh); apply Hv; cbn; tauto.
  - intros g k Hg Ha. apply in_map_iff in Hg. destruct Hg as [h [<- Hh]]. cbn [grid_of g_scalars] in Ha. apply in_map_iff in Ha. destruct Ha as [v [<- Hv]].
    exists h. split; [exact Hh|]. split; [reflexivity|]. cbn [fst snd]. now rewrite (K h Hh).
Qed.
(** 2D: the grids, the scalars and the two first items of the vectors *)
Theorem c220_2d_partial : forall f fs nx Lx ny Ly, p_x f = Some (nx, Lx) -> p_y f = Some (ny, Ly) -> p_z f = None -> (forall g, In g fs -> keys g = keys f) ->
  exists gs, create_description (f :: fs) = Done gs
   /\ Forall2 (describes 2 [ny; nx] [(Ly / inject_Z (Z.of_nat ny))%Q; (Lx / inject_Z (Z.of_nat nx))%Q]) (f :: fs) gs
   /\ (forall g a, In g gs -> In a (g_vectors g) -> forall i, In i (firstn 2 (v_items a)) -> refers (f :: fs) i)
   /\ (forall g k, In g gs -> In k (g_scalars g) -> refers (f :: fs) (snd k)).
Proof.
  intros f fs nx Lx ny Ly Hx Hy Hz Hk. unfold create_description. rewrite Hx, Hy, Hz. eexists. split; [reflexivity|].
  assert (K : forall g, In g (f :: fs) -> keys g = keys f) by (intros g [<-|H]; [reflexivity|now apply Hk]).
  split; [|split].
  - induction (f :: fs) as [|g l IH]; cbn [map]; constructor; [|apply IH; intros h Hh; apply K; now right].
    assert (Kg : keys g = keys f) by (apply K; now left).
    split; [reflexivity|]. split; [reflexivity|]. split; [reflexivity|]. split; [reflexivity|]. split; [reflexivity|]. split; [cbn; now rewrite Kg|]. split.
    + intros v. cbn [grid_of g_vectors]. rewrite map_map. cbn [v_name]. rewrite map_id, Kg. apply vectors_iff. now left.
    + intros a Ha. cbn [grid_of g_vectors] in Ha. apply in_map_iff in Ha. destruct Ha as [v [<- _]]. split; [reflexivity|split; reflexivity].
  - intros g a Hg Ha. apply in_map_iff in Hg. destruct Hg as [h [<- Hh]]. cbn [grid_of g_vectors] in Ha. apply in_map_iff in Ha. destruct Ha as [v [<- Hv]].
    rewrite vectors_iff in Hv by (now left). intros i Hi. exists h. split; [exact Hh|]. cbn [v_items firstn] in Hi.
    destruct Hi as [<-|[<-|[]]]; cbn [fst snd]; (split; [reflexivity|]); rewrite (K h Hh); apply Hv; cbn; tauto.
  - intros g k Hg Ha. apply in_map_iff in Hg. destruct Hg as [h [<- Hh]]. cbn [grid_of g_scalars] in Ha. apply in_map_iff in Ha. destruct Ha as [v [<- Hv]].
    exists h. split; [exact Hh|]. split; [reflexivity|]. cbn [fst snd]. now rewrite (K h Hh).
Qed.
(** 2D: the third item of the vectors is not in the files *)
Theorem c220_2d_refuted : exists f gs, p_z f = None /\ keys f = ["rot"; "ux"; "uy"]%string /\ create_description [f] = Done gs
  /\ exists g a i, In g gs /\ In a (g_vectors g) /\ In i (v_items a) /\ ~ refers [f] i.
Proof.
  exists {| name := "state_phys_t0000.000.nc"; p_x := Some (4%nat, 1%Q); p_y := Some (4%nat, 1%Q); p_z := None; keys := ["rot"; "ux"; "uy"]; time := 0 |}%string.
  eexists. split; [reflexivity|]. split; [reflexivity|]. split; [reflexivity|].
  eexists. eexists. exists ("state_phys_t0000.000.nc", "uz")%string. split; [now left|]. split; [now left|]. split; [cbn; tauto|].
  intros [f [[<-|[]] [_ H]]]. cbn in H. destruct H as [H|[H|[H|[]]]]; discriminate.
Qed.
(** 1D: there is always an error *)
Theorem c220_1d_refuted : exists f, p_x f = Some (4%nat, 1%Q) /\ (forall f fs, p_y f = None -> exists e, create_description (f :: fs) = Error e) /\ p_y f = None.
Proof.
  exists {| name := "state_phys_t0000.000.nc"; p_x := Some (4%nat, 1%Q); p_y := None; p_z := None; keys := ["s"]; time := 0 |}%string.
  split; [reflexivity|]. split; [|reflexivity]. intros f fs H. unfold create_description. rewrite H. destruct (p_x f); [|now exists KeyError]. destruct (p_z f); now exists Unbound.
Qed.
(** files with other keys: an item which is not in its file *)
Theorem c220_keys_refuted : exists f f' gs, create_description [f; f'] = Done gs /\ p_z f <> None /\ exists g k, In g gs /\ In k (g_scalars g) /\ ~ refers [f; f'] (snd k).
Proof.
  exists {| name := "a"; p_x := Some (4%nat, 1%Q); p_y := Some (4%nat, 1%Q); p_z := Some (4%nat, 1%Q); keys := ["b"; "vx"]; time := 0 |}%string,
    {| name := "c"; p_x := Some (4%nat, 1%Q); p_y := Some (4%nat, 1%Q); p_z := Some (4%nat, 1%Q); keys := ["vx"]; time := 1 |}%string.
  eexists. split; [reflexivity|]. split; [discriminate|]. eexists. exists ("b", ("c", "b"))%string. split; [right; now left|]. split; [now left|].
  intros [f [[<-|[<-|[]]] [E H]]]; [discriminate|]. cbn in H. destruct H as [H|[]]. discriminate.
Qed.
Theorem c220_no_file : create_description [] = Error NoFile.
Proof. reflexivity. Qed.
Example c220_ex : exists gs, create_description [ {| name := "a"; p_x := Some (4%nat, 1%Q); p_y := Some (4%nat, 1%Q); p_z := Some (8%nat, 2%Q); keys := ["b"; "vx"; "vy"; "vz"]; time := 0 |}%string ] = Done gs
  /\ map (fun g => map v_name (g_vectors g)) gs = [["v"%string]].
Proof. eexists. split; reflexivity. Qed.
Print Assumptions c220_3d.
Print Assumptions c220_2d_partial.
Print Assumptions c220_2d_refuted.
Print Assumptions c220_1d_refuted.
Print Assumptions c220_keys_refuted.
Print Assumptions c220_no_file.
