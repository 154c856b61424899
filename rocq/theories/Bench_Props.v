(** Properties of the console commands (C203-C208). *)
From Coq Require Import String Ascii List ZArith QArith Qround Bool Lia Permutation Sorted.
From Verif Require Import Bench_Model.
From Coq Require Import Qfield Lqa.
Import ListNotations.
Local Open Scope Q_scope.

(** * C203: the dimension and the shape of the benchmarks *)
Definition S2 : string := "2d".
Definition S3 : string := "3d".
(** a value given on the command line or the default one *)
Definition given (o : option Z) (default : Z) : Z := match o with Some x => x | None => default end.
Lemma with_dim_ok : forall d a r, with_dim d a = inr r ->
  (a_dim r = Some S3 /\ a_n2 r = Some (given (a_n2 a) (given (a_n0 a) 128)) /\ a_n0 r = Some (given (a_n0 a) 128)
    /\ a_n1 r = Some (given (a_n1 a) (given (a_n0 a) 128)) /\ a_solver r = Some match a_solver a with Some s => s | None => "ns3d"%string end)
  \/ (a_dim r = Some S2 /\ a_n2 r = a_n2 a /\ a_n0 r = Some (given (a_n0 a) 512)
    /\ a_n1 r = Some (given (a_n1 a) (given (a_n0 a) 512)) /\ a_solver r = Some match a_solver a with Some s => s | None => "ns2d"%string end).
Proof.
  intros d a r H. unfold with_dim in H. destruct a as [ad a0 a1 a2 asol]; cbn in H |- *.
  destruct (String.eqb (lower d) "3" || String.eqb (lower d) "3d").
  - left. destruct a0, a1, a2, asol; inversion H; cbn; auto.
  - destruct (String.eqb (lower d) "2" || String.eqb (lower d) "2d"); [|discriminate].
    right. destruct a0, a1, a2, asol; inversion H; cbn; auto.
Qed.
(** the values of the command line are kept, the other ones are the defaults
    (the same number in all directions) *)
Theorem c203_parsed : forall cn a r, parse_args_dim cn a = inr r ->
  (a_dim r = Some S3 /\ a_n2 r = Some (given (a_n2 a) (given (a_n0 a) 128)) /\ a_n0 r = Some (given (a_n0 a) 128)
    /\ a_n1 r = Some (given (a_n1 a) (given (a_n0 a) 128)) /\ a_solver r = Some match a_solver a with Some s => s | None => "ns3d"%string end)
  \/ (a_dim r = Some S2 /\ a_n2 r = a_n2 a /\ a_n0 r = Some (given (a_n0 a) 512)
    /\ a_n1 r = Some (given (a_n1 a) (given (a_n0 a) 512)) /\ a_solver r = Some match a_solver a with Some s => s | None => "ns2d"%string end).
Proof.
  intros cn a r H. unfold parse_args_dim in H.
  destruct (a_solver a) as [s|] eqn:Es.
  - destruct (get_dim_from_class_name (cn s)); [|discriminate]. apply with_dim_ok in H. now rewrite Es in H.
  - destruct (a_dim a) as [d|].
    + apply with_dim_ok in H. now rewrite Es in H.
    + destruct (is_some (a_n0 a) && is_some (a_n1 a) && negb (is_some (a_n2 a))); [apply with_dim_ok in H; now rewrite Es in H|].
      destruct (is_some (a_n0 a) && is_some (a_n1 a) && is_some (a_n2 a)); [apply with_dim_ok in H; now rewrite Es in H|discriminate].
Qed.
Example c203_parsed_ex : parse_args_dim (fun _ => "OperatorsPseudoSpectral3D"%string) {| a_dim := None; a_n0 := Some 64%Z; a_n1 := None; a_n2 := None; a_solver := Some "ns3d"%string |}
  = inr {| a_dim := Some S3; a_n0 := Some 64%Z; a_n1 := Some 64%Z; a_n2 := Some 64%Z; a_solver := Some "ns3d"%string |}.
Proof. reflexivity. Qed.
(** without solver and dimension: two numbers for 2D, three for 3D, an error otherwise *)
Theorem c203_guess : forall cn n0 n1 n2, let r := parse_args_dim cn {| a_dim := None; a_n0 := n0; a_n1 := n1; a_n2 := n2; a_solver := None |} in
  match n0, n1, n2 with
  | Some _, Some _, None => exists p, r = inr p /\ a_dim p = Some S2
  | Some _, Some _, Some _ => exists p, r = inr p /\ a_dim p = Some S3
  | _, _, _ => r = inl ConsoleError
  end.
Proof. intros cn [n0|] [n1|] [n2|] r; subst r; cbn; try reflexivity; eexists; split; reflexivity. Qed.
(** the dimension is the one of the solver, whatever the option -d *)
Theorem c203_solver : forall cn s d d' n0 n1 n2,
  parse_args_dim cn {| a_dim := d; a_n0 := n0; a_n1 := n1; a_n2 := n2; a_solver := Some s |}
  = parse_args_dim cn {| a_dim := d'; a_n0 := n0; a_n1 := n1; a_n2 := n2; a_solver := Some s |}.
Proof. reflexivity. Qed.
(** a name of operators with the digit 2 (3) only is of dimension 2 (3); the
    operators of the shallow-water solvers are of dimension 2 *)
Theorem c203_dim : forall name,
  (contains "2" name = true -> contains "0" name = false -> contains "1" name = false -> get_dim_from_class_name name = Some "2"%string)
  /\ (contains "3" name = true -> contains "0" name = false -> contains "1" name = false -> contains "2" name = false -> get_dim_from_class_name name = Some "3"%string)
  /\ get_dim_from_class_name "OperatorsPseudoSpectralSW1L" = Some "2"%string.
Proof.
  intros name. unfold get_dim_from_class_name. split; [|split].
  - intros A B C. rewrite A, B, C. now destruct (String.eqb name _).
  - intros A B C D. destruct (String.eqb_spec name "OperatorsPseudoSpectralSW1L") as [->|_]; [discriminate A|]. now rewrite A, B, C, D.
  - reflexivity.
Qed.
Example c203_dim_ex : get_dim_from_class_name "OperatorsPseudoSpectral2D" = Some "2"%string /\ get_dim_from_class_name "OperatorsPseudoSpectral3D" = Some "3"%string.
Proof. split; reflexivity. Qed.
(** the classes of FFT have the dimension of the benchmark if no third number
    is given for a 2D solver *)
Theorem c203_fft_partial : forall cn a r, parse_args_dim cn a = inr r ->
  (a_dim r = Some S3 -> forall d, d <> Some S2 -> get_opfft_dim (a_n2 r) d = Some 3%nat)
  /\ (a_dim r = Some S2 -> a_n2 a = None -> forall d, get_opfft_dim (a_n2 r) d = Some 2%nat)
  /\ (a_dim r = Some S2 -> get_opfft_dim (a_n2 r) (a_dim r) = Some 2%nat).
Proof.
  intros cn a r H. apply c203_parsed in H. split; [|split].
  - intros E d nd. destruct H as [[_ [H _]]|[H _]]; [|rewrite E in H; discriminate]. rewrite H. unfold get_opfft_dim. cbn.
    destruct d as [d|]; [|reflexivity]. destruct (String.eqb_spec d "2d") as [->|_]; [now contradiction nd|reflexivity].
  - intros E N d. destruct H as [[H _]|[_ [H _]]]; [rewrite E in H; discriminate|]. now rewrite H, N.
  - intros E. rewrite E. unfold get_opfft_dim. cbn. now rewrite orb_true_r.
Qed.
(** a third number is kept for a 2D solver: the commands which do not give the
    dimension take the 3D classes of FFT *)
Theorem c203_refuted : exists cn a r, parse_args_dim cn a = inr r /\ a_dim r = Some S2 /\ a_n2 r <> None /\ get_opfft_dim (a_n2 r) None = Some 3%nat.
Proof.
  exists (fun _ => "OperatorsPseudoSpectral2D"%string), {| a_dim := None; a_n0 := Some 64%Z; a_n1 := Some 64%Z; a_n2 := Some 64%Z; a_solver := Some "ns2d"%string |}.
  eexists. split; [reflexivity|]. cbn. split; [reflexivity|]. split; [discriminate|reflexivity].
Qed.

(** * C204: the box of the benchmarks *)
(** the mesh sizes *)
Definition square (b : box) (nx ny : Z) : Prop := Lx b / inject_Z nx == Ly b / inject_Z ny.
Lemma inject_nz : forall n, (0 < n)%Z -> ~ inject_Z n == 0.
Proof. intros n H. unfold Qeq. cbn. lia. Qed.
(** 2D: from a square box, square cells and no side decreases *)
Theorem c204_2d : forall L lz n0 n1, (0 < n0)%Z -> (0 < n1)%Z -> 0 < L ->
  let b := modif_box_size {| Lx := L; Ly := L; Lz := lz |} n0 n1 None in
  square b n1 n0 /\ L <= Lx b /\ L <= Ly b /\ (Lx b == L \/ Ly b == L).
Proof.
  intros L lz n0 n1 H0 H1 HL b. pose proof (inject_nz _ H0) as N0. pose proof (inject_nz _ H1) as N1. subst b. unfold modif_box_size, square.
  destruct (Z.eqb_spec n1 n0) as [->|ne]; cbn.
  - split; [reflexivity|]. split; [lra|]. split; [lra|left; lra].
  - destruct (Z.ltb_spec n1 n0) as [l|l]; cbn.
    + split; [field; auto|]. split; [lra|]. split; [|left; lra].
      setoid_replace L with (L * inject_Z n1 / inject_Z n1) at 1 by (field; auto). unfold Qdiv. apply Qmult_le_compat_r.
      * rewrite (Qmult_comm L), (Qmult_comm L). apply Qmult_le_compat_r; [|lra]. rewrite <- Zle_Qle. lia.
      * apply Qinv_le_0_compat. change 0 with (inject_Z 0). rewrite <- Zle_Qle. lia.
    + split; [field; auto|]. split; [|split; [lra|right; lra]].
      setoid_replace L with (L * inject_Z n0 / inject_Z n0) at 1 by (field; auto). unfold Qdiv. apply Qmult_le_compat_r.
      * rewrite (Qmult_comm L), (Qmult_comm L). apply Qmult_le_compat_r; [|lra]. rewrite <- Zle_Qle. lia.
      * apply Qinv_le_0_compat. change 0 with (inject_Z 0). rewrite <- Zle_Qle. lia.
Qed.
Example c204_2d_ex : let b := modif_box_size {| Lx := 3; Ly := 3; Lz := 1 |} 64 128 None in Lx b == 6 /\ Ly b == 3.
Proof. split; reflexivity. Qed.
(** 3D: cubic cells, except if n0 = n2 > n1 *)
Theorem c204_3d_partial : forall L n0 n1 n2, (0 < n0)%Z -> (0 < n1)%Z -> (0 < n2)%Z -> (n0 = n2 -> n2 <= n1)%Z ->
  let b := modif_box_size {| Lx := L; Ly := L; Lz := L |} n0 n1 (Some n2) in
  square b n2 n1 /\ Lz b / inject_Z n0 == Lx b / inject_Z n2.
Proof.
  intros L n0 n1 n2 H0 H1 H2 C b. pose proof (inject_nz _ H0) as N0. pose proof (inject_nz _ H1) as N1. pose proof (inject_nz _ H2) as N2.
  subst b. unfold modif_box_size, square.
  destruct (Z.eqb_spec n2 n1) as [->|ne]; cbn; (destruct (Z.eqb_spec n1 n0) as [e|ne'] || idtac);
    repeat match goal with |- context [(?a =? ?b)%Z] => destruct (Z.eqb_spec a b) as [?e|?e] | |- context [(?a <? ?b)%Z] => destruct (Z.ltb_spec a b) as [?l|?l] end; cbn;
    try (exfalso; lia); subst; try lia; split; try reflexivity; try (field; auto).
Qed.
Example c204_3d_ex : let b := modif_box_size {| Lx := 3; Ly := 3; Lz := 3 |} 64 128 (Some 256%Z) in Lx b == 6 /\ Ly b == 3 /\ Lz b == 3 # 2.
Proof. split; [reflexivity|split; reflexivity]. Qed.
(** as many points in z as in x and less in y: Lx is enlarged but not Lz *)
Theorem c204_3d_refuted : exists n0 n1 n2, (0 < n0)%Z /\ (0 < n1)%Z /\ (0 < n2)%Z /\ forall L, 0 < L ->
  let b := modif_box_size {| Lx := L; Ly := L; Lz := L |} n0 n1 (Some n2) in
  ~ (Lz b / inject_Z n0 == Lx b / inject_Z n2).
Proof.
  exists 128%Z, 64%Z, 128%Z. split; [lia|]. split; [lia|]. split; [lia|]. intros L HL. cbn.
  change (inject_Z 128) with 128. change (inject_Z 64) with 64. unfold Qdiv. change (/ 128) with (1 # 128). change (/ 64) with (1 # 64). lra.
Qed.

(** * C205: the shapes for the weak scaling *)
Lemma int_log_spec : forall fuel b x, (2 <= b)%Z -> (1 <= x)%Z -> (x <= Z.of_nat fuel)%Z ->
  let k := int_log fuel b x in (b ^ Z.of_nat k <= x < b ^ (Z.of_nat k + 1))%Z.
Proof.
  induction fuel as [|f IH]; intros b x Hb Hx Hf k; subst k; [lia|]. cbn [int_log].
  destruct (Z.ltb_spec x b) as [l|l].
  - cbn [Z.of_nat]. rewrite Z.pow_0_r, Z.add_0_l, Z.pow_1_r. lia.
  - assert (D : (1 <= x / b)%Z) by (apply Z.div_le_lower_bound; lia).
    assert (D' : (x / b < x)%Z) by (apply Z.div_lt; lia).
    specialize (IH b (x / b)%Z Hb D ltac:(lia)). cbn zeta in IH. set (k := int_log f b (x / b)) in *.
    pose proof (Z.div_mod x b ltac:(lia)). pose proof (Z.mod_pos_bound x b ltac:(lia)).
    rewrite Nat2Z.inj_succ. unfold Z.succ. rewrite !Z.pow_add_r, Z.pow_1_r by lia.
    rewrite Z.pow_add_r, Z.pow_1_r in IH by lia. set (p := (b ^ Z.of_nat k)%Z) in *. nia.
Qed.
Lemma last_map_seq : forall (f : nat -> Z) k d, (0 < k)%nat -> last (map f (seq 1 k)) d = f k.
Proof.
  intros f k d H. destruct k as [|k]; [lia|]. rewrite seq_S, map_app. cbn [map]. rewrite last_last. f_equal; lia.
Qed.
(** the numbers of processes are the powers of nproc_min from nproc_min to the
    largest one below nproc_max; otherwise an error *)
Theorem c205_nproc : forall n0 n1 n2 b m, (2 <= b)%Z ->
  match estimate_shapes n0 n1 n2 b m with
  | inl e => e = ValueError /\ ((m <= b)%Z \/ (m mod b <> 0)%Z)
  | inr l => (b < m)%Z /\ (m mod b = 0)%Z /\ exists k, (1 <= k)%nat /\ (b ^ Z.of_nat k <= m < b ^ (Z.of_nat k + 1))%Z /\ map fst l = map (fun i => b ^ Z.of_nat i)%Z (seq 1 k)
  end.
Proof.
  intros n0 n1 n2 b m Hb. unfold estimate_shapes.
  destruct (Z.leb_spec m b) as [l|l]; [split; [reflexivity|left; exact l]|].
  destruct (Z.eqb_spec (m mod b) 0) as [e|ne]; cbn [negb]; [|split; [reflexivity|right; exact ne]].
  split; [exact l|]. split; [exact e|]. exists (int_log (Z.to_nat m) b m).
  pose proof (int_log_spec (Z.to_nat m) b m Hb ltac:(lia) ltac:(lia)) as S. cbn zeta in S.
  split; [|split; [exact S|]].
  - destruct (int_log (Z.to_nat m) b m); [|lia]. cbn [Z.of_nat] in S. rewrite Z.add_0_l, Z.pow_1_r in S. lia.
  - rewrite map_map. cbn [fst]. rewrite map_id. reflexivity.
Qed.
Example c205_nproc_ex : estimate_shapes 64 128 None 2 12 = inr [(2, [64; 32]); (4, [64; 64]); (8, [64; 128])]%Z.
Proof. reflexivity. Qed.
(** 2D: the number of points is proportional to the number of processes (if the
    size of the second axis is a multiple of the largest number of processes) *)
Theorem c205_2d : forall n0 n1 b m l, (2 <= b)%Z -> estimate_shapes n0 n1 None b m = inr l ->
  forall pmax, pmax = last (map fst l) 0%Z -> (n1 mod pmax = 0)%Z ->
  forall p s, In (p, s) l -> exists m1, s = [n0; m1] /\ (m1 * pmax = n1 * p)%Z.
Proof.
  intros n0 n1 b m l Hb E pmax Hp Hd p s Hin.
  pose proof (c205_nproc n0 n1 None b m Hb) as C. rewrite E in C. destruct C as [_ [_ [k [Hk [_ Hl]]]]].
  assert (Hpm : pmax = (b ^ Z.of_nat k)%Z) by (rewrite Hp, Hl; apply (last_map_seq (fun i => b ^ Z.of_nat i)%Z); lia).
  assert (Hpi : In p (map fst l)) by (apply in_map_iff; exists (p, s); auto).
  rewrite Hl in Hpi. apply in_map_iff in Hpi. destruct Hpi as [i [Hi Hs]]. apply in_seq in Hs.
  unfold estimate_shapes in E. destruct (m <=? b)%Z; [discriminate|]. destruct (negb (m mod b =? 0)%Z); [discriminate|].
  assert (El : l = map (fun nproc => (nproc, [n0; (n1 / (last (nproc_gp b m) 0 / nproc))%Z])) (nproc_gp b m)) by congruence.
  assert (Hg : nproc_gp b m = map (fun i => b ^ Z.of_nat i)%Z (seq 1 k)).
  { rewrite <- Hl, El, map_map. cbn [fst]. now rewrite map_id. }
  assert (Hlast : last (nproc_gp b m) 0%Z = pmax) by (rewrite Hg, (last_map_seq (fun i => b ^ Z.of_nat i)%Z) by lia; now rewrite Hpm).
  rewrite El, Hlast in Hin. apply in_map_iff in Hin. destruct Hin as [p' [Heq _]].
  assert (p' = p) by congruence. subst p'. assert (s = [n0; (n1 / (pmax / p))%Z]) as -> by congruence.
  eexists. split; [reflexivity|].
  assert (Hf : pmax = (p * b ^ Z.of_nat (k - i))%Z).
  { rewrite Hpm, <- Hi, <- Z.pow_add_r by lia. f_equal. lia. }
  assert (Hp0 : (0 < p)%Z) by (rewrite <- Hi; apply Z.pow_pos_nonneg; lia).
  assert (Hq0 : (0 < b ^ Z.of_nat (k - i))%Z) by (apply Z.pow_pos_nonneg; lia).
  set (q := (b ^ Z.of_nat (k - i))%Z) in *. rewrite Hf. rewrite (Z.mul_comm p q), Z.div_mul by lia.
  assert (Hn : exists c, n1 = (c * pmax)%Z) by (exists (n1 / pmax)%Z; pose proof (Z.div_mod n1 pmax ltac:(nia)); lia).
  destruct Hn as [c Hn]. rewrite Hn, Hf. replace (c * (p * q))%Z with (c * p * q)%Z by ring. rewrite Z.div_mul by lia. ring.
Qed.
Example c205_2d_ex : exists l, estimate_shapes 64 128 None 2 8 = inr l /\ (128 mod last (map fst l) 0 = 0)%Z.
Proof. eexists. split; reflexivity. Qed.
(** the largest number of processes has the given shape *)
Theorem c205_2d_max : forall n0 n1 b m l, (2 <= b)%Z -> estimate_shapes n0 n1 None b m = inr l -> In (last (map fst l) 0%Z, [n0; n1]) l.
Proof.
  intros n0 n1 b m l Hb E.
  pose proof (c205_nproc n0 n1 None b m Hb) as C. rewrite E in C. destruct C as [_ [_ [k [Hk [_ Hl]]]]].
  unfold estimate_shapes in E. destruct (m <=? b)%Z; [discriminate|]. destruct (negb (m mod b =? 0)%Z); [discriminate|].
  assert (El : l = map (fun nproc => (nproc, [n0; (n1 / (last (nproc_gp b m) 0 / nproc))%Z])) (nproc_gp b m)) by congruence.
  assert (Hg : nproc_gp b m = map (fun i => b ^ Z.of_nat i)%Z (seq 1 k)).
  { rewrite <- Hl, El, map_map. cbn [fst]. now rewrite map_id. }
  assert (Hlast : last (nproc_gp b m) 0%Z = (b ^ Z.of_nat k)%Z) by (rewrite Hg; apply (last_map_seq (fun i => b ^ Z.of_nat i)%Z); lia).
  rewrite Hl, (last_map_seq (fun i => b ^ Z.of_nat i)%Z) by lia. rewrite El, Hlast, Hg. apply in_map_iff. exists (b ^ Z.of_nat k)%Z. split.
  - rewrite Z.div_same by (pose proof (Z.pow_pos_nonneg b (Z.of_nat k)); lia). now rewrite Z.div_1_r.
  - apply in_map_iff. exists k. split; [reflexivity|apply in_seq; lia].
Qed.
(** 3D: the third size is missing, the same two numbers for all the numbers of
    processes *)
Theorem c205_3d_same : forall n0 n1 n2 b m l p s, estimate_shapes n0 n1 (Some n2) b m = inr l -> In (p, s) l -> s = [n0; n1].
Proof.
  intros n0 n1 n2 b m l p s E H. unfold estimate_shapes in E. destruct (m <=? b)%Z; [discriminate|]. destruct (negb (m mod b =? 0)%Z); [discriminate|].
  assert (El : l = map (fun nproc => (nproc, [n0; n1])) (nproc_gp b m)) by (unfold format2 in E; cbn [firstn] in E; congruence).
  rewrite El in H. apply in_map_iff in H. destruct H as [q [Hq _]]. congruence.
Qed.
Theorem c205_3d_refuted : exists n0 n1 n2 b m l, (2 <= b)%Z /\ estimate_shapes n0 n1 (Some n2) b m = inr l /\ (n2 mod last (map fst l) 0 = 0)%Z
  /\ exists p s p' s', In (p, s) l /\ In (p', s') l /\ length s <> 3%nat /\ (p' * fold_right Z.mul 1 s <> p * fold_right Z.mul 1 s')%Z.
Proof.
  exists 64%Z, 64%Z, 64%Z, 2%Z, 4%Z. eexists. split; [lia|]. split; [reflexivity|]. split; [reflexivity|].
  exists 2%Z, [64; 64]%Z, 4%Z, [64; 64]%Z. split; [left; reflexivity|]. split; [right; left; reflexivity|]. split; [discriminate|]. cbn. discriminate.
Qed.

(** * C206: loading the benchmarks *)
Lemma append_assoc : forall a b c : string, ((a ++ b) ++ c = a ++ (b ++ c))%string.
Proof. induction a as [|x a IH]; intros b c; cbn; [reflexivity|]. now rewrite IH. Qed.
Lemma prefix_app : forall p s, prefix p (p ++ s) = true.
Proof. induction p as [|x p IH]; intros s; cbn; [now destruct s|]. destruct (ascii_dec x x) as [_|n]; [apply IH|now contradiction n]. Qed.
Lemma prefix_ex : forall p s, prefix p s = true -> exists r, s = (p ++ r)%string.
Proof.
  induction p as [|x p IH]; intros s H; [now exists s|]. destruct s as [|y s]; [discriminate|]. cbn in H.
  destruct (ascii_dec x y) as [->|]; [|discriminate]. apply IH in H. destruct H as [r ->]. now exists r.
Qed.
Lemma drop_app : forall p s, drop (String.length p) (p ++ s) = s.
Proof. induction p as [|x p IH]; intros s; cbn; [now destruct s|apply IH]. Qed.
Lemma endswith_app : forall s suf, endswith suf (s ++ suf) = true.
Proof.
  induction s as [|x s IH]; intros suf; cbn [append].
  - destruct suf; cbn [endswith]; [reflexivity|]. now rewrite String.eqb_refl.
  - cbn [endswith]. rewrite IH. apply orb_true_r.
Qed.
Lemma prefix_cancel : forall p s t, prefix (p ++ s) (p ++ t) = prefix s t.
Proof. induction p as [|x p IH]; intros s t; cbn; [reflexivity|]. destruct (ascii_dec x x) as [_|n]; [apply IH|now contradiction n]. Qed.
Lemma glob_own : forall key rest, glob_match key (file_name {| r_key_solver := key; r_hostname := ""; r_rest := rest |}) = true.
Proof.
  intros key rest. unfold glob_match, file_name. cbn [r_key_solver r_rest]. rewrite <- (append_assoc "result_bench_" key). rewrite prefix_app. cbn [andb].
  rewrite drop_app. rewrite <- !append_assoc. apply endswith_app.
Qed.
(** all the results of the solver (and of the host) are loaded *)
Theorem c206_all : forall results solver hostname r, In r results -> r_key_solver r = short_solver solver ->
  hostname = "any"%string \/ (exists rest, r_hostname r = (hostname ++ rest)%string) -> In r (load_bench results solver hostname).
Proof.
  intros results solver hostname r Hr Hk Hh. unfold load_bench. apply filter_In. split; [exact Hr|].
  assert (G : glob_match (short_solver solver) (file_name r) = true).
  { rewrite <- Hk. destruct r as [key host rest]. cbn [r_key_solver]. pose proof (glob_own key rest) as G. unfold file_name in *. cbn [r_key_solver r_rest] in *. exact G. }
  rewrite G. cbn [andb]. destruct Hh as [->|[rest ->]]; [reflexivity|]. rewrite prefix_app. apply orb_true_r.
Qed.
Example c206_all_ex : let r := {| r_key_solver := "ns2d"; r_hostname := "cl7"; r_rest := "64x64_np=2" |} in load_bench [r] "fluidsim.ns2d" "cl" = [r].
Proof. reflexivity. Qed.
(** the loaded results are those of the host(s) and of solvers whose names (and
    the rest of the name of the file) start with the key *)
Theorem c206_start_partial : forall results solver hostname r, In r (load_bench results solver hostname) ->
  In r results /\ prefix (short_solver solver) (r_key_solver r ++ "_" ++ r_rest r ++ ".json") = true
  /\ (hostname = "any"%string \/ prefix hostname (r_hostname r) = true).
Proof.
  intros results solver hostname r H. unfold load_bench in H. apply filter_In in H. destruct H as [Hr H]. apply andb_true_iff in H. destruct H as [G H].
  split; [exact Hr|]. split.
  - unfold glob_match in G. apply andb_true_iff in G. destruct G as [G _]. unfold file_name in G. now rewrite prefix_cancel in G.
  - apply orb_true_iff in H. destruct H as [H|H]; [left; now apply String.eqb_eq|right; exact H].
Qed.
(** a key after "fluidsim." *)
Theorem c206_short : forall s, short_solver ("fluidsim." ++ s) = s.
Proof. intros s. reflexivity. Qed.
(** the results of another solver are loaded too, and those of some solvers
    are not found with their keys *)
Theorem c206_refuted : exists results r, load_bench results "ns2d" "any" = results /\ In r results /\ r_key_solver r = "ns2d.strat"%string.
Proof.
  exists [{| r_key_solver := "ns2d.strat"; r_hostname := "cl7"; r_rest := "64x64_np=2_mpi-with-fftw1d_2024" |}]. eexists. split; [reflexivity|]. split; [left; reflexivity|reflexivity].
Qed.
Theorem c206_key_refuted : exists results r, r_key_solver r = lower "SW1Lexlin" /\ In r results /\ load_bench results "sw1l.exactlin" "any" = [].
Proof.
  exists [{| r_key_solver := "sw1lexlin"; r_hostname := "cl7"; r_rest := "64x64_np=2_mpi-with-fftw1d_2024" |}]. eexists. split; [|split; [left; reflexivity|reflexivity]]. reflexivity.
Qed.

(** * C207: the scaling *)
Lemma insert_in : forall x y l, In y (insert x l) <-> y = x \/ In y l.
Proof.
  intros x y. induction l as [|z l IH]; cbn; [intuition congruence|]. destruct (Qle_bool x z); cbn; [intuition congruence|]. rewrite IH. intuition congruence.
Qed.
Lemma sort_in : forall y l, In y (sort l) <-> In y l.
Proof. intros y. induction l as [|x l IH]; cbn; [tauto|]. unfold sort in *. cbn. rewrite insert_in, IH. intuition congruence. Qed.
Lemma insert_length : forall x l, length (insert x l) = S (length l).
Proof. intros x. induction l as [|y l IH]; cbn; [reflexivity|]. destruct (Qle_bool x y); cbn; [reflexivity|now rewrite IH]. Qed.
Lemma sort_length : forall l, length (sort l) = length l.
Proof. induction l as [|x l IH]; [reflexivity|]. unfold sort in *. cbn. now rewrite insert_length, IH. Qed.
Lemma quantile_pos : forall q n, 0 <= q -> q <= 1 -> (1 <= n)%nat ->
  let pos := q * inject_Z (Z.of_nat n - 1) in (Z.to_nat (Qfloor pos) < n)%nat /\ 0 <= pos - inject_Z (Qfloor pos) /\ pos - inject_Z (Qfloor pos) <= 1.
Proof.
  intros q n H0 H1 Hn pos.
  assert (P : 0 <= inject_Z (Z.of_nat n - 1)) by (change 0 with (inject_Z 0); rewrite <- Zle_Qle; lia).
  assert (P0 : 0 <= pos) by (apply Qmult_le_0_compat; assumption).
  assert (P1 : pos <= inject_Z (Z.of_nat n - 1)) by (subst pos; setoid_replace (inject_Z (Z.of_nat n - 1)) with (1 * inject_Z (Z.of_nat n - 1)) at 2 by ring; apply Qmult_le_compat_r; assumption).
  pose proof (Qfloor_le pos) as F. pose proof (Qlt_floor pos) as G. rewrite inject_Z_plus in G. change (inject_Z 1) with 1 in G.
  split; [|split; lra].
  assert (A : (Qfloor pos <= Z.of_nat n - 1)%Z) by (rewrite Zle_Qle; lra). lia.
Qed.
(** the time of a group is between the extreme times of its runs *)
Theorem c207_quantile : forall l lo hi, l <> [] -> (forall x, In x l -> lo <= x /\ x <= hi) -> lo <= quantile (1 # 5) l /\ quantile (1 # 5) l <= hi.
Proof.
  intros l lo hi Hl H. assert (Hn : (1 <= length l)%nat) by (destruct l; [contradiction|cbn; lia]).
  destruct (quantile_pos (1 # 5) (length l) ltac:(lra) ltac:(lra) Hn) as [I [F0 F1]]. unfold quantile. cbn zeta in *.
  set (pos := (1 # 5) * inject_Z (Z.of_nat (length l) - 1)) in *. set (i := Z.to_nat (Qfloor pos)) in *. set (f := pos - inject_Z (Qfloor pos)) in *. clearbody f i.
  assert (A : In (nth i (sort l) 0) l) by (rewrite <- sort_in; apply nth_In; rewrite sort_length; exact I).
  set (a := nth i (sort l) 0) in *.
  assert (B : In (nth (S i) (sort l) a) l).
  { destruct (Nat.lt_ge_cases (S i) (length (sort l))) as [L|L]; [rewrite <- sort_in; now apply nth_In|]. rewrite nth_overflow by exact L. exact A. }
  set (b := nth (S i) (sort l) a) in *. clearbody a b. apply H in A, B. nra.
Qed.
Example c207_quantile_ex : quantile (1 # 5) [3; 1; 2] == 7 # 5.
Proof. reflexivity. Qed.
(** the sorted list of the runs *)
Lemma insert_perm : forall x l, Permutation (x :: l) (insert x l).
Proof. intros x. induction l as [|y l IH]; cbn; [reflexivity|]. destruct (Qle_bool x y); [reflexivity|]. rewrite perm_swap. now constructor. Qed.
Lemma sort_perm : forall l, Permutation l (sort l).
Proof. induction l as [|x l IH]; [constructor|]. change (sort (x :: l)) with (insert x (sort l)). rewrite <- insert_perm. now constructor. Qed.
Lemma insert_sorted : forall x l, StronglySorted Qle l -> StronglySorted Qle (insert x l).
Proof.
  intros x. induction l as [|y l IH]; intros H; cbn; [constructor; constructor|]. inversion H as [|a b S F]; subst. rewrite Forall_forall in F. destruct (Qle_bool x y) eqn:E.
  - apply Qle_bool_iff in E. constructor; [exact H|]. rewrite Forall_forall. intros z [<-|Hz]; [exact E|]. specialize (F z Hz). lra.
  - assert (N : y < x) by (apply Qnot_le_lt; intros N; apply Qle_bool_iff in N; congruence). constructor; [now apply IH|]. rewrite Forall_forall. intros z Hz. apply insert_in in Hz. destruct Hz as [->|Hz]; [lra|now apply F].
Qed.
Lemma sort_sorted : forall l, StronglySorted Qle (sort l).
Proof. induction l as [|x l IH]; [constructor|]. change (sort (x :: l)) with (insert x (sort l)). now apply insert_sorted. Qed.
(** with 5 k + 1 runs the time of the group is the one of the run of rank k, and it is
    interpolated between the ranks otherwise *)
Theorem c207_rank : forall l, exists s, Permutation l s /\ StronglySorted Qle s
  /\ forall k j, (j < 5)%nat -> length l = (5 * k + j + 1)%nat -> quantile (1 # 5) l == nth k s 0 + (Z.of_nat j # 5) * (nth (S k) s (nth k s 0) - nth k s 0).
Proof.
  intros l. exists (sort l). split; [apply sort_perm|]. split; [apply sort_sorted|]. intros k j Hj Hl. unfold quantile. cbn zeta.
  assert (F : Qfloor ((1 # 5) * inject_Z (Z.of_nat (length l) - 1)) = Z.of_nat k).
  { unfold Qfloor, Qmult, inject_Z. cbn [Qnum Qden]. rewrite Pos.mul_1_r. symmetry. apply Z.div_unique with (Z.of_nat j); lia. }
  rewrite F, Nat2Z.id.
  assert (D : (1 # 5) * inject_Z (Z.of_nat (length l) - 1) - inject_Z (Z.of_nat k) == Z.of_nat j # 5).
  { unfold Qeq, Qminus, Qplus, Qopp, Qmult, inject_Z. cbn [Qnum Qden]. rewrite Hl. lia. }
  rewrite D. reflexivity.
Qed.
Example c207_rank_ex : quantile (1 # 5) [6; 5; 4; 3; 2; 1] == 2 /\ quantile (1 # 5) [2; 1] == 6 # 5.
Proof. split; reflexivity. Qed.
(** the runs of a group are those with the same type of fft and number of processes *)
Theorem c207_group : forall rows name np, exists s, Permutation (map w_t (filter (fun r => if string_dec (w_fft r) name then if Z.eq_dec (w_np r) np then true else false else false) rows)) s /\ StronglySorted Qle s
  /\ forall k j, (j < 5)%nat -> length s = (5 * k + j + 1)%nat -> group_time rows name np == nth k s 0 + (Z.of_nat j # 5) * (nth (S k) s (nth k s 0) - nth k s 0).
Proof.
  intros rows name np. unfold group_time. set (l := map w_t (filter (in_group name np) rows)). destruct (c207_rank l) as [s [P [S Q]]]. exists s. split; [|split; [exact S|]].
  - replace (map w_t _) with l; [exact P|]. unfold l. f_equal. apply filter_ext. intros r. unfold in_group. destruct (string_dec (w_fft r) name) as [->|n].
    + rewrite String.eqb_refl. destruct (Z.eq_dec (w_np r) np) as [->|n]; [now rewrite Z.eqb_refl|]. now apply Z.eqb_neq in n as ->.
    + now apply String.eqb_neq in n as ->.
  - intros k j Hj Hl. apply Q; [exact Hj|]. now rewrite (Permutation_length P).
Qed.
(** a single run: its time *)
Theorem c207_single : forall x, quantile (1 # 5) [x] == x.
Proof. intros x. unfold quantile. cbn [length Z.of_nat]. change (1 # 5) with (1 # 5). cbn. ring. Qed.
(** it is not the median (docstring of group_df) *)
Definition median3 (a b c m : Q) : Prop := a <= b -> b <= c -> m == b.
Theorem c207_median_refuted : exists a b c, ~ median3 a b c (quantile (1 # 5) [a; b; c]).
Proof. exists 1, 2, 3. intros H. specialize (H ltac:(lra) ltac:(lra)). discriminate H. Qed.

Lemma fold_min_le : forall l n, (fold_left Z.min l n <= n)%Z /\ (forall x, In x l -> fold_left Z.min l n <= x)%Z /\ (fold_left Z.min l n = n \/ In (fold_left Z.min l n) l).
Proof.
  induction l as [|y l IH]; intros n; cbn; [split; [lia|split; [tauto|auto]]|].
  destruct (IH (Z.min n y)) as [A [B C]]. split; [lia|]. split.
  - intros x [->|Hx]; [lia|now apply B].
  - destruct C as [C|C]; [|auto]. rewrite C. destruct (Z.min_spec n y) as [[_ ->]|[_ ->]]; auto.
Qed.
Theorem c207_nb_min : forall rows, rows <> [] -> (forall r, In r rows -> (nb_proc_min rows <= w_np r)%Z) /\ exists r, In r rows /\ w_np r = nb_proc_min rows.
Proof.
  intros rows H. unfold nb_proc_min. destruct rows as [|r0 rows]; [contradiction|]. cbn [map]. destruct (fold_min_le (map w_np rows) (w_np r0)) as [A [B C]]. split.
  - intros r [->|Hr]; [exact A|]. apply B. now apply in_map.
  - destruct C as [C|C]; [exists r0; split; [now left|auto]|]. apply in_map_iff in C. destruct C as [r [E Hr]]. exists r. split; [now right|exact E].
Qed.
Lemma qmin_spec : forall a b, qmin a b <= a /\ qmin a b <= b /\ (qmin a b = a \/ qmin a b = b).
Proof.
  intros a b. unfold qmin. destruct (Qle_bool a b) eqn:E; [apply Qle_bool_iff in E; split; [lra|split; [lra|auto]]|].
  assert (N : ~ a <= b) by (intros N; apply Qle_bool_iff in N; congruence). apply Qnot_le_lt in N. split; [lra|split; [lra|auto]].
Qed.
Lemma fold_qmin : forall l n, fold_left qmin l n <= n /\ (forall x, In x l -> fold_left qmin l n <= x) /\ (fold_left qmin l n = n \/ In (fold_left qmin l n) l).
Proof.
  induction l as [|y l IH]; intros n; cbn; [split; [lra|split; [tauto|auto]]|].
  destruct (IH (qmin n y)) as [A [B C]]. destruct (qmin_spec n y) as [D [E F]]. split; [lra|]. split.
  - intros x [->|Hx]; [lra|now apply B].
  - destruct C as [C|C]; [|auto]. rewrite C. destruct F as [->| ->]; auto.
Qed.
Lemma list_min_spec : forall l, l <> [] -> (forall x, In x l -> list_min l <= x) /\ In (list_min l) l.
Proof.
  intros [|x l] H; [contradiction|]. unfold list_min. destruct (fold_qmin l x) as [A [B C]]. split.
  - intros y [->|Hy]; [exact A|now apply B].
  - destruct C as [C|C]; [left; congruence|now right].
Qed.
Lemma names_at_in : forall rows np name, In name (names_at rows np) <-> exists r, In r rows /\ w_np r = np /\ w_fft r = name.
Proof.
  intros rows np name. unfold names_at. rewrite nodup_In, in_map_iff. split.
  - intros [r [E H]]. apply filter_In in H. destruct H as [H N]. apply Z.eqb_eq in N. eauto.
  - intros [r [H [N E]]]. exists r. split; [exact E|]. apply filter_In. split; [exact H|now apply Z.eqb_eq].
Qed.
(** the best time: the smallest time of the groups with the fewest processes *)
Theorem c207_best : forall rows, rows <> [] -> let m := nb_proc_min rows in
  (forall r, In r rows -> w_np r = m -> best_time rows <= group_time rows (w_fft r) m)
  /\ exists r, In r rows /\ w_np r = m /\ best_time rows = group_time rows (w_fft r) m.
Proof.
  intros rows H m. destruct (c207_nb_min rows H) as [_ [r0 [H0 E0]]]. unfold best_time. fold m.
  assert (NE : map (fun name => group_time rows name m) (names_at rows m) <> []).
  { intros N. apply map_eq_nil in N. assert (I : In (w_fft r0) (names_at rows m)) by (apply names_at_in; eauto). rewrite N in I. contradiction. }
  destruct (list_min_spec _ NE) as [A B]. split.
  - intros r Hr Er. apply A. apply in_map_iff. exists (w_fft r). split; [reflexivity|apply names_at_in; eauto].
  - apply in_map_iff in B. destruct B as [name [E I]]. apply names_at_in in I. destruct I as [r [Hr [Er En]]]. exists r. rewrite En. auto.
Qed.
Lemma group_pos : forall rows r, In r rows -> (forall r, In r rows -> 0 < w_t r) -> 0 < group_time rows (w_fft r) (w_np r).
Proof.
  intros rows r Hr Hp. unfold group_time. set (l := map w_t (filter (in_group (w_fft r) (w_np r)) rows)).
  assert (I : In (w_t r) l).
  { apply in_map. apply filter_In. split; [exact Hr|]. unfold in_group. now rewrite String.eqb_refl, Z.eqb_refl. }
  assert (P : forall x, In x l -> 0 < x) by (intros x Hx; apply in_map_iff in Hx; destruct Hx as [r' [<- Hf]]; apply filter_In in Hf; now apply Hp).
  assert (NE : l <> []) by (intros N; rewrite N in I; contradiction).
  destruct (list_min_spec l NE) as [A B]. apply P in B.
  assert (Q : list_min l <= quantile (1 # 5) l /\ quantile (1 # 5) l <= qsum l).
  { apply c207_quantile; [exact NE|]. intros x Hx. split; [now apply A|]. clear -Hx P. induction l as [|y l IH]; [contradiction|]. cbn [qsum fold_right].
    assert (S : 0 <= qsum l). { clear -P. induction l as [|z l IH]; [cbn; lra|]. cbn [qsum fold_right]. assert (0 < z) by (apply P; cbn; auto). assert (0 <= qsum l) by (apply IH; intros w [<-|Hw]; apply P; cbn; auto). unfold qsum in *. lra. }
    destruct Hx as [->|Hx]; [unfold qsum in *; lra|]. assert (x <= qsum l) by (apply IH; [intros w Hw; apply P; now right|exact Hx]). assert (0 < y) by (apply P; now left). unfold qsum in *. lra. }
  lra.
Qed.
(** strong scaling: the efficiency (in %) is the cost time x processes of the
    reference, divided by the one of the group; it is at most 100 with the
    fewest processes and exactly 100 for the best *)
Theorem c207_strong : forall rows cum, rows <> [] -> (forall r, In r rows -> 0 < w_t r /\ (1 < w_np r)%Z) -> best_time rows <= cum ->
  let m := nb_proc_min rows in
  (forall r, In r rows -> efficiency strong cum rows (w_fft r) (w_np r) == 100 * (best_time rows * inject_Z m) / (group_time rows (w_fft r) (w_np r) * inject_Z (w_np r)))
  /\ (forall r, In r rows -> w_np r = m -> efficiency strong cum rows (w_fft r) m <= 100)
  /\ exists r, In r rows /\ w_np r = m /\ efficiency strong cum rows (w_fft r) m == 100.
Proof.
  intros rows cum H P C m. destruct (c207_best rows H) as [B1 [r0 [H0 [E0 B0]]]]. fold m in B1, E0, B0.
  assert (T : t_min cum rows == best_time rows). { unfold t_min. destruct (qmin_spec (best_time rows) cum) as [A [B [->| E]]]; [reflexivity|rewrite E in *; lra]. }
  assert (G : forall r, In r rows -> 0 < group_time rows (w_fft r) (w_np r)) by (intros r Hr; apply group_pos; [exact Hr|intros r' Hr'; now apply P]).
  assert (N : forall r, In r rows -> 0 < inject_Z (w_np r)) by (intros r Hr; change 0 with (inject_Z 0); rewrite <- Zlt_Qlt; apply P in Hr; lia).
  assert (F : forall r, In r rows -> efficiency strong cum rows (w_fft r) (w_np r) == 100 * (best_time rows * inject_Z m) / (group_time rows (w_fft r) (w_np r) * inject_Z (w_np r))).
  { intros r Hr. unfold efficiency, speedup. rewrite T. fold m. specialize (G r Hr). specialize (N r Hr). field. split; lra. }
  split; [exact F|]. split.
  - intros r Hr Er. pose proof (F r Hr) as E. rewrite Er in E. rewrite E. specialize (G r Hr). specialize (N r Hr). rewrite Er in G, N. specialize (B1 r Hr Er).
    assert (Pm : 0 < group_time rows (w_fft r) m * inject_Z m) by (apply Qmult_lt_0_compat; assumption).
    apply Qle_shift_div_r; [exact Pm|]. assert (best_time rows * inject_Z m <= group_time rows (w_fft r) m * inject_Z m) by (apply Qmult_le_compat_r; lra). lra.
  - exists r0. split; [exact H0|]. split; [exact E0|]. pose proof (F r0 H0) as E. rewrite E0 in E. rewrite E, B0. specialize (G r0 H0). specialize (N r0 H0). rewrite E0 in G, N. field. split; lra.
Qed.
Definition rows_ex : list row := [{| w_fft := "a"; w_np := 2; w_t := 4 |}; {| w_fft := "b"; w_np := 2; w_t := 5 |}; {| w_fft := "a"; w_np := 8; w_t := 1 |}].
Example c207_strong_ex : (forall r, In r rows_ex -> 0 < w_t r /\ (1 < w_np r)%Z) /\ best_time rows_ex <= t_min0 /\ efficiency strong t_min0 rows_ex "a" 8 == 100.
Proof. split; [|split; [unfold best_time, t_min0; cbn; unfold Qle; cbn; lia|reflexivity]]. intros r [<-|[<-|[<-|[]]]]; cbn; split; reflexivity || lra. Qed.
(** weak scaling with 2 processes as reference: the ratio of the times *)
Theorem c207_weak_partial : forall rows cum, rows <> [] -> (forall r, In r rows -> 0 < w_t r /\ (1 < w_np r)%Z) -> best_time rows <= cum -> nb_proc_min rows = 2%Z ->
  (forall r, In r rows -> efficiency weak cum rows (w_fft r) (w_np r) == 100 * best_time rows / group_time rows (w_fft r) (w_np r))
  /\ exists r, In r rows /\ w_np r = 2%Z /\ efficiency weak cum rows (w_fft r) 2 == 100.
Proof.
  intros rows cum H P C M. destruct (c207_best rows H) as [B1 [r0 [H0 [E0 B0]]]]. rewrite M in B1, E0, B0.
  assert (T : t_min cum rows == best_time rows). { unfold t_min. destruct (qmin_spec (best_time rows) cum) as [A [B [->| E]]]; [reflexivity|rewrite E in *; lra]. }
  assert (G : forall r, In r rows -> 0 < group_time rows (w_fft r) (w_np r)) by (intros r Hr; apply group_pos; [exact Hr|intros r' Hr'; now apply P]).
  assert (F : forall r, In r rows -> efficiency weak cum rows (w_fft r) (w_np r) == 100 * best_time rows / group_time rows (w_fft r) (w_np r)).
  { intros r Hr. unfold efficiency, speedup. rewrite T, M. specialize (G r Hr). change (inject_Z 2) with 2. field. lra. }
  split; [exact F|]. exists r0. split; [exact H0|]. split; [exact E0|]. pose proof (F r0 H0) as E. rewrite E0 in E. rewrite E, B0. specialize (G r0 H0). rewrite E0 in G. field. lra.
Qed.
Example c207_weak_ex : nb_proc_min rows_ex = 2%Z.
Proof. reflexivity. Qed.
(** with another smallest number of processes, the efficiency of the reference is not 100 % *)
Theorem c207_weak_refuted : exists rows r, In r rows /\ (forall r', In r' rows -> 0 < w_t r' /\ (1 < w_np r')%Z) /\ w_np r = nb_proc_min rows /\ group_time rows (w_fft r) (w_np r) == best_time rows
  /\ efficiency weak t_min0 rows (w_fft r) (w_np r) == 200.
Proof.
  exists [{| w_fft := "a"; w_np := 4; w_t := 3 |}]. eexists. split; [left; reflexivity|]. split; [|split; [reflexivity|split; reflexivity]].
  intros r' [<-|[]]; cbn; split; reflexivity || lra.
Qed.
(** several directories: the reference is the smallest of the best times *)
Theorem c207_dirs_partial : forall dirs cum, let ts := reference_times cum dirs in length ts = length dirs
  /\ forall n, (n < length dirs)%nat -> nth n ts 0 <= cum /\ (forall j, (j <= n)%nat -> nth n ts 0 <= best_time (mpi_rows (nth j dirs [])))
       /\ (nth n ts 0 = cum \/ exists j, (j <= n)%nat /\ nth n ts 0 = best_time (mpi_rows (nth j dirs []))).
Proof.
  induction dirs as [|d dirs IH]; intros cum ts; subst ts; cbn [reference_times length]; [split; [reflexivity|cbn; lia]|].
  destruct (IH (t_min cum (mpi_rows d))) as [L A]. split; [now rewrite L|]. unfold t_min in *. destruct (qmin_spec (best_time (mpi_rows d)) cum) as [Q1 [Q2 Q3]]. set (t := qmin (best_time (mpi_rows d)) cum) in *.
  intros [|n] Hn; cbn [nth].
  - split; [exact Q2|]. split; [intros j Hj; assert (j = 0)%nat as -> by lia; exact Q1|]. destruct Q3 as [->| ->]; [right; exists 0%nat; split; [lia|reflexivity]|now left].
  - destruct (A n ltac:(lia)) as [A1 [A2 A3]]. split; [lra|]. split.
    + intros [|j] Hj; [cbn [nth]; lra|cbn [nth]; apply A2; lia].
    + destruct A3 as [E|[j [Hj E]]]; [|right; exists (S j); split; [lia|exact E]]. rewrite E. destruct Q3 as [->| ->]; [right; exists 0%nat; split; [lia|reflexivity]|now left].
Qed.
Example c207_dirs_ex : map Qred (reference_times t_min0 [rows_ex; [{| w_fft := "a"; w_np := 2; w_t := 3 |}]]) = [4; 3].
Proof. reflexivity. Qed.
(** but it is used with the number of processes of the other directory: for two
    directories with the same perfect scaling, the efficiency of the second one is 25 % *)
Theorem c207_dirs_refuted : exists d1 d2 c, (forall r, In r (d1 ++ d2) -> w_t r * inject_Z (w_np r) == c /\ (1 < w_np r)%Z)
  /\ exists t1 r, reference_times t_min0 [d1; d2] = [t1; t1] /\ In r d2 /\ efficiency strong t1 (mpi_rows d2) (w_fft r) (w_np r) == 25.
Proof.
  exists [{| w_fft := "a"; w_np := 8; w_t := 1 |}], [{| w_fft := "a"; w_np := 2; w_t := 4 |}], 8. split.
  - intros r [<-|[<-|[]]]; cbn; split; reflexivity || lra.
  - eexists _, _. split; [reflexivity|]. split; [left; reflexivity|reflexivity].
Qed.

(** * C208: the analysis of the profiles *)
Definition good (s : stat) : Prop := 0 <= s_tt s /\ (forall c, In c (s_callers s) -> 0 <= c_tt c) /\ qsum (map c_tt (s_callers s)) <= s_tt s.
Lemma qsum_filter_le : forall (f : caller -> bool) l, (forall c, In c l -> 0 <= c_tt c) -> 0 <= qsum (map c_tt (filter f l)) /\ qsum (map c_tt (filter f l)) <= qsum (map c_tt l).
Proof.
  intros f. induction l as [|c l IH]; intros H; cbn; [lra|]. destruct (IH ltac:(intros d Hd; apply H; now right)) as [A B]. assert (0 <= c_tt c) by (apply H; now left).
  destruct (f c); cbn; unfold qsum in *; lra.
Qed.
Lemma counted_le : forall kf k s t, good s -> counted kf k s = Some t -> 0 <= t /\ t <= s_tt s.
Proof.
  intros kf k s t [G0 [G1 G2]] H. unfold counted in H.
  destruct (contains k (s_name s) || contains k (s_file s)); [|discriminate].
  destruct (String.eqb k ".pyx" && _); [discriminate|].
  destruct (String.eqb k kf).
  - destruct (contains "__pythran__" (s_name s) || _ || _); [discriminate|]. set (f := fun c => _) in H. assert (t = qsum (map c_tt (filter f (s_callers s)))) as -> by congruence.
    destruct (qsum_filter_le f (s_callers s) G1). lra.
  - repeat match type of H with context [if ?b then _ else _] => destruct b end; try discriminate; assert (t = s_tt s) as -> by congruence; lra.
Qed.
(** no kind has more than the total time *)
Theorem c208_kind : forall kf k st, (forall s, In s st -> good s) -> 0 <= time_of_kind kf k st /\ time_of_kind kf k st <= total_time st.
Proof.
  intros kf k. unfold time_of_kind, total_time. induction st as [|s st IH]; intros H; cbn; [lra|].
  destruct (IH ltac:(intros s' Hs; apply H; now right)) as [A B]. pose proof (H s ltac:(now left)) as G.
  destruct (counted kf k s) as [t|] eqn:E; [apply (counted_le _ _ _ _ G) in E; unfold qsum in *; lra|]. destruct G as [G _]. unfold qsum in *. lra.
Qed.
(** the Python functions are the functions with .py in the file (or the name),
    except the fft_as_arg: the .pyx files are among them *)
Theorem c208_py : forall kf s, kf <> ".py"%string -> contains ".py" (s_file s) = true -> contains "fft_as_arg" (s_name s) = false -> counted kf ".py" s = Some (s_tt s).
Proof.
  intros kf s N A B. unfold counted. rewrite A, orb_true_r, B. change (String.eqb ".py" ".pyx") with false. cbn [andb].
  destruct (String.eqb_spec ".py" kf) as [e|_]; [congruence|]. reflexivity.
Qed.
Definition fft2 : string := "fft2d".
Example c208_py_ex : counted fft2 ".py" {| s_file := "a.py"; s_name := "f"; s_tt := 3; s_callers := [] |} = Some 3.
Proof. reflexivity. Qed.
(** the percentages do not sum to (at most) 100: a function of a .pyx file is counted twice *)
Theorem c208_refuted : exists st, (forall s, In s st -> good s) /\ sum_percent fft2 st == 200.
Proof.
  exists [{| s_file := "operators.pyx"; s_name := "f"; s_tt := 3; s_callers := [] |}]. split; [|reflexivity].
  intros s [<-|[]]. split; [cbn; lra|]. split; [cbn; tauto|cbn; lra].
Qed.
(** ** the long functions and the slices of the pie *)
Definition entry_ok (st : list stat) (thr : Q) (e : string * (Q * Q * string)) : Prop :=
  exists s t k, In s st /\ e = (s_name s, (t, 100 * t / total_time st, k)) /\ t <= s_tt s /\ thr < t / total_time st.
Lemma dict_set_keys : forall k v d x, In x (map fst (dict_set k v d)) <-> x = k \/ In x (map fst d).
Proof.
  intros k v. induction d as [|[k' v'] d IH]; intros x; cbn; [intuition congruence|]. destruct (String.eqb_spec k k') as [->|ne]; cbn; [intuition congruence|].
  rewrite IH. intuition congruence.
Qed.
Lemma dict_set_nodup : forall k v d, NoDup (map fst d) -> NoDup (map fst (dict_set k v d)).
Proof.
  intros k v. induction d as [|[k' v'] d IH]; intros H; cbn; [constructor; [tauto|constructor]|]. inversion H as [|x l N D]; subst.
  destruct (String.eqb_spec k k') as [->|ne]; cbn; [constructor; assumption|]. constructor; [|now apply IH].
  rewrite dict_set_keys. intros [->|I]; [congruence|contradiction].
Qed.
Lemma dict_set_in : forall k v d e, In e (dict_set k v d) -> e = (k, v) \/ In e d.
Proof.
  intros k v. induction d as [|[k' v'] d IH]; intros e; cbn; [intuition congruence|]. destruct (String.eqb k k'); cbn; [intuition congruence|].
  intros [<-|H]; [auto|]. apply IH in H. intuition congruence.
Qed.
Lemma Qltb_spec : forall a b, Qltb a b = true <-> a < b.
Proof.
  intros a b. unfold Qltb. rewrite negb_true_iff. split.
  - intros H. apply Qnot_le_lt. intros N. apply Qle_bool_iff in N. congruence.
  - intros H. destruct (Qle_bool b a) eqn:E; [|reflexivity]. apply Qle_bool_iff in E. lra.
Qed.
Lemma fold_long : forall kf thr st, (forall s, In s st -> good s) -> forall l d, (forall p, In p l -> In (fst p) st) ->
  NoDup (map fst d) -> (forall e, In e d -> entry_ok st thr e) ->
  let d' := fold_left (add_long kf thr (total_time st)) l d in
  NoDup (map fst d') /\ (forall e, In e d' -> entry_ok st thr e) /\ (forall x, In x (map fst d) -> In x (map fst d'))
  /\ (forall s k t, In (s, k) l -> counted kf k s = Some t -> thr < t / total_time st -> In (s_name s) (map fst d')).
Proof.
  intros kf thr st G. induction l as [|[s k] l IH]; intros d Hl N E; cbn zeta; cbn [fold_left].
  - split; [exact N|]. split; [exact E|]. split; [auto|]. intros s k t [].
  - assert (Hs : In s st) by (apply (Hl (s, k)); now left).
    unfold add_long at 2 4 6 8. destruct (counted kf k s) as [t|] eqn:C.
    + destruct (Qltb thr (t / total_time st)) eqn:L.
      * apply Qltb_spec in L. destruct (IH (dict_set (s_name s) (t, 100 * t / total_time st, k) d)) as [A [B [D F]]].
        -- intros p Hp. apply Hl. now right.
        -- now apply dict_set_nodup.
        -- intros e He. apply dict_set_in in He. destruct He as [->|He]; [|now apply E]. exists s, t, k. split; [exact Hs|]. split; [reflexivity|]. split; [|exact L]. apply (counted_le kf k s); auto.
        -- split; [exact A|]. split; [exact B|]. split; [intros x Hx; apply D; apply dict_set_keys; now right|].
           intros s' k' t' [Heq|Hin] C' L'; [|now apply (F s' k' t')]. assert (s' = s) by congruence. subst s'. apply D, dict_set_keys. now left.
      * destruct (IH d) as [A [B [D F]]]; [intros p Hp; apply Hl; now right|exact N|exact E|]. split; [exact A|]. split; [exact B|]. split; [exact D|].
        intros s' k' t' [Heq|Hin] C' L'; [|now apply (F s' k' t')]. assert (s' = s /\ k' = k) as [-> ->] by (split; congruence). assert (t' = t) as -> by congruence. apply Qltb_spec in L'. congruence.
    + destruct (IH d) as [A [B [D F]]]; [intros p Hp; apply Hl; now right|exact N|exact E|]. split; [exact A|]. split; [exact B|]. split; [exact D|].
      intros s' k' t' [Heq|Hin] C' L'; [|now apply (F s' k' t')]. assert (s' = s /\ k' = k) as [-> ->] by (split; congruence). congruence.
Qed.
Lemma long_ok : forall kf thr st, (forall s, In s st -> good s) -> let d := long_functions kf thr st in
  NoDup (map fst d) /\ (forall e, In e d -> entry_ok st thr e)
  /\ (forall s k t, In s st -> In k (kinds kf) -> counted kf k s = Some t -> thr < t / total_time st -> In (s_name s) (map fst d)).
Proof.
  intros kf thr st G d. subst d. unfold long_functions. destruct (fold_long kf thr st G (list_prod st (kinds kf)) []) as [A [B [_ D]]].
  - intros [s k] H. apply in_prod_iff in H. apply H.
  - constructor.
  - intros e [].
  - split; [exact A|]. split; [exact B|]. intros s k t Hs Hk. apply D. now apply in_prod.
Qed.
Lemma sum_entries : forall total thr (d : dict) (st : list stat), 0 < total -> (forall s, In s st -> 0 <= s_tt s) -> NoDup (map fst d) ->
  (forall e, In e d -> exists s t k, In s st /\ e = (s_name s, (t, 100 * t / total, k)) /\ t <= s_tt s /\ thr < t / total) ->
  qsum (map percentage_of d) <= 100 * qsum (map s_tt st) / total.
Proof.
  intros total thr. induction d as [|e d IH]; intros st Ht H0 N E; cbn [map qsum fold_right].
  - apply Qle_shift_div_l; [exact Ht|]. rewrite Qmult_0_l. assert (0 <= qsum (map s_tt st)); [|unfold qsum in *; lra].
    clear -H0. induction st as [|s st IH]; cbn; [lra|]. assert (0 <= s_tt s) by (apply H0; now left). assert (0 <= qsum (map s_tt st)) by (apply IH; intros x Hx; apply H0; now right). unfold qsum in *. lra.
  - inversion N as [|x l Nx Nd]; subst. destruct (E e ltac:(now left)) as [s [t [k [Hs [He [Hle _]]]]]]. apply in_split in Hs. destruct Hs as [l1 [l2 Hs]].
    assert (S : qsum (map s_tt st) == s_tt s + qsum (map s_tt (l1 ++ l2))).
    { rewrite Hs. clear. induction l1 as [|y l1 IH]; cbn; [reflexivity|]. unfold qsum in *. rewrite IH. ring. }
    assert (R : qsum (map percentage_of d) <= 100 * qsum (map s_tt (l1 ++ l2)) / total).
    { apply IH; [exact Ht| |exact Nd|].
      - intros x Hx. apply H0. rewrite Hs. apply in_app_iff. apply in_app_iff in Hx. cbn. tauto.
      - intros e' He'. destruct (E e' ltac:(now right)) as [s' [t' [k' [Hs' [Hee [Hl' Ht']]]]]]. exists s', t', k'. split; [|auto].
        rewrite Hs in Hs'. apply in_app_iff in Hs'. apply in_app_iff. destruct Hs' as [I|[I|I]]; [auto| |auto]. exfalso. apply Nx. rewrite He. cbn [fst]. rewrite I. apply in_map_iff. exists e'. split; [now rewrite Hee|exact He']. }
    rewrite S. unfold percentage_of at 1. rewrite He. cbn [fst snd].
    setoid_replace (100 * (s_tt s + qsum (map s_tt (l1 ++ l2))) / total) with (100 * s_tt s / total + 100 * qsum (map s_tt (l1 ++ l2)) / total) by (field; lra).
    apply Qplus_le_compat; [|exact R]. unfold Qdiv. apply Qmult_le_compat_r; [lra|]. apply Qinv_le_0_compat. lra.
Qed.
(** the slices of the pie are not negative and their sum is 100 *)
Theorem c208_pie : forall kf thr st, (forall s, In s st -> good s) -> 0 < total_time st -> 0 <= thr ->
  let p := pie (long_functions kf thr st) in (forall e, In e p -> 0 <= snd e) /\ qsum (map snd p) == 100.
Proof.
  intros kf thr st G T Th p. destruct (long_ok kf thr st G) as [N [E _]]. set (d := long_functions kf thr st) in *. subst p.
  assert (S : qsum (map percentage_of d) <= 100).
  { pose proof (sum_entries (total_time st) thr d st T ltac:(intros s Hs; apply G in Hs; apply Hs) N E) as B. fold (total_time st) in B.
    setoid_replace (100 * total_time st / total_time st) with 100 in B by (field; lra). exact B. }
  unfold pie. split.
  - intros e He. apply in_app_iff in He. destruct He as [He|[<-|[]]]; [|cbn; lra]. apply in_map_iff in He. destruct He as [x [<- Hx]]. cbn [snd].
    destruct (E x Hx) as [s [t [k [_ [-> [_ L]]]]]]. unfold percentage_of. cbn [fst snd]. setoid_replace (100 * t / total_time st) with (100 * (t / total_time st)) by (field; lra). lra.
  - rewrite map_app, map_map. cbn [map snd fst]. assert (A : forall l c, qsum (l ++ [c]) == qsum l + c) by (induction l as [|y l IH]; intros c; cbn; [unfold qsum; cbn; ring|]; unfold qsum in *; rewrite IH; ring).
    rewrite A. change (qsum (map percentage_of d) + (100 - qsum (map percentage_of d)) == 100). ring.
Qed.
Definition st_ex : list stat := [{| s_file := "a.py"; s_name := "f"; s_tt := 3; s_callers := [] |}; {| s_file := "~"; s_name := "<built-in method g>"; s_tt := 1; s_callers := [] |}].
Example c208_pie_ex : (forall s, In s st_ex -> good s) /\ 0 < total_time st_ex /\ map (fun e => (fst e, Qred (snd e))) (pie (long_functions fft2 (1 # 100) st_ex)) = [("f"%string, 75); ("<built-in method g>"%string, 25); ("other"%string, 0)].
Proof. split; [|split; [reflexivity|reflexivity]]. intros s [<-|[<-|[]]]; (split; [cbn; lra|]; split; [cbn; tauto|cbn; lra]). Qed.
(** the listed functions take more than the threshold (their own time and the
    percentage), and the name of every function which is counted for a kind and takes more is listed *)
Theorem c208_long_partial : forall kf thr st, (forall s, In s st -> good s) -> let d := long_functions kf thr st in
  NoDup (map fst d)
  /\ (forall name t p k, In (name, (t, p, k)) d -> exists s, In s st /\ s_name s = name /\ t <= s_tt s /\ p = 100 * t / total_time st /\ thr < t / total_time st)
  /\ (forall s k t, In s st -> In k (kinds kf) -> counted kf k s = Some t -> thr < t / total_time st -> In (s_name s) (map fst d)).
Proof.
  intros kf thr st G d. destruct (long_ok kf thr st G) as [N [E L]]. split; [exact N|]. split; [|exact L].
  intros name t p k H. destruct (E _ H) as [s [t' [k' [Hs [He [Hl Ht]]]]]]. assert (name = s_name s /\ t = t' /\ p = 100 * t' / total_time st) as [-> [-> ->]] by (split; [congruence|split; congruence]).
  exists s. auto.
Qed.
(** two functions with the same name in two files: only one is listed and its
    time is the one of the second *)
Theorem c208_long_refuted : exists s1 s2, let st := [s1; s2] in (forall s, In s st -> good s) /\ s_tt s1 / total_time st == 3 # 4
  /\ (exists t p k, long_functions fft2 (1 # 100) st = [(s_name s1, (t, p, k))] /\ p == 25).
Proof.
  exists {| s_file := "a.py"; s_name := "step"; s_tt := 3; s_callers := [] |}, {| s_file := "b.py"; s_name := "step"; s_tt := 1; s_callers := [] |}. cbn zeta.
  split; [intros s [<-|[<-|[]]]; (split; [cbn; lra|]; split; [cbn; tauto|cbn; lra])|]. split; [reflexivity|].
  eexists _, _, _. split; [reflexivity|]. reflexivity.
Qed.
(** a function of no kind is not listed *)
Theorem c208_nokind_refuted : exists s, good s /\ s_tt s / total_time [s] == 1 /\ long_functions fft2 (1 # 100) [s] = [].
Proof.
  exists {| s_file := "~"; s_name := "<method 'sort' of 'list' objects>"; s_tt := 3; s_callers := [] |}. split; [split; [cbn; lra|]; split; [cbn; tauto|cbn; lra]|]. split; reflexivity.
Qed.

(** the file names of the pattern: after the beginning, a text which ends with .json *)
Theorem c206_names : forall solver name, glob_match solver name = true
  <-> exists x, name = ("result_bench_" ++ solver ++ x ++ ".json")%string.
Proof.
  assert (E : forall suf s, endswith suf s = true <-> exists x, s = (x ++ suf)%string).
  { intros suf. induction s as [|c s IH]; cbn [endswith]; rewrite orb_true_iff, String.eqb_eq.
    - split; [intros [->|H]; [exists EmptyString; reflexivity|discriminate]|]. intros [[|c x] H]; [left; symmetry; exact H|discriminate].
    - rewrite IH. split.
      + intros [->|[x ->]]; [exists EmptyString; reflexivity|exists (String c x); reflexivity].
      + intros [[|d x] H]; [left; symmetry; exact H|]. right. cbn in H. injection H as _ ->. exists x. reflexivity. }
  assert (P : forall p s, prefix p s = true <-> exists x, s = (p ++ x)%string).
  { induction p as [|c p IH]; intros s; [destruct s; cbn; split; eauto|]. destruct s as [|d s]; cbn [prefix].
    - split; [discriminate|intros [x H]; discriminate].
    - destruct (ascii_dec c d) as [->|N].
      + rewrite IH. split; [intros [x ->]; exists x; reflexivity|intros [x H]; cbn in H; injection H as ->; exists x; reflexivity].
      + split; [discriminate|]. intros [x H]. cbn in H. injection H as H _. congruence. }
  intros solver name. unfold glob_match. cbv zeta. rewrite andb_true_iff, P. split.
  - intros [[x ->] H]. rewrite drop_app in H. apply E in H. destruct H as [y ->]. exists y. rewrite append_assoc. reflexivity.
  - intros [x ->]. split; [exists (x ++ ".json")%string; rewrite append_assoc; reflexivity|].
    replace ("result_bench_" ++ solver ++ x ++ ".json")%string with (("result_bench_" ++ solver) ++ (x ++ ".json"))%string
      by (rewrite append_assoc; reflexivity).
    rewrite drop_app. apply E. exists x. reflexivity.
Qed.
(** the time per iteration, times the number of iterations, is the time *)
Theorem c207_per_iter : forall t n, ~ n == 0 -> per_iter t n * n == t.
Proof. intros t n H. unfold per_iter. field. exact H. Qed.
(** the kinds of functions *)
Theorem c208_kinds : forall kf k, In k (kinds kf) <->
  k = "fft_as"%string \/ k = "pythran"%string \/ k = ".pyx"%string \/ k = ".py"%string \/ k = "built-in"%string \/ k = "numpy"%string \/ k = kf.
Proof. intros kf k. unfold kinds. cbn [app In]. intuition congruence. Qed.

Print Assumptions c206_names.
Print Assumptions c207_per_iter.
Print Assumptions c208_kinds.
Print Assumptions c203_parsed.
Print Assumptions c203_guess.
Print Assumptions c203_solver.
Print Assumptions c203_dim.
Print Assumptions c203_fft_partial.
Print Assumptions c203_refuted.
Print Assumptions c204_2d.
Print Assumptions c204_3d_partial.
Print Assumptions c204_3d_refuted.
Print Assumptions c205_nproc.
Print Assumptions c205_2d.
Print Assumptions c205_2d_max.
Print Assumptions c205_3d_same.
Print Assumptions c205_3d_refuted.
Print Assumptions c206_all.
Print Assumptions c206_start_partial.
Print Assumptions c206_short.
Print Assumptions c206_refuted.
Print Assumptions c206_key_refuted.
Print Assumptions c207_quantile.
Print Assumptions c207_rank.
Print Assumptions c207_group.
Print Assumptions c207_single.
Print Assumptions c207_median_refuted.
Print Assumptions c207_nb_min.
Print Assumptions c207_best.
Print Assumptions c207_strong.
Print Assumptions c207_weak_partial.
Print Assumptions c207_weak_refuted.
Print Assumptions c207_dirs_partial.
Print Assumptions c207_dirs_refuted.
Print Assumptions c208_kind.
Print Assumptions c208_py.
Print Assumptions c208_refuted.
Print Assumptions c208_pie.
Print Assumptions c208_long_partial.
Print Assumptions c208_long_refuted.
Print Assumptions c208_nokind_refuted.
