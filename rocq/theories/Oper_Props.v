(** * Arrays of Fourier modes: C36, C37, C38, C40, C41, C42, C43, C76 *)

From Coq Require Import List Arith ZArith Bool Reals Lia Lra.
From Coquelicot Require Import Complex.
From Verif Require Import Oper_Model Oper_Spec Oper_Proofs OperVec_Proofs.
Import ListNotations.
Local Open Scope nat_scope.

(** ** C36: dealiasing *)

(** inside of the shape the masked modes are zero and the others unchanged; nothing is written outside *)
Theorem c36_setofvar_2d (V : Type) (zero : V) has mask nk n0 n1 (sov : nat -> nat -> nat -> V) ik i0 i1 :
  (ik < nk -> i0 < n0 -> i1 < n1 -> has = true -> mask i0 i1 = true ->
     dealiasing_setofvar_2d zero has mask nk n0 n1 sov ik i0 i1 = zero)
  /\ ((mask i0 i1 = false \/ has = false \/ nk <= ik \/ n0 <= i0 \/ n1 <= i1) ->
     dealiasing_setofvar_2d zero has mask nk n0 n1 sov ik i0 i1 = sov ik i0 i1).
Proof.
  destruct has.
  - rewrite dealias_sov_2d. split.
    + intros A B D _ M. rewrite M, !(proj2 (Nat.ltb_lt _ _)) by assumption. reflexivity.
    + destruct (Nat.ltb_spec ik nk), (Nat.ltb_spec i0 n0), (Nat.ltb_spec i1 n1), (mask i0 i1); cbn; try reflexivity.
      intros [? | [? | ?]]; [discriminate | discriminate | lia].
  - split; [discriminate | reflexivity].
Qed.

Theorem c36_setofvar_3d (V : Type) (zero : V) mask nk n0 n1 n2 (sov : nat -> nat -> nat -> nat -> V) ik i0 i1 i2 :
  (ik < nk -> i0 < n0 -> i1 < n1 -> i2 < n2 -> mask i0 i1 i2 = true ->
     dealiasing_setofvar_3d zero mask nk n0 n1 n2 sov ik i0 i1 i2 = zero)
  /\ ((mask i0 i1 i2 = false \/ nk <= ik \/ n0 <= i0 \/ n1 <= i1 \/ n2 <= i2) ->
     dealiasing_setofvar_3d zero mask nk n0 n1 n2 sov ik i0 i1 i2 = sov ik i0 i1 i2).
Proof.
  rewrite dealias_sov_3d. split.
  - intros A B D E M. rewrite M, !(proj2 (Nat.ltb_lt _ _)) by assumption. reflexivity.
  - destruct (Nat.ltb_spec ik nk), (Nat.ltb_spec i0 n0), (Nat.ltb_spec i1 n1), (Nat.ltb_spec i2 n2), (mask i0 i1 i2);
      cbn; try reflexivity.
    intros [? | ?]; [discriminate | lia].
Qed.

Theorem c36_variable_3d (V : Type) (zero : V) mask n0 n1 n2 (f : nat -> nat -> nat -> V) i0 i1 i2 :
  (i0 < n0 -> i1 < n1 -> i2 < n2 -> mask i0 i1 i2 = true ->
     dealiasing_variable_3d zero mask n0 n1 n2 f i0 i1 i2 = zero)
  /\ ((mask i0 i1 i2 = false \/ n0 <= i0 \/ n1 <= i1 \/ n2 <= i2) ->
     dealiasing_variable_3d zero mask n0 n1 n2 f i0 i1 i2 = f i0 i1 i2).
Proof.
  rewrite dealias_var_3d. split.
  - intros B D E M. rewrite M, !(proj2 (Nat.ltb_lt _ _)) by assumption. reflexivity.
  - destruct (Nat.ltb_spec i0 n0), (Nat.ltb_spec i1 n1), (Nat.ltb_spec i2 n2), (mask i0 i1 i2);
      cbn; try reflexivity.
    intros [? | ?]; [discriminate | lia].
Qed.

(** the compiled loops and the Numpy versions do the same *)
Theorem c36_numpy_setofvar (V : Type) (zero : V) mask nk n0 n1 n2 (sov : nat -> nat -> nat -> nat -> V) ik i0 i1 i2 :
  dealiasing_setofvar_numpy zero mask nk n0 n1 n2 sov ik i0 i1 i2
  = dealiasing_setofvar_3d zero mask nk n0 n1 n2 sov ik i0 i1 i2.
Proof. rewrite dealias_sov_numpy, dealias_sov_3d. reflexivity. Qed.

Theorem c36_numpy_variable (V : Type) (zero : V) mask n0 n1 n2 (f : nat -> nat -> nat -> V) i0 i1 i2 :
  dealiasing_variable_numpy zero mask n0 n1 n2 f i0 i1 i2 = dealiasing_variable_3d zero mask n0 n1 n2 f i0 i1 i2.
Proof. rewrite dealias_var_numpy, dealias_var_3d. reflexivity. Qed.

(** each variable of a set of variables is dealiased like an array alone *)
Theorem c36_setofvar_is_variable (V : Type) (zero : V) mask nk n0 n1 n2 (sov : nat -> nat -> nat -> nat -> V) ik i0 i1 i2 :
  ik < nk ->
  dealiasing_setofvar_3d zero mask nk n0 n1 n2 sov ik i0 i1 i2
  = dealiasing_variable_3d zero mask n0 n1 n2 (sov ik) i0 i1 i2.
Proof. intros H. rewrite dealias_sov_3d, dealias_var_3d, (proj2 (Nat.ltb_lt _ _) H). reflexivity. Qed.

Theorem c36_idempotent (V : Type) (zero : V) has mask2 mask nk n0 n1 n2 sov2 (sov : nat -> nat -> nat -> nat -> V) f ik i0 i1 i2 :
  dealiasing_setofvar_2d zero has mask2 nk n0 n1 (dealiasing_setofvar_2d zero has mask2 nk n0 n1 sov2) ik i0 i1
    = dealiasing_setofvar_2d zero has mask2 nk n0 n1 sov2 ik i0 i1
  /\ dealiasing_setofvar_3d zero mask nk n0 n1 n2 (dealiasing_setofvar_3d zero mask nk n0 n1 n2 sov) ik i0 i1 i2
    = dealiasing_setofvar_3d zero mask nk n0 n1 n2 sov ik i0 i1 i2
  /\ dealiasing_variable_3d zero mask n0 n1 n2 (dealiasing_variable_3d zero mask n0 n1 n2 f) i0 i1 i2
    = dealiasing_variable_3d zero mask n0 n1 n2 f i0 i1 i2.
Proof.
  repeat split.
  - destruct has; [|reflexivity]. rewrite !dealias_sov_2d. destruct (_ && mask2 i0 i1); reflexivity.
  - rewrite !dealias_sov_3d. destruct (_ && mask i0 i1 i2); reflexivity.
  - rewrite !dealias_var_3d. destruct (_ && mask i0 i1 i2); reflexivity.
Qed.

Example c36_example :
  map (fun i => dealiasing_variable_3d 0 (fun a b c => a + b + c =? 2) 2 2 2 (fun a b c => 100 * a + 10 * b + c + 1) (fst i) (snd i) 1)
    [(0, 0); (0, 1); (1, 0); (1, 1)] = [2; 0; 0; 112].
Proof. reflexivity. Qed.

(** ** C37: projection on the spectra of the real fields *)

(** an even number of points along y *)
Theorem c37_even_partial m nkx (f : nat -> nat -> C) :
  1 <= m -> 2 <= nkx ->
  let ny := 2 * m in
  let g := project_fft_on_realX_seq ny nkx f in
  hermitian_column ny g 0 /\ hermitian_column ny g (nkx - 1)
  /\ (forall i j, i < ny -> 0 < j < nkx - 1 -> g i j = f i j)
  /\ (hermitian_column ny f 0 -> hermitian_column ny f (nkx - 1) -> forall i j, i < ny -> j < nkx -> g i j = f i j).
Proof.
  intros Hm Hx ny g.
  assert (HH : forall c, c = 0 \/ c = nkx - 1 -> hermitian_column ny g c).
  { intros c Hc i Hi. unfold g, ny. rewrite !project_even_edge; try assumption.
    - rewrite opposite_opposite by assumption. rewrite half_sum_conj. reflexivity.
    - apply opposite_lt. assumption. }
  repeat split; [apply HH; auto | apply HH; auto | |].
  - intros i j Hi Hj. apply project_inside; lia.
  - intros F0 FM i j Hi Hj.
    assert (Hcase : (j = 0 \/ j = nkx - 1) \/ (j <> 0 /\ j <> nkx - 1)) by lia.
    destruct Hcase as [E | [N0 N1]].
    + unfold g, ny. rewrite project_even_edge by assumption.
      assert (Hs : f (opposite ny i) j = Cconj (f i j)) by (destruct E as [-> | ->]; [apply F0 | apply FM]; assumption).
      unfold ny in Hs. rewrite Hs. apply half_sum_id.
    + apply project_inside; lia.
Qed.

(** it is the orthogonal projection: each coefficient is the mean of itself and of the conjugate of its opposite *)
Theorem c37_mean_partial m nkx (f : nat -> nat -> C) i j :
  1 <= m -> 2 <= nkx -> i < 2 * m -> (j = 0 \/ j = nkx - 1) ->
  (RtoC 2 * project_fft_on_realX_seq (2 * m) nkx f i j = f i j + Cconj (f (opposite (2 * m) i) j))%C.
Proof.
  intros. rewrite project_even_edge by assumption. unfold half_sum. field.
  intros E. apply RtoC_inj in E. lra.
Qed.

Theorem c37_idempotent ny nkx (f : nat -> nat -> C) i j :
  1 <= ny -> 2 <= nkx ->
  project_fft_on_realX_seq ny nkx (project_fft_on_realX_seq ny nkx f) i j = project_fft_on_realX_seq ny nkx f i j.
Proof. intros. apply project_idem; assumption. Qed.

(** for every odd number of points: a spectrum with the symmetry is changed into one without it *)
Theorem c37_odd_refuted m nkx : 1 <= m -> 2 <= nkx ->
  let ny := 2 * m + 1 in
  exists f, hermitian_column ny f 0 /\ hermitian_column ny f (nkx - 1)
    /\ let g := project_fft_on_realX_seq ny nkx f in
       g m 0 <> f m 0 /\ ~ hermitian_column ny g 0.
Proof.
  intros Hm Hx ny.
  exists (fun i j => if (j =? 0) && (i =? m) then Ci else if (j =? 0) && (i =? S m) then Copp Ci else RtoC 0).
  assert (HD : ny / 2 = m) by (unfold ny; rewrite Nat.mul_comm, Nat.div_add_l by lia; rewrite Nat.div_small by lia; lia).
  assert (C0 : Cconj (RtoC 0) = RtoC 0) by apply conj0.
  assert (C1 : Cconj Ci = Copp Ci) by (unfold Cconj, Ci, Copp; cbn [fst snd]; apply cpair_eq; ring).
  assert (C2 : Cconj (Copp Ci) = Ci) by (unfold Cconj, Ci, Copp; cbn [fst snd]; apply cpair_eq; ring).
  split; [|split].
  - intros i Hi. rewrite Nat.eqb_refl. cbn [andb].
    destruct i as [|i]; [cbn [opposite]; rewrite !(proj2 (Nat.eqb_neq _ _)) by lia; rewrite C0; reflexivity|].
    unfold opposite. unfold ny in *.
    destruct (Nat.eqb_spec (2 * m + 1 - S i) m), (Nat.eqb_spec (S i) m), (Nat.eqb_spec (2 * m + 1 - S i) (S m)), (Nat.eqb_spec (S i) (S m));
      try lia; auto.
  - intros i Hi. rewrite (proj2 (Nat.eqb_neq (nkx - 1) 0)) by lia. cbn [andb]. auto.
  - intros g.
    assert (G1 : g m 0 = RtoC 0).
    { unfold g. rewrite project_closed by (unfold ny; lia). unfold edge.
      rewrite HD, !Nat.eqb_refl. cbn [orb andb]. rewrite Bool.orb_true_r. reflexivity. }
    assert (G2 : g (S m) 0 = Copp Ci).
    { unfold g. rewrite project_closed by (unfold ny; lia). rewrite HD.
      unfold edge. rewrite !Nat.eqb_refl. cbn [orb andb].
      rewrite (proj2 (Nat.eqb_neq (S m) 0)), (proj2 (Nat.eqb_neq (S m) m)) by lia. cbn [orb].
      assert (D : done_row ny (m - 1) (S m) = false).
      { unfold done_row, ny. destruct (Nat.leb_spec (S m) (m - 1)), (Nat.leb_spec (2 * m + 1 - (m - 1)) (S m)); try lia;
        rewrite Bool.andb_false_r; reflexivity. }
      rewrite D. reflexivity. }
    split.
    + rewrite G1, !Nat.eqb_refl. cbn [andb]. intros E. apply (f_equal snd) in E. cbn in E. lra.
    + intros HC. specialize (HC m ltac:(unfold ny; lia)).
      assert (HO : opposite ny m = S m) by (unfold opposite, ny; destruct m; lia).
      rewrite HO, G1, G2, C0 in HC. apply (f_equal snd) in HC. cbn in HC. lra.
Qed.

(** for an odd number of points along x the last column is not of a self-conjugate wavenumber: coefficients of
    a real field are changed *)
Theorem c37_odd_nx_refuted : exists (F : Z -> Z -> C) (nx ny nkx : nat),
  nkx = nx / 2 + 1 /\ spectrum_of_real_field (Z.of_nat nx) (Z.of_nat ny) F
  /\ project_fft_on_realX_seq ny nkx (fun i j => F (Z.of_nat j) (Z.of_nat i)) 0 (nkx - 1) <> F (Z.of_nat (nkx - 1)) 0%Z.
Proof.
  exists (fun kx _ => if (kx mod 3 =? 1)%Z then Ci else if (kx mod 3 =? 2)%Z then Copp Ci else RtoC 0), 3, 2, 2.
  split; [reflexivity|]. split.
  - split; [|split]; [intros kx ky | reflexivity | intros kx ky].
    + replace ((kx + Z.of_nat 3) mod 3)%Z with (kx mod 3)%Z by (rewrite <- (Z_mod_plus_full kx 1 3); f_equal; lia).
      reflexivity.
    + pose proof (Z.mod_pos_bound kx 3 ltac:(lia)) as B. pose proof (Z.div_mod kx 3 ltac:(lia)) as D.
      assert (E : ((- kx) mod 3 = (3 - kx mod 3) mod 3)%Z).
      { rewrite Zminus_mod_idemp_r. rewrite <- (Z_mod_plus_full (- kx) 1 3). f_equal. lia. }
      rewrite E. assert (Hc : (kx mod 3 = 0 \/ kx mod 3 = 1 \/ kx mod 3 = 2)%Z) by lia.
      destruct Hc as [-> | [-> | ->]]; cbn; unfold Cconj, Ci, Copp, RtoC; cbn [fst snd]; apply cpair_eq; ring.
  - cbn. unfold set2, real_of. cbn. intros E. apply (f_equal snd) in E. cbn in E. lra.
Qed.

Example c37_example :
  let f := fun i j : nat => match i, j with 1, 0 => RtoC 2 | _, _ => RtoC 0 end in
  project_fft_on_realX_seq 4 3 f 1 0 = RtoC 1 /\ project_fft_on_realX_seq 4 3 f 3 0 = RtoC 1
  /\ hermitian_column 4 (project_fft_on_realX_seq 4 3 f) 0.
Proof.
  cbn zeta. split; [|split].
  - change 4 with (2 * 2). rewrite project_even_edge by lia. cbn. unfold half_sum.
    unfold Cdiv, Cinv, Cmult, Cplus, Cconj, RtoC; cbn [fst snd]. apply cpair_eq; field.
  - change 4 with (2 * 2). rewrite project_even_edge by lia. cbn. unfold half_sum.
    unfold Cdiv, Cinv, Cmult, Cplus, Cconj, RtoC; cbn [fst snd]. apply cpair_eq; field.
  - apply (c37_even_partial 2 3); lia.
Qed.

(** ** C38: coarse arrays *)

(** 2D: the array is rejected when one of the coefficients of the row nKyc//2 or of the last column is not small;
    otherwise every coefficient goes to the same wavenumber, the other coefficients are kept, and the coarse array is read back *)
Theorem c38_place_2d_partial (V : Type) (zero : V) small nkyc nkxc nky (coarse arr : nat -> nat -> V) :
  nkyc <= nky ->
  match put_coarse_2d small nkyc nkxc nky coarse arr with
  | None => (exists j, j < nkxc /\ small (coarse (nkyc / 2) j) = false)
            \/ (exists i, i < nkyc /\ small (coarse i (nkxc - 1)) = false)
  | Some r =>
      ((forall j, j < nkxc -> small (coarse (nkyc / 2) j) = true) /\ (forall i, i < nkyc -> small (coarse i (nkxc - 1)) = true))
      /\ (forall ikyc iky ikx k, ikx < nkxc -> holds (Z.of_nat nkyc) (Z.of_nat ikyc) k -> holds (Z.of_nat nky) (Z.of_nat iky) k ->
            r iky ikx = coarse ikyc ikx)
      /\ (forall iky ikx, (nkxc <= ikx \/ forall k ikyc, holds (Z.of_nat nky) (Z.of_nat iky) k -> ~ holds (Z.of_nat nkyc) (Z.of_nat ikyc) k) ->
            r iky ikx = arr iky ikx)
      /\ (forall ikyc ikxc, ikyc < nkyc -> ikxc < nkxc -> coarse_from_2d zero nkyc nkxc nky r ikyc ikxc = coarse ikyc ikxc)
  end.
Proof.
  intros Hn. unfold put_coarse_2d.
  set (A := forallb _ (seq 0 nkxc)). set (B := forallb _ (seq 0 nkyc)).
  destruct A eqn:EA; [destruct B eqn:EB|]; cbn [andb].
  - destruct (put_loop_2d nkyc nkxc nky coarse arr Hn) as [P1 P2].
    repeat split.
    + intros j Hj. unfold A in EA. rewrite forallb_forall in EA. apply EA. apply in_seq. lia.
    + intros j Hj. unfold B in EB. rewrite forallb_forall in EB. apply EB. apply in_seq. lia.
    + intros ikyc iky ikx k Hx Hc Hf.
      assert (Hi : ikyc < nkyc) by (unfold holds in Hc; lia).
      pose proof (ikc_holds nkyc nky ikyc k Hn Hi Hc) as Hf'.
      pose proof (holds_inj _ _ _ _ Hf Hf') as E. apply Nat2Z.inj in E. subst iky. apply P1; assumption.
    + intros iky ikx H. apply P2. intros i Hi Hx E. subst iky. destruct H as [H | H]; [lia|].
      destruct (holds_ex (Z.of_nat nkyc) (Z.of_nat i)) as [k Hk]; [lia|].
      exact (H k i (ikc_holds nkyc nky i k Hn Hi Hk) Hk).
    + intros ikyc ikxc Hi Hj. rewrite read_loop_2d by assumption. apply P1; assumption.
  - right. unfold B in EB. clear EA. clear A. clear B.
    assert (HX : exists i, In i (seq 0 nkyc) /\ small (coarse i (nkxc - 1)) = false).
    { revert EB. generalize (seq 0 nkyc). intros l. induction l as [|a l IH]; cbn; [discriminate|].
      destruct (small (coarse a (nkxc - 1))) eqn:E; [|eauto]. cbn. intros F. destruct (IH F) as (i & ? & ?). eauto. }
    destruct HX as (i & Hi & E). apply in_seq in Hi. exists i. split; [lia | assumption].
  - left. unfold A in EA. clear B. clear A.
    assert (HX : exists i, In i (seq 0 nkxc) /\ small (coarse (nkyc / 2) i) = false).
    { revert EA. generalize (nkyc / 2). intros h. generalize (seq 0 nkxc). intros l. induction l as [|a l IH]; cbn; [discriminate|].
      destruct (small (coarse h a)) eqn:E; [|eauto]. cbn. intros F. destruct (IH F) as (i & ? & ?). eauto. }
    destruct HX as (i & Hi & E). apply in_seq in Hi. exists i. split; [lia | assumption].
Qed.

(** 3D *)
Theorem c38_place_3d_partial (V : Type) (zero : V) nkzc nkyc nkxc nkz nky (coarse arr : nat -> nat -> nat -> V) :
  nkyc <= nky -> nkzc <= nkz ->
  let r := put_coarse_3d nkzc nkyc nkxc nkz nky coarse arr in
  (forall ikzc ikz ikyc iky ikx k l, ikx < nkxc ->
      holds (Z.of_nat nkyc) (Z.of_nat ikyc) k -> holds (Z.of_nat nky) (Z.of_nat iky) k ->
      holds (Z.of_nat nkzc) (Z.of_nat ikzc) l -> holds (Z.of_nat nkz) (Z.of_nat ikz) l ->
      r ikz iky ikx = coarse ikzc ikyc ikx)
  /\ (forall ikz iky ikx, 
        (nkxc <= ikx \/ (forall k ikyc, holds (Z.of_nat nky) (Z.of_nat iky) k -> ~ holds (Z.of_nat nkyc) (Z.of_nat ikyc) k)
         \/ (forall l ikzc, holds (Z.of_nat nkz) (Z.of_nat ikz) l -> ~ holds (Z.of_nat nkzc) (Z.of_nat ikzc) l)) ->
        r ikz iky ikx = arr ikz iky ikx)
  /\ (forall ikzc ikyc ikxc, ikzc < nkzc -> ikyc < nkyc -> ikxc < nkxc ->
        coarse_from_3d zero nkzc nkyc nkxc nkz nky r ikzc ikyc ikxc = coarse ikzc ikyc ikxc).
Proof.
  intros Hy Hz r. destruct (put_loop_3d nkzc nkyc nkxc nkz nky coarse arr Hy Hz) as [P1 P2]. fold r in P1, P2.
  repeat split.
  - intros ikzc ikz ikyc iky ikx k l Hx Hc Hf Hcz Hfz.
    assert (Hi : ikyc < nkyc) by (unfold holds in Hc; lia).
    assert (Hj : ikzc < nkzc) by (unfold holds in Hcz; lia).
    pose proof (holds_inj _ _ _ _ Hf (ikc_holds nkyc nky ikyc k Hy Hi Hc)) as E. apply Nat2Z.inj in E. subst iky.
    pose proof (holds_inj _ _ _ _ Hfz (ikc_holds nkzc nkz ikzc l Hz Hj Hcz)) as E. apply Nat2Z.inj in E. subst ikz.
    apply P1; assumption.
  - intros ikz iky ikx H. apply P2. intros h i Hh Hi Hx.
    destruct H as [H | [H | H]]; [lia | right | left]; intros E; subst.
    + destruct (holds_ex (Z.of_nat nkyc) (Z.of_nat i)) as [k Hk]; [lia|].
      exact (H k i (ikc_holds nkyc nky i k Hy Hi Hk) Hk).
    + destruct (holds_ex (Z.of_nat nkzc) (Z.of_nat h)) as [k Hk]; [lia|].
      exact (H k h (ikc_holds nkzc nkz h k Hz Hh Hk) Hk).
  - intros. rewrite read_loop_3d by assumption. apply P1; assumption.
Qed.

(** an odd coarse number of points has no Nyquist wavenumber, but its largest genuine wavenumber is rejected *)
Theorem c38_odd_refuted : exists (coarse : nat -> nat -> nat) (nkyc nkxc nky ikyc k : nat),
  nkyc < nky /\ 2 * k < nkyc /\ holds (Z.of_nat nkyc) (Z.of_nat ikyc) (Z.of_nat k)
  /\ (forall i j, coarse i j <> 0 -> i = ikyc /\ j = 0)
  /\ put_coarse_2d (fun v => v =? 0) nkyc nkxc nky coarse (fun _ _ => 0) = None.
Proof.
  exists (fun i j => if (i =? 1) && (j =? 0) then 1 else 0), 3, 2, 8, 1, 1.
  unfold holds. repeat split; try lia.
  - destruct (Nat.eqb_spec i 1), (Nat.eqb_spec j 0); cbn in *; congruence.
  - destruct (Nat.eqb_spec i 1), (Nat.eqb_spec j 0); cbn in *; congruence.
Qed.

(** 3D: nothing is rejected; the Nyquist coefficient of a real coarse field gives a fine array which is not of a real field *)
Theorem c38_3d_nyquist_refuted : exists coarse : nat -> nat -> nat -> C,
  (forall i, i < 4 -> hermitian_column 4 (coarse i) 0) /\ (forall i j, coarse i j 0 <> RtoC 0 -> i = 0 /\ j = 2)
  /\ let r := put_coarse_3d 4 4 3 8 8 coarse (fun _ _ _ => RtoC 0) in
     ~ hermitian_column 8 (r 0) 0.
Proof.
  exists (fun i j k => if (i =? 0) && (j =? 2) && (k =? 0) then RtoC 1 else RtoC 0).
  assert (C0 : Cconj (RtoC 0) = RtoC 0) by apply conj0.
  assert (C1 : Cconj (RtoC 1) = RtoC 1) by (unfold Cconj, RtoC; cbn [fst snd]; apply cpair_eq; ring).
  split; [|split].
  - intros i Hi j Hj.
    destruct j as [|[|[|[|j]]]]; try lia; destruct (i =? 0); cbn; auto.
  - intros i j H. destruct (Nat.eqb_spec i 0), (Nat.eqb_spec j 2); cbn in H; try (exfalso; apply H; reflexivity). auto.
  - intros r H. specialize (H 2 ltac:(lia)). change (r 0 6 0 = Cconj (r 0 2 0)) in H.
    destruct (put_loop_3d 4 4 3 8 8 (fun i j k => if (i =? 0) && (j =? 2) && (k =? 0) then RtoC 1 else RtoC 0) (fun _ _ _ => RtoC 0)
                ltac:(lia) ltac:(lia)) as [P1 P2].
    fold r in P1, P2.
    assert (A : r 0 2 0 = RtoC 1) by exact (P1 0 2 0 ltac:(lia) ltac:(lia) ltac:(lia)).
    rewrite (P2 0 6 0), A, C1 in H.
    + apply RtoC_inj in H. lra.
    + intros h i Hh Hi _. right. unfold ik_from_ikc. destruct i as [|[|[|[|i]]]]; cbn; lia.
Qed.

Example c38_example :
  exists r, put_coarse_2d (fun v => v =? 0) 4 3 8 (fun i j => if (i =? 2) || (j =? 2) then 0 else 10 * i + j + 1) (fun _ _ => 7) = Some r
    /\ (r 0 0, r 1 1, r 7 0, r 7 1, r 2 0, r 3 0, r 6 0, r 7 2, r 0 3) = (1, 12, 31, 32, 0, 7, 7, 0, 7).
Proof. eexists. split; reflexivity. Qed.

(** ** C40: indices and wavenumbers *)

Theorem c40_axis n : (2 <= n)%Z ->
  (forall i, (0 <= i < n)%Z -> holds n i (kadim_from_ik i n false))
  /\ (forall k, (- n < 2 * k <= n)%Z -> holds n (ik_from_kadim k n false) k)
  /\ (forall i, (0 <= i < n)%Z -> ik_from_kadim (kadim_from_ik i n false) n false = i)
  /\ (forall k, (- n < 2 * k <= n)%Z -> kadim_from_ik (ik_from_kadim k n false) n false = k).
Proof.
  intros Hn.
  split; [intros; apply kadim_holds; assumption|].
  split; [intros; apply ik_holds; assumption|]. split.
  - intros i Hi. pose proof (kadim_holds n i Hi) as H1.
    assert (H2 : holds n (ik_from_kadim (kadim_from_ik i n false) n false) (kadim_from_ik i n false))
      by (apply ik_holds; [unfold holds in H1; lia | assumption]).
    exact (holds_inj _ _ _ _ H2 H1).
  - intros k Hk. pose proof (ik_holds n k Hk Hn) as H1.
    assert (H2 : holds n (ik_from_kadim k n false) (kadim_from_ik (ik_from_kadim k n false) n false))
      by (apply kadim_holds; unfold holds in H1; lia).
    exact (holds_fun _ _ _ _ H2 H1).
Qed.

(** the three axes: bijection between the indices of the array (nz, ny, nx//2+1) and the wavenumbers *)
Theorem c40_sequential ny nz nkx i0 i1 i2 kx ky kz : (2 <= ny)%Z -> (2 <= nz)%Z ->
  ((0 <= i0 < nz)%Z -> (0 <= i1 < ny)%Z -> (0 <= i2 < nkx)%Z ->
     ik012_from_kadim ny nz (kadim_from_ik012 ny nz (i0, i1, i2)) = (i0, i1, i2)
     /\ let '(x, y, z) := kadim_from_ik012 ny nz (i0, i1, i2) in
        (0 <= x < nkx)%Z /\ holds ny i1 y /\ holds nz i0 z /\ x = i2)
  /\ ((0 <= kx < nkx)%Z -> (- ny < 2 * ky <= ny)%Z -> (- nz < 2 * kz <= nz)%Z ->
     kadim_from_ik012 ny nz (ik012_from_kadim ny nz (kx, ky, kz)) = (kx, ky, kz)
     /\ let '(a, b, c) := ik012_from_kadim ny nz (kx, ky, kz) in
        (0 <= c < nkx)%Z /\ holds ny b ky /\ holds nz a kz).
Proof.
  intros Hy Hz. destruct (c40_axis ny Hy) as (A1 & A2 & A3 & A4). destruct (c40_axis nz Hz) as (B1 & B2 & B3 & B4).
  split.
  - intros H0 H1 H2. unfold kadim_from_ik012, ik012_from_kadim. rewrite A3, B3 by assumption.
    split; [reflexivity|]. split; [assumption|]. split; [apply A1; assumption|]. split; [apply B1; assumption | reflexivity].
  - intros H0 H1 H2. unfold kadim_from_ik012, ik012_from_kadim. rewrite A4, B4 by assumption.
    split; [reflexivity|]. split; [assumption|]. split; [apply A2; assumption | apply B2; assumption].
Qed.

(** every layout of the axes *)
Theorem c40_layouts (V : Type) d (x y z : V) :
  (let '(a, b, c) := i012_from_ixyz d x y z in ixyz_from_i012 d a b c = (x, y, z))
  /\ (let '(a, b, c) := ixyz_from_i012 d x y z in i012_from_ixyz d a b c = (x, y, z)).
Proof. destruct d; split; reflexivity. Qed.

Example c40_example :
  (map (fun i => kadim_from_ik i 5 false) [0; 1; 2; 3; 4] = [0; 1; 2; -2; -1])%Z
  /\ (map (fun i => kadim_from_ik i 4 false) [0; 1; 2; 3] = [0; 1; 2; -1])%Z
  /\ i012_from_ixyz L120 1 2 3 = (2, 1, 3).
Proof. repeat split. Qed.

(** ** C41: owner of a wavenumber *)

(** 3D, slabs of any heights *)
Theorem c41_slabs counts nk0_loc ik0 : ik0 < total counts ->
  exists r j, where_3d counts false nk0_loc ik0 = (Z.of_nat r, Z.of_nat j) /\ owns counts ik0 r j.
Proof.
  intros H. destruct (search_3d_owns counts ik0 0 H) as (r & j & E & O & S1 & L).
  exists r, j. split; [|assumption]. unfold where_3d. rewrite E. cbn [Z.add]. rewrite Nat2Z.id.
  f_equal. lia.
Qed.

(** 3D, slabs of the same height *)
Theorem c41_slabs_same_size c nb ik0 : 0 < c -> ik0 < total (repeat c nb) ->
  exists r j, where_3d (repeat c nb) true c ik0 = (Z.of_nat r, Z.of_nat j) /\ owns (repeat c nb) ik0 r j.
Proof.
  intros Hc H. destruct (same_size_owns c nb ik0 Hc H) as [O L].
  exists (ik0 / c), (ik0 - start_rank (repeat c nb) (ik0 / c)). split; [|exact O].
  unfold where_3d. rewrite Nat2Z.id. f_equal. lia.
Qed.

(** 3D, pencils: the process found owns the wavenumber and the local indices are those of its array;
    ValueError only when no process owns it *)
Theorem c41_pencils i boxes :
  match where_pencil i boxes 0 with
  | Some (r, j) =>
      exists f s, nth_error boxes r = Some (f, s)
        /\ (fst (fst i) = fst (fst f) + fst (fst j) /\ snd (fst i) = snd (fst f) + snd (fst j) /\ snd i = snd f + snd j)%Z
        /\ (0 <= fst (fst j) < fst (fst s) /\ 0 <= snd (fst j) < snd (fst s) /\ 0 <= snd j < snd s)%Z
  | None => forall b, In b boxes -> inside i b = false
  end.
Proof.
  destruct (where_pencil i boxes 0) as [[r j]|] eqn:E; [|eapply where_pencil_none; eassumption].
  destruct (existsb (inside i) boxes) eqn:X.
  - apply existsb_exists in X as (b & Hb & Hi).
    destruct (where_pencil_correct i boxes 0) as (r' & f & s & j' & E1 & E2 & E3 & E4); [eauto|].
    rewrite E in E1. injection E1 as -> ->. exists f, s. split; [assumption|].
    destruct i as [[i0 i1] i2], f as [[f0 f1] f2], s as [[s0 s1] s2]. subst j'. cbn [fst snd].
    unfold inside in E3. rewrite !Bool.andb_true_iff, !Z.leb_le, !Z.ltb_lt in E3. lia.
  - exfalso. clear -E X. revert E. generalize 0 at 1. induction boxes as [|b l IH]; intros n E; [discriminate|].
    cbn [existsb] in X. apply Bool.orb_false_iff in X as [X1 X2]. cbn [where_pencil] in E. rewrite X1 in E. exact (IH X2 _ E).
Qed.

(** 2D, any distribution of the columns: the rank found owns ikx and the second index is the one of ky *)
Theorem c41_2d_partial counts nkx_loc transposed nky ikx ky : ikx < total counts ->
  (- Z.of_nat nky < 2 * ky <= Z.of_nat nky)%Z -> 2 <= nky ->
  exists r j iky, owns counts ikx r j /\ holds (Z.of_nat nky) iky ky
    /\ where_2d false false transposed counts (total counts) nky nkx_loc (Z.of_nat ikx) ky
       = Some (if transposed then (Z.of_nat r, Z.of_nat j, iky) else (Z.of_nat r, iky, Z.of_nat j)).
Proof.
  intros H Hk Hn. destruct (search_2d_owns counts ikx 0 H) as (r & j & E & O & S1 & L).
  exists r, j, (if (ky <? 0)%Z then (Z.of_nat nky + ky)%Z else ky). split; [assumption|]. split.
  - unfold holds. destruct (Z.ltb_spec ky 0); lia.
  - unfold where_2d. rewrite (proj2 (Z.leb_gt _ _)) by lia. rewrite E. cbn [Nat.add].
    replace (Z.of_nat ikx - Z.of_nat (start_rank counts r))%Z with (Z.of_nat j) by lia. reflexivity.
Qed.

Theorem c41_2d_same_size_partial c nb transposed nky ikx ky : 0 < c -> ikx < total (repeat c nb) ->
  (- Z.of_nat nky < 2 * ky <= Z.of_nat nky)%Z -> 2 <= nky ->
  exists r j iky, owns (repeat c nb) ikx r j /\ holds (Z.of_nat nky) iky ky
    /\ where_2d false true transposed (repeat c nb) (total (repeat c nb)) nky c (Z.of_nat ikx) ky
       = Some (if transposed then (Z.of_nat r, Z.of_nat j, iky) else (Z.of_nat r, iky, Z.of_nat j)).
Proof.
  intros Hc H Hk Hn. destruct (same_size_owns c nb ikx Hc H) as [O L].
  assert (T : total (repeat c nb) = c * nb) by (clear; induction nb; cbn [repeat total]; lia).
  exists (ikx / c), (ikx - start_rank (repeat c nb) (ikx / c)), (if (ky <? 0)%Z then (Z.of_nat nky + ky)%Z else ky).
  split; [assumption|]. split.
  - unfold holds. destruct (Z.ltb_spec ky 0); lia.
  - unfold where_2d. rewrite (proj2 (Z.leb_gt _ _)) by lia. rewrite repeat_length.
    rewrite (proj2 (Z.leb_gt _ _)) by lia.
    rewrite <- Nat2Z.inj_div, Nat2Z.id. rewrite Nat2Z.inj_sub by assumption. reflexivity.
Qed.

(** a wavenumber beyond the largest kx is rejected *)
Theorem c41_2d_rejected sequential same transposed counts nkx nky nkx_loc ikx ky : (Z.of_nat nkx <= ikx)%Z ->
  where_2d sequential same transposed counts nkx nky nkx_loc ikx ky = None.
Proof. intros H. unfold where_2d. rewrite (proj2 (Z.leb_le _ _)) by assumption. reflexivity. Qed.

(** but a negative kx and a ky beyond the largest one are not: the index returned is outside of the array,
    or (from its end) the one of another wavenumber *)
Theorem c41_2d_refuted nkx nky counts nkx_loc : 2 <= nkx -> 2 <= nky ->
  where_2d true false false counts nkx nky nkx_loc (-1) 0 = Some (0%Z, 0%Z, (-1)%Z)
  /\ where_2d true false false counts nkx nky nkx_loc 0 (Z.of_nat nky) = Some (0%Z, Z.of_nat nky, 0%Z)
  /\ exists ky iky k', where_2d true false false counts nkx nky nkx_loc 0 ky = Some (0%Z, iky, 0%Z)
       /\ (0 <= iky < Z.of_nat nky)%Z /\ holds (Z.of_nat nky) iky k' /\ k' <> ky.
Proof.
  intros Hx Hy. unfold where_2d. rewrite !(proj2 (Z.leb_gt _ _)) by lia.
  split; [reflexivity|]. split; [rewrite (proj2 (Z.ltb_ge _ _)) by lia; reflexivity|].
  exists (1 - Z.of_nat nky)%Z, 1%Z, 1%Z.
  rewrite (proj2 (Z.ltb_lt _ _)) by lia. unfold holds.
  replace (Z.of_nat nky + (1 - Z.of_nat nky))%Z with 1%Z by lia. repeat split; try lia.
Qed.

Example c41_example :
  where_3d [3; 2; 2] false 3 4 = (1%Z, 1%Z) /\ where_3d [3; 2; 2] false 3 6 = (2%Z, 1%Z)
  /\ where_3d [2; 2; 2] true 2 5 = (2%Z, 1%Z)
  /\ where_2d false false true [3; 2] 5 8 3 4 (-1) = Some (1%Z, 1%Z, 7%Z)
  /\ owns [3; 2; 2] 6 2 1.
Proof. cbn. repeat split; lia. Qed.

(** ** C42: vectors *)

Theorem c42_projections_partial kx ky kz : (kx <> 0 \/ ky <> 0)%R -> forall v w,
  let pol := project_poloidal kx ky kz in let tor := project_toroidal kx ky in let rad := project_kradial3d kx ky kz in
  pol (pol v) = pol v /\ tor (tor v) = tor v /\ rad (rad v) = rad v
  /\ vadd (vadd (pol v) (tor v)) (rad v) = v
  /\ dot (pol v) (tor w) = RtoC 0 /\ dot (pol v) (rad w) = RtoC 0 /\ dot (tor v) (rad w) = RtoC 0
  /\ dot v v = Cplus (Cplus (dot (pol v) (pol v)) (dot (tor v) (tor v))) (dot (rad v) (rad v))
  /\ divergence kx ky kz (pol v) = RtoC 0 /\ divergence kx ky kz (tor v) = RtoC 0
  /\ divergence kx ky kz (rad v) = divergence kx ky kz v
  /\ snd (tor v) = RtoC 0.
Proof.
  intros H v w pol tor rad. unfold pol, tor, rad.
  repeat split; auto using pol_idem, tor_idem, rad_idem, decompose, pol_tor, pol_rad, tor_rad, norm_decompose, pol_div, tor_div, rad_div.
Qed.

Theorem c42_components_partial kx ky kz : (kx <> 0 \/ ky <> 0)%R -> forall v p,
  vec_from_vp kx ky kz (vp_from_vec kx ky kz v) = project_poloidal kx ky kz v
  /\ vp_from_vec kx ky kz (vec_from_vp kx ky kz p) = p
  /\ vec_from_vt kx ky (vt_from_vec kx ky v) = project_toroidal kx ky v
  /\ vt_from_vec kx ky (vec_from_vt kx ky p) = p.
Proof. intros H v p. repeat split; auto using (vp_vec kx ky kz), (vec_vt kx ky kz), (vt_vec kx ky kz). Qed.

(** the gradients are radial *)
Theorem c42_gradient_partial kx ky kz : (kx <> 0 \/ ky <> 0)%R -> forall p,
  project_kradial3d kx ky kz (grad kx ky kz p) = grad kx ky kz p
  /\ project_poloidal kx ky kz (grad kx ky kz p) = vnull /\ project_toroidal kx ky (grad kx ky kz p) = vnull
  /\ divergence kx ky kz (grad kx ky kz p) = rmul (- (kx ^ 2 + ky ^ 2 + kz ^ 2)) p.
Proof.
  intros H p. repeat split; auto using rad_grad, pol_grad.
  - apply (tor_grad kx ky kz H).
  - unfold divergence, grad, rmul, Cmult, Cplus, Ci, RtoC. cbn [fst snd]. apply cpair_eq; ring.
Qed.

(** horizontal vectors: rotational part, divergent part *)
Theorem c42_horizontal_partial kx ky : (kx <> 0 \/ ky <> 0)%R -> forall x y r,
  (Cplus (fst (ur kx ky x y)) (fst (ud kx ky x y)), Cplus (snd (ur kx ky x y)) (snd (ud kx ky x y))) = (x, y)
  /\ horizontal_div kx ky (fst (ur kx ky x y)) (snd (ur kx ky x y)) = RtoC 0
  /\ vertical_rot kx ky (fst (ud kx ky x y)) (snd (ud kx ky x y)) = RtoC 0
  /\ v_from_rotz kx ky (vertical_rot kx ky x y) = ur kx ky x y
  /\ v_from_divh kx ky (divh kx ky x y) = ud kx ky x y
  /\ divh kx ky x y = horizontal_div kx ky x y
  /\ vertical_rot kx ky (fst (v_from_rotz kx ky r)) (snd (v_from_rotz kx ky r)) = r
  /\ divh kx ky (fst (v_from_divh kx ky r)) (snd (v_from_divh kx ky r)) = r.
Proof.
  intros H x y r. repeat split; auto using ur_ud, ur_div, ud_rot, v_divh, divh_v.
  - apply (v_rotz kx ky H).
  - apply (rotz_v kx ky H).
Qed.

(** a wavevector along z: the horizontal velocity (shear modes) is lost by the three projections and by
    the two horizontal reconstructions *)
Theorem c42_shear_refuted kz : exists v,
  vadd (vadd (project_poloidal 0 0 kz v) (project_toroidal 0 0 v)) (project_kradial3d 0 0 kz v) <> v
  /\ divergence 0 0 kz v = RtoC 0
  /\ v_from_rotz 0 0 (vertical_rot 0 0 (fst (fst v)) (snd (fst v))) = (RtoC 0, RtoC 0)
  /\ ur 0 0 (fst (fst v)) (snd (fst v)) = (fst (fst v), snd (fst v)).
Proof.
  exists (RtoC 1, RtoC 0, RtoC 0). repeat split.
  - intros E. apply (f_equal (fun v => fst (fst (fst v)))) in E. revert E.
    unfold vadd, project_poloidal, project_toroidal, project_kradial3d, cos_phi, sin_phi, rmul, Cmult, Cplus, RtoC.
    cbn [fst snd]. intros E. ring_simplify in E. lra.
  - unfold divergence. cbn [fst snd]. ring.
  - unfold v_from_rotz, rmul, Cmult, RtoC. cbn [fst snd]. apply f_equal2; apply cpair_eq; ring.
  - unfold ur, ud, kdotu, rmul. cbn [fst snd]. apply f_equal2; ring.
Qed.

Example c42_example :
  project_toroidal 1 0 (RtoC 3, RtoC 4, RtoC 5) = (RtoC 0, RtoC 4, RtoC 0).
Proof.
  unfold project_toroidal, sin_phi, cos_phi, inv_Kh, Kh2. rewrite nozero_id by lra.
  replace (1 / (1 ^ 2 + 0 ^ 2))%R with 1%R by field. rewrite sqrt_1. unfold rmul, Cmult, Cplus, RtoC. cbn [fst snd].
  apply triple_eq; apply cpair_eq; ring.
Qed.

(** ** C43: laplacian *)

(** order 2 n: (- K2)^n, of the opposite sign with negative=True *)
Theorem c43_laplacian K2 n negative a :
  laplacian K2 n negative a = Cmult (RtoC ((if negative then -1 else 1) * (- K2) ^ n))%R a.
Proof.
  unfold laplacian, sign_of. replace (- K2)%R with ((-1) * K2)%R by ring. rewrite Rpow_mult_distr.
  destruct negative; rewrite ?RtoC_mult; ring.
Qed.

Theorem c43_inverse K2 n negative a : K2 <> 0%R ->
  invlaplacian K2 K2 false n negative (laplacian K2 n negative a) = a
  /\ laplacian K2 n negative (invlaplacian K2 K2 false n negative a) = a.
Proof.
  intros H. unfold invlaplacian, laplacian, sign_of.
  assert (HK : RtoC (K2 ^ n) <> RtoC 0) by (intros E; apply RtoC_inj in E; revert E; apply pow_nonzero; assumption).
  assert (HS : RtoC ((-1) ^ n) <> RtoC 0) by (intros E; apply RtoC_inj in E; revert E; apply pow_nonzero; lra).
  assert (H1 : (RtoC (-1) * RtoC (-1) = RtoC 1)%C) by (rewrite <- RtoC_mult; f_equal; ring).
  split; destruct negative.
  - transitivity (RtoC (-1) * RtoC (-1) * a)%C; [field; auto | rewrite H1; ring].
  - field. auto.
  - transitivity (RtoC (-1) * RtoC (-1) * a)%C; [field; auto | rewrite H1; ring].
  - field. auto.
Qed.

(** the mode 0: removed by both *)
Theorem c43_mean K2_not0 n negative a :
  invlaplacian 0 K2_not0 true n negative a = RtoC 0
  /\ (1 <= n -> laplacian 0 n negative a = RtoC 0).
Proof.
  split.
  - unfold invlaplacian. ring.
  - intros Hn. unfold laplacian. rewrite pow_i by lia. ring.
Qed.

Example c43_example : laplacian 4 1 false (RtoC 1) = RtoC (-4) /\ laplacian 4 2 true (RtoC 1) = RtoC (-16)
  /\ invlaplacian 4 4 false 1 false (RtoC (-4)) = RtoC 1.
Proof.
  rewrite !c43_laplacian, <- !RtoC_mult. split; [f_equal; ring|]. split; [f_equal; ring|].
  replace (RtoC (-4)) with (laplacian 4 1 false (RtoC 1)).
  - apply c43_inverse. lra.
  - rewrite c43_laplacian, <- RtoC_mult. f_equal. ring.
Qed.

(** ** C76: the 1D grids *)

Theorem c76_grid_partial l n i : 1 <= n -> periodic_point l n i (grid1d false l n i).
Proof.
  intros H. unfold periodic_point, grid1d. field. apply not_0_INR. lia.
Qed.

(** with ONLY_COARSE_OPER the last point is the first one of the next period: every point but the first is misplaced *)
Theorem c76_only_coarse_refuted l n i : 2 <= n -> 1 <= i -> l <> 0%R ->
  ~ periodic_point l n i (grid1d true l n i) /\ grid1d true l n (n - 1) = l.
Proof.
  intros Hn Hi Hl. unfold periodic_point, grid1d.
  assert (H1 : INR (n - 1) <> 0%R) by (apply not_0_INR; lia).
  split; [|field; assumption].
  intros E. apply (f_equal (fun x => x * INR (n - 1))%R) in E.
  replace (INR i * (l / INR (n - 1)) * INR n * INR (n - 1))%R with (INR i * l * INR n)%R in E by (field; assumption).
  rewrite minus_INR in E by lia. cbn [INR] in E.
  assert (F : (INR i * l = 0)%R) by lra.
  apply Rmult_integral in F as [F | F]; [|contradiction]. apply (not_0_INR i) in F; [assumption | lia].
Qed.

Example c76_example : grid1d false 8 4 1 = 2%R /\ grid1d true 9 4 1 = 3%R.
Proof. unfold grid1d. cbn [INR Nat.sub]. split; field. Qed.

Print Assumptions c36_setofvar_2d.
Print Assumptions c36_setofvar_3d.
Print Assumptions c36_variable_3d.
Print Assumptions c36_numpy_setofvar.
Print Assumptions c36_numpy_variable.
Print Assumptions c36_setofvar_is_variable.
Print Assumptions c36_idempotent.
Print Assumptions c37_even_partial.
Print Assumptions c37_mean_partial.
Print Assumptions c37_idempotent.
Print Assumptions c37_odd_refuted.
Print Assumptions c37_odd_nx_refuted.
Print Assumptions c38_place_2d_partial.
Print Assumptions c38_place_3d_partial.
Print Assumptions c38_odd_refuted.
Print Assumptions c38_3d_nyquist_refuted.
Print Assumptions c40_axis.
Print Assumptions c40_sequential.
Print Assumptions c40_layouts.
Print Assumptions c41_slabs.
Print Assumptions c41_slabs_same_size.
Print Assumptions c41_pencils.
Print Assumptions c41_2d_partial.
Print Assumptions c41_2d_same_size_partial.
Print Assumptions c41_2d_rejected.
Print Assumptions c41_2d_refuted.
Print Assumptions c42_projections_partial.
Print Assumptions c42_components_partial.
Print Assumptions c42_gradient_partial.
Print Assumptions c42_horizontal_partial.
Print Assumptions c42_shear_refuted.
Print Assumptions c43_laplacian.
Print Assumptions c43_inverse.
Print Assumptions c43_mean.
Print Assumptions c76_grid_partial.
Print Assumptions c76_only_coarse_refuted.
