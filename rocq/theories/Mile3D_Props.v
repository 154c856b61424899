(** The coarse grid and the arrays of the milestone forcing (C216, C217). *)
From Coq Require Import String List ZArith QArith Qround Reals Bool Arith Lia Lra FunctionalExtensionality.
From Coquelicot Require Import Complex.
From Verif Require Import Oper_Model Oper_Spec Oper_Proofs Oper_Props Mile3D_Model.
From Coq Require Import Qfield Lqa.
Import ListNotations.

(** * C216: the coarse grid *)
Local Open Scope Q_scope.
(** even, with the cell at least as long in y as in x, and as little as possible *)
Theorem c216_grid : forall nx lx ly, 0 < lx ->
  Z.even (coarse_ny nx lx ly) = true
  /\ inject_Z (coarse_ny nx lx ly) * lx <= inject_Z nx * ly
  /\ inject_Z nx * ly < inject_Z (coarse_ny nx lx ly + 2) * lx.
Proof.
  intros nx lx ly Hl. unfold coarse_ny. set (q := inject_Z nx * ly / lx / 2).
  assert (E : inject_Z nx * ly == 2 * q * lx) by (unfold q; field; lra).
  split; [now rewrite Z.even_mul|]. pose proof (Qfloor_le q) as A. pose proof (Qlt_floor q) as B.
  rewrite E. rewrite !inject_Z_plus, inject_Z_mult in *. change (inject_Z 2) with 2 in *. change (inject_Z 1) with 1 in *. set (f := inject_Z (Qfloor q)) in *.
  split; [apply Qmult_le_compat_r; lra|]. apply Qmult_lt_compat_r; lra.
Qed.
(** the grid is not empty if there are at least 2 cells *)
Theorem c216_not_empty : forall nx lx ly, 0 < lx -> (0 < coarse_ny nx lx ly)%Z <-> 2 * lx <= inject_Z nx * ly.
Proof.
  intros nx lx ly Hl. unfold coarse_ny. set (q := inject_Z nx * ly / lx / 2).
  assert (E : inject_Z nx * ly == 2 * q * lx) by (unfold q; field; lra). rewrite E.
  assert (Q1 : 1 <= q <-> (1 <= Qfloor q)%Z).
  { split; intros H; [apply Qfloor_resp_le in H; exact H|]. eapply Qle_trans; [|apply Qfloor_le]. change 1 with (inject_Z 1). now rewrite <- Zle_Qle. }
  split; intros H.
  - assert (A : (1 <= Qfloor q)%Z) by lia. apply Q1 in A. nra.
  - assert (A : 1 <= q) by nra. apply Q1 in A. lia.
Qed.
(** it is not finer than the grid of the simulation if the cells of the simulation are not longer in y *)
Theorem c216_coarser_partial : forall nx_max nx ny lx ly n, 0 < lx -> 0 < ly -> (0 < nx)%Z -> (0 <= n)%Z -> (0 <= ny)%Z -> check_nx_max nx_max nx = Some (Some n) ->
  inject_Z nx * ly <= inject_Z ny * lx -> (n < nx)%Z /\ (coarse_ny n lx ly <= ny)%Z.
Proof.
  intros nx_max nx ny lx ly n Hl Hly Hn Hn0 Hny C H. unfold check_nx_max in C. destruct nx_max as [m|]; [|discriminate].
  destruct (Z.ltb_spec nx m) as [l|l]; [discriminate|]. destruct (Z.eqb_spec m nx) as [e|ne]; [discriminate|]. injection C as <-. split; [lia|].
  destruct (c216_grid m lx ly Hl) as [_ [A _]].
  assert (B : inject_Z m * ly <= inject_Z nx * ly) by (apply Qmult_le_compat_r; [rewrite <- Zle_Qle; lia|lra]).
  assert (D : inject_Z (coarse_ny m lx ly) * lx <= inject_Z ny * lx) by lra.
  rewrite Zle_Qle. apply Qmult_le_r in D; assumption.
Qed.
Theorem c216_checks : forall nx_max nx, (forall n, nx_max = Some n -> check_nx_max nx_max nx = if (nx <? n)%Z then None else if (n =? nx)%Z then Some None else Some nx_max)
  /\ check_nx_max None nx = Some None.
Proof. intros nx_max nx. split; [|reflexivity]. intros n ->. reflexivity. Qed.
Example c216_ex : coarse_ny 48 4 3 = 36%Z /\ check_nx_max (Some 48%Z) 64 = Some (Some 48%Z) /\ inject_Z 64 * 3 <= inject_Z 48 * 4.
Proof. split; [reflexivity|]. split; [reflexivity|]. vm_compute. discriminate. Qed.
(** a long domain: no point in y *)
Theorem c216_empty_refuted : exists nx lx ly, (0 < nx)%Z /\ 0 < lx /\ 0 < ly /\ coarse_ny nx lx ly = 0%Z.
Proof. exists 8%Z, 8, 1. split; [lia|]. split; [reflexivity|]. split; reflexivity. Qed.
(** cells of the simulation longer in y: the coarse grid is accepted and has more points in y than the simulation *)
Theorem c216_finer_refuted : exists nx_max nx ny lx ly n, check_nx_max (Some nx_max) nx = Some (Some n) /\ (ny < coarse_ny n lx ly)%Z /\ (0 < ny)%Z.
Proof. exists 4%Z, 8%Z, 8%Z, 1, 4, 4%Z. split; [reflexivity|]. split; reflexivity. Qed.

(** * C217: the solid on the grid of the simulation, and the forcing *)
Section Solid.
Context {V : Type}.
Variable zero : V.
Variable small : V -> bool.
Hypothesis small_zero : small zero = true.
Lemma nyquist_zero : forall nkyc nkxc f i j, (i = nkyc / 2 \/ j = nkxc - 1)%nat -> zero_nyquist zero nkyc nkxc f i j = zero.
Proof. intros nkyc nkxc f i j H. unfold zero_nyquist. destruct (Nat.eqb_spec j (nkxc - 1)); [reflexivity|]. destruct (Nat.eqb_spec i (nkyc / 2)); [reflexivity|lia]. Qed.
Lemma nyquist_other : forall nkyc nkxc f i j, (i <> nkyc / 2 -> j <> nkxc - 1 -> zero_nyquist zero nkyc nkxc f i j = f i j)%nat.
Proof. intros nkyc nkxc f i j A B. unfold zero_nyquist. destruct (Nat.eqb_spec j (nkxc - 1)); [contradiction|]. destruct (Nat.eqb_spec i (nkyc / 2)); [contradiction|reflexivity]. Qed.
(** the coarse array is accepted; its coefficients below the cutoff go to the same wavenumbers, whatever the array of the previous time; the
    coefficients of the wavenumbers which are not in the coarse grid are not changed *)
Theorem c217_transfer : forall nkyc nkxc nky coarse big, (nkyc <= nky)%nat -> exists r, full_from_coarse zero small nkyc nkxc nky coarse big = Some r
  /\ (forall ikyc iky ikx k, (ikx < nkxc - 1)%nat -> (ikyc <> nkyc / 2)%nat -> holds (Z.of_nat nkyc) (Z.of_nat ikyc) k -> holds (Z.of_nat nky) (Z.of_nat iky) k -> r iky ikx = coarse ikyc ikx)
  /\ (forall ikyc iky ikx k, (ikx < nkxc)%nat -> (ikx = nkxc - 1 \/ ikyc = nkyc / 2)%nat -> holds (Z.of_nat nkyc) (Z.of_nat ikyc) k -> holds (Z.of_nat nky) (Z.of_nat iky) k -> r iky ikx = zero)
  /\ (forall iky ikx, ((nkxc <= ikx)%nat \/ forall k ikyc, holds (Z.of_nat nky) (Z.of_nat iky) k -> ~ holds (Z.of_nat nkyc) (Z.of_nat ikyc) k) -> r iky ikx = big iky ikx).
Proof.
  intros nkyc nkxc nky coarse big Hn. unfold full_from_coarse.
  pose proof (c38_place_2d_partial V zero small nkyc nkxc nky (zero_nyquist zero nkyc nkxc coarse) big Hn) as P.
  destruct (put_coarse_2d small nkyc nkxc nky (zero_nyquist zero nkyc nkxc coarse) big) as [r|].
  - destruct P as [_ [P1 [P2 _]]]. exists r. split; [reflexivity|]. split; [|split].
    + intros ikyc iky ikx k Hx Hy A B. rewrite (P1 ikyc iky ikx k) by (assumption || lia). apply nyquist_other; [exact Hy|lia].
    + intros ikyc iky ikx k Hx Hy A B. rewrite (P1 ikyc iky ikx k) by (assumption || lia). apply nyquist_zero. lia.
    + exact P2.
  - exfalso. destruct P as [[j [_ H]]|[i [_ H]]]; rewrite nyquist_zero in H by lia; congruence.
Qed.
(** from an array of zeros, at every time: the coefficients of the last coarse array, zero elsewhere *)
Theorem c217_history : forall nkyc nkxc nky coarses last, (nkyc <= nky)%nat -> exists r, full_history zero small nkyc nkxc nky (coarses ++ [last]) (fun _ _ => zero) = Some r
  /\ (forall ikyc iky ikx k, (ikx < nkxc - 1)%nat -> (ikyc <> nkyc / 2)%nat -> holds (Z.of_nat nkyc) (Z.of_nat ikyc) k -> holds (Z.of_nat nky) (Z.of_nat iky) k -> r iky ikx = last ikyc ikx)
  /\ (forall iky ikx, ((nkxc - 1 <= ikx)%nat \/ forall k ikyc, holds (Z.of_nat nky) (Z.of_nat iky) k -> holds (Z.of_nat nkyc) (Z.of_nat ikyc) k -> ikyc = (nkyc / 2)%nat) -> (iky < nky)%nat -> r iky ikx = zero).
Proof.
  intros nkyc nkxc nky coarses last Hn.
  assert (G : forall big, (forall iky ikx, ((nkxc <= ikx)%nat \/ forall k ikyc, holds (Z.of_nat nky) (Z.of_nat iky) k -> ~ holds (Z.of_nat nkyc) (Z.of_nat ikyc) k) -> big iky ikx = zero) ->
    exists b, full_history zero small nkyc nkxc nky (coarses ++ [last]) big = full_from_coarse zero small nkyc nkxc nky last b
      /\ (forall iky ikx, ((nkxc <= ikx)%nat \/ forall k ikyc, holds (Z.of_nat nky) (Z.of_nat iky) k -> ~ holds (Z.of_nat nkyc) (Z.of_nat ikyc) k) -> b iky ikx = zero)).
  { induction coarses as [|c cs IH]; intros big Z.
    - exists big. split; [|exact Z]. cbn. now destruct (full_from_coarse zero small nkyc nkxc nky last big).
    - destruct (c217_transfer nkyc nkxc nky c big Hn) as [r [E [_ [_ R]]]]. cbn [app full_history]. rewrite E. apply IH. intros iky ikx H. rewrite (R iky ikx H). now apply Z. }
  destruct (G (fun _ _ => zero) (fun _ _ _ => eq_refl)) as [b [E Z]]. destruct (c217_transfer nkyc nkxc nky last b Hn) as [r [Er [R1 [R2 R3]]]].
  exists r. split; [now rewrite E|]. split; [exact R1|]. intros iky ikx H Hi.
  destruct (holds_ex (Z.of_nat nky) (Z.of_nat iky)) as [k Hk]; [lia|].
  assert (D : (exists ikyc, holds (Z.of_nat nkyc) (Z.of_nat ikyc) k) \/ ~ (exists ikyc, holds (Z.of_nat nkyc) (Z.of_nat ikyc) k)).
  { destruct (Nat.eq_dec nkyc 0) as [e|ne]; [right; intros [i Hh]; unfold holds in Hh; lia|].
    unfold holds. destruct (Z_le_dec 0 k) as [p|n].
    - destruct (Z_lt_dec (2 * k) (Z.of_nat nkyc)) as [q|q].
      + left. exists (Z.to_nat k). rewrite Z2Nat.id by lia. unfold holds in Hk. lia.
      + destruct (Z.eq_dec (2 * k) (Z.of_nat nkyc)) as [e2|ne2]; [|right; intros [i Hh]; lia].
        left. exists (Z.to_nat k). rewrite Z2Nat.id by lia. lia.
    - destruct (Z_lt_dec (- (2 * k)) (Z.of_nat nkyc)) as [q|q]; [|right; intros [i Hh]; lia].
      left. exists (Z.to_nat (k + Z.of_nat nkyc)). rewrite Z2Nat.id by lia. lia. }
  destruct D as [[ikyc Hc]|D].
  - destruct (le_lt_dec nkxc ikx) as [l|l].
    + rewrite R3 by (now left). apply Z. now left.
    + apply (R2 ikyc iky ikx k l); [|exact Hc|exact Hk]. destruct H as [H|H]; [left; lia|right; exact (H k ikyc Hk Hc)].
  - assert (U : forall k' ikyc, holds (Z.of_nat nky) (Z.of_nat iky) k' -> ~ holds (Z.of_nat nkyc) (Z.of_nat ikyc) k').
    { intros k' ikyc A B. apply D. exists ikyc. replace k with k'; [exact B|]. unfold holds in *. lia. }
    rewrite R3 by (now right). apply Z. now right.
Qed.
(** the solid does not depend on z *)
Theorem c217_invariant : forall nb n1 n2 l1 l2 (a : nat -> nat -> V) r, build_invariant nb (n1, n2) l1 l2 a = Some r -> forall i0 i1 i2, r i0 i1 i2 = a i1 i2.
Proof.
  intros nb n1 n2 l1 l2 a r H i0 i1 i2. unfold build_invariant in H. destruct (nb =? 1)%nat; [now injection H as <-|].
  destruct ((fst (n1, n2) =? l1) && (snd (n1, n2) =? l2))%nat; [now injection H as <-|discriminate].
Qed.
Theorem c217_slabs : forall nb n1 n2 (a : nat -> nat -> V), build_invariant nb (n1, n2) n1 n2 a <> None.
Proof. intros nb n1 n2 a. unfold build_invariant. cbn [fst snd]. rewrite !Nat.eqb_refl. now destruct (nb =? 1)%nat. Qed.
End Solid.
(** a grid distributed over n1: not implemented *)
Theorem c217_pencil_refuted : exists nb n1 n2 l1 l2, (l1 < n1)%nat /\ forall a : nat -> nat -> C, build_invariant nb (n1, n2) l1 l2 a = None.
Proof. exists 2%nat, 4%nat, 4%nat, 2%nat, 4%nat. split; [lia|]. reflexivity. Qed.

From Coq Require Import Lra.
Local Open Scope R_scope.
(** the force at the points: it works for the velocity of the objects *)
Theorem c217_work : forall X (points : list X) sigma solid speed vx vy, 0 <= sigma -> (forall x, 0 <= solid x) ->
  0 <= fold_right Rplus 0 (map (fun x => fx X sigma solid speed vx x * (speed - vx x) - fy X sigma solid vy x * vy x) points)
  /\ (forall x, solid x = 0 -> fx X sigma solid speed vx x = 0 /\ fy X sigma solid vy x = 0)
  /\ (forall x, vx x = speed -> vy x = 0 -> fx X sigma solid speed vx x = 0 /\ fy X sigma solid vy x = 0).
Proof.
  intros X points sigma solid speed vx vy Hs Hp. split; [|split].
  - induction points as [|p l IH]; cbn [map fold_right]; [lra|]. apply Rplus_le_le_0_compat; [|exact IH]. unfold fx, fy.
    replace (sigma * solid p * (speed - vx p) * (speed - vx p) - - sigma * solid p * vy p * vy p) with (sigma * solid p * ((speed - vx p) ^ 2 + vy p ^ 2)) by ring.
    apply Rmult_le_pos; [apply Rmult_le_pos; [exact Hs|apply Hp]|]. pose proof (pow2_ge_0 (speed - vx p)). pose proof (pow2_ge_0 (vy p)). lra.
  - intros x E. unfold fx, fy. rewrite E. split; ring.
  - intros x E F. unfold fx, fy. rewrite E, F. split; ring.
Qed.
(** the arrays given to the state of the forcing *)
Theorem c217_arrays : forall X K fft rotfft sigma keys solid speed ux uy,
  compute_3d X K fft sigma solid speed ux uy = [("vx_fft"%string, fft (fun x => sigma * solid x * (speed - ux x))); ("vy_fft"%string, fft (fun x => - sigma * solid x * uy x))]
  /\ (~ In "rot_fft"%string keys -> compute_2d X K fft rotfft sigma keys solid speed ux uy = [("ux_fft"%string, fft (fun x => sigma * solid x * (speed - ux x))); ("uy_fft"%string, fft (fun x => - sigma * solid x * uy x))]).
Proof.
  intros X K fft rotfft sigma keys solid speed ux uy. split; [reflexivity|]. intros H. unfold compute_2d.
  destruct (existsb (String.eqb "rot_fft") keys) eqn:E; [|reflexivity]. exfalso. apply H. apply existsb_exists in E. destruct E as [k [A B]]. apply String.eqb_eq in B. now subst k.
Qed.
(** with the state of ns2d (rot_fft), the transverse velocity is not forced *)
Theorem c217_ns2d_refuted : exists keys, keys = ["rot_fft"%string] /\ forall X K fft rotfft sigma solid speed ux uy uy',
  compute_2d X K fft rotfft sigma keys solid speed ux uy = compute_2d X K fft rotfft sigma keys solid speed ux uy'.
Proof. exists ["rot_fft"%string]. split; [reflexivity|]. intros. reflexivity. Qed.
(** ** the transferred solid can be negative *)
(** the value at (x, y) of an array of real coefficients in the half plane kx >= 0 *)
Definition wave (n i : nat) : R := if (2 * i <? n)%nat then INR i else INR i - INR n.
Definition rsum (n : nat) (f : nat -> R) : R := fold_right Rplus 0 (map f (seq 0 n)).
Definition value (nky nkx : nat) (c : nat -> nat -> R) (x y : R) : R :=
  rsum nky (fun i => rsum nkx (fun j => (if (j =? 0)%nat then 1 else 2) * c i j * cos (INR j * x + wave nky i * y))).
(** coarse grid 4 x 4 with the solid at one point: the transferred field is negative at (pi, 0) *)
Theorem c217_sign_refuted : exists (solid coarse r : nat -> nat -> R) x y,
  (forall a b, 0 <= solid a b)
  /\ (forall i j, coarse i j = rsum 4 (fun a => rsum 4 (fun b => solid a b * cos (2 * PI * (INR j * INR b + INR i * INR a) / 4))) / 16)
  /\ (forall i j, 0 = rsum 4 (fun a => rsum 4 (fun b => solid a b * sin (2 * PI * (INR j * INR b + INR i * INR a) / 4))) / 16)
  /\ full_from_coarse 0 (fun v => if Req_EM_T v 0 then true else false) 4 3 8 coarse (fun _ _ => 0) = Some r /\ value 8 5 r x y < 0.
Proof.
  set (sm := fun v => if Req_EM_T v 0 then true else false). assert (Z : sm 0 = true) by (unfold sm; destruct (Req_EM_T 0 0); [reflexivity|lra]).
  exists (fun a b => match a, b with O, O => 1 | _, _ => 0 end), (fun _ _ => / 16). destruct (c217_transfer 0 sm Z 4 3 8 (fun _ _ => / 16) (fun _ _ => 0)) as [r [E _]]; [lia|].
  assert (Z0 : forall i j, 2 * PI * (INR j * 0 + INR i * 0) / 4 = 0) by (intros; field).
  exists r, PI, 0. split; [intros [|a] [|b]; lra|]. split; [intros i j; unfold rsum; cbn [seq map fold_right INR]; rewrite Z0, cos_0; lra|].
  split; [intros i j; unfold rsum; cbn [seq map fold_right INR]; rewrite Z0, sin_0; lra|]. split; [exact E|].
  unfold full_from_coarse, put_coarse_2d in E. cbn [zero_nyquist Nat.eqb Nat.div Nat.divmod fst snd Nat.sub seq forallb] in E. unfold zero_nyquist in E. cbn in E. rewrite Z in E. cbn in E.
  injection E as <-. unfold value, rsum, wave. cbn [seq map fold_right Nat.eqb Nat.ltb Nat.leb Nat.mul Nat.add]. unfold loop. cbn.
  rewrite !Rmult_0_r, !Rmult_0_l, !Rplus_0_r, ?Rplus_0_l, ?Rmult_1_l, ?cos_0, ?cos_PI. lra.
Qed.
(** the hypotheses of the theorems are met *)
Example c217_ex : (fun v => if Req_EM_T v 0 then true else false) 0 = true /\ (4 <= 8)%nat /\ ~ In "rot_fft"%string ["ux_fft"%string; "uy_fft"%string]
  /\ build_invariant 1 (4%nat, 4%nat) 2 4 (fun _ _ => 1) <> None /\ (holds 4 3 (-1) /\ holds 8 7 (-1)).
Proof.
  split; [cbv beta; destruct (Req_EM_T 0 0); [reflexivity|lra]|]. split; [lia|]. split; [intros [A|[A|[]]]; discriminate|]. split; [discriminate|]. unfold holds. lia.
Qed.
Print Assumptions c216_grid.
Print Assumptions c216_not_empty.
Print Assumptions c216_coarser_partial.
Print Assumptions c216_checks.
Print Assumptions c216_empty_refuted.
Print Assumptions c216_finer_refuted.
Print Assumptions c217_transfer.
Print Assumptions c217_history.
Print Assumptions c217_invariant.
Print Assumptions c217_slabs.
Print Assumptions c217_pencil_refuted.
Print Assumptions c217_work.
Print Assumptions c217_arrays.
Print Assumptions c217_ns2d_refuted.
Print Assumptions c217_sign_refuted.
