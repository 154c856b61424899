(** * Transfers by the rotational and divergent velocities: C256 *)

From Coq Require Import Reals Lra ZArith Lia List Bool Permutation.
From Coquelicot Require Import Coquelicot.
From Verif Require Import CExp DFT Alias_Model Alias_Proofs Alias_Props Oper_Model Oper_Spec Oper_Proofs
  Budget_Model Budget_Spec Budget_Proofs Budget2D_Proofs Budget2D_Props Budget3D_Props BudgetEq_Props Means_Model Means_Spec Means_Proofs Means_Props
  SW_Model SW_Spec SW_Proofs SWEq_Props SWOnly_Props SWEnergy_Props SWConv_Props Seb_Model Seb2D_Props FnlUrUd_Model.
Import ListNotations.
Local Open Scope R_scope.

(** ** Specification: the work of a term on a field is [product ms f term] *)
(** the velocity has no divergence *)
Definition solenoidal_2d (o : oper) (ms : list mode) (ux uy : mode -> C) : Prop := forall m, In m ms -> dvg o ux uy m = RtoC 0.
(** the sum over the pairs of modes: the coefficients of a product *)
Definition prod_coef (ms : list mode) (a b : mode -> C) (k : mode) : C := convolution ms a b k.

Section Transfers.
Variable o : oper.
Variable ms : list mode.
Variable dea : mode -> bool.
Hypothesis Hg : good_modes o ms.
Hypothesis Hd : forall m, In m ms -> dea m = false.

Let Ho : oper_pos o := proj1 Hg.
Let Hs : symmetric_modes ms := proj1 (proj2 Hg).
Let Ha : alias_free o ms := proj2 (proj2 (proj2 Hg)).

Notation I := (ifft o ms).

Lemma fst_eq urx ury udx udy div f g k : In k ms ->
  fst (fnonlin_urud o ms dea (I urx) (I ury) udx udy div f g) k
  = (- (fft o (gmul (I urx) (I (px_fft o f))) k + fft o (gmul (I ury) (I (py_fft o f))) k))%C.
Proof.
  intros Hk. cbn [fnonlin_urud fst]. unfold dealiasing. rewrite (Hd k Hk).
  rewrite (fft_ext o _ (fun jx jy jz => (- RtoC 1) * gmul (I urx) (I (px_fft o f)) jx jy jz + (- RtoC 1) * gmul (I ury) (I (py_fft o f)) jx jy jz)%C).
  - rewrite fft_lin. ring.
  - intros. unfold gsub, gmul, gopp, lift2. ring.
Qed.

Lemma snd_eq urx ury udx udy div f k : In k ms ->
  snd (fnonlin_urud o ms dea urx ury (I udx) (I udy) (I div) f (I f)) k
  = (- (fft o (gmul (I udx) (I (px_fft o f))) k + fft o (gmul (I udy) (I (py_fft o f))) k) - RtoC (1 / 2) * fft o (gmul (I div) (I f)) k)%C.
Proof.
  intros Hk. cbn [fnonlin_urud snd]. unfold dealiasing. rewrite (Hd k Hk).
  rewrite (fft_ext o _ (fun jx jy jz => RtoC 1 * (fun jx jy jz => (- RtoC 1) * gmul (I udx) (I (px_fft o f)) jx jy jz + (- RtoC 1) * gmul (I udy) (I (py_fft o f)) jx jy jz)%C jx jy jz
     + (- RtoC (1 / 2)) * gmul (I div) (I f) jx jy jz)%C).
  - rewrite !fft_lin. ring.
  - intros. unfold gsub, gmul, gopp, lift2. set (a := I udx _ _ _). set (b := I udy _ _ _). set (c := I div _ _ _).
    replace (c * I f jx jy jz / RtoC 2)%C with (RtoC (1 / 2) * (c * I f jx jy jz))%C; [ring|].
    unfold Cdiv. rewrite <- RtoC_inv by lra. replace (1 / 2) with (/ 2) by lra. ring.
Qed.

(** the work of the advection and of half of the divergence *)
Lemma work_zero ux uy d f : (forall m, In m ms -> d m = dvg o ux uy m) ->
  (lsum ms (fun k => f (mopp k) * fft o (gmul (I ux) (I (px_fft o f))) k) + lsum ms (fun k => f (mopp k) * fft o (gmul (I uy) (I (py_fft o f))) k)
   + RtoC (1 / 2) * lsum ms (fun k => f (mopp k) * fft o (gmul (I d) (I f)) k))%C = RtoC 0.
Proof.
  intros D. rewrite !(triple o ms) by assumption. rewrite <- triads_scal, <- !triads_plus. apply triads_anti23.
  intros p q s Hp _ _ S. rewrite (D p Hp). unfold dvg, px_fft, py_fft.
  rewrite <- !(sw_Kx o _ Ho), <- !(sw_Ky o _ Ho).
  pose proof (Kx_sum0 o p q s S) as EX. pose proof (Ky_sum0 o p q s S) as EY. rewrite EX, EY, !RtoC_minus, !RtoC_opp.
  set (a := RtoC (Kx o p)). set (b := RtoC (Ky o p)). set (a' := RtoC (Kx o q)). set (b' := RtoC (Ky o q)).
  assert (H2 : (RtoC (1 / 2) + RtoC (1 / 2))%C = RtoC 1) by (rewrite <- RtoC_plus; f_equal; lra).
  transitivity (Ci * f q * f s * (a * ux p + b * uy p) * ((RtoC (1 / 2) + RtoC (1 / 2)) - RtoC 1))%C; [ring|rewrite H2; ring].
Qed.

(** both terms exchange the square of the field between the modes: their total work is zero *)
Theorem c256_work : forall urx ury udx udy div f, real_field ms f -> solenoidal_2d o ms urx ury -> (forall m, In m ms -> div m = dvg o udx udy m) ->
  let F := fnonlin_urud o ms dea (I urx) (I ury) (I udx) (I udy) (I div) f (I f) in
  product ms f (fst F) = 0 /\ product ms f (snd F) = 0.
Proof.
  intros urx ury udx udy div f Rf S D F. split; rewrite product_lsum by exact Rf.
  - rewrite (lsum_ext ms _ (fun k => - (f (mopp k) * fft o (gmul (I urx) (I (px_fft o f))) k + f (mopp k) * fft o (gmul (I ury) (I (py_fft o f))) k))%C).
    2:{ intros k Hk. unfold F. rewrite fst_eq by exact Hk. ring. }
    rewrite lsum_neg, lsum_plus. pose proof (work_zero urx ury (fun _ => RtoC 0) f (fun m Hm => eq_sym (S m Hm))) as W.
    assert (Z : lsum ms (fun k => f (mopp k) * fft o (gmul (I (fun _ => RtoC 0)) (I f)) k)%C = RtoC 0).
    { rewrite (triple o ms) by assumption. apply triads_zero. intros. ring. }
    rewrite Z, Cmult_0_r, Cplus_0_r in W. rewrite W. cbn. ring.
  - rewrite (lsum_ext ms _ (fun k => - ((f (mopp k) * fft o (gmul (I udx) (I (px_fft o f))) k + f (mopp k) * fft o (gmul (I udy) (I (py_fft o f))) k)
       + RtoC (1 / 2) * (f (mopp k) * fft o (gmul (I div) (I f)) k)))%C).
    2:{ intros k Hk. unfold F. rewrite snd_eq by exact Hk. ring. }
    rewrite lsum_neg, !lsum_plus, lsum_scal, (work_zero udx udy div f D). cbn. ring.
Qed.

(** their sum is the skew-symmetric form of the advection by the total velocity: - (u.grad f + div(u f)) / 2 *)
Theorem c256_sum : forall urx ury udx udy div f k, In k ms -> solenoidal_2d o ms urx ury -> (forall m, In m ms -> div m = dvg o udx udy m) ->
  let F := fnonlin_urud o ms dea (I urx) (I ury) (I udx) (I udy) (I div) f (I f) in
  let ux := fun m => (urx m + udx m)%C in let uy := fun m => (ury m + udy m)%C in
  (fst F k + snd F k)%C
  = (- (RtoC (1 / 2) * (prod_coef ms ux (gradx o f) k + prod_coef ms uy (grady o f) k + dvg o (prod_coef ms ux f) (prod_coef ms uy f) k)))%C.
Proof.
  intros urx ury udx udy div f k Hk S D F ux uy. unfold F. rewrite fst_eq, snd_eq by exact Hk. rewrite !(fft_conv o ms Hg) by exact Hk.
  unfold prod_coef. unfold dvg. rewrite <- !(sw_Kx o _ Ho), <- !(sw_Ky o _ Ho).
  replace (Ci * (RtoC (Kx o k) * convolution ms ux f k + RtoC (Ky o k) * convolution ms uy f k))%C
    with (Ci * RtoC (Kx o k) * convolution ms ux f k + Ci * RtoC (Ky o k) * convolution ms uy f k)%C by ring.
  rewrite (leibniz ms (Kx o)) by (intros; apply (Kx_add o); assumption).
  rewrite (leibniz ms (Ky o)) by (intros; apply (Ky_add o); assumption).
  assert (Gx : forall a, convolution ms a (gradx o f) k = convolution ms a (px_fft o f) k)
    by (intros a; apply conv_ext; [reflexivity|]; intros m _; unfold gradx, px_fft; rewrite <- (sw_Kx o _ Ho); reflexivity).
  assert (Gy : forall a, convolution ms a (grady o f) k = convolution ms a (py_fft o f) k)
    by (intros a; apply conv_ext; [reflexivity|]; intros m _; unfold grady, py_fft; rewrite <- (sw_Ky o _ Ho); reflexivity).
  rewrite Gx, Gy.
  assert (L : forall a b c, convolution ms (fun m => a m + b m)%C c k = (convolution ms a c k + convolution ms b c k)%C).
  { intros a b c. rewrite (conv_swap ms _ c), (conv_swap ms a c), (conv_swap ms b c).
    rewrite (conv_ext ms c c _ (fun m => RtoC 1 * a m + RtoC 1 * b m)%C) by (intros; ring). rewrite conv_lin. ring. }
  assert (E : (convolution ms (fun m => Ci * RtoC (Kx o m) * ux m)%C f k + convolution ms (fun m => Ci * RtoC (Ky o m) * uy m)%C f k)%C = convolution ms div f k).
  { rewrite <- L. apply conv_ext; [|reflexivity]. intros m Hm. rewrite (D m Hm). pose proof (S m Hm) as Z. unfold dvg in *.
    rewrite <- !(sw_Kx o _ Ho), <- !(sw_Ky o _ Ho) in *. unfold ux, uy.
    transitivity (Ci * (RtoC (Kx o m) * urx m + RtoC (Ky o m) * ury m) + Ci * (RtoC (Kx o m) * udx m + RtoC (Ky o m) * udy m))%C; [ring|rewrite Z; ring]. }
  unfold ux, uy in *. rewrite !L in *. change (fun m => Ci * RtoC (Kx o m) * f m)%C with (px_fft o f). change (fun m => Ci * RtoC (Ky o m) * f m)%C with (py_fft o f).
  rewrite <- E. generalize (convolution ms urx (px_fft o f) k) (convolution ms udx (px_fft o f) k) (convolution ms ury (py_fft o f) k) (convolution ms udy (py_fft o f) k).
  generalize (convolution ms (fun m => Ci * RtoC (Kx o m) * (urx m + udx m))%C f k) (convolution ms (fun m => Ci * RtoC (Ky o m) * (ury m + udy m))%C f k).
  intros [a1 a2] [b1 b2] [c1 c2] [d1 d2] [e1 e2] [f1 f2]. apply C_eq; cbn; field.
Qed.
End Transfers.

Example c256_example : good_modes o8 ms3 /\ real_field ms3 cos_x /\ solenoidal_2d o8 ms3 (fun _ => RtoC 0) cos_x
  /\ dvg o8 cos_x (fun _ => RtoC 0) (1, 0, 0)%Z = (0, 1 / 2).
Proof.
  split; [exact ms3_good|]. split; [exact (proj1 flow1_real)|]. split.
  - intros m Hm. unfold dvg, wy. assert (E : my m = 0%Z) by (destruct Hm as [<-|[<-|[<-|[]]]]; reflexivity).
    rewrite E. apply C_eq; cbn; unfold Rdiv; ring.
  - unfold dvg, wx, cos_x. cbn. pose proof PI_RGT_0. apply C_eq; cbn; field; lra.
Qed.

Print Assumptions c256_work.
Print Assumptions c256_sum.
