(** * C117, C118: spectral energy budgets of the shallow water solvers with the normal modes *)

From Coq Require Import Reals Lra ZArith Lia String List Bool Permutation.
From Coquelicot Require Import Coquelicot.
From Verif Require Import CExp DFT Alias_Model Alias_Proofs Alias_Props Oper_Model Oper_Spec Oper_Proofs
  Budget_Model Budget_Spec Budget_Proofs Budget2D_Proofs Budget2D_Props Budget3D_Props BudgetEq_Props Means_Model Means_Spec Means_Proofs Means_Props MeansSW_Props
  SW_Spec SW_Model SWNormal_Model SW_Proofs SWModes_Props SWEq_Props SWOnly_Props SWForcing_Props SWEnergy_Props SWModified_Props Seb_Model Seb2D_Props SebSW_Props SebNormal_Model.
Import ListNotations.
Local Open Scope R_scope.

(** the energy of a shell: Re(conj(u) . ((1 + eta) u)) / 2 + c^2 |eta|^2 / 2; (1 + eta) u is computed with exact products *)
Definition mass_flux (ms : list mode) (eta a : sfield) : sfield := fun m => (a m + convolution ms eta a m)%C.
Definition cospectrum (a b : C) : R := fst a * fst b + snd a * snd b.
Definition shell_energy (ms : list mode) (c2 : R) (shell : list mode) (s : sstate) : R :=
  total shell (fun m => (cospectrum (cx s m) (mass_flux ms (cz s) (cx s) m) + cospectrum (cy s m) (mass_flux ms (cz s) (cy s) m)) / 2 + c2 * (norm2 (cz s m) / 2)).

(** u . grad a *)
Definition along (o : oper) (ms : list mode) (s : sstate) (a : sfield) : sfield := fun m =>
  (convolution ms (cx s) (ddx o a) m + convolution ms (cy s) (ddy o a) m)%C.

(** the sum of the transfers of the five groups, of the exchanges *)
Definition transfers (shell : list mode) (l : list (string * (mode -> R))) : R :=
  saved shell l "Tq_GGG" + saved shell l "Tq_AGG" + saved shell l "Tq_GAAs" + saved shell l "Tq_GAAd" + saved shell l "Tq_AAA".
Definition exchanges (shell : list mode) (l : list (string * (mode -> R))) : R :=
  saved shell l "Cq_GG" + saved shell l "Cq_AG" + saved shell l "Cq_aG" + saved shell l "Cq_AA".

Definition no_mean (ms : list mode) (s : sstate) : Prop :=
  forall m, In m ms -> mean_mode m -> cx s m = RtoC 0 /\ cy s m = RtoC 0 /\ cz s m = RtoC 0.

Lemma cospectrum_conj a b : fst (Cconj a * b)%C = cospectrum a b.
Proof. unfold cospectrum. cbn. ring. Qed.

Lemma get_names l : map fst l = ["GGG"; "AGG"; "GAAs"; "GAAd"; "AAA"]%string ->
  (get_group (Some l) "GGG" + get_group (Some l) "AGG" + get_group (Some l) "GAAs" + get_group (Some l) "GAAd" + get_group (Some l) "AAA")%C = sum_of l.
Proof.
  destruct l as [|[k1 v1] [|[k2 v2] [|[k3 v3] [|[k4 v4] [|[k5 v5] [|? ?]]]]]]; try discriminate. cbn [map fst]. intros E. injection E as -> -> -> -> ->.
  cbn [get_group find fst snd String.eqb Ascii.eqb Bool.eqb sum_of fold_right]. ring.
Qed.

Lemma conv_add3 ms a b0 b1 b2 k : convolution ms a (fun m => b0 m + b1 m + b2 m)%C k = (convolution ms a b0 k + convolution ms a b1 k + convolution ms a b2 k)%C.
Proof.
  rewrite (conv_ext ms a a _ (fun m => RtoC 1 * (fun m => b0 m + b1 m)%C m + RtoC 1 * b2 m)%C) by (intros; ring). rewrite conv_lin.
  rewrite (conv_ext ms a a (fun m => b0 m + b1 m)%C (fun m => RtoC 1 * b0 m + RtoC 1 * b1 m)%C) by (intros; ring). rewrite conv_lin. ring.
Qed.

Definition co (ms : list mode) (a b c : sfield) (m : mode) : R := cospectrum (a m) (convolution ms b c m).

(** ** Derivatives of products *)

Lemma derive_prod (a b : R -> R) t u v : is_derive a t u -> is_derive b t v -> is_derive (fun x => a x * b x) t (u * b t + a t * v).
Proof. intros A B. exact (is_derive_mult a b t u v A B Rmult_comm). Qed.
Lemma derive_minus (a b : R -> R) t u v : is_derive a t u -> is_derive b t v -> is_derive (fun x => a x - b x) t (u - v).
Proof. intros A B. exact (is_derive_minus a b t u v A B). Qed.
Lemma derive_same (a b : R -> R) (t u : R) : (forall x : R, a x = b x) -> is_derive a t u -> is_derive b t u.
Proof. intros E. apply is_derive_ext. exact E. Qed.
Lemma derive_total (f : R -> mode -> R) (d : mode -> R) t l : (forall m, In m l -> is_derive (fun x => f x m) t (d m)) -> is_derive (fun x => total l (f x)) t (total l d).
Proof.
  induction l as [|m l IH]; intros H; unfold total; cbn [fold_right]; [apply (is_derive_const (K := R_AbsRing) (V := R_NormedModule))|].
  apply derive_add; [apply H; left; reflexivity|]. apply IH. intros q Hq. apply H. right. exact Hq.
Qed.
(** a complex number moves *)
Definition cmoves (z : R -> C) (t : R) (d : C) : Prop := is_derive (fun x => fst (z x)) t (fst d) /\ is_derive (fun x => snd (z x)) t (snd d).

Lemma derive_cospectrum (a b : R -> C) t u v : cmoves a t u -> cmoves b t v ->
  is_derive (fun x => cospectrum (a x) (b x)) t (cospectrum u (b t) + cospectrum (a t) v).
Proof.
  intros [A1 A2] [B1 B2]. unfold cospectrum. pose proof (derive_add _ _ _ _ _ (derive_prod _ _ _ _ _ A1 B1) (derive_prod _ _ _ _ _ A2 B2)) as D.
  apply (is_derive_eq _ _ _ _ D). ring.
Qed.
Lemma cmoves_prod a b t u v : cmoves a t u -> cmoves b t v -> cmoves (fun x => a x * b x)%C t (u * b t + a t * v)%C.
Proof.
  intros [A1 A2] [B1 B2]. split; cbn.
  - pose proof (derive_minus _ _ _ _ _ (derive_prod _ _ _ _ _ A1 B1) (derive_prod _ _ _ _ _ A2 B2)) as D. apply (is_derive_eq _ _ _ _ D). ring.
  - pose proof (derive_add _ _ _ _ _ (derive_prod _ _ _ _ _ A1 B2) (derive_prod _ _ _ _ _ A2 B1)) as D. apply (is_derive_eq _ _ _ _ D). ring.
Qed.
Lemma cmoves_plus a b t u v : cmoves a t u -> cmoves b t v -> cmoves (fun x => a x + b x)%C t (u + v)%C.
Proof. intros [A1 A2] [B1 B2]. split; cbn; apply derive_add; assumption. Qed.
Lemma cmoves_zero t : cmoves (fun _ => RtoC 0) t (RtoC 0).
Proof. split; cbn; apply (is_derive_const (K := R_AbsRing) (V := R_NormedModule)). Qed.
Lemma cmoves_lsum {A} (l : list A) (f : R -> A -> C) (d : A -> C) t : (forall p, In p l -> cmoves (fun x => f x p) t (d p)) -> cmoves (fun x => lsum l (f x)) t (lsum l d).
Proof.
  induction l as [|p l IH]; intros H; [apply cmoves_zero|]. unfold lsum. cbn [fold_right]. apply cmoves_plus; [apply H; left; reflexivity|].
  apply IH. intros q Hq. apply H. right. exact Hq.
Qed.
Lemma cmoves_conv ms (a b : R -> sfield) t da db k : moves ms a t da -> moves ms b t db ->
  cmoves (fun x => convolution ms (a x) (b x) k) t (convolution ms da (b t) k + convolution ms (a t) db k)%C.
Proof.
  intros A B. replace (convolution ms da (b t) k + convolution ms (a t) db k)%C
    with (lsum ms (fun p => lsum ms (fun q => if mode_eqb (madd p q) k then (da p * b t q + a t p * db q)%C else RtoC 0))).
  - unfold convolution. apply cmoves_lsum. intros p Hp. apply cmoves_lsum. intros q Hq. destruct (mode_eqb _ _); [|apply cmoves_zero].
    apply (cmoves_prod (fun x => a x p) (fun x => b x q)); [exact (A p Hp) | exact (B q Hq)].
  - unfold convolution. rewrite <- lsum_plus. apply lsum_ext. intros p _. rewrite <- lsum_plus. apply lsum_ext. intros q _. destruct (mode_eqb _ _); ring.
Qed.

Section SebNormal.
Variable o : oper.
Variable ms : list mode.
Variable dea : mode -> bool.
Variables f c2 : R.
Hypothesis Hg : good_modes o ms.
Hypothesis Hc : 0 < c2.
Hypothesis Hd : forall m, In m ms -> dea m = false.

Let Ho : oper_pos o := proj1 Hg.

(** ** The sums over the groups *)

Definition modes_total (b br : vfield) (k : key) : field := fun m => sum3 (fun j => modes_of o f c2 b br k j m).

Lemma Tq_total keys b br m : In m ms ->
  Tq_fft o ms dea f c2 keys b br "GGG" m + Tq_fft o ms dea f c2 keys b br "AGG" m + Tq_fft o ms dea f c2 keys b br "GAAs" m
  + Tq_fft o ms dea f c2 keys b br "GAAd" m + Tq_fft o ms dea f c2 keys b br "AAA" m
  = fold_right (fun k s => let '(c, k1, k2, k3) := k in
      c * cospectrum (modes_total b br k1 m) (convolution ms (modes_total b br k2) (modes_total b br k3) m) + s) 0 keys.
Proof.
  intros Hm. induction keys as [|[[[c k1] k2] k3] keys IH]; [cbn; ring|]. cbn [Tq_fft fold_right]. rewrite <- IH.
  unfold Tq_term. destruct (c113_products_partial (fun i => modes_of o f c2 b br k1 i m)
    (fun i j => dealiasing dea (fft o (gmul (ifft o ms (modes_of o f c2 b br k2 i)) (ifft o ms (modes_of o f c2 b br k3 j)))) m)) as (l & -> & N & S).
  pose proof (get_names l N) as G. rewrite S in G. unfold dealiasing in G. rewrite (Hd m Hm), !(fft_conv o ms Hg) in G by exact Hm.
  assert (E : convolution ms (modes_total b br k2) (modes_total b br k3) m
    = (convolution ms (modes_of o f c2 b br k2 0) (modes_of o f c2 b br k3 0) m + convolution ms (modes_of o f c2 b br k2 0) (modes_of o f c2 b br k3 1) m
       + convolution ms (modes_of o f c2 b br k2 0) (modes_of o f c2 b br k3 2) m + convolution ms (modes_of o f c2 b br k2 1) (modes_of o f c2 b br k3 0) m
       + convolution ms (modes_of o f c2 b br k2 1) (modes_of o f c2 b br k3 1) m + convolution ms (modes_of o f c2 b br k2 1) (modes_of o f c2 b br k3 2) m
       + convolution ms (modes_of o f c2 b br k2 2) (modes_of o f c2 b br k3 0) m + convolution ms (modes_of o f c2 b br k2 2) (modes_of o f c2 b br k3 1) m
       + convolution ms (modes_of o f c2 b br k2 2) (modes_of o f c2 b br k3 2) m)%C).
  { unfold modes_total at 2, sum3. rewrite conv_add3. rewrite !(conv_swap ms (modes_total b br k2)). unfold modes_total, sum3. rewrite !conv_add3.
    rewrite !(conv_swap ms (modes_of o f c2 b br k3 _)). ring. }
  rewrite <- E in G. rewrite <- cospectrum_conj. change (sum3 (fun i => modes_of o f c2 b br k1 i m)) with (modes_total b br k1 m) in G. rewrite <- G.
  generalize (get_group (Some l) "GGG") (get_group (Some l) "AGG") (get_group (Some l) "GAAs") (get_group (Some l) "GAAd") (get_group (Some l) "AAA").
  intros [a1 a2] [b1 b2] [d1 d2] [e1 e2] [g1 g2]. cbn. ring.
Qed.

Lemma dyad_total n1 n2 :
  (get_group (dyad true n1 n2) "GG" + get_group (dyad true n1 n2) "AG" + get_group (dyad true n1 n2) "aG" + get_group (dyad true n1 n2) "AA")%C
  = (Cconj (sum3 n1) * sum3 n2)%C.
Proof.
  unfold sum3. assert (CP : forall a b, Cconj (a + b) = (Cconj a + Cconj b)%C) by (intros; apply C_eq; cbn; ring). rewrite !CP.
  unfold dyad, keyed. generalize (Cconj (n1 0%nat)) (Cconj (n1 1%nat)) (Cconj (n1 2%nat)) (n2 0%nat) (n2 1%nat) (n2 2%nat). intros.
  cbv -[Cplus Cmult RtoC C IZR]. ring.
Qed.

(** the field without its mean *)
Definition nomean (a : field) : field := fun m => if first m then RtoC 0 else a m.

Lemma total_var b d v m : first m = true -> normalmode o f c2 b d v 0 m = RtoC 0 /\ normalmode o f c2 b d v 1 m = RtoC 0 /\ normalmode o f c2 b d v 2 m = RtoC 0.
Proof.
  intros N. assert (Q : forall r j, qmat o f c2 r j m = RtoC 0) by (intros; unfold qmat; rewrite N; reflexivity).
  unfold normalmode, px_fft, py_fft, Cdiv. split; [|split]; destruct d, v; rewrite !Q; ring.
Qed.

Section Sums.
Variable s : vfield.
Let b := bvec_of_fields o f c2 s.
Let br := bvec_rot o f c2 s.
Let U := nomean (cx s).
Let V := nomean (cy s).
Let E := nomean (cz s).
Let D : field := fun m => (ddx o U m + ddy o V m)%C.

Lemma grad_nomean (a : field) m : (if first m then RtoC 0 else gradx o a m) = ddx o (nomean a) m /\ (if first m then RtoC 0 else grady o a m) = ddy o (nomean a) m.
Proof. unfold nomean, ddx, ddy, gradx, grady. destruct (first m); split; ring. Qed.

Lemma totals_eq m : modes_total b br (Var NoD Ux) m = U m /\ modes_total b br (Var NoD Uy) m = V m /\ modes_total b br (Var NoD Eta) m = E m
  /\ modes_total b br (Var Px Ux) m = ddx o U m /\ modes_total b br (Var Py Ux) m = ddy o U m
  /\ modes_total b br (Var Px Uy) m = ddx o V m /\ modes_total b br (Var Py Uy) m = ddy o V m
  /\ modes_total b br (Var Px Eta) m = ddx o E m /\ modes_total b br (Var Py Eta) m = ddy o E m
  /\ modes_total b br Div m = D m.
Proof.
  unfold D, U, V, E. rewrite <- !(proj1 (grad_nomean _ m)), <- !(proj2 (grad_nomean _ m)). unfold nomean, modes_total, sum3, modes_of.
  destruct (first m) eqn:N.
  - assert (Z : forall d v, (normalmode o f c2 b d v 0 m + normalmode o f c2 b d v 1 m + normalmode o f c2 b d v 2 m)%C = RtoC 0)
      by (intros d v; destruct (total_var b d v m N) as (-> & -> & ->); ring).
    rewrite !Z. do 9 (split; [reflexivity|]). unfold normalmode_div, fadd.
    destruct (total_var b Px Ux m N) as (-> & -> & ->). destruct (total_var b Py Uy m N) as (-> & -> & ->). ring.
  - assert (NM : ~ mean_mode m) by (intros Q; apply mean_first in Q; congruence).
    destruct (c111_sum_partial o f c2 Ho Hc s m NM) as (T1 & T2 & T3 & T4 & T5 & T6 & T7 & T8 & T9 & T10). unfold modes_sum in *.
    do 9 (split; [first [exact T1|exact T2|exact T3|exact T4|exact T5|exact T6|exact T7|exact T8|exact T9]|]). unfold b. rewrite T10. unfold dvg, gradx, grady. ring.
Qed.

Lemma rot_totals m : modes_total b br (Rotational Ux) m = ux_from_rot o (rot_from_vec o (cx s) (cy s)) m
  /\ modes_total b br (Rotational Uy) m = uy_from_rot o (rot_from_vec o (cx s) (cy s)) m.
Proof.
  unfold modes_total, sum3, modes_of. destruct (first m) eqn:N.
  - destruct (total_var br NoD Ux m N) as (-> & -> & ->). destruct (total_var br NoD Uy m N) as (-> & -> & ->).
    destruct (ux_rot_first o (rot_from_vec o (cx s) (cy s)) m N) as [-> ->]. split; ring.
  - assert (NM : ~ mean_mode m) by (intros Q; apply mean_first in Q; congruence).
    unfold br, bvec_rot. destruct s as [[ux uy] eta]. rewrite cx_mk, cy_mk.
    destruct (c111_sum_partial o f c2 Ho Hc (ux_from_rot o (rot_from_vec o ux uy), uy_from_rot o (rot_from_vec o ux uy), eta) m NM) as (T1 & T2 & _).
    split; [exact T1 | exact T2].
Qed.

Lemma transfers_density m : In m ms ->
  Tq_fft o ms dea f c2 (transfer_keys c2) b br "GGG" m + Tq_fft o ms dea f c2 (transfer_keys c2) b br "AGG" m + Tq_fft o ms dea f c2 (transfer_keys c2) b br "GAAs" m
  + Tq_fft o ms dea f c2 (transfer_keys c2) b br "GAAd" m + Tq_fft o ms dea f c2 (transfer_keys c2) b br "AAA" m
  = - (co ms U U (ddx o U) m + co ms U V (ddy o U) m + co ms V U (ddx o V) m + co ms V V (ddy o V) m)
    + c2 / 2 * (co ms (ddx o E) E U m + co ms (ddy o E) E V m) - 1 / 2 * (co ms U U D m + co ms V V D m) + c2 / 4 * co ms D E E m.
Proof.
  intros Hm. rewrite Tq_total by exact Hm. unfold transfer_keys. cbn [fold_right]. unfold co.
  assert (X : forall k a, (forall m, modes_total b br k m = a m) -> forall k' a', (forall m, modes_total b br k' m = a' m) ->
    convolution ms (modes_total b br k) (modes_total b br k') m = convolution ms a a' m) by (intros; apply conv_ext; intros; auto).
  rewrite !(X (Var NoD Ux) U (fun m => proj1 (totals_eq m)) (Var Px Ux) (ddx o U)) by (intros; apply totals_eq).
  rewrite !(X (Var NoD Uy) V) with (k' := Var Py Ux) (a' := ddy o U) by (intros; apply totals_eq).
  rewrite !(X (Var NoD Ux) U) with (k' := Var Px Uy) (a' := ddx o V) by (intros; apply totals_eq).
  rewrite !(X (Var NoD Uy) V) with (k' := Var Py Uy) (a' := ddy o V) by (intros; apply totals_eq).
  rewrite !(X (Var NoD Eta) E) with (k' := Var NoD Ux) (a' := U) by (intros; apply totals_eq).
  rewrite !(X (Var NoD Eta) E) with (k' := Var NoD Uy) (a' := V) by (intros; apply totals_eq).
  rewrite !(X (Var NoD Ux) U) with (k' := Div) (a' := D) by (intros; apply totals_eq).
  rewrite !(X (Var NoD Uy) V) with (k' := Div) (a' := D) by (intros; apply totals_eq).
  rewrite !(X (Var NoD Eta) E) with (k' := Var NoD Eta) (a' := E) by (intros; apply totals_eq).
  destruct (totals_eq m) as (-> & -> & _ & _ & _ & _ & _ & -> & -> & ->). field.
Qed.

Lemma modified_density m : In m ms ->
  Tq_fft o ms dea f c2 (transfer_keys_modified c2) b br "GGG" m + Tq_fft o ms dea f c2 (transfer_keys_modified c2) b br "AGG" m
  + Tq_fft o ms dea f c2 (transfer_keys_modified c2) b br "GAAs" m
  + Tq_fft o ms dea f c2 (transfer_keys_modified c2) b br "GAAd" m + Tq_fft o ms dea f c2 (transfer_keys_modified c2) b br "AAA" m
  = cospectrum (U m) (- advection o ms (rot_from_vec o (cx s) (cy s)) (cx s) m)%C + cospectrum (V m) (- advection o ms (rot_from_vec o (cx s) (cy s)) (cy s) m)%C
    + c2 * cospectrum (E m) (- advection o ms (rot_from_vec o (cx s) (cy s)) (cz s) m)%C.
Proof.
  intros Hm. rewrite Tq_total by exact Hm. unfold transfer_keys_modified. cbn [fold_right].
  rewrite !(advection_conv o ms Hg) by exact Hm. set (rot := rot_from_vec o (cx s) (cy s)).
  assert (X : forall k a k' a', (forall m, modes_total b br k m = a m) -> (forall m, modes_total b br k' m = a' m) ->
    convolution ms (modes_total b br k) (modes_total b br k') m = convolution ms a a' m) by (intros; apply conv_ext; intros; auto).
  assert (P : forall a k, px_fft o a k = ddx o (nomean a) k /\ py_fft o a k = ddy o (nomean a) k).
  { intros a k. unfold px_fft, py_fft, ddx, ddy, nomean. rewrite (sw_Kx o k Ho), (sw_Ky o k Ho). destruct (first k) eqn:N; [|split; reflexivity].
    destruct (no_xy_K o k N) as [K1 K2]. rewrite (sw_Kx o k Ho) in K1. rewrite (sw_Ky o k Ho) in K2. rewrite K1, K2. split; ring. }
  rewrite (X (Rotational Ux) (ux_from_rot o rot) (Var Px Ux) (px_fft o (cx s))) by (intros; first [apply rot_totals | rewrite (proj1 (P _ _)); apply totals_eq]).
  rewrite (X (Rotational Uy) (uy_from_rot o rot) (Var Py Ux) (py_fft o (cx s))) by (intros; first [apply rot_totals | rewrite (proj2 (P _ _)); apply totals_eq]).
  rewrite (X (Rotational Ux) (ux_from_rot o rot) (Var Px Uy) (px_fft o (cy s))) by (intros; first [apply rot_totals | rewrite (proj1 (P _ _)); apply totals_eq]).
  rewrite (X (Rotational Uy) (uy_from_rot o rot) (Var Py Uy) (py_fft o (cy s))) by (intros; first [apply rot_totals | rewrite (proj2 (P _ _)); apply totals_eq]).
  rewrite (X (Rotational Ux) (ux_from_rot o rot) (Var Px Eta) (px_fft o (cz s))) by (intros; first [apply rot_totals | rewrite (proj1 (P _ _)); apply totals_eq]).
  rewrite (X (Rotational Uy) (uy_from_rot o rot) (Var Py Eta) (py_fft o (cz s))) by (intros; first [apply rot_totals | rewrite (proj2 (P _ _)); apply totals_eq]).
  destruct (totals_eq m) as (-> & -> & -> & _). unfold cospectrum. cbn. ring.
Qed.
End Sums.

(** ** C118: sw1l.exactlin.modified *)

Let bud md u := sw1l_budget o ms dea f c2 md u.

Lemma transfers_total md u shell : transfers shell (bud md u) = total shell (fun m =>
  let keys := if md then transfer_keys_modified c2 else transfer_keys c2 in
  let b := bvec_of_fields o f c2 u in let br := bvec_rot o f c2 u in
  Tq_fft o ms dea f c2 keys b br "GGG" m + Tq_fft o ms dea f c2 keys b br "AGG" m + Tq_fft o ms dea f c2 keys b br "GAAs" m
  + Tq_fft o ms dea f c2 keys b br "GAAd" m + Tq_fft o ms dea f c2 keys b br "AAA" m).
Proof. rewrite !total_plus. reflexivity. Qed.

Lemma nomean_rate shell (a g : field) : (forall m, In m shell -> first m = true -> g m = RtoC 0) ->
  total shell (fun m => cospectrum (nomean a m) (g m)) = rate shell (fun _ => 1) a g.
Proof.
  intros Z. unfold rate. apply total_ext. intros m Hm. unfold nomean, cospectrum. destruct (first m) eqn:N; [|ring]. rewrite (Z m Hm N). cbn. ring.
Qed.

Lemma transfers_modified u shell : shell_of ms shell -> transfers shell (bud true u)
  = rate shell (fun _ => 1) (cx u) (cx (transported o ms u)) + rate shell (fun _ => 1) (cy u) (cy (transported o ms u))
    + c2 * rate shell (fun _ => 1) (cz u) (cz (transported o ms u)).
Proof.
  intros (_ & Hs). rewrite transfers_total. cbv zeta.
  assert (Z : forall a k, In k shell -> first k = true -> (- advection o ms (rot_from_vec o (cx u) (cy u)) a k)%C = RtoC 0).
  { intros a k Hk N. rewrite (advection_first o ms Hg _ _ _ (Hs k Hk) N). ring. }
  rewrite (total_ext shell _ (fun m => cospectrum (nomean (cx u) m) (- advection o ms (rot_from_vec o (cx u) (cy u)) (cx u) m)%C
    + cospectrum (nomean (cy u) m) (- advection o ms (rot_from_vec o (cx u) (cy u)) (cy u) m)%C
    + c2 * cospectrum (nomean (cz u) m) (- advection o ms (rot_from_vec o (cx u) (cy u)) (cz u) m)%C)) by (intros m Hm; apply modified_density; apply Hs; exact Hm).
  rewrite !total_plus, total_scal.
  rewrite !(nomean_rate shell _ (fun m => - advection o ms (rot_from_vec o (cx u) (cy u)) _ m)%C) by (intros; apply Z; assumption).
  f_equal; [f_equal|f_equal]; apply rate_ext; intros m Hm; symmetry; apply (transported_eq o ms Hg u m (Hs m Hm)).
Qed.

(** the transfers are the rate of the quadratic energy of the shell *)
Theorem c118_shell (s : R -> vfield) t shell : shell_of ms shell -> vmoves ms s t (sw1l_modified o ms dea f c2 (s t)) ->
  is_derive (fun x => kinetic shell (s x) + potential c2 shell (s x)) t (transfers shell (bud true (s t))).
Proof.
  intros Hs (M1 & M2 & M3). apply (moves_shell ms shell _ _ _ Hs) in M1. apply (moves_shell ms shell _ _ _ Hs) in M2. apply (moves_shell ms shell _ _ _ Hs) in M3.
  rewrite (transfers_modified _ _ Hs). unfold kinetic, potential.
  eapply is_derive_eq; [apply derive_add; [apply derive_add; [exact (derive_1 shell _ t _ M1) | exact (derive_1 shell _ t _ M2)] | apply is_derive_scal; exact (derive_1 shell _ t _ M3)]|].
  rewrite (rate_ext shell _ (cx (s t)) _ (plus_f (cx (transported o ms (s t))) (cx (linear_sw o f c2 (s t)))))
    by (intros m Hm; apply (proj2 Hs) in Hm; apply (c108_equations o ms dea f c2 Hg Hd (s t) m Hm)).
  rewrite (rate_ext shell _ (cy (s t)) _ (plus_f (cy (transported o ms (s t))) (cy (linear_sw o f c2 (s t)))))
    by (intros m Hm; apply (proj2 Hs) in Hm; apply (c108_equations o ms dea f c2 Hg Hd (s t) m Hm)).
  rewrite (rate_ext shell _ (cz (s t)) _ (plus_f (cz (transported o ms (s t))) (cz (linear_sw o f c2 (s t)))))
    by (intros m Hm; apply (proj2 Hs) in Hm; apply (c108_equations o ms dea f c2 Hg Hd (s t) m Hm)).
  rewrite !rate_plus.
  assert (L : rate shell (fun _ => 1) (cx (s t)) (cx (linear_sw o f c2 (s t))) + rate shell (fun _ => 1) (cy (s t)) (cy (linear_sw o f c2 (s t)))
    + c2 * rate shell (fun _ => 1) (cz (s t)) (cz (linear_sw o f c2 (s t))) = 0).
  { unfold rate. rewrite <- total_scal, <- !total_plus. rewrite <- (total_0 shell). apply total_ext. intros m _. unfold linear_sw, dvg, gradx, grady. rewrite cx_mk, cy_mk, cz_mk.
    generalize (cx (s t) m) (cy (s t) m) (cz (s t) m). intros [x y] [u v] [e g]. cbn. ring. }
  lra.
Qed.

(** all the modes *)
Theorem c118_sum u : vreal ms u -> transfers ms (bud true u) = 0.
Proof.
  intros (R1 & R2 & R3). rewrite (transfers_modified u ms (all_modes o ms Hg)).
  assert (Z : forall a, real_field ms a -> rate ms (fun _ => 1) a (fun k => - transport_2d o ms (vort o (cx u) (cy u)) a k)%C = 0)
    by (intros; apply advection_inner; assumption).
  unfold transported. rewrite cx_mk, cy_mk, cz_mk. rewrite !Z by assumption. ring.
Qed.

(** the exchanges: the rate of the kinetic energy due to the pressure, taken from the potential energy *)
Theorem c118_exchanges md u shell : exchanges shell (bud md u) = c2 * total shell (fun m => cospectrum (cz u m) (dvg o (cx u) (cy u) m)).
Proof.
  transitivity (total shell (fun m => Cq_fft o f c2 (bvec_of_fields o f c2 u) (bvec_rot o f c2 u) "GG" m + Cq_fft o f c2 (bvec_of_fields o f c2 u) (bvec_rot o f c2 u) "AG" m
    + Cq_fft o f c2 (bvec_of_fields o f c2 u) (bvec_rot o f c2 u) "aG" m + Cq_fft o f c2 (bvec_of_fields o f c2 u) (bvec_rot o f c2 u) "AA" m)); [rewrite !total_plus; reflexivity|].
  rewrite <- total_scal. apply total_ext. intros m _. unfold Cq_fft. set (b := bvec_of_fields o f c2 u). set (br := bvec_rot o f c2 u).
  pose proof (dyad_total (fun i => modes_of o f c2 b br (Var NoD Ux) i m) (fun i => modes_of o f c2 b br (Var Px Eta) i m)) as G1.
  pose proof (dyad_total (fun i => modes_of o f c2 b br (Var NoD Uy) i m) (fun i => modes_of o f c2 b br (Var Py Eta) i m)) as G2.
  destruct (totals_eq u m) as (T1 & T2 & _ & _ & _ & _ & _ & T8 & T9 & _). unfold modes_total in *. fold b in T1, T2, T8, T9. fold br in T1, T2, T8, T9. rewrite T1, T8 in G1. rewrite T2, T9 in G2.
  clear T1 T2 T8 T9. revert G1 G2. generalize (dyad true (fun i => modes_of o f c2 b br (Var NoD Ux) i m) (fun i => modes_of o f c2 b br (Var Px Eta) i m)).
  generalize (dyad true (fun i => modes_of o f c2 b br (Var NoD Uy) i m) (fun i => modes_of o f c2 b br (Var Py Eta) i m)). intros d2 d1 G1 G2.
  assert (F1 := f_equal fst G1). assert (F2 := f_equal fst G2). rewrite cospectrum_conj in F1, F2. cbn [fst Cplus] in F1, F2. cbn [fst snd Cmult RtoC].
  transitivity (- c2 * (cospectrum (nomean (cx u) m) (ddx o (nomean (cz u)) m) + cospectrum (nomean (cy u) m) (ddy o (nomean (cz u)) m))); [rewrite <- F1, <- F2; ring|].
  unfold nomean, dvg. pose proof (no_xy_K o m) as N. rewrite (sw_Kx o m Ho), (sw_Ky o m Ho) in N. unfold ddx, ddy. destruct (first m) eqn:F.
  - destruct (N F) as [-> ->]. generalize (cx u m) (cy u m) (cz u m). intros [x y] [v w] [e g]. unfold cospectrum. cbn. ring.
  - generalize (cx u m) (cy u m) (cz u m). intros [x y] [v w] [e g]. unfold cospectrum. cbn. ring.
Qed.

(** ** C117: sw1l *)

Definition tr (a b c : field) : R := total ms (fun m => cospectrum (a m) (convolution ms b c m)).

Lemma tr_mean a b c : real_field ms a -> real_field ms b -> real_field ms c ->
  tr a b c = mean o (fun jx jy jz => value o ms a jx jy jz * value o ms b jx jy jz * value o ms c jx jy jz).
Proof.
  intros Ra Rb Rc. pose proof (proj1 (proj2 Hg)) as Hs.
  transitivity (mean o (fun jx jy jz => (value o ms b jx jy jz * value o ms c jx jy jz) * value o ms a jx jy jz)); [|apply mean_ext; intros; ring].
  rewrite (sum_inner o ms Hs) by exact Ra. unfold sum_wavenumbers. rewrite rsum_total. unfold tr. apply total_ext. intros m Hm.
  rewrite (coefs_product o ms) by assumption. unfold inner_prod, cospectrum. cbn. ring.
Qed.
Lemma tr_swap a b c : real_field ms a -> real_field ms b -> real_field ms c -> tr a b c = tr b a c /\ tr a b c = tr a c b.
Proof. intros. rewrite !tr_mean by assumption. split; apply mean_ext; intros; ring. Qed.

Lemma tr_leibniz (K : mode -> R) a b c : (forall m, K (mopp m) = - K m) -> (forall p q k, mode_eqb (madd p q) k = true -> K k = K p + K q) ->
  let D (a : field) : field := fun m => (Ci * RtoC (K m) * a m)%C in tr (D a) b c + tr a (D b) c + tr a b (D c) = 0.
Proof.
  intros _ HK D. unfold tr. rewrite <- !total_plus. rewrite <- (total_0 ms). apply total_ext. intros m _.
  assert (L : (Ci * RtoC (K m) * convolution ms b c m)%C = (convolution ms (D b) c m + convolution ms b (D c) m)%C) by exact (leibniz ms K b c m (fun p q => HK p q m)).
  assert (ED : D a m = (Ci * RtoC (K m) * a m)%C) by reflexivity. rewrite ED. clearbody D. clear ED.
  assert (F1 := f_equal fst L). assert (F2 := f_equal snd L). clear L. revert F1 F2. unfold cospectrum.
  generalize (convolution ms (D b) c m) (convolution ms b (D c) m) (convolution ms b c m) (a m). intros [x1 x2] [y1 y2] [z1 z2] [w1 w2]. cbn. intros F1 F2.
  assert (X : x1 + y1 = - (K m * z2)) by (rewrite <- F1; ring). assert (Y : x2 + y2 = K m * z1) by (rewrite <- F2; ring).
  transitivity (w1 * (x1 + y1) + w2 * (x2 + y2) + w1 * K m * z2 - w2 * K m * z1); [ring|]. rewrite X, Y. ring.
Qed.

Lemma wx_add p q k : mode_eqb (madd p q) k = true -> wx o k = wx o p + wx o q.
Proof. intros H. rewrite <- !(sw_Kx o _ Ho). apply Kx_add. exact H. Qed.
Lemma wy_add p q k : mode_eqb (madd p q) k = true -> wy o k = wy o p + wy o q.
Proof. intros H. rewrite <- !(sw_Ky o _ Ho). apply Ky_add. exact H. Qed.

Lemma nomean_real a : real_field ms a -> real_field ms (nomean a).
Proof.
  intros Ra m Hm. unfold nomean. replace (first (mopp m)) with (first m).
  - destruct (first m); [apply C_eq; cbn; ring | apply Ra; exact Hm].
  - destruct m as [[x y] z]. unfold mopp, first, mx, my. cbn [fst snd]. destruct x, y; reflexivity.
Qed.

(** the transfers between the modes only move the energy *)
Theorem c117_sum_partial u : vreal ms u -> transfers ms (bud false u) = 0.
Proof.
  intros (R1 & R2 & R3). apply nomean_real in R1. apply nomean_real in R2. apply nomean_real in R3. rewrite transfers_total. cbv zeta.
  set (U := nomean (cx u)) in *. set (V := nomean (cy u)) in *. set (E := nomean (cz u)) in *.
  assert (Dx : forall a, real_field ms a -> real_field ms (ddx o a)) by (intros; apply real_grad; [apply wx_odd|assumption]).
  assert (Dy : forall a, real_field ms a -> real_field ms (ddy o a)) by (intros; apply real_grad; [apply wy_odd|assumption]).
  rewrite (total_ext ms _ _ (fun m Hm => transfers_density u m Hm)). fold U V E.
  assert (TP : forall a b c d, tr a b (fun m => c m + d m)%C = tr a b c + tr a b d).
  { intros a b c d. unfold tr. rewrite <- total_plus. apply total_ext. intros m _. rewrite (conv_ext ms b b _ (fun m => RtoC 1 * c m + RtoC 1 * d m)%C) by (intros; ring).
    rewrite conv_lin. unfold cospectrum. cbn. ring. }
  transitivity (- (tr U U (ddx o U) + tr U V (ddy o U) + tr V U (ddx o V) + tr V V (ddy o V)) + c2 / 2 * (tr (ddx o E) E U + tr (ddy o E) E V)
    - 1 / 2 * (tr U U (fun m => ddx o U m + ddy o V m)%C + tr V V (fun m => ddx o U m + ddy o V m)%C) + c2 / 4 * (tr (ddx o U) E E + tr (ddy o V) E E)).
  { assert (G : forall l (g1 g2 g3 g4 g5 g6 g7 g8 g9 : mode -> R),
      total l (fun m => - (g1 m + g2 m + g3 m + g4 m) + c2 / 2 * (g5 m + g6 m) - 1 / 2 * (g7 m + g8 m) + c2 / 4 * g9 m)
      = - (total l g1 + total l g2 + total l g3 + total l g4) + c2 / 2 * (total l g5 + total l g6) - 1 / 2 * (total l g7 + total l g8) + c2 / 4 * total l g9).
    { induction l as [|m l IH]; intros; unfold total in *; cbn [fold_right]; [field|]. rewrite IH. field. }
    rewrite G. unfold tr, co. rewrite <- (total_plus ms (fun m => cospectrum (ddx o U m) _)). do 2 f_equal. apply total_ext. intros m _. unfold cospectrum. cbn. ring. }
  rewrite !TP.
  pose proof (tr_leibniz (wx o) U U U (wx_odd o) wx_add) as L1. pose proof (tr_leibniz (wy o) V V V (wy_odd o) wy_add) as L2.
  pose proof (tr_leibniz (wy o) U U V (wy_odd o) wy_add) as L3. pose proof (tr_leibniz (wx o) V V U (wx_odd o) wx_add) as L4.
  pose proof (tr_leibniz (wx o) E E U (wx_odd o) wx_add) as L5. pose proof (tr_leibniz (wy o) E E V (wy_odd o) wy_add) as L6.
  change (tr (ddx o U) U U + tr U (ddx o U) U + tr U U (ddx o U) = 0) in L1. change (tr (ddy o V) V V + tr V (ddy o V) V + tr V V (ddy o V) = 0) in L2.
  change (tr (ddy o U) U V + tr U (ddy o U) V + tr U U (ddy o V) = 0) in L3. change (tr (ddx o V) V U + tr V (ddx o V) U + tr V V (ddx o U) = 0) in L4.
  change (tr (ddx o E) E U + tr E (ddx o E) U + tr E E (ddx o U) = 0) in L5. change (tr (ddy o E) E V + tr E (ddy o E) V + tr E E (ddy o V) = 0) in L6.
  assert (S1 : forall a b c, real_field ms a -> real_field ms b -> real_field ms c -> tr a b c = tr b a c) by (intros; apply tr_swap; assumption).
  assert (S2 : forall a b c, real_field ms a -> real_field ms b -> real_field ms c -> tr a b c = tr a c b) by (intros; apply tr_swap; assumption).
  pose proof (Dx U R1). pose proof (Dy U R1). pose proof (Dx V R2). pose proof (Dy V R2). pose proof (Dx E R3). pose proof (Dy E R3).
  rewrite (S1 (ddx o U) U U), (S2 U (ddx o U) U) in L1 by assumption. rewrite (S1 (ddy o V) V V), (S2 V (ddy o V) V) in L2 by assumption.
  rewrite (S1 (ddy o U) U V), (S2 U (ddy o U) V) in L3 by assumption. rewrite (S1 (ddx o V) V U), (S2 V (ddx o V) U) in L4 by assumption.
  rewrite (S1 E (ddx o E) U) in L5 by assumption. rewrite (S1 E (ddy o E) V) in L6 by assumption.
  rewrite (S1 (ddx o U) E E), (S2 E (ddx o U) E) by assumption. rewrite (S1 (ddy o V) E E), (S2 E (ddy o V) E) by assumption.
  replace (tr (ddx o E) E U) with (- (1 / 2) * tr E E (ddx o U)) by lra. replace (tr (ddy o E) E V) with (- (1 / 2) * tr E E (ddy o V)) by lra. lra.
Qed.

(** Tnq in convolution form *)
Let along' := along o ms.

Lemma fnonlin_conv ux uy a m : In m ms -> fnonlin o ms dea (ifft o ms ux) (ifft o ms uy) a m = (- (convolution ms ux (ddx o a) m + convolution ms uy (ddy o a) m))%C.
Proof.
  intros Hm. unfold fnonlin, dealiasing. rewrite (Hd m Hm).
  rewrite (fft_ext o _ (fun jx jy jz => (- RtoC 1) * gmul (ifft o ms ux) (ifft o ms (px_fft o a)) jx jy jz
    + (- RtoC 1) * gmul (ifft o ms uy) (ifft o ms (py_fft o a)) jx jy jz)%C) by (intros; unfold gsub, gmul, gopp, lift2; ring).
  rewrite fft_lin, !(fft_conv o ms Hg) by exact Hm.
  assert (E : forall k, px_fft o a k = ddx o a k /\ py_fft o a k = ddy o a k) by (intros; unfold px_fft, py_fft, ddx, ddy; rewrite (sw_Kx o _ Ho), (sw_Ky o _ Ho); split; reflexivity).
  rewrite (conv_ext ms ux ux (px_fft o a) (ddx o a)) by (intros; first [reflexivity | apply E]). rewrite (conv_ext ms uy uy (py_fft o a) (ddy o a)) by (intros; first [reflexivity | apply E]). ring.
Qed.

Lemma co_ext a a' b b' c c' m : a m = a' m -> (forall q, In q ms -> b q = b' q) -> (forall q, In q ms -> c q = c' q) -> co ms a b c m = co ms a' b' c' m.
Proof. intros A B D. unfold co. rewrite A, (conv_ext ms b b' c c') by assumption. reflexivity. Qed.

Lemma density_no_mean u m : no_mean ms u -> In m ms ->
  let keys := transfer_keys c2 in let b := bvec_of_fields o f c2 u in let br := bvec_rot o f c2 u in
  Tq_fft o ms dea f c2 keys b br "GGG" m + Tq_fft o ms dea f c2 keys b br "AGG" m + Tq_fft o ms dea f c2 keys b br "GAAs" m
  + Tq_fft o ms dea f c2 keys b br "GAAd" m + Tq_fft o ms dea f c2 keys b br "AAA" m
  = - (co ms (cx u) (cx u) (ddx o (cx u)) m + co ms (cx u) (cy u) (ddy o (cx u)) m + co ms (cy u) (cx u) (ddx o (cy u)) m + co ms (cy u) (cy u) (ddy o (cy u)) m)
    + c2 / 2 * (co ms (ddx o (cz u)) (cz u) (cx u) m + co ms (ddy o (cz u)) (cz u) (cy u) m)
    - 1 / 2 * (co ms (cx u) (cx u) (fun k => ddx o (cx u) k + ddy o (cy u) k)%C m + co ms (cy u) (cy u) (fun k => ddx o (cx u) k + ddy o (cy u) k)%C m)
    + c2 / 4 * co ms (fun k => ddx o (cx u) k + ddy o (cy u) k)%C (cz u) (cz u) m.
Proof.
  intros N Hm. cbv zeta. rewrite transfers_density by exact Hm.
  assert (X : forall q, In q ms -> nomean (cx u) q = cx u q /\ nomean (cy u) q = cy u q /\ nomean (cz u) q = cz u q).
  { intros q Hq. unfold nomean. destruct (first q) eqn:F; [|tauto]. apply mean_first in F. destruct (N q Hq F) as (-> & -> & ->). tauto. }
  assert (Y : forall q, In q ms -> ddx o (nomean (cx u)) q = ddx o (cx u) q /\ ddy o (nomean (cx u)) q = ddy o (cx u) q /\ ddx o (nomean (cy u)) q = ddx o (cy u) q
    /\ ddy o (nomean (cy u)) q = ddy o (cy u) q /\ ddx o (nomean (cz u)) q = ddx o (cz u) q /\ ddy o (nomean (cz u)) q = ddy o (cz u) q
    /\ (ddx o (nomean (cx u)) q + ddy o (nomean (cy u)) q)%C = (ddx o (cx u) q + ddy o (cy u) q)%C).
  { intros q Hq. unfold ddx, ddy. destruct (X q Hq) as (-> & -> & ->). repeat split; reflexivity. }
  repeat match goal with
  | |- co _ _ _ _ _ = co _ _ _ _ _ => apply co_ext; [first [apply (X _ Hm) | apply (Y _ Hm)] | intros q Hq; first [apply (X q Hq) | apply (Y q Hq)] | intros q Hq; first [apply (X q Hq) | apply (Y q Hq)]]
  | |- Ropp _ = Ropp _ => apply f_equal
  | |- _ = _ => apply f_equal2; [|]
  | |- _ = _ => reflexivity
  end.
Qed.

Let Mx u : field := convolution ms (cz u) (cx u).
Let My u : field := convolution ms (cz u) (cy u).

Lemma Tnq_conv u m : In m ms -> Tnq_fft o ms dea u m
  = - (1 / 2) * (cospectrum (along o ms u (cx u) m) (Mx u m) + cospectrum (along o ms u (cy u) m) (My u m))
    - 1 / 2 * (cospectrum (cx u m) (along o ms u (Mx u) m) + cospectrum (cy u m) (along o ms u (My u) m))
    - 1 / 2 * (co ms (cx u) (cx u) (fun k => ddx o (Mx u) k + ddy o (My u) k)%C m + co ms (cy u) (cy u) (fun k => ddx o (Mx u) k + ddy o (My u) k)%C m).
Proof.
  intros Hm. unfold Mx, My. destruct u as [[ux uy] eta]. rewrite !cx_mk, !cy_mk, !cz_mk. unfold Tnq_fft.
  set (Mx' := dealiasing dea (fft o (gmul (ifft o ms eta) (ifft o ms ux)))). set (My' := dealiasing dea (fft o (gmul (ifft o ms eta) (ifft o ms uy)))).
  assert (E1 : forall k, In k ms -> Mx' k = convolution ms eta ux k) by (intros k Hk; unfold Mx', dealiasing; rewrite (Hd k Hk); apply (fft_conv o ms Hg); exact Hk).
  assert (E2 : forall k, In k ms -> My' k = convolution ms eta uy k) by (intros k Hk; unfold My', dealiasing; rewrite (Hd k Hk); apply (fft_conv o ms Hg); exact Hk).
  rewrite !fnonlin_conv by exact Hm. unfold along, co, dealiasing. rewrite (Hd m Hm), !(fft_conv o ms Hg) by exact Hm. rewrite !cx_mk, !cy_mk.
  set (NX := convolution ms eta ux) in *. set (NY := convolution ms eta uy) in *.
  rewrite (conv_ext ms ux ux (ddx o Mx') (ddx o NX)) by (intros k Hk; unfold ddx; rewrite ?(E1 k Hk); reflexivity).
  rewrite (conv_ext ms uy uy (ddy o Mx') (ddy o NX)) by (intros k Hk; unfold ddy; rewrite ?(E1 k Hk); reflexivity).
  rewrite (conv_ext ms ux ux (ddx o My') (ddx o NY)) by (intros k Hk; unfold ddx; rewrite ?(E2 k Hk); reflexivity).
  rewrite (conv_ext ms uy uy (ddy o My') (ddy o NY)) by (intros k Hk; unfold ddy; rewrite ?(E2 k Hk); reflexivity).
  assert (ED : forall k, In k ms -> divfft_from_vecfft o Mx' My' k = (ddx o NX k + ddy o NY k)%C).
  { intros k Hk. unfold divfft_from_vecfft, ddx, ddy. rewrite (E1 k Hk), (E2 k Hk), (sw_Kx o _ Ho), (sw_Ky o _ Ho). ring. }
  rewrite (conv_ext ms ux ux _ _ m (fun _ _ => eq_refl) ED), (conv_ext ms uy uy _ _ m (fun _ _ => eq_refl) ED). rewrite (E1 m Hm), (E2 m Hm).
  generalize (NX m) (NY m) (ux m) (uy m) (convolution ms ux (ddx o ux) m) (convolution ms uy (ddy o ux) m) (convolution ms ux (ddx o uy) m) (convolution ms uy (ddy o uy) m)
    (convolution ms ux (ddx o NX) m) (convolution ms uy (ddy o NX) m) (convolution ms ux (ddx o NY) m) (convolution ms uy (ddy o NY) m)
    (convolution ms ux (fun k => ddx o NX k + ddy o NY k)%C m) (convolution ms uy (fun k => ddx o NX k + ddy o NY k)%C m).
  clear. intros. unfold cospectrum. cbn [fst snd Cplus Cmult Cconj Copp Cminus]. field.
Qed.

(** u . grad(eta u) - eta (u . grad u) *)
Definition swapped (u : vfield) (a : field) (m : mode) : C :=
  (along o ms u (convolution ms (cz u) a) m - convolution ms (cz u) (along o ms u a) m)%C.

Theorem c117_shell_partial (s : R -> vfield) t shell : shell_of ms shell -> no_mean ms (s t) -> vmoves ms s t (sw1l o ms dea f c2 (s t)) ->
  is_derive (fun x => shell_energy ms c2 shell (s x)) t
    (transfers shell (bud false (s t)) + saved shell (bud false (s t)) "Tnq"
     + 1 / 2 * total shell (fun m => cospectrum (cx (s t) m) (swapped (s t) (cx (s t)) m) + cospectrum (cy (s t) m) (swapped (s t) (cy (s t)) m))).
Proof.
  intros (_ & Hs) N (M1 & M2 & M3). rewrite transfers_total. cbv zeta.
  change (saved shell (bud false (s t)) "Tnq") with (total shell (Tnq_fft o ms dea (s t))). rewrite <- total_scal, <- !total_plus.
  unfold shell_energy. apply derive_total. intros m Hm. apply Hs in Hm.
  set (G := sw1l o ms dea f c2 (s t)) in *.
  pose proof (cmoves_conv ms (fun x => cz (s x)) (fun x => cx (s x)) t (cz G) (cx G) m M3 M1) as P1.
  pose proof (cmoves_conv ms (fun x => cz (s x)) (fun x => cy (s x)) t (cz G) (cy G) m M3 M2) as P2.
  pose proof (derive_cospectrum _ _ _ _ _ (M1 m Hm) (cmoves_plus _ _ _ _ _ (M1 m Hm) P1)) as D1.
  pose proof (derive_cospectrum _ _ _ _ _ (M2 m Hm) (cmoves_plus _ _ _ _ _ (M2 m Hm) P2)) as D2.
  pose proof (derive_cospectrum _ _ _ _ _ (M3 m Hm) (M3 m Hm)) as D3.
  pose proof (derive_add _ _ _ _ _ (is_derive_scal _ _ (1 / 2) _ (derive_add _ _ _ _ _ D1 D2)) (is_derive_scal _ _ (c2 / 2) _ D3)) as D. clear D1 D2 D3 P1 P2.
  eapply derive_same; [|apply (is_derive_eq _ _ _ _ D); clear D].
  { intros x. unfold mass_flux, norm2, cospectrum. cbn [fst snd Cplus]. field. }
  rewrite (density_no_mean (s t) m N Hm), (Tnq_conv (s t) m Hm). unfold swapped, Mx, My, co. set (u := s t) in *.
  assert (G1 : forall k, In k ms -> cx G k = (- along o ms u (cx u) k + RtoC f * cy u k - RtoC c2 * ddx o (cz u) k)%C) by (intros k Hk; apply (c106_equations o ms dea f c2 Hg Hd u k Hk)).
  assert (G2 : forall k, In k ms -> cy G k = (- along o ms u (cy u) k - RtoC f * cx u k - RtoC c2 * ddy o (cz u) k)%C) by (intros k Hk; apply (c106_equations o ms dea f c2 Hg Hd u k Hk)).
  assert (G3 : forall k, In k ms -> cz G k = (- RtoC 1 * (ddx o (cx u) k + ddy o (cy u) k) + - RtoC 1 * (ddx o (Mx u) k + ddy o (My u) k))%C).
  { intros k Hk. destruct (c106_equations o ms dea f c2 Hg Hd u k Hk) as (_ & _ & E3). fold G in E3. rewrite E3. unfold ddx, ddy, Mx, My. ring. }
  assert (CL : forall a b c d k, convolution ms a (fun m => b m + c m - d m)%C k = (convolution ms a b k + convolution ms a c k - convolution ms a d k)%C).
  { intros a b c d k. rewrite (conv_sub ms a (fun m => b m + c m)%C). rewrite (conv_ext ms a a (fun m => b m + c m)%C (fun m => RtoC 1 * b m + RtoC 1 * c m)%C) by (intros; ring). rewrite conv_lin. ring. }
  assert (CS : forall a b x k, convolution ms a (fun m => x * b m)%C k = (x * convolution ms a b k)%C).
  { intros a b x k. rewrite (conv_ext ms a a (fun m => x * b m)%C (fun m => x * b m + RtoC 0 * b m)%C) by (intros; ring). rewrite conv_lin. ring. }
  assert (Q1 : convolution ms (cz u) (cx G) m = (- convolution ms (cz u) (along o ms u (cx u)) m + RtoC f * My u m - RtoC c2 * (ddx o (convolution ms (cz u) (cz u)) m / RtoC 2))%C).
  { rewrite (conv_ext ms (cz u) (cz u) (cx G) (fun k => (- RtoC 1) * along o ms u (cx u) k + RtoC f * cy u k - RtoC c2 * ddx o (cz u) k)%C) by (intros k Hk; rewrite ?(G1 k Hk); first [reflexivity | ring]).
    rewrite (CL (cz u) (fun k => (- RtoC 1) * along o ms u (cx u) k)%C (fun k => RtoC f * cy u k)%C (fun k => RtoC c2 * ddx o (cz u) k)%C), !CS.
    pose proof (leibniz ms (wx o) (cz u) (cz u) m (fun p q => wx_add p q m)) as L. change (fun k => Ci * RtoC (wx o k) * cz u k)%C with (ddx o (cz u)) in L.
    rewrite (conv_swap ms (ddx o (cz u))) in L. change (ddx o (convolution ms (cz u) (cz u)) m) with (Ci * RtoC (wx o m) * convolution ms (cz u) (cz u) m)%C. rewrite L. unfold My.
    generalize (convolution ms (cz u) (along o ms u (cx u)) m) (convolution ms (cz u) (cy u) m) (convolution ms (cz u) (ddx o (cz u)) m). clear. intros [x1 x2] [y1 y2] [z1 z2]. apply C_eq; cbn; field. }
  assert (Q2 : convolution ms (cz u) (cy G) m = (- convolution ms (cz u) (along o ms u (cy u)) m - RtoC f * Mx u m - RtoC c2 * (ddy o (convolution ms (cz u) (cz u)) m / RtoC 2))%C).
  { rewrite (conv_ext ms (cz u) (cz u) (cy G) (fun k => (- RtoC 1) * along o ms u (cy u) k + (- RtoC f) * cx u k - RtoC c2 * ddy o (cz u) k)%C) by (intros k Hk; rewrite ?(G2 k Hk); first [reflexivity | ring]).
    rewrite (CL (cz u) (fun k => (- RtoC 1) * along o ms u (cy u) k)%C (fun k => (- RtoC f) * cx u k)%C (fun k => RtoC c2 * ddy o (cz u) k)%C), !CS.
    pose proof (leibniz ms (wy o) (cz u) (cz u) m (fun p q => wy_add p q m)) as L. change (fun k => Ci * RtoC (wy o k) * cz u k)%C with (ddy o (cz u)) in L.
    rewrite (conv_swap ms (ddy o (cz u))) in L. change (ddy o (convolution ms (cz u) (cz u)) m) with (Ci * RtoC (wy o m) * convolution ms (cz u) (cz u) m)%C. rewrite L. unfold Mx.
    generalize (convolution ms (cz u) (along o ms u (cy u)) m) (convolution ms (cz u) (cx u) m) (convolution ms (cz u) (ddy o (cz u)) m). clear. intros [x1 x2] [y1 y2] [z1 z2]. apply C_eq; cbn; field. }
  assert (Q3 : forall a, convolution ms (cz G) a m = (- convolution ms a (fun k => ddx o (cx u) k + ddy o (cy u) k) m - convolution ms a (fun k => ddx o (Mx u) k + ddy o (My u) k) m)%C).
  { intros a. rewrite conv_swap. rewrite (conv_ext ms a a (cz G) _ m (fun _ _ => eq_refl) G3).
    rewrite (conv_lin ms a (fun k => ddx o (cx u) k + ddy o (cy u) k)%C (fun k => ddx o (Mx u) k + ddy o (My u) k)%C). ring. }
  rewrite Q1, Q2, !Q3, (G1 m Hm), (G2 m Hm), (G3 m Hm). clear Q1 Q2 Q3 G1 G2 G3 CL CS.
  unfold along. fold (Mx u) (My u). set (A1 := fun m0 => (convolution ms (cx u) (ddx o (cx u)) m0 + convolution ms (cy u) (ddy o (cx u)) m0)%C).
  set (A2 := fun m0 => (convolution ms (cx u) (ddx o (cy u)) m0 + convolution ms (cy u) (ddy o (cy u)) m0)%C).
  generalize (convolution ms (cz u) A1 m) (convolution ms (cz u) A2 m)
    (convolution ms (cx u) (fun k => ddx o (cx u) k + ddy o (cy u) k)%C m) (convolution ms (cy u) (fun k => ddx o (cx u) k + ddy o (cy u) k)%C m)
    (convolution ms (cx u) (fun k => ddx o (Mx u) k + ddy o (My u) k)%C m) (convolution ms (cy u) (fun k => ddx o (Mx u) k + ddy o (My u) k)%C m)
    (convolution ms (cx u) (ddx o (cx u)) m) (convolution ms (cy u) (ddy o (cx u)) m) (convolution ms (cx u) (ddx o (cy u)) m) (convolution ms (cy u) (ddy o (cy u)) m)
    (convolution ms (cx u) (ddx o (Mx u)) m) (convolution ms (cy u) (ddy o (Mx u)) m) (convolution ms (cx u) (ddx o (My u)) m) (convolution ms (cy u) (ddy o (My u)) m).
  unfold ddx, ddy. change (convolution ms (cz u) (cx u) m) with (Mx u m). change (convolution ms (cz u) (cy u) m) with (My u m).
  generalize (convolution ms (cz u) (cz u) m) (Mx u m) (My u m) (cx u m) (cy u m) (cz u m) (wx o m) (wy o m). clear. intros. unfold cospectrum.
  repeat match goal with z : C |- _ => destruct z end. cbn. field.
Qed.

(** ** The groups *)

(** the sum of the products of three fields *)
Definition T3 (keys : list (R * key * key * key)) (a b c : key -> field) (m : mode) : R :=
  fold_right (fun k x => let '(c0, k1, k2, k3) := k in c0 * cospectrum (a k1 m) (convolution ms (b k2) (c k3) m) + x) 0 keys.

Lemma T3_cons c k1 k2 k3 ks x y z m : T3 ((c, k1, k2, k3) :: ks) x y z m = c * cospectrum (x k1 m) (convolution ms (y k2) (z k3) m) + T3 ks x y z m.
Proof. reflexivity. Qed.

Lemma triad_groups n1 p : let t i j k := (Cconj (n1 i) * p j k)%C in let l := triad_of_products n1 p in
  get_group l "GGG" = t 0%nat 0%nat 0%nat
  /\ get_group l "AGG" = (t 1%nat 0%nat 0%nat + t 2%nat 0%nat 0%nat + (t 0%nat 0%nat 1%nat + t 0%nat 1%nat 0%nat + t 0%nat 0%nat 2%nat + t 0%nat 2%nat 0%nat))%C
  /\ get_group l "GAAs" = (t 0%nat 1%nat 1%nat + t 0%nat 1%nat 2%nat + t 0%nat 2%nat 1%nat + t 0%nat 2%nat 2%nat
       + (t 1%nat 0%nat 1%nat + t 1%nat 1%nat 0%nat + t 2%nat 0%nat 2%nat + t 2%nat 2%nat 0%nat))%C
  /\ get_group l "GAAd" = (t 1%nat 0%nat 2%nat + t 1%nat 2%nat 0%nat + t 2%nat 0%nat 1%nat + t 2%nat 1%nat 0%nat)%C
  /\ get_group l "AAA" = (t 1%nat 1%nat 1%nat + t 1%nat 1%nat 2%nat + t 1%nat 2%nat 1%nat + t 1%nat 2%nat 2%nat
       + (t 2%nat 1%nat 1%nat + t 2%nat 1%nat 2%nat + t 2%nat 2%nat 1%nat + t 2%nat 2%nat 2%nat))%C.
Proof.
  unfold triad_of_products, keyed. generalize (Cconj (n1 0%nat)) (Cconj (n1 1%nat)) (Cconj (n1 2%nat)). intros a b c. cbv zeta.
  split; [|split; [|split; [|split]]]; cbv -[Cplus Cmult RtoC C IZR]; ring.
Qed.

Theorem c117_groups_partial md u shell : shell_of ms shell ->
  let d := saved shell (bud md u) in
  let keys := if md then transfer_keys_modified c2 else transfer_keys c2 in
  let part (j : nat) : key -> field := fun k => modes_of o f c2 (bvec_of_fields o f c2 u) (bvec_rot o f c2 u) k j in
  let T i j k := total shell (T3 keys (part i) (part j) (part k)) in
  d "Tq_GGG"%string = T 0%nat 0%nat 0%nat
  /\ d "Tq_AGG"%string = T 1%nat 0%nat 0%nat + T 2%nat 0%nat 0%nat + (T 0%nat 0%nat 1%nat + T 0%nat 1%nat 0%nat + T 0%nat 0%nat 2%nat + T 0%nat 2%nat 0%nat)
  /\ d "Tq_GAAs"%string = T 0%nat 1%nat 1%nat + T 0%nat 1%nat 2%nat + T 0%nat 2%nat 1%nat + T 0%nat 2%nat 2%nat
       + (T 1%nat 0%nat 1%nat + T 1%nat 1%nat 0%nat + T 2%nat 0%nat 2%nat + T 2%nat 2%nat 0%nat)
  /\ d "Tq_GAAd"%string = T 1%nat 0%nat 2%nat + T 1%nat 2%nat 0%nat + T 2%nat 0%nat 1%nat + T 2%nat 1%nat 0%nat
  /\ d "Tq_AAA"%string = T 1%nat 1%nat 1%nat + T 1%nat 1%nat 2%nat + T 1%nat 2%nat 1%nat + T 1%nat 2%nat 2%nat
       + (T 2%nat 1%nat 1%nat + T 2%nat 1%nat 2%nat + T 2%nat 2%nat 1%nat + T 2%nat 2%nat 2%nat)
  /\ d "Tens"%string = total shell (fun m => (wx o m ^ 2 + wy o m ^ 2) * T3 keys (part 0%nat) (part 0%nat) (part 0%nat) m).
Proof.
  intros (_ & Hs) d keys part T.
  assert (G : forall ks m, In m ms -> let t i j k := T3 ks (part i) (part j) (part k) m in let q := Tq_fft o ms dea f c2 ks (bvec_of_fields o f c2 u) (bvec_rot o f c2 u) in
    q "GGG"%string m = t 0%nat 0%nat 0%nat
    /\ q "AGG"%string m = t 1%nat 0%nat 0%nat + t 2%nat 0%nat 0%nat + (t 0%nat 0%nat 1%nat + t 0%nat 1%nat 0%nat + t 0%nat 0%nat 2%nat + t 0%nat 2%nat 0%nat)
    /\ q "GAAs"%string m = t 0%nat 1%nat 1%nat + t 0%nat 1%nat 2%nat + t 0%nat 2%nat 1%nat + t 0%nat 2%nat 2%nat
       + (t 1%nat 0%nat 1%nat + t 1%nat 1%nat 0%nat + t 2%nat 0%nat 2%nat + t 2%nat 2%nat 0%nat)
    /\ q "GAAd"%string m = t 1%nat 0%nat 2%nat + t 1%nat 2%nat 0%nat + t 2%nat 0%nat 1%nat + t 2%nat 1%nat 0%nat
    /\ q "AAA"%string m = t 1%nat 1%nat 1%nat + t 1%nat 1%nat 2%nat + t 1%nat 2%nat 1%nat + t 1%nat 2%nat 2%nat
       + (t 2%nat 1%nat 1%nat + t 2%nat 1%nat 2%nat + t 2%nat 2%nat 1%nat + t 2%nat 2%nat 2%nat)).
  { intros ks m Hm. induction ks as [|[[[c k1] k2] k3] ks (I1 & I2 & I3 & I4 & I5)]; cbv zeta in *; [cbn; repeat split; ring|].
    cbn [Tq_fft]. rewrite !T3_cons, I1, I2, I3, I4, I5. unfold Tq_term.
    set (p := fun i j => dealiasing dea (fft o (gmul (ifft o ms (modes_of o f c2 (bvec_of_fields o f c2 u) (bvec_rot o f c2 u) k2 i))
      (ifft o ms (modes_of o f c2 (bvec_of_fields o f c2 u) (bvec_rot o f c2 u) k3 j)))) m).
    assert (P : forall i j, p i j = convolution ms (part i k2) (part j k3) m) by (intros; unfold p, dealiasing; rewrite (Hd m Hm); apply (fft_conv o ms Hg); exact Hm).
    destruct (triad_groups (fun i => modes_of o f c2 (bvec_of_fields o f c2 u) (bvec_rot o f c2 u) k1 i m) p) as (-> & -> & -> & -> & ->). cbv beta.
    rewrite !P. unfold cospectrum.
    change (modes_of o f c2 (bvec_of_fields o f c2 u) (bvec_rot o f c2 u) k1 0 m) with (part 0%nat k1 m).
    change (modes_of o f c2 (bvec_of_fields o f c2 u) (bvec_rot o f c2 u) k1 1 m) with (part 1%nat k1 m).
    change (modes_of o f c2 (bvec_of_fields o f c2 u) (bvec_rot o f c2 u) k1 2 m) with (part 2%nat k1 m).
    clear I1 I2 I3 I4 I5.
    cbn [fst snd Cplus Cmult Cconj RtoC]. split; [|split; [|split; [|split]]]; ring. }
  assert (G' := fun m Hm => G keys m (Hs m Hm)). clear G. cbv zeta in G'.
  unfold T. rewrite <- !total_plus.
  split; [|split; [|split; [|split; [|split]]]].
  - change (d "Tq_GGG"%string) with (total shell (Tq_fft o ms dea f c2 keys (bvec_of_fields o f c2 u) (bvec_rot o f c2 u) "GGG")). apply total_ext. intros m Hm. apply (G' m Hm).
  - change (d "Tq_AGG"%string) with (total shell (Tq_fft o ms dea f c2 keys (bvec_of_fields o f c2 u) (bvec_rot o f c2 u) "AGG")). apply total_ext. intros m Hm. apply (G' m Hm).
  - change (d "Tq_GAAs"%string) with (total shell (Tq_fft o ms dea f c2 keys (bvec_of_fields o f c2 u) (bvec_rot o f c2 u) "GAAs")). apply total_ext. intros m Hm. apply (G' m Hm).
  - change (d "Tq_GAAd"%string) with (total shell (Tq_fft o ms dea f c2 keys (bvec_of_fields o f c2 u) (bvec_rot o f c2 u) "GAAd")). apply total_ext. intros m Hm. apply (G' m Hm).
  - change (d "Tq_AAA"%string) with (total shell (Tq_fft o ms dea f c2 keys (bvec_of_fields o f c2 u) (bvec_rot o f c2 u) "AAA")). apply total_ext. intros m Hm. apply (G' m Hm).
  - change (d "Tens"%string) with (total shell (fun m => K2_2d o m * Tq_fft o ms dea f c2 keys (bvec_of_fields o f c2 u) (bvec_rot o f c2 u) "GGG" m)). apply total_ext. intros m Hm.
    rewrite (proj1 (G' m Hm)). unfold K2_2d. rewrite (sw_Kx o m Ho), (sw_Ky o m Ho). reflexivity.
Qed.

Lemma dyad_groups n1 n2 : let t i j := (Cconj (n1 i) * n2 j)%C in let l := dyad true n1 n2 in
  get_group l "GG" = t 0%nat 0%nat /\ get_group l "AG" = (t 0%nat 1%nat + t 1%nat 0%nat)%C /\ get_group l "aG" = (t 0%nat 2%nat + t 2%nat 0%nat)%C
  /\ get_group l "AA" = (t 1%nat 1%nat + t 1%nat 2%nat + t 2%nat 1%nat + t 2%nat 2%nat)%C.
Proof.
  unfold dyad, keyed. generalize (Cconj (n1 0%nat)) (Cconj (n1 1%nat)) (Cconj (n1 2%nat)) (n2 0%nat) (n2 1%nat) (n2 2%nat). intros. cbv zeta.
  split; [|split; [|split]]; cbv -[Cplus Cmult RtoC C IZR]; ring.
Qed.

Theorem c118_exchange_groups md u shell :
  let d := saved shell (bud md u) in
  let part (j : nat) : key -> field := fun k => modes_of o f c2 (bvec_of_fields o f c2 u) (bvec_rot o f c2 u) k j in
  let T i j := - c2 * total shell (fun m => cospectrum (part i (Var NoD Ux) m) (part j (Var Px Eta) m) + cospectrum (part i (Var NoD Uy) m) (part j (Var Py Eta) m)) in
  d "Cq_GG"%string = T 0%nat 0%nat /\ d "Cq_AG"%string = T 0%nat 1%nat + T 1%nat 0%nat /\ d "Cq_aG"%string = T 0%nat 2%nat + T 2%nat 0%nat
  /\ d "Cq_AA"%string = T 1%nat 1%nat + T 1%nat 2%nat + T 2%nat 1%nat + T 2%nat 2%nat.
Proof.
  intros d part T. unfold T. rewrite <- !total_scal, <- !total_plus.
  assert (G : forall m, let q := Cq_fft o f c2 (bvec_of_fields o f c2 u) (bvec_rot o f c2 u) in
    let t i j := - c2 * (cospectrum (part i (Var NoD Ux) m) (part j (Var Px Eta) m) + cospectrum (part i (Var NoD Uy) m) (part j (Var Py Eta) m)) in
    q "GG"%string m = t 0%nat 0%nat /\ q "AG"%string m = t 0%nat 1%nat + t 1%nat 0%nat /\ q "aG"%string m = t 0%nat 2%nat + t 2%nat 0%nat
    /\ q "AA"%string m = t 1%nat 1%nat + t 1%nat 2%nat + t 2%nat 1%nat + t 2%nat 2%nat).
  { intros m. cbv zeta. unfold Cq_fft.
    change (fun i => modes_of o f c2 (bvec_of_fields o f c2 u) (bvec_rot o f c2 u) (Var NoD Ux) i m) with (fun i => part i (Var NoD Ux) m).
    change (fun i => modes_of o f c2 (bvec_of_fields o f c2 u) (bvec_rot o f c2 u) (Var NoD Uy) i m) with (fun i => part i (Var NoD Uy) m).
    change (fun i => modes_of o f c2 (bvec_of_fields o f c2 u) (bvec_rot o f c2 u) (Var Px Eta) i m) with (fun i => part i (Var Px Eta) m).
    change (fun i => modes_of o f c2 (bvec_of_fields o f c2 u) (bvec_rot o f c2 u) (Var Py Eta) i m) with (fun i => part i (Var Py Eta) m).
    destruct (dyad_groups (fun i => part i (Var NoD Ux) m) (fun i => part i (Var Px Eta) m)) as (-> & -> & -> & ->).
    destruct (dyad_groups (fun i => part i (Var NoD Uy) m) (fun i => part i (Var Py Eta) m)) as (-> & -> & -> & ->).
    cbv beta. unfold cospectrum. cbn [fst snd Cplus Cmult Cconj RtoC]. split; [|split; [|split]]; ring. }
  split; [|split; [|split]].
  - change (d "Cq_GG"%string) with (total shell (Cq_fft o f c2 (bvec_of_fields o f c2 u) (bvec_rot o f c2 u) "GG")). apply total_ext. intros m _. apply (G m).
  - change (d "Cq_AG"%string) with (total shell (Cq_fft o f c2 (bvec_of_fields o f c2 u) (bvec_rot o f c2 u) "AG")). apply total_ext. intros m _. apply (G m).
  - change (d "Cq_aG"%string) with (total shell (Cq_fft o f c2 (bvec_of_fields o f c2 u) (bvec_rot o f c2 u) "aG")). apply total_ext. intros m _. apply (G m).
  - change (d "Cq_AA"%string) with (total shell (Cq_fft o f c2 (bvec_of_fields o f c2 u) (bvec_rot o f c2 u) "AA")). apply total_ext. intros m _. apply (G m).
Qed.
End SebNormal.

(** ** Refutation: Tnq has u . grad(eta u) instead of eta (u . grad u) *)

Definition ms5 : list mode := [(-2, 0, 0)%Z; (-1, 0, 0)%Z; (0, 0, 0)%Z; (1, 0, 0)%Z; (2, 0, 0)%Z].

Lemma ms5_good : good_modes o8 ms5.
Proof.
  split; [exact o8_pos|]. split; [|split].
  - split.
    + repeat constructor; cbn; intuition discriminate.
    + intros m H. cbn in H. destruct H as [<-|[<-|[<-|[<-|[<-|[]]]]]]; cbn; tauto.
  - cbn. tauto.
  - intros p q k Hp Hq Hk [[[l1 l2] l3] [F N]]. apply N. unfold folds in F. destruct F as (F1 & F2 & F3).
    change (mx (l1, l2, l3)) with l1 in F1. change (my (l1, l2, l3)) with l2 in F2. change (mz (l1, l2, l3)) with l3 in F3. cbn [o8 nx ny nz] in F1, F2, F3.
    assert (B : forall m, In m ms5 -> (-2 <= mx m <= 2 /\ my m = 0 /\ mz m = 0)%Z).
    { intros m H. cbn in H. destruct H as [<-|[<-|[<-|[<-|[<-|[]]]]]]; cbn; lia. }
    apply B in Hp. apply B in Hq. apply B in Hk. assert (l1 = 0 /\ l2 = 0 /\ l3 = 0)%Z by lia. repeat f_equal; tauto.
Qed.

Ltac conv5 := unfold convolution, ms5; rewrite !lsum_cons; change (@lsum mode []) with (fun _ : mode -> C => RtoC 0); unfold mode_eqb, madd;
  cbn [mode_eqb madd mx my mz fst snd Z.eqb Z.add Z.pos_sub andb Pos.eqb Pos.add Pos.succ Pos.pred_double Z.succ_double Z.pred_double Z.double]; ring.

Lemma conv5_1 a b : convolution ms5 a b (1, 0, 0)%Z
  = (a (-1, 0, 0)%Z * b (2, 0, 0)%Z + a (0, 0, 0)%Z * b (1, 0, 0)%Z + a (1, 0, 0)%Z * b (0, 0, 0)%Z + a (2, 0, 0)%Z * b (-1, 0, 0)%Z)%C.
Proof. conv5. Qed.
Lemma conv5_2 a b : convolution ms5 a b (2, 0, 0)%Z = (a (0, 0, 0)%Z * b (2, 0, 0)%Z + a (1, 0, 0)%Z * b (1, 0, 0)%Z + a (2, 0, 0)%Z * b (0, 0, 0)%Z)%C.
Proof. conv5. Qed.
Lemma conv5_0 a b : convolution ms5 a b (0, 0, 0)%Z
  = (a (-2, 0, 0)%Z * b (2, 0, 0)%Z + a (-1, 0, 0)%Z * b (1, 0, 0)%Z + a (0, 0, 0)%Z * b (0, 0, 0)%Z + a (1, 0, 0)%Z * b (-1, 0, 0)%Z + a (2, 0, 0)%Z * b (-2, 0, 0)%Z)%C.
Proof. conv5. Qed.
Lemma conv5_m1 a b : convolution ms5 a b (-1, 0, 0)%Z
  = (a (-2, 0, 0)%Z * b (1, 0, 0)%Z + a (-1, 0, 0)%Z * b (0, 0, 0)%Z + a (0, 0, 0)%Z * b (-1, 0, 0)%Z + a (1, 0, 0)%Z * b (-2, 0, 0)%Z)%C.
Proof. conv5. Qed.
Lemma conv5_m2 a b : convolution ms5 a b (-2, 0, 0)%Z = (a (0, 0, 0)%Z * b (-2, 0, 0)%Z + a (-1, 0, 0)%Z * b (-1, 0, 0)%Z + a (-2, 0, 0)%Z * b (0, 0, 0)%Z)%C.
Proof. conv5. Qed.

(** ux = 2 cos x, uy = 0, eta = 2 sin x *)
Definition cos2 : field := fun m => match mx m with 1%Z | (-1)%Z => RtoC 1 | _ => RtoC 0 end.
Definition sin2 : field := fun m => match mx m with 1%Z => (0, -1) | (-1)%Z => (0, 1) | _ => RtoC 0 end.
Definition flow5 : vfield := (cos2, azero, sin2).
Definition moving (u : vfield) (x : R) : vfield :=
  let g := sw1l o8 ms5 (fun _ => false) 1 2 u in (line 0 (cx u) (cx g) x, line 0 (cy u) (cy g) x, line 0 (cz u) (cz g) x).

Lemma flow5_at : moving flow5 0 = flow5.
Proof. unfold moving. cbv zeta. rewrite !line_at. reflexivity. Qed.
Lemma flow5_moves : vmoves ms5 (moving flow5) 0 (sw1l o8 ms5 (fun _ => false) 1 2 (moving flow5 0)).
Proof. rewrite flow5_at. unfold moving. split; [|split]; apply line_moves. Qed.
Lemma flow5_real : vreal ms5 flow5.
Proof.
  split; [|split]; intros m Hm; cbn in Hm; destruct Hm as [<-|[<-|[<-|[<-|[<-|[]]]]]]; unfold flow5, cos2, sin2, azero; apply C_eq; cbn; lra.
Qed.
Lemma flow5_no_mean : no_mean ms5 flow5.
Proof.
  intros m Hm [Z _]. unfold flow5. rewrite cx_mk, cy_mk, cz_mk. unfold cos2, sin2, azero. rewrite Z. split; [|split]; reflexivity.
Qed.

Theorem c117_shell_refuted : exists o ms f c2 s t shell d, good_modes o ms /\ 0 < c2 /\ shell_of ms shell /\ vreal ms (s t) /\ no_mean ms (s t)
  /\ vmoves ms s t (sw1l o ms (fun _ => false) f c2 (s t)) /\ is_derive (fun x => shell_energy ms c2 shell (s x)) t d
  /\ let l := sw1l_budget o ms (fun _ => false) f c2 false (s t) in d <> transfers shell l + saved shell l "Tnq".
Proof.
  exists o8, ms5, 1, 2, (moving flow5), 0, [(1, 0, 0)%Z]. eexists. split; [exact ms5_good|]. split; [lra|].
  assert (Hs : shell_of ms5 [(1, 0, 0)%Z]) by (split; [repeat constructor; intros []|intros m [<-|[]]; cbn; tauto]). split; [exact Hs|].
  split; [rewrite flow5_at; exact flow5_real|]. assert (N : no_mean ms5 (moving flow5 0)) by (rewrite flow5_at; exact flow5_no_mean). split; [exact N|]. split; [exact flow5_moves|].
  split; [apply (c117_shell_partial o8 ms5 (fun _ => false) 1 2 ms5_good ltac:(lra) (fun _ _ => eq_refl) _ _ _ Hs N flow5_moves)|].
  cbv zeta. rewrite flow5_at. generalize (transfers [(1, 0, 0)%Z] (sw1l_budget o8 ms5 (fun _ => false) 1 2 false flow5) + saved [(1, 0, 0)%Z] (sw1l_budget o8 ms5 (fun _ => false) 1 2 false flow5) "Tnq").
  intros x. unfold total. cbn [fold_right]. unfold swapped, along, flow5. rewrite !cx_mk, !cy_mk, !cz_mk. rewrite !conv5_1. unfold ddx, ddy. rewrite !conv5_m1, !conv5_0, !conv5_1, !conv5_2, !wx8, !wy8.
  unfold cospectrum, cos2, sin2, azero. cbn. lra.
Qed.

(** ** Examples: the hypotheses are met *)

Example c117_example : good_modes o8 ms5 /\ 0 < 2 /\ shell_of ms5 [(1, 0, 0)%Z; (-1, 0, 0)%Z] /\ vreal ms5 (moving flow5 0) /\ no_mean ms5 (moving flow5 0)
  /\ vmoves ms5 (moving flow5) 0 (sw1l o8 ms5 (fun _ => false) 1 2 (moving flow5 0)).
Proof.
  split; [exact ms5_good|]. split; [lra|]. split.
  - split; [repeat constructor; cbn; intuition discriminate|intros m [<-|[<-|[]]]; cbn; tauto].
  - rewrite flow5_at at 1 2. split; [exact flow5_real|]. split; [exact flow5_no_mean|]. exact flow5_moves.
Qed.

(** with a mean flow *)
Example c118_example : exists s, good_modes o8 ms5 /\ shell_of ms5 [(1, 0, 0)%Z] /\ vreal ms5 (s 0) /\ ~ no_mean ms5 (s 0)
  /\ vmoves ms5 s 0 (sw1l_modified o8 ms5 (fun _ => false) 1 2 (s 0)).
Proof.
  set (i := fun _ : mode => RtoC 1).
  exists (fun x => (line 0 i (cx (sw1l_modified o8 ms5 (fun _ => false) 1 2 (i, i, i))) x, line 0 i (cy (sw1l_modified o8 ms5 (fun _ => false) 1 2 (i, i, i))) x,
    line 0 i (cz (sw1l_modified o8 ms5 (fun _ => false) 1 2 (i, i, i))) x)).
  rewrite !line_at. split; [exact ms5_good|]. split; [split; [repeat constructor; intros []|intros m [<-|[]]; cbn; tauto]|].
  split; [split; [|split]; intros m _; apply C_eq; cbn; lra|]. split.
  - intros N. destruct (N (0, 0, 0)%Z ltac:(cbn; tauto) (conj eq_refl eq_refl)) as (E & _). apply (f_equal fst) in E. cbn in E. lra.
  - split; [|split]; apply line_moves.
Qed.

Print Assumptions c117_shell_partial.
Print Assumptions c117_sum_partial.
Print Assumptions c117_groups_partial.
Print Assumptions c117_shell_refuted.
Print Assumptions c118_shell.
Print Assumptions c118_sum.
Print Assumptions c118_exchanges.
Print Assumptions c118_exchange_groups.
