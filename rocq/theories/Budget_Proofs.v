(** * Budgets: sums over the modes, triads, grid means *)

From Coq Require Import Reals Lra ZArith Lia List Bool Permutation.
From Coquelicot Require Import Coquelicot.
From Verif Require Import CExp DFT Alias_Model Alias_Proofs Oper_Model Budget_Model Budget_Spec.
Import ListNotations.
Local Open Scope R_scope.

(** ** Sums *)

Lemma mopp_mopp m : mopp (mopp m) = m.
Proof. destruct m as [[a b] c]. unfold mopp, mx, my, mz. cbn [fst snd]. rewrite !Z.opp_involutive. reflexivity. Qed.

Lemma lsum_cons {A} (x : A) l f : lsum (x :: l) f = (f x + lsum l f)%C.
Proof. reflexivity. Qed.

Lemma lsum_perm {A} (l l' : list A) f : Permutation l l' -> lsum l f = lsum l' f.
Proof. intros P. induction P; rewrite ?lsum_cons; [reflexivity | rewrite IHP; reflexivity | ring | congruence]. Qed.

Lemma lsum_map {A B} (h : A -> B) l f : lsum (map h l) f = lsum l (fun x => f (h x)).
Proof. induction l as [|x l IH]; cbn [map]; rewrite ?lsum_cons; [reflexivity | rewrite IH; reflexivity]. Qed.

Lemma lsum_opp ms f : symmetric_modes ms -> lsum ms f = lsum ms (fun m => f (mopp m)).
Proof.
  intros [ND Hs]. rewrite <- (lsum_map mopp ms f). apply lsum_perm. apply NoDup_Permutation.
  - exact ND.
  - apply FinFun.Injective_map_NoDup; [|exact ND]. intros x y E. rewrite <- (mopp_mopp x), E, mopp_mopp. reflexivity.
  - intros m. rewrite in_map_iff. split.
    + intros H. exists (mopp m). split; [apply mopp_mopp | apply Hs; exact H].
    + intros (x & <- & H). apply Hs. exact H.
Qed.

Lemma lsum_neg {A} (l : list A) f : lsum l (fun x => - f x)%C = (- lsum l f)%C.
Proof. induction l as [|x l IH]; rewrite ?lsum_cons; [cbn; ring | rewrite IH; ring]. Qed.

Lemma lsum_sub {A} (l : list A) f g : lsum l (fun x => f x - g x)%C = (lsum l f - lsum l g)%C.
Proof. induction l as [|x l IH]; rewrite ?lsum_cons; [cbn; ring | rewrite IH; ring]. Qed.

Lemma fst_lsum {A} (l : list A) f : fst (lsum l f) = fold_right (fun m s => fst (f m) + s) 0 l.
Proof. induction l as [|x l IH]; [reflexivity|]. rewrite lsum_cons. cbn [fold_right]. rewrite <- IH. reflexivity. Qed.

Lemma double_0 (z : C) : (z + z)%C = RtoC 0 -> z = RtoC 0.
Proof.
  intros H. destruct z as [x y]. injection H as E1 E2. apply C_eq; cbn; lra.
Qed.

(** an odd function of the modes *)
Lemma lsum_odd ms f : symmetric_modes ms -> (forall m, In m ms -> (f (mopp m) + f m)%C = RtoC 0) -> lsum ms f = RtoC 0.
Proof.
  intros Hs H. apply double_0. rewrite (lsum_opp ms f Hs) at 1. rewrite <- lsum_plus. apply lsum_zero. exact H.
Qed.

(** ** Derivatives of the quadratic quantities *)

Lemma is_derive_total ms (f : R -> mode -> R) t (g : mode -> R) : (forall m, In m ms -> is_derive (fun s => f s m) t (g m)) ->
  is_derive (fun s => total ms (f s)) t (total ms g).
Proof.
  induction ms as [|m ms IH]; intros H.
  - apply (is_derive_const 0).
  - apply (is_derive_plus (fun s => f s m) (fun s => total ms (f s))); [apply H; left; reflexivity | apply IH; intros x Hx; apply H; right; exact Hx].
Qed.

Lemma total_ext ms f g : (forall m, In m ms -> f m = g m) -> total ms f = total ms g.
Proof.
  induction ms as [|m ms IH]; intros H; [reflexivity|]. unfold total in *. cbn [fold_right].
  rewrite (H m) by (left; reflexivity). f_equal. apply IH. intros x Hx. apply H. right. exact Hx.
Qed.

Lemma total_plus ms f g : total ms (fun m => f m + g m) = total ms f + total ms g.
Proof. induction ms as [|m ms IH]; unfold total in *; cbn [fold_right]; [lra | rewrite IH; lra]. Qed.

Lemma total_scal ms c f : total ms (fun m => c * f m) = c * total ms f.
Proof. induction ms as [|m ms IH]; unfold total in *; cbn [fold_right]; [lra | rewrite IH; lra]. Qed.

Lemma total_pos ms f : (forall m, In m ms -> 0 <= f m) -> 0 <= total ms f.
Proof.
  induction ms as [|m ms IH]; intros H; unfold total in *; cbn [fold_right]; [lra|].
  pose proof (H m (or_introl eq_refl)). assert (0 <= fold_right (fun m s => f m + s) 0 ms) by (apply IH; intros x Hx; apply H; right; exact Hx). lra.
Qed.

Lemma total_lsum ms (f : mode -> R) (g : mode -> C) : (forall m, In m ms -> f m = fst (g m)) -> total ms f = fst (lsum ms g).
Proof. intros H. rewrite fst_lsum. exact (total_ext ms f (fun m => fst (g m)) H). Qed.

Lemma derive_mod (x y : R -> R) t x' y' c : is_derive x t x' -> is_derive y t y' ->
  is_derive (fun s => c * (x s ^ 2 + y s ^ 2) / 2) t (c * (x t * x' + y t * y')).
Proof.
  intros H1 H2. auto_derive; [split; [eexists; exact H1 | split; [eexists; exact H2 | exact I]]|].
  replace (Derive (fun s => x s) t) with x' by (symmetry; apply is_derive_unique; exact H1).
  replace (Derive (fun s => y s) t) with y' by (symmetry; apply is_derive_unique; exact H2). field.
Qed.

(** the derivative of c |a|^2 / 2 *)
Lemma is_derive_square c ms a t b : moves ms a t b ->
  is_derive (fun s => total ms (fun m => c m * norm2 (a s m) / 2)) t (fst (lsum ms (fun m => RtoC (c m) * (Cconj (a t m) * b m))%C)).
Proof.
  intros H. rewrite <- (total_lsum ms (fun m => c m * (fst (a t m) * fst (b m) + snd (a t m) * snd (b m)))).
  2:{ intros m _. cbn. ring. }
  apply (is_derive_total ms (fun s m => c m * norm2 (a s m) / 2)). intros m Hm. destruct (H m Hm) as [H1 H2].
  exact (derive_mod (fun s => fst (a s m)) (fun s => snd (a s m)) t _ _ (c m) H1 H2).
Qed.

Lemma is_derive_eq (f : R -> R) (t a b : R) : is_derive f t a -> a = b -> is_derive f t b.
Proof. intros H <-. exact H. Qed.

(** with a real field the conjugate is the coefficient of the opposite mode *)
Lemma conj_opp ms a f : real_field ms a -> lsum ms (fun m => Cconj (a m) * f m)%C = lsum ms (fun m => a (mopp m) * f m)%C.
Proof. intros H. apply lsum_ext. intros m Hm. rewrite (H m Hm). reflexivity. Qed.

(** ** Parseval: a sum over the modes is a mean over the grid *)

Definition gmean (o : oper) (u : gfield) : C :=
  (RtoC (/ (INR (nx o) * INR (ny o) * INR (nz o)))
   * nsum (nx o) (fun jx => nsum (ny o) (fun jy => nsum (nz o) (fun jz => u jx jy jz))))%C.

Lemma gmean_ext o u v : (forall jx jy jz, u jx jy jz = v jx jy jz) -> gmean o u = gmean o v.
Proof.
  intros H. unfold gmean. f_equal. apply nsum_ext. intros jx _. apply nsum_ext. intros jy _. apply nsum_ext. intros jz _. apply H.
Qed.

Lemma gmean_plus o u v : gmean o (fun jx jy jz => u jx jy jz + v jx jy jz)%C = (gmean o u + gmean o v)%C.
Proof.
  unfold gmean. rewrite (nsum_ext (nx o) _ (fun jx => nsum (ny o) (fun jy => nsum (nz o) (fun jz => u jx jy jz)) + nsum (ny o) (fun jy => nsum (nz o) (fun jz => v jx jy jz)))%C).
  - rewrite nsum_plus. ring.
  - intros jx _. rewrite <- nsum_plus. apply nsum_ext. intros jy _. rewrite <- nsum_plus. reflexivity.
Qed.

Lemma gmean_zero o : gmean o (fun _ _ _ => RtoC 0) = RtoC 0.
Proof.
  unfold gmean. rewrite (nsum_ext (nx o) _ (fun _ => RtoC 0)), nsum_zero; [ring|].
  intros jx _. rewrite (nsum_ext (ny o) _ (fun _ => RtoC 0)), nsum_zero; [reflexivity|].
  intros jy _. apply nsum_zero.
Qed.

Lemma gmean_scal o c u : gmean o (fun jx jy jz => c * u jx jy jz)%C = (c * gmean o u)%C.
Proof.
  unfold gmean. rewrite (nsum_ext (nx o) _ (fun jx => c * nsum (ny o) (fun jy => nsum (nz o) (fun jz => u jx jy jz)))%C).
  - rewrite nsum_scal. ring.
  - intros jx _. rewrite <- nsum_scal. apply nsum_ext. intros jy _. rewrite <- nsum_scal. reflexivity.
Qed.

Lemma parseval o ms a u : symmetric_modes ms ->
  lsum ms (fun k => a (mopp k) * fft o u k)%C = gmean o (fun jx jy jz => u jx jy jz * ifft o ms a jx jy jz)%C.
Proof.
  intros Hs. rewrite lsum_opp by exact Hs. unfold gmean, ifft, idft.
  set (c := RtoC (/ _)).
  rewrite (nsum_ext (nx o) _ (fun jx => lsum ms (fun k => a k * nsum (ny o) (fun jy => nsum (nz o) (fun jz => u jx jy jz * chi3 (grid_of o) k jx jy jz))))%C).
  2:{ intros jx _. 
      rewrite (nsum_ext (ny o) _ (fun jy => lsum ms (fun k => a k * nsum (nz o) (fun jz => u jx jy jz * chi3 (grid_of o) k jx jy jz)))%C).
      2:{ intros jy _. rewrite (nsum_ext (nz o) _ (fun jz => lsum ms (fun k => a k * (u jx jy jz * chi3 (grid_of o) k jx jy jz)))%C).
          2:{ intros jz _. rewrite <- lsum_scal. apply lsum_ext. intros k _. ring. }
          rewrite nsum_lsum. apply lsum_ext. intros k _. apply nsum_scal. }
      rewrite nsum_lsum. apply lsum_ext. intros k _. apply nsum_scal. }
  rewrite nsum_lsum, <- lsum_scal. apply lsum_ext. intros k _. rewrite nsum_scal.
  rewrite mopp_mopp. unfold fft, dft. cbn [gx gy gz grid_of]. fold c.
  replace (- mx (mopp k), - my (mopp k), - mz (mopp k))%Z with k by (rewrite <- (mopp_mopp k) at 1; reflexivity).
  ring.
Qed.

(** ** Linear operations on the grid *)

Lemma fft_ext o u v k : (forall jx jy jz, u jx jy jz = v jx jy jz) -> fft o u k = fft o v k.
Proof.
  intros H. unfold fft, dft. f_equal. apply nsum_ext. intros jx _. apply nsum_ext. intros jy _. apply nsum_ext. intros jz _. rewrite H. reflexivity.
Qed.

Lemma fft_lin o c d u v k : fft o (fun jx jy jz => c * u jx jy jz + d * v jx jy jz)%C k = (c * fft o u k + d * fft o v k)%C.
Proof.
  unfold fft, dft. set (e := RtoC (/ _)).
  rewrite (nsum_ext (gx (grid_of o)) _ (fun jx =>
     c * nsum (gy (grid_of o)) (fun jy => nsum (gz (grid_of o)) (fun jz => u jx jy jz * chi3 (grid_of o) (- mx k, - my k, - mz k)%Z jx jy jz))
     + d * nsum (gy (grid_of o)) (fun jy => nsum (gz (grid_of o)) (fun jz => v jx jy jz * chi3 (grid_of o) (- mx k, - my k, - mz k)%Z jx jy jz)))%C).
  - rewrite nsum_plus, !nsum_scal. ring.
  - intros jx _. rewrite <- !nsum_scal, <- nsum_plus. apply nsum_ext. intros jy _. rewrite <- !nsum_scal, <- nsum_plus.
    apply nsum_ext. intros jz _. ring.
Qed.

(** the transform of an inverse transform *)
Definition zero_mode : mode := (0, 0, 0)%Z.

Lemma chi3_zero g jx jy jz : chi3 g zero_mode jx jy jz = RtoC 1.
Proof.
  unfold chi3, zero_mode, mx, my, mz, chi. cbn [fst snd].
  replace (2 * PI * 0 * INR jx / INR (gx g)) with 0 by (unfold Rdiv; ring).
  replace (2 * PI * 0 * INR jy / INR (gy g)) with 0 by (unfold Rdiv; ring).
  replace (2 * PI * 0 * INR jz / INR (gz g)) with 0 by (unfold Rdiv; ring). rewrite cis_0. ring.
Qed.

Lemma mode_eq_dec (p q : mode) : {p = q} + {p <> q}.
Proof. repeat decide equality. Qed.

(** ** Exact products *)

Definition sum0 (p q s : mode) : bool := mode_eqb (madd p (madd q s)) zero_mode.

Lemma mode_eqb_eq p q : mode_eqb p q = true <-> p = q.
Proof.
  destruct p as [[a b] c], q as [[a' b'] c']. unfold mode_eqb, mx, my, mz. cbn [fst snd].
  rewrite !andb_true_iff, !Z.eqb_eq. split; [intros [[-> ->] ->]; reflexivity | intros E; injection E; auto].
Qed.

Lemma sum0_spec p q s : sum0 p q s = true <->
  (mx p + mx q + mx s = 0 /\ my p + my q + my s = 0 /\ mz p + mz q + mz s = 0)%Z.
Proof.
  unfold sum0. rewrite mode_eqb_eq. unfold madd, zero_mode, mx, my, mz. destruct p as [[a b] c], q as [[a' b'] c'], s as [[a'' b''] c'']. cbn [fst snd].
  split; [intros E; injection E; intros; lia | intros (H1 & H2 & H3); repeat f_equal; lia].
Qed.

Lemma sum0_swap23 p q s : sum0 p s q = sum0 p q s.
Proof. apply eq_true_iff_eq. rewrite !sum0_spec. split; intros (H1 & H2 & H3); lia. Qed.
Lemma sum0_swap13 p q s : sum0 s q p = sum0 p q s.
Proof. apply eq_true_iff_eq. rewrite !sum0_spec. split; intros (H1 & H2 & H3); lia. Qed.

Definition triads (ms : list mode) (w : mode -> mode -> mode -> C) : C :=
  lsum ms (fun s => lsum ms (fun p => lsum ms (fun q => if sum0 p q s then w p q s else RtoC 0))).

Lemma triads_ext ms w w' : (forall p q s, In p ms -> In q ms -> In s ms -> sum0 p q s = true -> w p q s = w' p q s) ->
  triads ms w = triads ms w'.
Proof.
  intros H. unfold triads. apply lsum_ext. intros s Hs. apply lsum_ext. intros p Hp. apply lsum_ext. intros q Hq.
  destruct (sum0 p q s) eqn:E; [apply H; assumption | reflexivity].
Qed.

Lemma triads_plus ms w w' : triads ms (fun p q s => w p q s + w' p q s)%C = (triads ms w + triads ms w')%C.
Proof.
  unfold triads. rewrite <- lsum_plus. apply lsum_ext. intros s _. rewrite <- lsum_plus. apply lsum_ext. intros p _.
  rewrite <- lsum_plus. apply lsum_ext. intros q _. destruct (sum0 p q s); ring.
Qed.

Lemma triads_scal ms c w : triads ms (fun p q s => c * w p q s)%C = (c * triads ms w)%C.
Proof.
  unfold triads. rewrite <- lsum_scal. apply lsum_ext. intros s _. rewrite <- lsum_scal. apply lsum_ext. intros p _.
  rewrite <- lsum_scal. apply lsum_ext. intros q _. destruct (sum0 p q s); ring.
Qed.

Lemma triads_zero ms w : (forall p q s, In p ms -> In q ms -> In s ms -> sum0 p q s = true -> w p q s = RtoC 0) -> triads ms w = RtoC 0.
Proof.
  intros H. unfold triads. apply lsum_zero. intros s Hs. apply lsum_zero. intros p Hp. apply lsum_zero. intros q Hq.
  destruct (sum0 p q s) eqn:E; [apply H; assumption | reflexivity].
Qed.

Lemma triads_swap23 ms w : triads ms w = triads ms (fun p q s => w p s q).
Proof.
  unfold triads.
  rewrite (lsum_lsum ms ms (fun s p => lsum ms (fun q => if sum0 p q s then w p q s else RtoC 0))).
  rewrite (lsum_lsum ms ms (fun s p => lsum ms (fun q => if sum0 p q s then w p s q else RtoC 0))).
  apply lsum_ext. intros p _. rewrite (lsum_lsum ms ms (fun s q => if sum0 p q s then w p q s else RtoC 0)).
  apply lsum_ext. intros q _. apply lsum_ext. intros s _. rewrite (sum0_swap23 p q s). reflexivity.
Qed.

Lemma triads_swap13 ms w : triads ms w = triads ms (fun p q s => w s q p).
Proof.
  unfold triads.
  rewrite (lsum_lsum ms ms (fun s p => lsum ms (fun q => if sum0 p q s then w p q s else RtoC 0))).
  apply lsum_ext. intros s _. apply lsum_ext. intros p _. apply lsum_ext. intros q _. rewrite (sum0_swap13 p q s). reflexivity.
Qed.

Lemma triads_anti23 ms w :
  (forall p q s, In p ms -> In q ms -> In s ms -> sum0 p q s = true -> (w p q s + w p s q)%C = RtoC 0) -> triads ms w = RtoC 0.
Proof. intros H. apply double_0. rewrite (triads_swap23 ms w) at 2. rewrite <- triads_plus. apply triads_zero. exact H. Qed.

Lemma triads_anti13 ms w :
  (forall p q s, In p ms -> In q ms -> In s ms -> sum0 p q s = true -> (w p q s + w s q p)%C = RtoC 0) -> triads ms w = RtoC 0.
Proof. intros H. apply double_0. rewrite (triads_swap13 ms w) at 2. rewrite <- triads_plus. apply triads_zero. exact H. Qed.

(** the product of two fields computed on the grid, for the modes without aliasing *)
Lemma product_exact o ms a b k : oper_pos o -> (forall p q, In p ms -> In q ms -> ~ aliased o p q k) ->
  fft o (gmul (ifft o ms a) (ifft o ms b)) k
  = lsum ms (fun p => lsum ms (fun q => if sum0 p q (mopp k) then a p * b q else RtoC 0))%C.
Proof.
  intros Ho Ha. unfold fft, gmul, lift2, ifft. rewrite dft_product.
  2:{ destruct Ho as (H1 & H2 & H3 & _). split; [exact H1 | split; assumption]. }
  apply lsum_ext. intros p Hp. apply lsum_ext. intros q Hq.
  replace (congruent (grid_of o) (msubt (madd p q) k)) with (sum0 p q (mopp k)); [reflexivity|].
  apply eq_true_iff_eq. rewrite sum0_spec, congruent_folds by exact Ho. unfold mopp, mx, my, mz. cbn [fst snd]. split.
  - intros (H1 & H2 & H3). exists zero_mode. unfold folds, zero_mode, mx, my, mz. cbn [fst snd]. lia.
  - intros [l Hl]. destruct (mode_eq_dec l zero_mode) as [->|N].
    + unfold folds, zero_mode, mx, my, mz in Hl. cbn [fst snd] in Hl. lia.
    + exfalso. apply (Ha p q Hp Hq). exists l. split; assumption.
Qed.

Lemma triple o ms a b c : oper_pos o -> symmetric_modes ms -> alias_free o ms ->
  lsum ms (fun k => c (mopp k) * fft o (gmul (ifft o ms a) (ifft o ms b)) k)%C = triads ms (fun p q s => a p * b q * c s)%C.
Proof.
  intros Ho Hs Ha. rewrite lsum_opp by exact Hs. unfold triads. apply lsum_ext. intros s Hin. rewrite mopp_mopp.
  rewrite product_exact; [|exact Ho|].
  - rewrite mopp_mopp, <- lsum_scal. apply lsum_ext. intros p _. rewrite <- lsum_scal. apply lsum_ext. intros q _.
    destruct (sum0 p q s); ring.
  - intros p q Hp Hq. apply Ha; try assumption. apply Hs. exact Hin.
Qed.
