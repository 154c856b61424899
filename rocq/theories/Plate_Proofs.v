(** * plate2d: lemmas *)

From Coq Require Import Reals Lra ZArith Lia String List Bool FunctionalExtensionality.
From Coquelicot Require Import Coquelicot.
From Verif Require Import CExp DFT Alias_Model Alias_Proofs Oper_Model Budget_Model Budget_Spec Budget_Proofs Budget2D_Proofs
  Means_Model Means_Spec Means_Proofs Plate_Model Plate_Spec.
Import ListNotations.
Local Open Scope R_scope.

(** ** Derivatives of complex functions of the time *)

Definition cderive (f : R -> C) (t : R) (d : C) : Prop :=
  is_derive (fun s => fst (f s)) t (fst d) /\ is_derive (fun s => snd (f s)) t (snd d).

Lemma is_derive_same (f g : R -> R) t d : (forall s, f s = g s) -> is_derive f t d -> is_derive g t d.
Proof. intros H. apply is_derive_ext. exact H. Qed.

Lemma cderive_const c t : cderive (fun _ => c) t (RtoC 0).
Proof. split; cbn; auto_derive; trivial. Qed.

Lemma cderive_plus f g t d e : cderive f t d -> cderive g t e -> cderive (fun s => f s + g s)%C t (d + e)%C.
Proof.
  intros [H1 H2] [H3 H4]. split; cbn.
  - exact (is_derive_plus (fun s => fst (f s)) (fun s => fst (g s)) t _ _ H1 H3).
  - exact (is_derive_plus (fun s => snd (f s)) (fun s => snd (g s)) t _ _ H2 H4).
Qed.

Lemma rderive_mult (f g : R -> R) t d e : is_derive f t d -> is_derive g t e -> is_derive (fun s => f s * g s) t (d * g t + f t * e).
Proof. intros H1 H2. exact (is_derive_mult f g t d e H1 H2 Rmult_comm). Qed.

Lemma cderive_mult f g t d e : cderive f t d -> cderive g t e -> cderive (fun s => f s * g s)%C t (d * g t + f t * e)%C.
Proof.
  intros [H1 H2] [H3 H4]. split.
  - pose proof (is_derive_minus _ _ _ _ _ (rderive_mult _ _ _ _ _ H1 H3) (rderive_mult _ _ _ _ _ H2 H4)) as H.
    eapply is_derive_eq; [exact H|]. cbn. unfold minus, plus, opp. cbn. ring.
  - pose proof (is_derive_plus _ _ _ _ _ (rderive_mult _ _ _ _ _ H1 H4) (rderive_mult _ _ _ _ _ H2 H3)) as H.
    eapply is_derive_eq; [exact H|]. cbn. unfold plus. cbn. ring.
Qed.

Lemma cderive_eq f t d e : cderive f t d -> d = e -> cderive f t e.
Proof. intros H <-. exact H. Qed.

Lemma cderive_ext f g t d : (forall s, f s = g s) -> cderive f t d -> cderive g t d.
Proof.
  intros H [H1 H2]. split; [apply (is_derive_same (fun s => fst (f s))) | apply (is_derive_same (fun s => snd (f s)))]; try assumption;
    intros s; rewrite H; reflexivity.
Qed.

Lemma cderive_lsum {A} (l : list A) (f : R -> A -> C) t (d : A -> C) : (forall x, In x l -> cderive (fun s => f s x) t (d x)) ->
  cderive (fun s => lsum l (f s)) t (lsum l d).
Proof.
  induction l as [|x l IH]; intros H.
  - exact (cderive_const (RtoC 0) t).
  - apply (cderive_ext (fun s => f s x + lsum l (f s))%C); [intros s; rewrite lsum_cons; reflexivity|]. rewrite lsum_cons.
    apply cderive_plus; [apply H; left; reflexivity | apply IH; intros y Hy; apply H; right; exact Hy].
Qed.

Lemma moves_cderive ms a t b : moves ms a t b <-> forall m, In m ms -> cderive (fun s => a s m) t (b m).
Proof. reflexivity. Qed.

(** ** The bracket computed with the grid *)

Section Bracket.
Variable o : oper.
Variable ms : list mode.
Hypothesis Ho : oper_pos o.

Lemma Kx_wx m : Kx o m = wx o m.
Proof. unfold Kx, wx, deltakx. destruct Ho as (_ & _ & _ & A & _). field. lra. Qed.
Lemma Ky_wy m : Ky o m = wy o m.
Proof. unfold Ky, wy, deltaky. destruct Ho as (_ & _ & _ & _ & A & _). field. lra. Qed.
Lemma jac_cross p q : jac o p q = cross o p q.
Proof. unfold jac, cross. rewrite !Kx_wx, !Ky_wy. reflexivity. Qed.
Lemma K4_k4 m : K4 o m = k4 o m.
Proof. unfold K4, k4, K2_2d. rewrite Kx_wx, Ky_wy. reflexivity. Qed.

Lemma product_fft a b k : fft o (gmul (ifft o ms a) (ifft o ms b)) k
  = lsum ms (fun p => lsum ms (fun q => if congruent (grid_of o) (msubt (madd p q) k) then a p * b q else RtoC 0))%C.
Proof. unfold fft, gmul, lift2, ifft. apply dft_product. destruct Ho as (H1 & H2 & H3 & _). split; [exact H1 | split; assumption]. Qed.

Lemma monge_fft a b k : fft o (monge_ampere_from_fft o ms a b) k
  = lsum ms (fun p => lsum ms (fun q => if congruent (grid_of o) (msubt (madd p q) k) then RtoC (jac o p q ^ 2) * (a p * b q) else RtoC 0))%C.
Proof.
  transitivity (RtoC 1 * (RtoC 1 * fft o (gmul (ifft o ms (pxx_fft o a)) (ifft o ms (pyy_fft o b))) k
    + RtoC 1 * fft o (gmul (ifft o ms (pyy_fft o a)) (ifft o ms (pxx_fft o b))) k)
    + RtoC (- 2) * fft o (gmul (ifft o ms (pxy_fft o a)) (ifft o ms (pxy_fft o b))) k)%C.
  { rewrite <- fft_lin, <- fft_lin. apply fft_ext. intros jx jy jz. unfold monge_ampere_from_fft, monge_ampere_step1, gsub, gadd, gmul, rsc, lift2.
    replace (RtoC (- 2)) with (- RtoC 2)%C by (apply C_eq; cbn; ring). ring. }
  rewrite !product_fft, <- !lsum_scal, <- lsum_plus, <- !lsum_scal, <- lsum_plus. apply lsum_ext. intros p _.
  rewrite <- !lsum_scal, <- lsum_plus, <- !lsum_scal, <- lsum_plus. apply lsum_ext. intros q _.
  destruct (congruent _ _); [|ring]. unfold pxx_fft, pyy_fft, pxy_fft, jac. generalize (a p) (b q) (Kx o p) (Ky o p) (Kx o q) (Ky o q).
  intros x y kx ky lx ly. apply C_eq; cbn; ring.
Qed.

Lemma monge_swap a b k : fft o (monge_ampere_from_fft o ms a b) k = fft o (monge_ampere_from_fft o ms b a) k.
Proof.
  apply fft_ext. intros jx jy jz. unfold monge_ampere_from_fft, monge_ampere_step1, gsub, gadd, gmul, rsc, lift2. ring.
Qed.

Lemma monge_ext a a' b b' k : (forall m, In m ms -> a m = a' m) -> (forall m, In m ms -> b m = b' m) ->
  fft o (monge_ampere_from_fft o ms a b) k = fft o (monge_ampere_from_fft o ms a' b') k.
Proof.
  intros H1 H2. rewrite !monge_fft. apply lsum_ext. intros p Hp. apply lsum_ext. intros q Hq. rewrite (H1 p Hp), (H2 q Hq). reflexivity.
Qed.

Lemma monge_derive (a b : R -> field) t a' b' k : moves ms a t a' -> moves ms b t b' ->
  cderive (fun s => fft o (monge_ampere_from_fft o ms (a s) (b s)) k) t
    (fft o (monge_ampere_from_fft o ms a' (b t)) k + fft o (monge_ampere_from_fft o ms (a t) b') k)%C.
Proof.
  intros Ha Hb.
  apply (cderive_ext (fun s => lsum ms (fun p => lsum ms (fun q => if congruent (grid_of o) (msubt (madd p q) k) then RtoC (jac o p q ^ 2) * (a s p * b s q) else RtoC 0)))%C);
    [intros s; rewrite monge_fft; reflexivity|].
  rewrite !monge_fft, <- lsum_plus. apply (cderive_lsum ms (fun s p => lsum ms (fun q => if congruent (grid_of o) (msubt (madd p q) k) then RtoC (jac o p q ^ 2) * (a s p * b s q) else RtoC 0)%C)).
  intros p Hp. rewrite <- lsum_plus.
  apply (cderive_lsum ms (fun s q => if congruent (grid_of o) (msubt (madd p q) k) then RtoC (jac o p q ^ 2) * (a s p * b s q) else RtoC 0)%C). intros q Hq.
  destruct (congruent _ _).
  - eapply cderive_eq; [apply cderive_mult; [apply cderive_const | apply cderive_mult; [exact (Ha p Hp) | exact (Hb q Hq)]]|]. cbv beta. ring.
  - eapply cderive_eq; [apply cderive_const | ring].
Qed.

Lemma monge_scal c d a b k : fft o (monge_ampere_from_fft o ms (fun m => RtoC c * a m)%C (fun m => RtoC d * b m)%C) k
  = (RtoC (c * d) * fft o (monge_ampere_from_fft o ms a b) k)%C.
Proof.
  rewrite !monge_fft, <- lsum_scal. apply lsum_ext. intros p _. rewrite <- lsum_scal. apply lsum_ext. intros q _.
  destruct (congruent _ _); [rewrite RtoC_mult|]; ring.
Qed.

(** opposite modes *)
Lemma congruent_opp p q k : congruent (grid_of o) (msubt (madd (mopp p) (mopp q)) (mopp k)) = congruent (grid_of o) (msubt (madd p q) k).
Proof.
  apply eq_true_iff_eq. rewrite !congruent_folds by exact Ho.
  split; intros [l H]; exists (mopp l); revert H; unfold folds, mopp, mx, my, mz; cbn [fst snd]; lia.
Qed.

Lemma jac_opp p q : jac o (mopp p) (mopp q) = jac o p q.
Proof. unfold jac. rewrite !Kx_opp, !Ky_opp. ring. Qed.

Lemma Cconj_lsum {A} (l : list A) f : Cconj (lsum l f) = lsum l (fun x => Cconj (f x)).
Proof. induction l as [|x l IH]; [apply C_eq; cbn; ring|]. rewrite !lsum_cons, <- IH. apply C_eq; cbn; ring. Qed.

Lemma monge_real a b k : symmetric_modes ms -> real_field ms a -> real_field ms b ->
  fft o (monge_ampere_from_fft o ms a b) (mopp k) = Cconj (fft o (monge_ampere_from_fft o ms a b) k).
Proof.
  intros Hs Ha Hb. rewrite !monge_fft. rewrite lsum_opp by exact Hs. rewrite Cconj_lsum. apply lsum_ext. intros p Hp.
  rewrite lsum_opp by exact Hs. rewrite Cconj_lsum. apply lsum_ext. intros q Hq. rewrite congruent_opp, jac_opp, (Ha p Hp), (Hb q Hq).
  destruct (congruent _ _); apply C_eq; cbn; ring.
Qed.

(** ** The stress function *)

Lemma chi_eq z m : chi_solver o ms z m = chi_state o ms z m.
Proof. unfold chi_solver, chi_state, invlaplacian_fft, invlaplacian. replace (RtoC (- 1)) with (- RtoC 1)%C by (apply C_eq; cbn; ring). ring. Qed.

Lemma chi_value z m : chi_state o ms z m
  = if first_mode m then RtoC 0 else (RtoC (- / K2_not0 o m ^ 2) * fft o (monge_ampere_from_fft o ms z z) m)%C.
Proof.
  unfold chi_state, invlaplacian_fft, invlaplacian, sign_of. destruct (first_mode m); [ring|].
  pose proof (K2_not0_pos o m Ho) as P. generalize (fft o (monge_ampere_from_fft o ms z z) m). intros [x y].
  unfold Cdiv. rewrite <- (RtoC_inv (K2_not0 o m ^ 2)) by (apply pow_nonzero; lra). rewrite <- (RtoC_inv ((-1) ^ 2)) by lra.
  replace (/ (-1) ^ 2) with 1 by field. generalize (/ K2_not0 o m ^ 2). intros r. apply C_eq; cbn; ring.
Qed.

Lemma K2_first m : first_mode m = false -> K2_not0 o m = K2_2d o m.
Proof. intros E. unfold K2_not0. unfold first_mode in E. rewrite E. reflexivity. Qed.

Lemma K4_chi z m : (RtoC (K4 o m) * chi_state o ms z m)%C = if first_mode m then RtoC 0 else (- fft o (monge_ampere_from_fft o ms z z) m)%C.
Proof.
  rewrite chi_value. destruct (first_mode m) eqn:E; [ring|]. pose proof (K2_not0_pos o m Ho) as P. rewrite (K2_first m E) in *. unfold K4.
  rewrite Cmult_assoc, <- RtoC_mult. replace (K2_2d o m ^ 2 * - / K2_2d o m ^ 2) with (- 1) by (field; lra). replace (RtoC (- 1)) with (- RtoC 1)%C by (apply C_eq; cbn; ring). ring.
Qed.

Lemma chi_real z : symmetric_modes ms -> real_field ms z -> real_field ms (chi_state o ms z).
Proof.
  intros Hs Hz m Hm. rewrite !chi_value, monge_real by assumption. change (first_mode (mopp m)) with (no_xy (mopp m)). rewrite no_xy_opp, K2_not0_opp.
  unfold no_xy, first_mode. destruct (_ && _); [apply C_eq; cbn; ring|]. generalize (/ K2_not0 o m ^ 2). intros r. apply C_eq; cbn; ring.
Qed.

Lemma chi_derive z t w m : moves ms z t w -> cderive (fun s => chi_state o ms (z s) m) t
  (if first_mode m then RtoC 0 else RtoC (- 2 * / K2_not0 o m ^ 2) * fft o (monge_ampere_from_fft o ms w (z t)) m)%C.
Proof.
  intros H. destruct (first_mode m) eqn:E.
  - apply (cderive_ext (fun _ => RtoC 0)); [|apply cderive_const]. intros s. rewrite chi_value, E. reflexivity.
  - apply (cderive_ext (fun s => RtoC (- / K2_not0 o m ^ 2) * fft o (monge_ampere_from_fft o ms (z s) (z s)) m)%C); [intros s; rewrite chi_value, E; reflexivity|].
    eapply cderive_eq; [apply cderive_mult; [apply cderive_const | apply monge_derive; exact H]|]. cbv beta.
    rewrite (monge_swap (z t) w). generalize (fft o (monge_ampere_from_fft o ms w (z t)) m). intros [x y]. generalize (/ K2_not0 o m ^ 2). intros r. apply C_eq; cbn; ring.
Qed.

Lemma chi_scal c z m : chi_state o ms (fun m => RtoC c * z m)%C m = (RtoC (c * c) * chi_state o ms z m)%C.
Proof. rewrite !chi_value, monge_scal. destruct (first_mode m); ring. Qed.

(** ** Sums over the triads *)

Definition ctriads (w : mode -> mode -> mode -> C) : C :=
  lsum ms (fun s => lsum ms (fun p => lsum ms (fun q => if congruent (grid_of o) (msubt (madd p q) (mopp s)) then w p q s else RtoC 0))).

Lemma monge_triads a b c : symmetric_modes ms ->
  lsum ms (fun k => c (mopp k) * fft o (monge_ampere_from_fft o ms a b) k)%C = ctriads (fun p q s => RtoC (jac o p q ^ 2) * (a p * b q * c s))%C.
Proof.
  intros Hs. rewrite lsum_opp by exact Hs. unfold ctriads. apply lsum_ext. intros s _. rewrite mopp_mopp, monge_fft, <- lsum_scal. apply lsum_ext. intros p _.
  rewrite <- lsum_scal. apply lsum_ext. intros q _. destruct (congruent _ _); ring.
Qed.

Lemma ctriads_exact w : (forall p q s, In p ms -> In q ms -> In s ms -> aliased o p q (mopp s) -> w p q s = RtoC 0) -> ctriads w = triads ms w.
Proof.
  intros H. unfold ctriads, triads. apply lsum_ext. intros s Hs. apply lsum_ext. intros p Hp. apply lsum_ext. intros q Hq.
  destruct (sum0 p q s) eqn:E.
  - assert (E2 : congruent (grid_of o) (msubt (madd p q) (mopp s)) = true).
    { apply congruent_folds; [exact Ho|]. exists zero_mode. apply sum0_spec in E. unfold folds, zero_mode, mopp, mx, my, mz in *. cbn [fst snd] in *. lia. }
    rewrite E2. reflexivity.
  - destruct (congruent _ _) eqn:E2; [|reflexivity]. apply congruent_folds in E2; [|exact Ho]. destruct E2 as [l Hl].
    apply H; try assumption. exists l. split; [exact Hl|]. intros ->. apply not_true_iff_false in E. apply E. apply sum0_spec.
    unfold folds, mopp, mx, my, mz in *. cbn [fst snd] in *. lia.
Qed.
End Bracket.
