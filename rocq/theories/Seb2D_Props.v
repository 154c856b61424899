(** * C114: spectral energy budgets of ns2d and ns2d.strat *)

From Coq Require Import Reals Lra ZArith Lia String List Bool Permutation.
From Coquelicot Require Import Coquelicot.
From Verif Require Import CExp DFT Alias_Model Alias_Proofs Alias_Props Oper_Model Oper_Spec Oper_Proofs
  Budget_Model Budget_Spec Budget_Proofs Budget2D_Proofs Budget2D_Props Budget3D_Props BudgetEq_Props Means_Model Means_Spec Means_Proofs Means_Props Seb_Model.
Import ListNotations.
Local Open Scope R_scope.

(** the sum over a set of modes of what is saved with a name (0 if there is none) *)
Definition saved (shell : list mode) (l : list (string * (mode -> R))) (s : string) : R :=
  match find (fun p => String.eqb (fst p) s) l with Some p => total shell (snd p) | None => 0 end.

(** a shell: some of the modes, each of them once *)
Definition shell_of (ms shell : list mode) : Prop := NoDup shell /\ forall m, In m shell -> In m ms.

(** the enstrophy of a shell is [square shell rot], its kinetic energy [energy_2d o shell rot] *)

Lemma moves_shell ms shell a t b : shell_of ms shell -> moves ms a t b -> moves shell a t b.
Proof. intros (_ & H) M m Hm. apply M. apply H. exact Hm. Qed.

Lemma conv_opp_r ms a b k : convolution ms a (fun m => - b m)%C k = (- convolution ms a b k)%C.
Proof. rewrite (conv_ext ms a a _ (fun m => (- RtoC 1) * b m + RtoC 0 * b m)%C) by (intros; ring). rewrite conv_lin. ring. Qed.

Lemma sym_prod_eq a b : sym_prod a b = fst a * fst b + snd a * snd b.
Proof. unfold sym_prod. cbn. field. Qed.

Lemma conj_prod_eq a b : fst (Cconj a * b)%C = fst a * fst b + snd a * snd b.
Proof. cbn. ring. Qed.

Lemma sym2_eq a b c d : fst (Cconj a * b + a * Cconj b + Cconj c * d + c * Cconj d)%C / 2 = fst (Cconj a * b)%C + fst (Cconj c * d)%C.
Proof. cbn. field. Qed.

Section Seb.
Variable o : oper.
Variable ms : list mode.
Variable dea : mode -> bool.
Hypothesis Hg : good_modes o ms.
Hypothesis Hd : forall m, In m ms -> dea m = false.

Let Ho : oper_pos o := proj1 Hg.

Lemma Kx_add p q k : mode_eqb (madd p q) k = true -> Kx o k = Kx o p + Kx o q.
Proof. intros E. apply mode_eqb_eq in E. subst k. unfold Kx, madd, mx. cbn [fst snd]. rewrite plus_IZR. ring. Qed.
Lemma Ky_add p q k : mode_eqb (madd p q) k = true -> Ky o k = Ky o p + Ky o q.
Proof. intros E. apply mode_eqb_eq in E. subst k. unfold Ky, madd, my. cbn [fst snd]. rewrite plus_IZR. ring. Qed.

Lemma div_free rot m : py_fft o (uy_from_rot o rot) m = (- px_fft o (ux_from_rot o rot) m)%C.
Proof.
  unfold py_fft, px_fft, ux_from_rot, uy_from_rot, Rdiv. rewrite !RtoC_mult. ring.
Qed.

Lemma curl_px rot m : (Ci * RtoC (Kx o m) * (px_fft o (uy_from_rot o rot) m - py_fft o (ux_from_rot o rot) m))%C = px_fft o rot m.
Proof.
  pose proof (K2_not0_pos o m Ho) as P. pose proof (sum_sq o m) as S. unfold px_fft, py_fft, ux_from_rot, uy_from_rot.
  transitivity (Ci * RtoC (Kx o m * ((Kx o m ^ 2 + Ky o m ^ 2) / K2_not0 o m)) * rot m)%C.
  - generalize (rot m). intros [x y]. apply C_eq; cbn; field; lra.
  - rewrite S. destruct (no_xy m) eqn:E.
    + destruct (no_xy_K o m E) as [-> _]. rewrite Rmult_0_l. ring.
    + f_equal. f_equal. f_equal. field. lra.
Qed.
Lemma curl_py rot m : (Ci * RtoC (Ky o m) * (px_fft o (uy_from_rot o rot) m - py_fft o (ux_from_rot o rot) m))%C = py_fft o rot m.
Proof.
  pose proof (K2_not0_pos o m Ho) as P. pose proof (sum_sq o m) as S. unfold px_fft, py_fft, ux_from_rot, uy_from_rot.
  transitivity (Ci * RtoC (Ky o m * ((Kx o m ^ 2 + Ky o m ^ 2) / K2_not0 o m)) * rot m)%C.
  - generalize (rot m). intros [x y]. apply C_eq; cbn; field; lra.
  - rewrite S. destruct (no_xy m) eqn:E.
    + destruct (no_xy_K o m E) as [_ ->]. rewrite Rmult_0_l. ring.
    + f_equal. f_equal. f_equal. field. lra.
Qed.

Lemma advection_conv rot a k : In k ms -> advection o ms rot a k
  = (convolution ms (ux_from_rot o rot) (px_fft o a) k + convolution ms (uy_from_rot o rot) (py_fft o a) k)%C.
Proof. intros Hk. unfold advection. rewrite !(fft_conv o ms Hg) by exact Hk. reflexivity. Qed.

(** the curl of the advection of the velocity is the advection of the vorticity *)
Lemma curl_advection rot k : In k ms ->
  (px_fft o (advection o ms rot (uy_from_rot o rot)) k - py_fft o (advection o ms rot (ux_from_rot o rot)) k)%C = advection o ms rot rot k.
Proof.
  intros Hk. unfold px_fft at 1, py_fft at 1. rewrite !advection_conv by exact Hk.
  set (u := ux_from_rot o rot). set (v := uy_from_rot o rot).
  rewrite !Cmult_plus_distr_l.
  rewrite !(leibniz ms (Kx o)) by (intros; apply Kx_add; assumption).
  rewrite !(leibniz ms (Ky o)) by (intros; apply Ky_add; assumption).
  fold (px_fft o u). fold (px_fft o v). fold (py_fft o u). fold (py_fft o v).
  assert (Ex : convolution ms u (px_fft o rot) k
    = (convolution ms u (fun m => Ci * RtoC (Kx o m) * px_fft o v m)%C k - convolution ms u (fun m => Ci * RtoC (Ky o m) * px_fft o u m)%C k)%C).
  { rewrite <- conv_sub. apply conv_ext; [reflexivity|]. intros m _. rewrite <- (curl_px rot m). fold u v. unfold px_fft, py_fft. ring. }
  assert (Ey : convolution ms v (py_fft o rot) k
    = (convolution ms v (fun m => Ci * RtoC (Kx o m) * py_fft o v m)%C k - convolution ms v (fun m => Ci * RtoC (Ky o m) * py_fft o u m)%C k)%C).
  { rewrite <- conv_sub. apply conv_ext; [reflexivity|]. intros m _. rewrite <- (curl_py rot m). fold u v. unfold px_fft, py_fft. ring. }
  rewrite Ex, Ey.
  assert (E1 : convolution ms (px_fft o v) (py_fft o v) k = (- convolution ms (px_fft o u) (px_fft o v) k)%C).
  { rewrite (conv_ext ms _ (px_fft o v) _ (fun m => - px_fft o u m)%C) by (reflexivity || (intros m _; apply (div_free rot m))).
    rewrite conv_opp_r. rewrite (conv_swap ms (px_fft o v)). reflexivity. }
  assert (E2 : convolution ms (py_fft o v) (py_fft o u) k = (- convolution ms (py_fft o u) (px_fft o u) k)%C).
  { rewrite (conv_swap ms (py_fft o v)).
    rewrite (conv_ext ms _ (py_fft o u) _ (fun m => - px_fft o u m)%C) by (reflexivity || (intros m _; apply (div_free rot m))).
    apply conv_opp_r. }
  rewrite E1, E2. ring.
Qed.

Lemma fnonlin_eq rot g k : In k ms ->
  fnonlin o ms dea (ifft o ms (ux_from_rot o rot)) (ifft o ms (uy_from_rot o rot)) g k = (- advection o ms rot g k)%C.
Proof.
  intros Hk. unfold fnonlin, dealiasing. rewrite (Hd k Hk). unfold advection.
  rewrite (fft_ext o _ (fun jx jy jz => (- RtoC 1) * gmul (ifft o ms (ux_from_rot o rot)) (ifft o ms (px_fft o g)) jx jy jz
    + (- RtoC 1) * gmul (ifft o ms (uy_from_rot o rot)) (ifft o ms (py_fft o g)) jx jy jz)%C).
  - rewrite fft_lin. ring.
  - intros. unfold gsub, gmul, gopp, lift2. ring.
Qed.

Lemma Frot_eq beta rot k : In k ms ->
  dealiasing dea (fft o (gsub (gmul (gopp (ifft o ms (ux_from_rot o rot))) (ifft o ms (px_fft o rot)))
    (gmul (ifft o ms (uy_from_rot o rot)) (fun jx jy jz => ifft o ms (py_fft o rot) jx jy jz + RtoC beta)%C))) k
  = (- advection o ms rot rot k - RtoC beta * uy_from_rot o rot k)%C.
Proof.
  intros Hk. pose proof Hg as (_ & Hs & H0 & Ha). rewrite <- (ns2d_eq o ms) with (dea := dea) by assumption.
  unfold ns2d, dealiasing. rewrite (Hd k Hk). apply fft_ext. intros. unfold compute_Frot. destruct (Req_EM_T beta 0) as [->|]; [|reflexivity].
  unfold gsub, gmul, gopp, lift2. ring.
Qed.

(** the work of the advection on the velocity at one mode *)
Lemma transferE_mode rot k : In k ms ->
  fst (Cconj (ux_from_rot o rot k) * - advection o ms rot (ux_from_rot o rot) k)%C
  + fst (Cconj (uy_from_rot o rot k) * - advection o ms rot (uy_from_rot o rot) k)%C
  = cK o k * (fst (rot k) * fst (- advection o ms rot rot k)%C + snd (rot k) * snd (- advection o ms rot rot k)%C).
Proof.
  intros Hk. rewrite <- (curl_advection rot k Hk). pose proof (K2_not0_pos o k Ho) as P. unfold cK.
  set (a := advection o ms rot (ux_from_rot o rot)). set (b := advection o ms rot (uy_from_rot o rot)).
  unfold px_fft, py_fft, ux_from_rot at 1, uy_from_rot at 1. destruct (no_xy k) eqn:E.
  - destruct (no_xy_K o k E) as [-> ->]. unfold Rdiv. rewrite !Rmult_0_l. cbn. ring.
  - generalize (rot k) (a k) (b k). intros [x y] [ax ay] [bx by_]. cbn. field. lra.
Qed.

Lemma beta_mode beta rot k : fst (rot k) * fst (RtoC beta * uy_from_rot o rot k)%C + snd (rot k) * snd (RtoC beta * uy_from_rot o rot k)%C = 0.
Proof. unfold uy_from_rot. cbn. ring. Qed.

Lemma uxr_real rot : real_field ms rot -> real_field ms (ux_from_rot o rot) /\ real_field ms (uy_from_rot o rot).
Proof.
  intros R. split; intros m Hm; unfold ux_from_rot, uy_from_rot; rewrite (R m Hm), Kx_opp || rewrite (R m Hm), Ky_opp; rewrite K2_not0_opp;
    pose proof (K2_not0_pos o m Ho) as P; generalize (rot m); intros [x y]; apply C_eq; cbn; field; lra.
Qed.

(** the sum over all the modes of the work of the advection on what is advected *)
Lemma total_advection rot a : real_field ms a -> total ms (fun m => fst (Cconj (a m) * - advection o ms rot a m)%C) = 0.
Proof.
  intros Ra. pose proof Hg as (_ & Hs & H0 & Ha).
  rewrite (total_ext ms _ (fun m => -1 * fst (Cconj (a m) * advection o ms rot a m)%C)) by (intros; cbn; ring). rewrite total_scal.
  rewrite (total_lsum ms _ (fun m => Cconj (a m) * advection o ms rot a m)%C) by reflexivity.
  rewrite (lsum_ext ms _ (fun m => a (mopp m) * advection o ms rot a m)%C) by (intros m Hm; rewrite (Ra m Hm); reflexivity).
  rewrite (advection_square o ms) by assumption. cbn. ring.
Qed.

(** ** ns2d *)

Lemma saved_E beta rot shell : shell_of ms shell ->
  saved shell (ns2d_budget o ms dea beta rot) "transfer2D_E" = rate shell (cK o) rot (fun k => - advection o ms rot rot k)%C.
Proof.
  intros (_ & Hs). unfold rate. cbn [saved ns2d_budget find fst snd String.eqb Ascii.eqb Bool.eqb].
  apply total_ext. intros m Hm. cbv beta zeta. rewrite !fnonlin_eq, sym2_eq by (apply Hs; exact Hm). apply transferE_mode. apply Hs. exact Hm.
Qed.

Lemma Z_mode beta rot k : In k ms -> sym_prod (rot k) (- advection o ms rot rot k - RtoC beta * uy_from_rot o rot k)%C
  = 1 * (fst (rot k) * fst (- advection o ms rot rot k)%C + snd (rot k) * snd (- advection o ms rot rot k)%C).
Proof.
  intros Hk. rewrite sym_prod_eq. pose proof (beta_mode beta rot k) as B. revert B. generalize (RtoC beta * uy_from_rot o rot k)%C (advection o ms rot rot k) (rot k).
  intros [x y] [u v] [r s]. cbn. intros B. transitivity (r * - u + s * - v - (r * x + s * y)); [ring|]. rewrite B. ring.
Qed.

Lemma saved_Z beta rot shell : shell_of ms shell ->
  saved shell (ns2d_budget o ms dea beta rot) "transfer2D_Z" = rate shell (fun _ => 1) rot (fun k => - advection o ms rot rot k)%C.
Proof.
  intros (_ & Hs). unfold rate. cbn [saved ns2d_budget find fst snd String.eqb Ascii.eqb Bool.eqb].
  apply total_ext. intros m Hm. cbv beta zeta. rewrite Frot_eq by (apply Hs; exact Hm). apply Z_mode. apply Hs. exact Hm.
Qed.

Lemma beta_rate shell c beta rot : rate shell c rot (fun k => - advection o ms rot rot k - RtoC beta * uy_from_rot o rot k)%C
  = rate shell c rot (fun k => - advection o ms rot rot k)%C.
Proof.
  unfold rate. apply total_ext. intros m _. pose proof (beta_mode beta rot m) as B. revert B. generalize (RtoC beta * uy_from_rot o rot m)%C (advection o ms rot rot m) (rot m).
  intros [x y] [u v] [r s]. cbn. intros B. replace (r * (- u - x) + s * (- v - y)) with (r * - u + s * - v - (r * x + s * y)) by ring.
  f_equal. lra.
Qed.

Lemma ns2d_rate shell c beta rot : shell_of ms shell ->
  rate shell c rot (ns2d o ms dea beta rot) = rate shell c rot (fun k => - advection o ms rot rot k)%C.
Proof.
  intros (_ & Hs). pose proof Hg as (_ & Hsy & H0 & Ha). rewrite <- (beta_rate shell c beta). apply rate_ext. intros m Hm.
  apply (ns2d_eq o ms); try assumption. apply Hs. exact Hm.
Qed.

Theorem c114_ns2d beta rot t shell : shell_of ms shell -> moves ms rot t (ns2d o ms dea beta (rot t)) ->
  is_derive (fun s => energy_2d o shell (rot s)) t (saved shell (ns2d_budget o ms dea beta (rot t)) "transfer2D_E")
  /\ is_derive (fun s => square shell (rot s)) t (saved shell (ns2d_budget o ms dea beta (rot t)) "transfer2D_Z").
Proof.
  intros Hs M. rewrite saved_E, saved_Z by exact Hs. apply (moves_shell ms shell _ _ _ Hs) in M. split.
  - eapply is_derive_eq; [exact (derive_cK o shell Ho rot t _ M)|]. apply ns2d_rate. exact Hs.
  - eapply is_derive_eq; [exact (derive_1 shell rot t _ M)|]. apply ns2d_rate. exact Hs.
Qed.

Lemma all_modes : shell_of ms ms.
Proof. pose proof Hg as (_ & (N & _) & _). split; auto. Qed.

Lemma zero_rate_Z rot : real_field ms rot -> rate ms (fun _ => 1) rot (fun k => - advection o ms rot rot k)%C = 0.
Proof.
  intros R. rewrite <- (total_advection rot rot R). unfold rate. apply total_ext. intros m _. rewrite conj_prod_eq. ring.
Qed.
Lemma zero_rate_E rot : real_field ms rot -> rate ms (cK o) rot (fun k => - advection o ms rot rot k)%C = 0.
Proof.
  intros R. destruct (uxr_real rot R) as [R1 R2].
  transitivity (total ms (fun m => fst (Cconj (ux_from_rot o rot m) * - advection o ms rot (ux_from_rot o rot) m)%C
    + fst (Cconj (uy_from_rot o rot m) * - advection o ms rot (uy_from_rot o rot) m)%C)).
  - unfold rate. apply total_ext. intros m Hm. symmetry. apply transferE_mode. exact Hm.
  - rewrite total_plus, !total_advection by assumption. ring.
Qed.

Theorem c114_ns2d_sums beta rot : real_field ms rot ->
  saved ms (ns2d_budget o ms dea beta rot) "transfer2D_E" = 0 /\ saved ms (ns2d_budget o ms dea beta rot) "transfer2D_Z" = 0.
Proof. intros R. rewrite saved_E, saved_Z by exact all_modes. split; [apply zero_rate_E | apply zero_rate_Z]; exact R. Qed.

(** ** ns2d.strat *)

Variables f_d f_h : mode -> R.

Section Strat.
Variables N beta : R.
Let budget (s : field * field) := ns2d_strat_budget o ms dea f_d f_h N beta s.

Ltac pick := cbn [saved budget ns2d_strat_budget find fst snd String.eqb Ascii.eqb Bool.eqb].

Lemma saved_EK rot b shell : shell_of ms shell ->
  saved shell (budget (rot, b)) "transferEK" = rate shell (cK o) rot (fun k => - advection o ms rot rot k)%C.
Proof.
  intros (_ & Hs). unfold rate. pick. apply total_ext. intros m Hm. cbv beta zeta.
  rewrite !fnonlin_eq, sym2_eq by (apply Hs; exact Hm). apply transferE_mode. apply Hs. exact Hm.
Qed.

Lemma saved_SZ rot b shell : shell_of ms shell ->
  saved shell (budget (rot, b)) "transferZ" = rate shell (fun _ => 1) rot (fun k => - advection o ms rot rot k)%C.
Proof.
  intros (_ & Hs). unfold rate. pick. apply total_ext. intros m Hm. cbv beta zeta.
  rewrite Frot_eq by (apply Hs; exact Hm). apply Z_mode. apply Hs. exact Hm.
Qed.

Lemma saved_EA rot b shell : N <> 0 -> shell_of ms shell ->
  saved shell (budget (rot, b)) "transferEA" = rate shell (fun _ => 1) b (fun k => - advection o ms rot b k)%C / N ^ 2.
Proof.
  intros HN (_ & Hs). unfold rate, Rdiv. rewrite Rmult_comm, <- total_scal. pick. apply total_ext. intros m Hm. cbv beta zeta.
  destruct (Req_EM_T N 0); [contradiction|]. rewrite fnonlin_eq, conj_prod_eq by (apply Hs; exact Hm). field. exact HN.
Qed.

Lemma saved_B rot b shell : saved shell (budget (rot, b)) "B" = rate shell (cK o) rot (px_fft o b).
Proof.
  unfold rate. pick. apply total_ext. intros m _. cbv beta zeta. pose proof (K2_not0_pos o m Ho) as P. unfold cK, uy_from_rot, px_fft.
  destruct (no_xy m) eqn:E.
  - destruct (no_xy_K o m E) as [-> _]. unfold Rdiv. rewrite Rmult_0_l. cbn. ring.
  - generalize (rot m) (b m). intros [x y] [u v]. cbn. field. lra.
Qed.

Lemma saved_B' rot b shell : saved shell (budget (rot, b)) "B" = rate shell (fun _ => 1) b (uy_from_rot o rot).
Proof. unfold rate. pick. apply total_ext. intros m _. cbv beta zeta. rewrite conj_prod_eq. ring. Qed.

Lemma saved_dissEK rot b shell :
  saved shell (budget (rot, b)) "dissEK" = total shell (fun m => freq_lin (f_d, f_h) m * (cK o m * norm2 (rot m))).
Proof.
  pick. apply total_ext. intros m _. cbv beta zeta. rewrite <- (vel_norm2 o Ho). unfold freq_lin. cbn [fst snd].
  generalize (ux_from_rot o rot m) (uy_from_rot o rot m). intros [x y] [u v]. unfold Cdiv. rewrite <- RtoC_inv by lra. unfold norm2. cbn. field.
Qed.

Lemma saved_dissEA rot b shell : N <> 0 ->
  saved shell (budget (rot, b)) "dissEA" = total shell (fun m => freq_lin (f_d, f_h) m * (1 * norm2 (b m))) / N ^ 2.
Proof.
  intros HN. unfold Rdiv. rewrite Rmult_comm, <- total_scal. pick. apply total_ext. intros m _. cbv beta zeta. destruct (Req_EM_T N 0); [contradiction|].
  unfold freq_lin. cbn [fst snd]. generalize (b m). intros [x y]. unfold norm2. cbn. field. exact HN.
Qed.

Variables rot b : R -> field.
Variable t : R.
Variable shell : list mode.
Hypothesis Hs : shell_of ms shell.

Let d := saved shell (budget (rot t, b t)).

Theorem c114_strat_kinetic :
  moves ms rot t (damped (freq_lin (f_d, f_h)) (fst (ns2d_strat o ms dea N beta (rot t, b t))) (rot t)) ->
  is_derive (fun s => energy_2d o shell (rot s)) t (d "transferEK"%string + d "B"%string - d "dissEK"%string).
Proof.
  intros M. apply (moves_shell ms shell _ _ _ Hs) in M. unfold d. rewrite (saved_EK _ _ _ Hs), saved_B, saved_dissEK.
  eapply is_derive_eq; [exact (derive_cK o shell Ho rot t _ M)|]. rewrite rate_damped. f_equal.
  rewrite <- rate_plus. apply rate_ext. intros m Hm. rewrite (proj1 (strat_eq o ms dea Hg Hd N beta (rot t) (b t) m (proj2 Hs m Hm))). reflexivity.
Qed.

Theorem c114_strat_potential : N <> 0 ->
  moves ms b t (damped (freq_lin (f_d, f_h)) (snd (ns2d_strat o ms dea N beta (rot t, b t))) (b t)) ->
  is_derive (fun s => square shell (b s) / N ^ 2) t (d "transferEA"%string - d "B"%string - d "dissEA"%string).
Proof.
  intros HN M. apply (moves_shell ms shell _ _ _ Hs) in M. unfold d. rewrite (saved_EA _ _ _ HN Hs), saved_B', saved_dissEA by exact HN.
  eapply is_derive_eq; [exact (derive_div _ t _ N (derive_1 shell b t _ M))|]. rewrite rate_damped.
  rewrite (rate_ext shell (fun _ => 1) (b t) (snd (ns2d_strat o ms dea N beta (rot t, b t)))
    (plus_f (fun k => - advection o ms (rot t) (b t) k) (fun k => RtoC (- N ^ 2) * uy_from_rot o (rot t) k))%C).
  2:{ intros m Hm. rewrite (proj2 (strat_eq o ms dea Hg Hd N beta (rot t) (b t) m (proj2 Hs m Hm))). unfold plus_f. rewrite RtoC_opp. ring. }
  rewrite rate_plus.
  replace (rate shell (fun _ => 1) (b t) (fun k => RtoC (- N ^ 2) * uy_from_rot o (rot t) k)%C) with (- N ^ 2 * rate shell (fun _ => 1) (b t) (uy_from_rot o (rot t))).
  2:{ unfold rate. rewrite <- total_scal. apply total_ext. intros m _. cbn. ring. }
  field. exact HN.
Qed.

(** the enstrophy: the baroclinic production and the dissipation are not saved *)
Theorem c114_strat_enstrophy : moves ms rot t (damped (freq_lin (f_d, f_h)) (fst (ns2d_strat o ms dea N beta (rot t, b t))) (rot t)) ->
  is_derive (fun s => square shell (rot s)) t
    (d "transferZ"%string + product shell (rot t) (ddx o (b t)) - total shell (fun m => freq_lin (f_d, f_h) m * norm2 (rot t m))).
Proof.
  intros M. apply (moves_shell ms shell _ _ _ Hs) in M. unfold d. rewrite (saved_SZ _ _ _ Hs).
  eapply is_derive_eq; [exact (derive_1 shell rot t _ M)|]. rewrite rate_damped. f_equal.
  - replace (product shell (rot t) (ddx o (b t))) with (rate shell (fun _ => 1) (rot t) (px_fft o (b t))).
    + rewrite <- rate_plus. apply rate_ext. intros m Hm. rewrite (proj1 (strat_eq o ms dea Hg Hd N beta (rot t) (b t) m (proj2 Hs m Hm))). reflexivity.
    + unfold rate, product. apply total_ext. intros m _. rewrite (ddx_px o ms Hg). ring.
  - apply total_ext. intros m _. ring.
Qed.

(** the two components *)
Theorem c114_strat_components :
  d "transferEKu"%string + d "transferEKv"%string = d "transferEK"%string /\ d "dissEKu"%string + d "dissEKv"%string = d "dissEK"%string.
Proof.
  unfold d. split; pick; rewrite <- total_plus; apply total_ext; intros m _; cbv beta zeta.
  - rewrite sym2_eq. reflexivity.
  - generalize (ux_from_rot o (rot t) m) (uy_from_rot o (rot t) m). intros [x y] [u v]. unfold Cdiv. rewrite <- RtoC_inv by lra. cbn. field.
Qed.
End Strat.

(** no warning is printed *)
Theorem c114_strat_sums N beta rot b : real_field ms rot -> real_field ms b ->
  let d := saved ms (ns2d_strat_budget o ms dea f_d f_h N beta (rot, b)) in
  d "transferZ"%string = 0 /\ d "transferEK"%string = 0 /\ d "transferEKu"%string = 0 /\ d "transferEKv"%string = 0 /\ d "transferEA"%string = 0
  /\ warned o ms dea f_d f_h N beta (rot, b) = [].
Proof.
  intros Rr Rb d. destruct (uxr_real rot Rr) as [R1 R2].
  assert (EZ : d "transferZ"%string = 0) by (unfold d; rewrite saved_SZ by exact all_modes; apply zero_rate_Z; exact Rr).
  assert (EK : d "transferEK"%string = 0) by (unfold d; rewrite saved_EK by exact all_modes; apply zero_rate_E; exact Rr).
  assert (EU : d "transferEKu"%string = 0).
  { rewrite <- (total_advection rot _ R1). unfold d. cbn [saved ns2d_strat_budget find fst snd String.eqb Ascii.eqb Bool.eqb].
    apply total_ext. intros m Hm. rewrite fnonlin_eq by exact Hm. reflexivity. }
  assert (EV : d "transferEKv"%string = 0).
  { rewrite <- (total_advection rot _ R2). unfold d. cbn [saved ns2d_strat_budget find fst snd String.eqb Ascii.eqb Bool.eqb].
    apply total_ext. intros m Hm. rewrite fnonlin_eq by exact Hm. reflexivity. }
  assert (EA : d "transferEA"%string = 0).
  { unfold d. destruct (Req_EM_T N 0) as [H0 | HN].
    - cbn [saved ns2d_strat_budget find fst snd String.eqb Ascii.eqb Bool.eqb].
      rewrite (total_ext ms _ (fun _ => 0 * 0)) by (intros; destruct (Req_EM_T N 0); [ring | contradiction]). rewrite total_scal. ring.
    - rewrite saved_EA by (exact HN || exact all_modes).
      replace (rate ms (fun _ => 1) b (fun k => - advection o ms rot b k)%C) with 0; [unfold Rdiv; ring|].
      rewrite <- (total_advection rot b Rb). unfold rate. apply total_ext. intros m _. rewrite conj_prod_eq. ring. }
  repeat split; try assumption.
  unfold d in *. unfold warned, ns2d_strat_budget in *. cbn [saved find fst snd String.eqb Ascii.eqb Bool.eqb] in EZ, EK, EU, EV, EA.
  cbn [filter fst snd]. rewrite !rsum_total, EZ, EK, EU, EV, EA.
  assert (L : forall (A : Type) (x y : A), (if Rlt_dec (3 / 10 ^ 10) (Rabs 0) then x else y) = y).
  { intros A x y. rewrite Rabs_R0. destruct (Rlt_dec (3 / 10 ^ 10) 0) as [H|]; [|reflexivity]. exfalso. revert H. apply Rle_not_lt.
    apply Rmult_le_pos; [lra|]. left. apply Rinv_0_lt_compat. apply pow_lt. lra. }
  rewrite !L. reflexivity.
Qed.

(** the sum of the dissipations *)
Theorem c114_strat_epsilon N beta rot b :
  let d := saved ms (ns2d_strat_budget o ms dea f_d f_h N beta (rot, b)) in
  epsilon o ms dea f_d f_h N beta (rot, b) = d "dissEK"%string + d "dissEA"%string.
Proof.
  intros d. destruct (c114_strat_components N beta (fun _ => rot) (fun _ => b) 0 ms) as [_ E]. unfold d. rewrite <- E.
  unfold epsilon. rewrite !rsum_total. reflexivity.
Qed.
End Seb.

(** ** Examples: the hypotheses are met *)

(** a shell of one mode; the vorticity and the buoyancy 1 on each mode *)
Example c114_example : exists ms rot b, good_modes o8 ms /\ shell_of ms [(1, 0, 0)%Z] /\ real_field ms (rot 0) /\ real_field ms (b 0)
  /\ moves ms rot 0 (damped (freq_lin (fun _ => 2, fun _ => 1)) (fst (ns2d_strat o8 ms (fun _ => false) 1 0 (rot 0, b 0))) (rot 0))
  /\ moves ms b 0 (damped (freq_lin (fun _ => 2, fun _ => 1)) (snd (ns2d_strat o8 ms (fun _ => false) 1 0 (rot 0, b 0))) (b 0))
  /\ saved [(1, 0, 0)%Z] (ns2d_strat_budget o8 ms (fun _ => false) (fun _ => 2) (fun _ => 1) 1 0 (rot 0, b 0)) "dissEA" = 3.
Proof.
  destruct o8_modes as (ms & Hg & Hin). set (i := fun _ : mode => RtoC 1).
  exists ms, (line 0 i (damped (freq_lin (fun _ => 2, fun _ => 1)) (fst (ns2d_strat o8 ms (fun _ => false) 1 0 (i, i))) i)),
    (line 0 i (damped (freq_lin (fun _ => 2, fun _ => 1)) (snd (ns2d_strat o8 ms (fun _ => false) 1 0 (i, i))) i)).
  rewrite !line_at. split; [exact Hg|]. split; [split; [repeat constructor; intros []|intros m [<-|[]]; exact Hin]|].
  split; [intros m _; apply C_eq; cbn; lra|]. split; [intros m _; apply C_eq; cbn; lra|].
  split; [apply line_moves|]. split; [apply line_moves|].
  rewrite saved_dissEA by lra. unfold freq_lin, norm2, i. cbn. field.
Qed.

Example c114_ns2d_example : exists ms rot, good_modes o8 ms /\ shell_of ms [(1, 0, 0)%Z] /\ real_field ms (rot 0)
  /\ moves ms rot 0 (ns2d o8 ms (fun _ => false) 1 (rot 0)).
Proof.
  destruct o8_modes as (ms & Hg & Hin). set (i := fun _ : mode => RtoC 1).
  exists ms, (line 0 i (ns2d o8 ms (fun _ => false) 1 i)). rewrite !line_at.
  split; [exact Hg|]. split; [split; [repeat constructor; intros []|intros m [<-|[]]; exact Hin]|].
  split; [intros m _; apply C_eq; cbn; lra|]. apply line_moves.
Qed.

Print Assumptions c114_ns2d.
Print Assumptions c114_ns2d_sums.
Print Assumptions c114_strat_kinetic.
Print Assumptions c114_strat_potential.
Print Assumptions c114_strat_enstrophy.
Print Assumptions c114_strat_components.
Print Assumptions c114_strat_sums.
Print Assumptions c114_strat_epsilon.
