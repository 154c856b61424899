From Coq Require Import ZArith Bool Reals Lra.
From Coquelicot Require Import Complex.
From Verif Require Import Oper_Model Oper_Spec.
Local Open Scope R_scope.

Lemma nozero_id x : x <> 0 -> nozero x = x.
Proof. intros H. unfold nozero, eqb0. destruct (Req_EM_T x 0); [contradiction | reflexivity]. Qed.

Lemma nozero_0 : nozero 0 = / 10 ^ 14.
Proof. unfold nozero, eqb0. destruct (Req_EM_T 0 0); [reflexivity | contradiction]. Qed.

Section V.
Variables kx ky kz : R.
Hypothesis Kh_not0 : kx <> 0 \/ ky <> 0.

Lemma Kh2_pos : 0 < Kh2 kx ky.
Proof.
  unfold Kh2. destruct Kh_not0 as [H | H]; apply Rsqr_pos_lt in H; unfold Rsqr in H;
    pose proof (pow2_ge_0 kx); pose proof (pow2_ge_0 ky); lra.
Qed.

Lemma K2_pos : 0 < K2 kx ky kz.
Proof. unfold K2. pose proof Kh2_pos. pose proof (pow2_ge_0 kz). lra. Qed.

Lemma inv_Kh_eq : inv_Kh kx ky * Kh2 kx ky = 1.
Proof. pose proof Kh2_pos. unfold inv_Kh. rewrite nozero_id by lra. field. lra. Qed.

Lemma inv_K_eq : inv_K kx ky kz * K2 kx ky kz = 1.
Proof. pose proof K2_pos. unfold inv_K. rewrite nozero_id by lra. field. lra. Qed.

(** the angles of the wavevector *)
Lemma angles : exists kk st ct sp cp,
  kk <> 0 /\ cp * cp = 1 - sp * sp /\ ct * ct = 1 - st * st
  /\ kx = kk * st * cp /\ ky = kk * st * sp /\ kz = kk * ct
  /\ cos_theta kx ky kz = ct /\ sin_theta kx ky kz = st /\ cos_phi kx ky = cp /\ sin_phi kx ky = sp
  /\ kk * kk * inv_K kx ky kz = 1.
Proof.
  pose proof Kh2_pos as P1. pose proof K2_pos as P2.
  set (h := sqrt (Kh2 kx ky)). set (kk := sqrt (K2 kx ky kz)).
  assert (Hh : 0 < h) by (apply sqrt_lt_R0; assumption).
  assert (Hk : 0 < kk) by (apply sqrt_lt_R0; assumption).
  assert (Eh : h * h = Kh2 kx ky) by (apply sqrt_sqrt; lra).
  assert (Ek : kk * kk = K2 kx ky kz) by (apply sqrt_sqrt; lra).
  assert (Ih : sqrt (inv_Kh kx ky) = / h).
  { unfold inv_Kh. rewrite nozero_id by lra. unfold Rdiv. rewrite Rmult_1_l. rewrite sqrt_inv. reflexivity. }
  assert (Ik : sqrt (inv_K kx ky kz) = / kk).
  { unfold inv_K. rewrite nozero_id by lra. unfold Rdiv. rewrite Rmult_1_l. rewrite sqrt_inv. reflexivity. }
  assert (St : sin_theta kx ky kz = h * / kk).
  { unfold sin_theta. rewrite sqrt_mult_alt by lra. rewrite Ik. reflexivity. }
  exists kk, (h * / kk), (kz * / kk), (ky * / h), (kx * / h).
  assert (Fh : h * h = kx ^ 2 + ky ^ 2) by exact Eh.
  assert (Fk : kk * kk = h * h + kz ^ 2) by (rewrite Ek, Eh; reflexivity).
  repeat split.
  - lra.
  - replace 1 with ((h * h) * (/ h * / h)) by (field; lra). rewrite Fh. ring.
  - replace 1 with ((kk * kk) * (/ kk * / kk)) by (field; lra). rewrite Fk. ring.
  - field. lra.
  - field. lra.
  - field. lra.
  - unfold cos_theta. rewrite Ik. reflexivity.
  - exact St.
  - unfold cos_phi. rewrite Ih. reflexivity.
  - unfold sin_phi. rewrite Ih. reflexivity.
  - rewrite Ek, Rmult_comm. apply inv_K_eq.
Qed.
End V.

Ltac cx :=
  unfold vec_from_vp, vec_from_vt, vt_from_vec, project_poloidal, project_toroidal, project_kradial3d,
    vp_from_vec, grad, divergence, vadd, vnull, dot, rmul, Cminus, Cmult, Cplus, Copp, Cconj, Ci, RtoC; cbn [fst snd].

Lemma triple_eq (a b c a' b' c' : C) : a = a' -> b = b' -> c = c' -> ((a, b), c) = ((a', b'), c').
Proof. congruence. Qed.

Lemma cpair_eq (a b a' b' : R) : a = a' -> b = b' -> (a, b) = (a', b').
Proof. congruence. Qed.

(** every projection in terms of the angles *)
Ltac ang kx ky kz H :=
  let kk := fresh "kk" in let st := fresh "st" in let ct := fresh "ct" in let sp := fresh "sp" in
  let cp := fresh "cp" in let Hkk := fresh "Hkk" in let Ep := fresh "Ep" in let Et := fresh "Et" in
  let Ex := fresh "Ex" in let Ey := fresh "Ey" in let Ez := fresh "Ez" in
  let E1 := fresh "E" in let E2 := fresh "E" in let E3 := fresh "E" in let E4 := fresh "E" in let E5 := fresh "E" in
  destruct (angles kx ky kz H) as (kk & st & ct & sp & cp & Hkk & Ep & Et & Ex & Ey & Ez & E1 & E2 & E3 & E4 & E5);
  rewrite ?E1, ?E2, ?E3, ?E4;
  let ik := fresh "ik" in
  set (ik := inv_K kx ky kz) in *; clearbody ik; clear E1 E2 E3 E4; clear H; subst kx ky kz;
  try apply triple_eq; apply cpair_eq; ring [Ep Et E5].

Section W.
Variables kx ky kz : R.
Hypothesis H : kx <> 0 \/ ky <> 0.
Notation pol := (project_poloidal kx ky kz).
Notation tor := (project_toroidal kx ky).
Notation rad := (project_kradial3d kx ky kz).

Ltac go := cx; ang kx ky kz H.

Lemma decompose v : vadd (vadd (pol v) (tor v)) (rad v) = v.
Proof. destruct v as [[[a a'] [b b']] [c c']]. go. Qed.
Definition scaled (e : R * R * R) (a : C) : C * C * C :=
  (rmul (fst (fst e)) a, rmul (snd (fst e)) a, rmul (snd e) a).
Definition rdot (e f : R * R * R) : R := fst (fst e) * fst (fst f) + snd (fst e) * snd (fst f) + snd e * snd f.

Lemma dot_scaled e f a b : dot (scaled e a) (scaled f b) = rmul (rdot e f) (Cmult a (Cconj b)).
Proof.
  clear H. destruct e as [[e1 e2] e3], f as [[f1 f2] f3], a as [a a'], b as [b b'].
  unfold scaled, rdot, dot, rmul, Cmult, Cplus, Cconj, RtoC. cbn [fst snd]. apply cpair_eq; ring.
Qed.

Definition e_pol : R * R * R :=
  (cos_theta kx ky kz * cos_phi kx ky, cos_theta kx ky kz * sin_phi kx ky, - sin_theta kx ky kz).
Definition e_tor : R * R * R := (- sin_phi kx ky, cos_phi kx ky, 0).

Lemma pol_scaled v : exists a, pol v = scaled e_pol a.
Proof. exists (vp_from_vec kx ky kz v). reflexivity. Qed.
Lemma tor_scaled v : exists a, tor v = scaled e_tor a.
Proof.
  exists (Cplus (rmul (- sin_phi kx ky) (fst (fst v))) (rmul (cos_phi kx ky) (snd (fst v)))).
  unfold project_toroidal, scaled, e_tor. cbn [fst snd]. f_equal. unfold rmul. ring.
Qed.
Lemma rad_scaled v : exists a, rad v = scaled (kx, ky, kz) a.
Proof. eexists. unfold project_kradial3d, scaled. cbn [fst snd]. reflexivity. Qed.

Ltac ang_r :=
  let kk := fresh "kk" in let st := fresh "st" in let ct := fresh "ct" in let sp := fresh "sp" in
  let cp := fresh "cp" in let Hkk := fresh "Hkk" in let Ep := fresh "Ep" in let Et := fresh "Et" in
  let Ex := fresh "Ex" in let Ey := fresh "Ey" in let Ez := fresh "Ez" in
  let E1 := fresh "E" in let E2 := fresh "E" in let E3 := fresh "E" in let E4 := fresh "E" in let E5 := fresh "E" in
  destruct (angles kx ky kz H) as (kk & st & ct & sp & cp & Hkk & Ep & Et & Ex & Ey & Ez & E1 & E2 & E3 & E4 & E5);
  unfold rdot, e_pol, e_tor; cbn [fst snd]; rewrite ?E1, ?E2, ?E3, ?E4; clear E1 E2 E3 E4 E5; clear H; subst kx ky kz;
  ring [Ep Et].

Lemma e_pt : rdot e_pol e_tor = 0.  Proof. ang_r. Qed.
Lemma e_pr : rdot e_pol (kx, ky, kz) = 0.  Proof. ang_r. Qed.
Lemma e_tr : rdot e_tor (kx, ky, kz) = 0.  Proof. ang_r. Qed.

Lemma rmul_0 a : rmul 0 a = RtoC 0.
Proof. unfold rmul. ring. Qed.

Lemma pol_tor v w : dot (pol v) (tor w) = RtoC 0.
Proof.
  destruct (pol_scaled v) as [a ->], (tor_scaled w) as [b ->]. rewrite dot_scaled, e_pt. apply rmul_0.
Qed.
Lemma pol_rad v w : dot (pol v) (rad w) = RtoC 0.
Proof.
  destruct (pol_scaled v) as [a ->], (rad_scaled w) as [b ->]. rewrite dot_scaled, e_pr. apply rmul_0.
Qed.
Lemma tor_rad v w : dot (tor v) (rad w) = RtoC 0.
Proof.
  destruct (tor_scaled v) as [a ->], (rad_scaled w) as [b ->]. rewrite dot_scaled, e_tr. apply rmul_0.
Qed.

Lemma div_scaled e a : divergence kx ky kz (scaled e a) = Cmult Ci (rmul (rdot e (kx, ky, kz)) a).
Proof.
  destruct e as [[e1 e2] e3]. unfold divergence, scaled, rdot, rmul. cbn [fst snd].
  rewrite !RtoC_plus, !RtoC_mult. ring.
Qed.
Lemma pol_div v : divergence kx ky kz (pol v) = RtoC 0.
Proof. destruct (pol_scaled v) as [a ->]. rewrite div_scaled, e_pr, rmul_0. ring. Qed.
Lemma tor_div v : divergence kx ky kz (tor v) = RtoC 0.
Proof. destruct (tor_scaled v) as [a ->]. rewrite div_scaled, e_tr, rmul_0. ring. Qed.
Lemma rad_div v : divergence kx ky kz (rad v) = divergence kx ky kz v.
Proof.
  destruct v as [[x y] z].
  change (rad (x, y, z)) with
    (scaled (kx, ky, kz) (rmul (inv_K kx ky kz) (Cplus (Cplus (rmul kx x) (rmul ky y)) (rmul kz z)))).
  rewrite div_scaled. unfold divergence, rmul. cbn [fst snd]. rewrite (Cmult_assoc (RtoC (rdot (kx, ky, kz) (kx, ky, kz)))).
  unfold rmul;
  replace (RtoC (rdot (kx, ky, kz) (kx, ky, kz)) * RtoC (inv_K kx ky kz))%C with (RtoC 1); [rewrite Cmult_1_l; ring|].
  rewrite <- RtoC_mult. f_equal. pose proof (inv_K_eq kx ky kz H) as E. rewrite Rmult_comm in E. rewrite <- E.
  unfold rdot, K2, Kh2. cbn [fst snd]. ring.
Qed.
Lemma vp_vec p : vp_from_vec kx ky kz (vec_from_vp kx ky kz p) = p.
Proof. destruct p as [a a']. go. Qed.
Lemma vt_vec p : vt_from_vec kx ky (vec_from_vt kx ky p) = p.
Proof. destruct p as [a a']. go. Qed.
Lemma vec_vp v : vec_from_vp kx ky kz (vp_from_vec kx ky kz v) = pol v.
Proof. reflexivity. Qed.
Lemma vec_vt v : vec_from_vt kx ky (vt_from_vec kx ky v) = tor v.
Proof. destruct v as [[[a a'] [b b']] [c c']]. go. Qed.
Lemma pol_idem v : pol (pol v) = pol v.
Proof.
  change (vec_from_vp kx ky kz (vp_from_vec kx ky kz (vec_from_vp kx ky kz (vp_from_vec kx ky kz v))) = pol v).
  rewrite vp_vec. reflexivity.
Qed.
Lemma tor_idem v : tor (tor v) = tor v.
Proof. rewrite <- (vec_vt (tor v)), <- (vec_vt v), vt_vec. reflexivity. Qed.
Lemma rad_grad p : rad (grad kx ky kz p) = grad kx ky kz p.
Proof. destruct p as [a a']. go. Qed.
Lemma rad_is_grad v : rad v = grad kx ky kz (Cmult (Copp Ci) (rmul (inv_K kx ky kz) (Cplus (Cplus (rmul kx (fst (fst v))) (rmul ky (snd (fst v)))) (rmul kz (snd v))))).
Proof.
  destruct v as [[[a a'] [b b']] [c c']]. cx. clear H. generalize (inv_K kx ky kz). intros ik.
  apply triple_eq; apply cpair_eq; ring.
Qed.
Lemma rad_idem v : rad (rad v) = rad v.
Proof. rewrite (rad_is_grad v) at 1. rewrite rad_grad. symmetry. apply rad_is_grad. Qed.
Lemma pol_grad p : pol (grad kx ky kz p) = vnull.
Proof. destruct p as [a a']. go. Qed.
Lemma tor_grad p : tor (grad kx ky kz p) = vnull.
Proof. destruct p as [a a']. go. Qed.

Lemma dot_add_l a b c : dot (vadd a b) c = Cplus (dot a c) (dot b c).
Proof. unfold dot, vadd. cbn [fst snd]. ring. Qed.
Lemma dot_conj a b : dot a b = Cconj (dot b a).
Proof.
  destruct a as [[[a1 a1'] [a2 a2']] [a3 a3']], b as [[[b1 b1'] [b2 b2']] [b3 b3']].
  unfold dot, Cconj, Cmult, Cplus. cbn [fst snd]. apply cpair_eq; ring.
Qed.
Lemma dot_add_r a b c : dot c (vadd a b) = Cplus (dot c a) (dot c b).
Proof.
  rewrite dot_conj, dot_add_l, (dot_conj c a), (dot_conj c b).
  unfold Cconj, Cplus. cbn [fst snd]. apply cpair_eq; ring.
Qed.
Lemma conj0 : Cconj (RtoC 0) = RtoC 0.
Proof. unfold Cconj, RtoC. cbn [fst snd]. apply cpair_eq; ring. Qed.

Lemma norm_decompose v : dot v v = Cplus (Cplus (dot (pol v) (pol v)) (dot (tor v) (tor v))) (dot (rad v) (rad v)).
Proof.
  rewrite <- (decompose v) at 1 2. rewrite !dot_add_l, !dot_add_r.
  rewrite (dot_conj (tor v) (pol v)), (dot_conj (rad v) (pol v)), (dot_conj (rad v) (tor v)).
  rewrite !pol_tor, !pol_rad, !tor_rad, !conj0. ring.
Qed.
End W.

(** ** Horizontal decomposition *)
Section Hor.
Variables kx ky : R.
Hypothesis H : kx <> 0 \/ ky <> 0.

Lemma Ci2 : (Ci * Ci = - RtoC 1)%C.
Proof. unfold Ci, Cmult, Copp, RtoC. cbn [fst snd]. apply cpair_eq; ring. Qed.

Ltac hor :=
  let EI := fresh "EI" in let EJ := fresh "EJ" in let EC := fresh "EC" in
  pose proof (inv_Kh_eq kx ky H) as EI; unfold Kh2 in EI;
  pose proof Ci2 as EC;
  unfold ur, ud, kdotu, divh, rotz, v_from_rotz, v_from_divh, horizontal_div, vertical_rot, rmul; cbn [fst snd];
  set (ik := inv_Kh kx ky) in *; clearbody ik;
  assert (EJ : (RtoC ik * RtoC kx * RtoC kx = RtoC 1 - RtoC ik * RtoC ky * RtoC ky)%C)
    by (rewrite <- !RtoC_mult, <- RtoC_minus; f_equal; lra);
  clear EI; clear H; rewrite ?RtoC_mult;
  generalize dependent (RtoC ik); generalize dependent (RtoC kx); generalize dependent (RtoC ky);
  intros; 
  match goal with E : (_ * _ * _ = RtoC 1 - _)%C |- _ =>
  try apply f_equal2; ring [E EC] end.

Lemma ur_ud x y : (Cplus (fst (ur kx ky x y)) (fst (ud kx ky x y)), Cplus (snd (ur kx ky x y)) (snd (ud kx ky x y))) = (x, y).
Proof. clear H. unfold ur. cbn [fst snd]. apply f_equal2; ring. Qed.
Lemma ur_div x y : horizontal_div kx ky (fst (ur kx ky x y)) (snd (ur kx ky x y)) = RtoC 0.
Proof. hor. Qed.
Lemma ud_rot x y : vertical_rot kx ky (fst (ud kx ky x y)) (snd (ud kx ky x y)) = RtoC 0.
Proof. hor. Qed.
Lemma rotz_v r : rotz kx ky (fst (v_from_rotz kx ky r)) (snd (v_from_rotz kx ky r)) = r.
Proof. hor. Qed.
Lemma divh_v r : divh kx ky (fst (v_from_divh kx ky r)) (snd (v_from_divh kx ky r)) = r.
Proof. hor. Qed.
Lemma v_rotz x y : v_from_rotz kx ky (rotz kx ky x y) = ur kx ky x y.
Proof. hor. Qed.
Lemma v_divh x y : v_from_divh kx ky (divh kx ky x y) = ud kx ky x y.
Proof. hor. Qed.
End Hor.
