(** * C61: the Smagorinsky model *)

From Coq Require Import Reals Lra Lia List FunctionalExtensionality.
From Coquelicot Require Import Complex.
From Verif Require Import CExp TurbModel_Model.
Import ListNotations.
Open Scope R_scope.

(** ** The documented model, with indices *)

Inductive ax := X | Y | Z.

Definition sum3 (f : ax -> R) : R := f X + f Y + f Z.
Definition csum3 (f : ax -> C) : C := (f X + f Y + f Z)%C.

Section Doc.

Variable P M : Type.
Variable fft : (P -> R) -> (M -> C).
Variable ifft : (M -> C) -> (P -> R).
Variable K : ax -> M -> R.

(** spectral derivative in direction j *)
Definition der (j : ax) (a : M -> C) : M -> C := fun m => (Ci * RtoC (K j m) * a m)%C.

(** S_ij = (d_i v_j + d_j v_i) / 2 *)
Definition S_ij (v : ax -> M -> C) (i j : ax) (p : P) : R :=
  (ifft (der i (v j)) p + ifft (der j (v i)) p) / 2.

(** nu_T = C Delta^2 sqrt(2 S_ij S_ij) *)
Definition nu_T (Cs Delta : R) (v : ax -> M -> C) (p : P) : R :=
  Cs * Delta ^ 2 * sqrt (2 * sum3 (fun i => sum3 (fun j => S_ij v i j p * S_ij v i j p))).

(** d_j (2 nu_T S_ij) *)
Definition doc_force (Cs Delta : R) (v : ax -> M -> C) (i : ax) (m : M) : C :=
  csum3 (fun j => der j (fft (fun p => 2 * nu_T Cs Delta v p * S_ij v i j p)) m).

(** the three components returned by the code *)
Definition code_force (Cs Lx nx : R) (v : ax -> M -> C) (i : ax) (m : M) : C :=
  let '(fx, fy, fz) := get_forcing P M fft ifft (K X) (K Y) (K Z) Cs Lx nx (v X) (v Y) (v Z) in
  match i with X => fx m | Y => fy m | Z => fz m end.

Lemma norm_ok (v : ax -> M -> C) p :
  compute_norm P (compute_stress_tensor P M ifft (K X) (K Y) (K Z) (v X) (v Y) (v Z)) p
  = sqrt (sum3 (fun i => sum3 (fun j => S_ij v i j p * S_ij v i j p))).
Proof.
  unfold compute_norm, compute_stress_tensor, sum3, S_ij, dx, dy, dz, der; cbn [Sxx Syy Szz Syx Szx Szy].
  f_equal. field.
Qed.

Lemma sum3_sq_pos (S : ax -> ax -> R) :
  0 <= sum3 (fun i => sum3 (fun j => S i j * S i j)).
Proof. unfold sum3. nra. Qed.

Lemma nu_T_ok Cs Lx nx (v : ax -> M -> C) p :
  C_nu_T Cs Lx nx *
  compute_norm P (compute_stress_tensor P M ifft (K X) (K Y) (K Z) (v X) (v Y) (v Z)) p
  = nu_T Cs (Lx / nx) v p.
Proof.
  rewrite norm_ok. unfold C_nu_T, nu_T. rewrite sqrt_mult; [ring|lra|].
  apply (sum3_sq_pos (fun i j => S_ij v i j p)).
Qed.

(** The code returns twice the documented force, in every mode. *)
Theorem c61_twice_the_documented_force_partial : forall Cs Lx nx v i m,
  code_force Cs Lx nx v i m = (RtoC 2 * doc_force Cs (Lx / nx) v i m)%C.
Proof.
  intros Cs Lx nx v i m.
  assert (E : forall (s : P -> R) (a b : ax), (forall p, s p = S_ij v a b p) ->
    (fun p => 2 * C_nu_T Cs Lx nx *
       compute_norm P (compute_stress_tensor P M ifft (K X) (K Y) (K Z) (v X) (v Y) (v Z)) p * s p)
    = (fun p => 2 * nu_T Cs (Lx / nx) v p * S_ij v a b p)).
  { intros s a b H. apply functional_extensionality; intros p.
    rewrite <- nu_T_ok, H. ring. }
  unfold code_force, get_forcing, doc_force, csum3, der.
  set (t := compute_stress_tensor P M ifft (K X) (K Y) (K Z) (v X) (v Y) (v Z)).
  assert (Hxx : forall p, Sxx P t p = S_ij v X X p)
    by (intros; unfold t, S_ij, der; cbn; unfold dx; field).
  assert (Hyy : forall p, Syy P t p = S_ij v Y Y p)
    by (intros; unfold t, S_ij, der; cbn; unfold dy; field).
  assert (Hzz : forall p, Szz P t p = S_ij v Z Z p)
    by (intros; unfold t, S_ij, der; cbn; unfold dz; field).
  assert (Hyx : forall p, Syx P t p = S_ij v Y X p)
    by (intros; unfold t, S_ij, der; cbn; unfold dx, dy; field).
  assert (Hxy : forall p, Syx P t p = S_ij v X Y p)
    by (intros; unfold t, S_ij, der; cbn; unfold dx, dy; field).
  assert (Hzx : forall p, Szx P t p = S_ij v Z X p)
    by (intros; unfold t, S_ij, der; cbn; unfold dx, dz; field).
  assert (Hxz : forall p, Szx P t p = S_ij v X Z p)
    by (intros; unfold t, S_ij, der; cbn; unfold dx, dz; field).
  assert (Hzy : forall p, Szy P t p = S_ij v Z Y p)
    by (intros; unfold t, S_ij, der; cbn; unfold dy, dz; field).
  assert (Hyz : forall p, Szy P t p = S_ij v Y Z p)
    by (intros; unfold t, S_ij, der; cbn; unfold dy, dz; field).
  cbv zeta. fold t in E. fold t.
  destruct i;
    [ rewrite (E _ _ _ Hxx), (E _ _ _ Hxy), (E _ _ _ Hxz)
    | rewrite (E _ _ _ Hyx), (E _ _ _ Hyy), (E _ _ _ Hyz)
    | rewrite (E _ _ _ Hzx), (E _ _ _ Hzy), (E _ _ _ Hzz) ]; ring.
Qed.

(** ** The model is a sink of energy *)

Variable points : list P.
Variable modes : list M.
Variable w : M -> R.

Definition rsum {A} (l : list A) (f : A -> R) : R := fold_right (fun a s => f a + s) 0 l.

(** sum over the modes of the real part of conj(a) b, with weights (2 for the modes whose
    conjugate is not stored) *)
Definition inner (a b : M -> C) : R :=
  rsum modes (fun m => w m * (fst (a m) * fst (b m) + snd (a m) * snd (b m))).

Lemma rsum_ext A (l : list A) f g : (forall a, f a = g a) -> rsum l f = rsum l g.
Proof. intros H. induction l; simpl; [reflexivity|]. now rewrite H, IHl. Qed.
Lemma rsum_plus A (l : list A) f g : rsum l (fun a => f a + g a) = rsum l f + rsum l g.
Proof. induction l; simpl; [ring|]. rewrite IHl. ring. Qed.
Lemma rsum_scal A (l : list A) c f : rsum l (fun a => c * f a) = c * rsum l f.
Proof. induction l; simpl; [ring|]. rewrite IHl. ring. Qed.
Lemma rsum_nonneg A (l : list A) f : (forall a, 0 <= f a) -> 0 <= rsum l f.
Proof. intros H. induction l; simpl; [lra|]. pose proof (H a). lra. Qed.

Lemma inner_plus a b c : inner a (fun m => (b m + c m)%C) = inner a b + inner a c.
Proof.
  unfold inner. rewrite <- rsum_plus. apply rsum_ext; intros m. simpl. ring.
Qed.
Lemma inner_scal a b (c : R) : inner a (fun m => (RtoC c * b m)%C) = c * inner a b.
Proof.
  unfold inner. rewrite <- rsum_scal. apply rsum_ext; intros m. simpl. ring.
Qed.
(** integration by parts *)
Lemma inner_der j a b : inner a (der j b) = - inner (der j a) b.
Proof.
  unfold inner, der.
  replace (- rsum modes _) with ((-1) * rsum modes (fun m => w m *
    (fst (Ci * RtoC (K j m) * a m)%C * fst (b m) + snd (Ci * RtoC (K j m) * a m)%C * snd (b m))))
    by ring.
  rewrite <- rsum_scal. apply rsum_ext; intros m. simpl. ring.
Qed.

(** The energy rate of the model force is never positive, provided Parseval's identity
    holds between the transform of a field and the gradients of the velocity. *)
Theorem c61_energy_sink : forall Cs Lx nx (v : ax -> M -> C),
  0 <= Cs ->
  (forall (g : P -> R) i j,
     inner (der j (v i)) (fft g) = rsum points (fun p => ifft (der j (v i)) p * g p)) ->
  inner (v X) (code_force Cs Lx nx v X) + inner (v Y) (code_force Cs Lx nx v Y)
  + inner (v Z) (code_force Cs Lx nx v Z) <= 0.
Proof.
  intros Cs Lx nx v HC Parseval.
  set (D := Lx / nx).
  assert (H : forall i, inner (v i) (code_force Cs Lx nx v i) =
     - 2 * rsum points (fun p => sum3 (fun j =>
          ifft (der j (v i)) p * (2 * nu_T Cs D v p * S_ij v i j p)))).
  { intros i.
    replace (code_force Cs Lx nx v i) with
      (fun m => (RtoC 2 * ((fun m => der X (fft (fun p => (2 * nu_T Cs D v p * S_ij v i X p)%R)) m
          + der Y (fft (fun p => (2 * nu_T Cs D v p * S_ij v i Y p)%R)) m
          + der Z (fft (fun p => (2 * nu_T Cs D v p * S_ij v i Z p)%R)) m) m))%C).
    2:{ apply functional_extensionality; intros m.
        rewrite c61_twice_the_documented_force_partial. reflexivity. }
    rewrite inner_scal, !inner_plus.
    rewrite !inner_der, !Parseval. unfold sum3. rewrite !rsum_plus. ring. }
  rewrite !H.
  assert (G : 0 <= rsum points (fun p => 4 * nu_T Cs D v p *
     sum3 (fun i => sum3 (fun j => S_ij v i j p * S_ij v i j p)))).
  { apply rsum_nonneg. intros p.
    apply Rmult_le_pos; [|apply (sum3_sq_pos (fun i j => S_ij v i j p))].
    apply Rmult_le_pos; [lra|]. unfold nu_T.
    apply Rmult_le_pos; [|apply sqrt_pos].
    apply Rmult_le_pos; [exact HC|]. apply pow2_ge_0. }
  enough (E : -2 * rsum points (fun p => sum3 (fun j => ifft (der j (v X)) p * (2 * nu_T Cs D v p * S_ij v X j p)))
   + -2 * rsum points (fun p => sum3 (fun j => ifft (der j (v Y)) p * (2 * nu_T Cs D v p * S_ij v Y j p)))
   + -2 * rsum points (fun p => sum3 (fun j => ifft (der j (v Z)) p * (2 * nu_T Cs D v p * S_ij v Z j p)))
   = - rsum points (fun p => 4 * nu_T Cs D v p *
     sum3 (fun i => sum3 (fun j => S_ij v i j p * S_ij v i j p)))) by lra.
  rewrite <- !rsum_scal, <- !rsum_plus.
  replace (- rsum points (fun p => 4 * nu_T Cs D v p *
     sum3 (fun i => sum3 (fun j => S_ij v i j p * S_ij v i j p))))
   with (-1 * rsum points (fun p => 4 * nu_T Cs D v p *
     sum3 (fun i => sum3 (fun j => S_ij v i j p * S_ij v i j p)))) by ring.
  rewrite <- rsum_scal. apply rsum_ext; intros p.
  unfold sum3, S_ij. field.
Qed.

End Doc.

(** ** A grid: 4 points in the y direction, wavenumbers -1, 0, 1, 2 *)

Inductive pt := P0 | P1 | P2 | P3.
Inductive md := Km1 | K0 | K1 | K2.

Definition fft4 (g : pt -> R) (k : md) : C :=
  match k with
  | K0 => (RtoC (g P0 / 4) + RtoC (g P1 / 4) + RtoC (g P2 / 4) + RtoC (g P3 / 4))%C
  | K1 => (RtoC (g P0 / 4) - Ci * RtoC (g P1 / 4) - RtoC (g P2 / 4) + Ci * RtoC (g P3 / 4))%C
  | K2 => (RtoC (g P0 / 4) - RtoC (g P1 / 4) + RtoC (g P2 / 4) - RtoC (g P3 / 4))%C
  | Km1 => (RtoC (g P0 / 4) + Ci * RtoC (g P1 / 4) - RtoC (g P2 / 4) - Ci * RtoC (g P3 / 4))%C
  end.

Definition ifft4 (a : md -> C) (p : pt) : R :=
  match p with
  | P0 => fst (a K0 + a K1 + a K2 + a Km1)%C
  | P1 => fst (a K0 + Ci * a K1 - a K2 - Ci * a Km1)%C
  | P2 => fst (a K0 - a K1 + a K2 - a Km1)%C
  | P3 => fst (a K0 - Ci * a K1 - a K2 + Ci * a Km1)%C
  end.

Definition K4 (i : ax) (k : md) : R :=
  match i, k with
  | Y, Km1 => -1 | Y, K1 => 1 | Y, K2 => 2 | _, _ => 0
  end.

(** vx = sin y *)
Definition sin_y (i : ax) (k : md) : C :=
  match i, k with
  | X, K1 => (0, - (1/2)) | X, Km1 => (0, 1/2) | _, _ => RtoC 0
  end.

(** the two transforms are inverse of each other on real fields *)
Example fft4_ifft4 : forall g p, ifft4 (fft4 g) p = g p.
Proof. intros g []; simpl; field. Qed.

Example parseval4 : forall g i j,
  inner md [Km1; K0; K1; K2] (fun _ => 1) (der md K4 j (sin_y i)) (fft4 g)
  = rsum [P0; P1; P2; P3] (fun p => ifft4 (der md K4 j (sin_y i)) p * (g p) / 4).
Proof. intros g [] []; unfold inner, der; simpl; field. Qed.

(** Parseval in the exact form required by c61_energy_sink *)
Example c61_energy_sink_example :
  forall (g : pt -> R) i j,
  inner md [Km1; K0; K1; K2] (fun _ => 4) (der md K4 j (sin_y i)) (fft4 g)
  = rsum [P0; P1; P2; P3] (fun p => ifft4 (der md K4 j (sin_y i)) p * g p).
Proof. intros g [] []; unfold inner, der; simpl; field. Qed.

Lemma nu_T4 p : nu_T pt md ifft4 K4 1 1 sin_y p
  = match p with P0 | P2 => 1 | _ => 0 end.
Proof.
  unfold nu_T, sum3, S_ij, der. rewrite pow1, !Rmult_1_l.
  destruct p; simpl;
  [ replace (2 * _) with (1 * 1) by field; apply sqrt_square; lra
  | replace (2 * _) with (0 * 0) by field; apply sqrt_square; lra
  | replace (2 * _) with (1 * 1) by field; apply sqrt_square; lra
  | replace (2 * _) with (0 * 0) by field; apply sqrt_square; lra ].
Qed.

(** "The force is d_j(2 nu_T S_ij)" is false: for vx = sin y on this grid (C = Delta = 1), the
    documented force of the mode ky = 1 is i/2 and the code gives i. *)
Theorem c61_documented_force_refuted :
  exists v m,
    doc_force pt md fft4 ifft4 K4 1 1 v X m = (0, 1/2)
    /\ code_force pt md fft4 ifft4 K4 1 1 1 v X m = (0, 1).
Proof.
  exists sin_y, K1.
  assert (D : doc_force pt md fft4 ifft4 K4 1 1 sin_y X K1 = (0, 1/2)).
  { unfold doc_force, csum3, der at 1 2 3, fft4. rewrite !nu_T4.
    unfold S_ij, der. apply C_eq; simpl; field. }
  split; [exact D|].
  rewrite c61_twice_the_documented_force_partial.
  replace (1 / 1) with 1 by field. rewrite D. apply C_eq; simpl; field.
Qed.

Print Assumptions c61_twice_the_documented_force_partial.
Print Assumptions c61_energy_sink.
Print Assumptions c61_documented_force_refuted.
