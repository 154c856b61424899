(** C245: the curves of plot_freq_diss are the dissipation frequencies of the modes.
    C246: the curves of plot_fluxes close the budget. *)
From Coq Require Import String Reals ZArith List Bool Lra Lia Psatz.
From Verif Require Import HMeans_Model HMeans_Props MeanVals_Model MeanVals_Props DFT Alias_Model Oper_Model
  Means_Model PlotFlux_Model.
Import ListNotations.
Local Open Scope R_scope.

(** ** C246 *)

(** the ordinate of a curve of a figure *)
Definition ordinate {A B : Type} (fig : list (string * (nat -> A * B))) (label : string) (i : nat) : option B :=
  match find (fun c => String.eqb (fst c) label) fig with
  | Some c => Some (snd (snd c i))
  | None => None
  end.
Definition abscissa {A B : Type} (fig : list (string * (nat -> A * B))) (label : string) (i : nat) : option A :=
  match find (fun c => String.eqb (fst c) label) fig with
  | Some c => Some (fst (snd c i))
  | None => None
  end.

(** the cells (kz, kh) of which the wavenumber of the figure is at most the one of index i *)
Definition below (key : key_k) (nz nh i : nat) (F : nat -> nat -> R) : R :=
  match key with Key_kh => sum2 nz (S i) F | Key_kz => sum2 (S i) nh F end.

Definition in_range (key : key_k) (nz nh i : nat) : Prop :=
  match key with Key_kh => (i < nh)%nat | Key_kz => (i < nz)%nat end.

Definition total (nz nh : nat) (F : nat -> nat -> R) : R := sum2 nz nh F.

Lemma below_last key nz nh F : (0 < nz)%nat -> (0 < nh)%nat ->
  below key nz nh (last_index key nz nh) F = total nz nh F.
Proof.
  intros Hz Hh. unfold below, last_index, total. destruct key; f_equal; lia.
Qed.

Lemma below_ext key nz nh i F G : in_range key nz nh i ->
  (forall iz ih, (iz < nz)%nat -> (ih < nh)%nat -> F iz ih = G iz ih) ->
  below key nz nh i F = below key nz nh i G.
Proof.
  intros HR H. destruct key; cbn [in_range] in HR; unfold below; apply sum2_ext; intros; apply H; lia.
Qed.

Lemma below_plus key nz nh i F G :
  below key nz nh i (fun a b => F a b + G a b) = below key nz nh i F + below key nz nh i G.
Proof. destruct key; apply sum2_plus. Qed.

Lemma flux_below key nz nh kz kh mean name i : (0 < nz)%nat -> (0 < nh)%nat ->
  flux key nz nh kz kh mean name i =
  (if String.prefix "transfer" name then -1 else 1) * (kz 1%nat * kh 1%nat) * below key nz nh i (mean name).
Proof.
  intros Hz Hh. destruct (c152_fluxes nz nh kz kh name (mean name) Hz Hh) as (H1 & H2 & _).
  cbv zeta in H1, H2. unfold flux, below. destruct key; [apply H1|apply H2].
Qed.

(** ns3d: with a budget closed in every cell, [inj] being the injection *)
Definition closed (nz nh : nat) (mean : string -> nat -> nat -> R) (inj : nat -> nat -> R) : Prop :=
  forall iz ih, (iz < nz)%nat -> (ih < nh)%nat ->
    mean "transfer_Kh"%string iz ih + mean "transfer_Kz"%string iz ih + inj iz ih =
    mean "diss_Kh"%string iz ih + mean "diss_Kz"%string iz ih.

Definition diss_K (mean : string -> nat -> nat -> R) : nat -> nat -> R :=
  fun iz ih => mean "diss_Kh"%string iz ih + mean "diss_Kz"%string iz ih.
Definition transfer_K (mean : string -> nat -> nat -> R) : nat -> nat -> R :=
  fun iz ih => mean "transfer_Kh"%string iz ih + mean "transfer_Kz"%string iz ih.

Theorem c246_ns3d key nz nh kz kh mean inj :
  (0 < nz)%nat -> (0 < nh)%nat -> kz 1%nat <> 0 -> kh 1%nat <> 0 ->
  closed nz nh mean inj -> total nz nh (transfer_K mean) = 0 -> total nz nh (diss_K mean) <> 0 ->
  let fig := plot_fluxes key nz nh kz kh mean in
  (forall i, in_range key nz nh i ->
     ordinate fig "Pi" i = Some (- below key nz nh i (transfer_K mean) / total nz nh (diss_K mean)) /\
     ordinate fig "D" i = Some (below key nz nh i (diss_K mean) / total nz nh (diss_K mean)) /\
     ordinate fig "Pi+D" i = Some (below key nz nh i inj / total nz nh inj)) /\
  ordinate fig "Pi" (last_index key nz nh) = Some 0 /\
  ordinate fig "D" (last_index key nz nh) = Some 1 /\
  ordinate fig "Pi+D" (last_index key nz nh) = Some 1.
Proof.
  intros Hz Hh Nz Nh HC HT HD fig.
  assert (HI : total nz nh inj = total nz nh (diss_K mean)).
  { assert (X : total nz nh (fun a b => transfer_K mean a b + inj a b) = total nz nh (diss_K mean)).
    { apply sum2_ext. intros a b A B. unfold transfer_K, diss_K. apply HC; assumption. }
    unfold total in *. rewrite sum2_plus in X. lra. }
  assert (P : kz 1%nat * kh 1%nat <> 0) by (apply Rmult_integral_contrapositive; auto).
  assert (E : flux key nz nh kz kh mean "diss_Kh" (last_index key nz nh)
            + flux key nz nh kz kh mean "diss_Kz" (last_index key nz nh)
            = kz 1%nat * kh 1%nat * total nz nh (diss_K mean)).
  { rewrite !flux_below by assumption. rewrite !below_last by assumption. unfold total, diss_K.
    rewrite sum2_plus. cbn [String.prefix]. cbn. ring. }
  assert (M : forall i, in_range key nz nh i ->
     ordinate fig "Pi" i = Some (- below key nz nh i (transfer_K mean) / total nz nh (diss_K mean)) /\
     ordinate fig "D" i = Some (below key nz nh i (diss_K mean) / total nz nh (diss_K mean)) /\
     ordinate fig "Pi+D" i = Some (below key nz nh i inj / total nz nh inj)).
  { intros i Hi. unfold fig, ordinate, plot_fluxes. cbn [find fst snd String.eqb Ascii.eqb Bool.eqb].
    rewrite E, !flux_below by assumption. cbn -[below total].
    assert (BD : below key nz nh i (diss_K mean) =
      below key nz nh i (mean "diss_Kh"%string) + below key nz nh i (mean "diss_Kz"%string))
      by exact (below_plus key nz nh i (mean "diss_Kh"%string) (mean "diss_Kz"%string)).
    assert (BT : below key nz nh i (transfer_K mean) =
      below key nz nh i (mean "transfer_Kh"%string) + below key nz nh i (mean "transfer_Kz"%string))
      by exact (below_plus key nz nh i (mean "transfer_Kh"%string) (mean "transfer_Kz"%string)).
    split; [|split]; f_equal.
    - rewrite BT. field. auto.
    - rewrite BD. field. auto.
    - rewrite HI.
      assert (X : below key nz nh i (fun a b => transfer_K mean a b + inj a b) = below key nz nh i (diss_K mean)).
      { apply below_ext; [exact Hi|]. intros a b A B. unfold transfer_K, diss_K. apply HC; assumption. }
      rewrite below_plus in X. rewrite BT, BD in X.
      replace (below key nz nh i inj) with
        (below key nz nh i (mean "diss_Kh"%string) + below key nz nh i (mean "diss_Kz"%string)
         - (below key nz nh i (mean "transfer_Kh"%string) + below key nz nh i (mean "transfer_Kz"%string)))
        by lra.
      field. auto. }
  split; [exact M|].
  assert (L : in_range key nz nh (last_index key nz nh)).
  { unfold in_range, last_index. destruct key; lia. }
  destruct (M _ L) as (M1 & M2 & M3).
  rewrite M1, M2, M3, !below_last, HT, HI by assumption.
  split; [|split]; f_equal; field; assumption.
Qed.

(** ns3d.strat: the budgets of the kinetic and of the potential energy, with the conversion *)
Definition closed_strat (nz nh : nat) (mean : string -> nat -> nat -> R) (injK injA : nat -> nat -> R) : Prop :=
  forall iz ih, (iz < nz)%nat -> (ih < nh)%nat ->
    transfer_K mean iz ih - mean "conv_K2A"%string iz ih + injK iz ih = diss_K mean iz ih /\
    mean "transfer_A"%string iz ih + mean "conv_K2A"%string iz ih + injA iz ih = mean "diss_A"%string iz ih.

Definition diss_tot (mean : string -> nat -> nat -> R) : nat -> nat -> R :=
  fun iz ih => diss_K mean iz ih + mean "diss_A"%string iz ih.

Theorem c246_strat key nz nh kz kh mean injK injA :
  (0 < nz)%nat -> (0 < nh)%nat -> kz 1%nat <> 0 -> kh 1%nat <> 0 ->
  closed_strat nz nh mean injK injA -> total nz nh (diss_tot mean) <> 0 ->
  let fig := plot_fluxes_strat true key nz nh kz kh mean in
  let eps := total nz nh (diss_tot mean) in
  forall i, in_range key nz nh i ->
    exists pi d pid pik pia dk da b,
      ordinate fig "Pi" i = Some pi /\ ordinate fig "D" i = Some d /\ ordinate fig "Pi+D" i = Some pid /\
      ordinate fig "Pi_K" i = Some pik /\ ordinate fig "Pi_A" i = Some pia /\
      ordinate fig "D_K" i = Some dk /\ ordinate fig "D_A" i = Some da /\ ordinate fig "B" i = Some b /\
      pi = pik + pia /\ d = dk + da /\ pid = pi + d /\
      d = below key nz nh i (diss_tot mean) / eps /\
      b = below key nz nh i (mean "conv_K2A"%string) / eps /\
      pik = - below key nz nh i (transfer_K mean) / eps /\
      da = below key nz nh i (mean "diss_A"%string) / eps /\
      pik + dk + b = below key nz nh i injK / eps /\
      pia + da - b = below key nz nh i injA / eps /\
      pid = below key nz nh i (fun a b => injK a b + injA a b) / eps.
Proof.
  intros Hz Hh Nz Nh HC HD fig eps i Hi.
  assert (P : kz 1%nat * kh 1%nat <> 0) by (apply Rmult_integral_contrapositive; auto).
  assert (E : flux key nz nh kz kh mean "diss_Kh" (last_index key nz nh)
            + flux key nz nh kz kh mean "diss_Kz" (last_index key nz nh)
            + flux key nz nh kz kh mean "diss_A" (last_index key nz nh)
            = kz 1%nat * kh 1%nat * eps).
  { rewrite !flux_below by assumption. rewrite !below_last by assumption. unfold eps, total, diss_tot, diss_K.
    rewrite !sum2_plus. cbn. ring. }
  assert (XK : below key nz nh i (fun a b => transfer_K mean a b + injK a b) =
               below key nz nh i (fun a b => diss_K mean a b + mean "conv_K2A"%string a b)).
  { apply below_ext; [exact Hi|]. intros a b A B. destruct (HC a b A B). lra. }
  assert (XA : below key nz nh i (fun a b => mean "transfer_A"%string a b + (mean "conv_K2A"%string a b + injA a b)) =
               below key nz nh i (mean "diss_A"%string)).
  { apply below_ext; [exact Hi|]. intros a b A B. destruct (HC a b A B). lra. }
  unfold diss_tot, transfer_K, diss_K in *. rewrite !below_plus in *.
  do 8 eexists. unfold fig, ordinate, plot_fluxes_strat. cbn [app find fst snd].
  cbn [String.eqb Ascii.eqb Bool.eqb fst snd].
  rewrite E, !flux_below by assumption. cbn [String.prefix]. cbn -[below eps].
  do 8 (split; [reflexivity|]).
  assert (HE : eps <> 0) by exact HD.
  split; [field; auto|]. split; [field; auto|]. split; [field; auto|].
  split; [field; auto|]. split; [field; auto|]. split; [field; auto|]. split; [field; auto|].
  assert (Nz1 : kz 1%nat <> 0) by exact Nz.
  split; [|split].
  - replace (below key nz nh i injK) with
      (below key nz nh i (mean "diss_Kh"%string) + below key nz nh i (mean "diss_Kz"%string)
       + below key nz nh i (mean "conv_K2A"%string)
       - (below key nz nh i (mean "transfer_Kh"%string) + below key nz nh i (mean "transfer_Kz"%string))) by lra.
    field. auto.
  - replace (below key nz nh i injA) with
      (below key nz nh i (mean "diss_A"%string) - below key nz nh i (mean "conv_K2A"%string)
       - below key nz nh i (mean "transfer_A"%string)) by lra.
    field. auto.
  - replace (below key nz nh i injK) with
      (below key nz nh i (mean "diss_Kh"%string) + below key nz nh i (mean "diss_Kz"%string)
       + below key nz nh i (mean "conv_K2A"%string)
       - (below key nz nh i (mean "transfer_Kh"%string) + below key nz nh i (mean "transfer_Kz"%string))) by lra.
    replace (below key nz nh i injA) with
      (below key nz nh i (mean "diss_A"%string) - below key nz nh i (mean "conv_K2A"%string)
       - below key nz nh i (mean "transfer_A"%string)) by lra.
    field. auto.
Qed.

(** the abscissas are the limits between the cumulated cells and the next ones; without
    plot_conversion the other curves are the same and there is no curve B *)
Theorem c246_axis key nz nh kz kh mean dz dh :
  (forall i, kz i = dz * INR i) -> (forall i, kh i = dh * INR i) ->
  (forall c, In c (plot_fluxes key nz nh kz kh mean) \/ In c (plot_fluxes_strat true key nz nh kz kh mean) ->
     forall i, fst (snd c i) =
       match key with Key_kh => (kh i + kh (S i)) / 2 | Key_kz => (kz i + kz (S i)) / 2 end) /\
  map fst (plot_fluxes key nz nh kz kh mean) = ["Pi"; "D"; "Pi+D"]%string /\
  plot_fluxes_strat true key nz nh kz kh mean =
    plot_fluxes_strat false key nz nh kz kh mean ++ skipn 7 (plot_fluxes_strat true key nz nh kz kh mean) /\
  map fst (plot_fluxes_strat false key nz nh kz kh mean) = ["Pi"; "D"; "Pi+D"; "Pi_K"; "Pi_A"; "D_K"; "D_A"]%string /\
  map fst (skipn 7 (plot_fluxes_strat true key nz nh kz kh mean)) = ["B"%string].
Proof.
  intros Hz Hh.
  assert (K : forall i, k_plot key kz kh i =
       match key with Key_kh => (kh i + kh (S i)) / 2 | Key_kz => (kz i + kz (S i)) / 2 end).
  { intros i. unfold k_plot. destruct key; rewrite ?Hz, ?Hh; rewrite (S_INR i);
      change (INR 1) with 1; field. }
  split.
  - intros c H i. rewrite <- K.
    assert (H' : In c (plot_fluxes key nz nh kz kh mean ++ plot_fluxes_strat true key nz nh kz kh mean))
      by (apply in_or_app; exact H).
    unfold plot_fluxes, plot_fluxes_strat in H'. cbn [app In] in H'.
    repeat (destruct H' as [<-|H']; [reflexivity|]). destruct H'.
  - repeat apply conj; reflexivity.
Qed.

(** ** C245 *)

Inductive direction := DirX | DirY | DirZ.
(** the mode of index [i] on an axis *)
Definition on_axis (d : direction) (i : Z) : mode :=
  match d with DirX => (i, 0, 0)%Z | DirY => (0, i, 0)%Z | DirZ => (0, 0, i)%Z end.
Definition length_dir (d : direction) (o : oper) : R := match d with DirX => Lx o | DirY => Ly o | DirZ => Lz o end.
Definition has_direction (dim : nat) (d : direction) : Prop :=
  match d with DirX => True | DirY => (dim = 2 \/ dim = 3)%nat | DirZ => dim = 3%nat end.

Lemma K2_axis dim d o i : (dim = 1 \/ dim = 2 \/ dim = 3)%nat -> has_direction dim d ->
  K2_dim dim o (on_axis d (Z.of_nat i)) = ks (length_dir d o) i ^ 2.
Proof.
  intros HD H. unfold ks. rewrite INR_IZR_INZ.
  destruct d; cbn [has_direction] in H; destruct HD as [E|[E|E]]; try lia; subst dim;
    unfold K2_dim, K2_2d, K2_3d, Kx, Ky, Kz, deltakx, deltaky, deltakz; unfold on_axis, mx, my, mz, length_dir; cbn [fst snd];
    ring.
Qed.

Lemma is_mode0_axis d i : is_mode0 (on_axis d (Z.of_nat i)) = Nat.eqb i 0.
Proof. unfold is_mode0. destruct d, i; reflexivity. Qed.

(** the total is the sum of the frequencies used by the time stepping *)
Theorem c245_total dim tiny o next nu coef n d f_d f_hypo i :
  (dim = 1 \/ dim = 2 \/ dim = 3)%nat -> has_direction dim d -> 0 < length_dir d o ->
  compute_freq_diss dim tiny o next nu = Some (f_d, f_hypo) ->
  (0 < i)%nat \/ nu_m4 nu = 0 ->
  let fig := snd (plot_freq_diss coef n (length_dir d o) nu) in
  let m := on_axis d (Z.of_nat i) in
  ordinate fig "total" i = Some (Some (f_d m + f_hypo m)) /\
  abscissa fig "total" i = Some (2 * PI / length_dir d o * INR i) /\
  K2_dim dim o m = (2 * PI / length_dir d o * INR i) ^ 2.
Proof.
  intros HD H HL HF Hi fig m.
  pose proof (K2_axis dim d o i HD H) as HK. fold m in HK.
  assert (M0 : is_mode0 m = Nat.eqb i 0) by apply is_mode0_axis.
  split; [|split; [|exact HK]].
  - unfold compute_freq_diss in HF. unfold fig, ordinate, plot_freq_diss. cbn [snd].
    set (k := ks (length_dir d o)) in *.
    destruct (Req_EM_T (nu_m4 nu) 0) as [Z|NZ].
    + destruct (Rlt_dec 0 (nu_2 nu)), (Rlt_dec 0 (nu_4 nu)), (Rlt_dec 0 (nu_8 nu));
        inversion HF; subst f_d f_hypo; cbn; do 2 f_equal; rewrite ?HK; ring.
    + destruct Hi as [Hi|Hi]; [|contradiction].
      assert (KP : k i <> 0).
      { unfold k, ks. apply Rgt_not_eq. apply Rmult_lt_0_compat.
        - apply Rdiv_lt_0_compat; [pose proof PI_RGT_0; lra|exact HL].
        - apply lt_0_INR, Hi. }
      assert (I0 : Nat.eqb i 0 = false) by (apply Nat.eqb_neq; lia).
      destruct (K2_not0_dim dim tiny o) as [f|] eqn:N; [|discriminate].
      assert (HN : f m = k i ^ 2).
      { unfold K2_not0_dim in N. destruct HD as [E|[E|E]]; subst dim; [discriminate| |];
          inversion N; subst f; rewrite M0, I0; exact HK. }
      unfold ks_not0. fold k.
      destruct (Req_EM_T (k i) 0) as [X|_]; [contradiction|].
      destruct (Rlt_dec 0 (nu_2 nu)), (Rlt_dec 0 (nu_4 nu)), (Rlt_dec 0 (nu_8 nu));
        inversion HF; subst f_d f_hypo; cbn; rewrite M0, I0, ?HK, HN; unfold ks_not0; fold k;
        (destruct (Req_EM_T (k i) 0) as [X|_]; [contradiction|]); cbn; do 2 f_equal; field;
        exact KP.
  - unfold fig, abscissa, plot_freq_diss. cbn [snd].
    destruct (Rlt_dec 0 (nu_2 nu)), (Rlt_dec 0 (nu_4 nu)), (Rlt_dec 0 (nu_8 nu)), (Req_EM_T (nu_m4 nu) 0);
      reflexivity.
Qed.

(** a curve for each viscosity *)
Theorem c245_curves coef n L nu i : 0 < L ->
  let fig := snd (plot_freq_diss coef n L nu) in
  let k := 2 * PI / L * INR i in
  (0 < nu_2 nu -> ordinate fig "nu_2" i = Some (Some (nu_2 nu * k ^ 2))) /\
  (0 < nu_4 nu -> ordinate fig "nu_4" i = Some (Some (nu_4 nu * k ^ 4))) /\
  (0 < nu_8 nu -> ordinate fig "nu_8" i = Some (Some (nu_8 nu * k ^ 8))) /\
  (nu_m4 nu <> 0 -> ordinate fig "nu_m4" i = Some (if Nat.eqb i 0 then None else Some (nu_m4 nu / k ^ 4))) /\
  (nu_2 nu <= 0 -> ordinate fig "nu_2" i = None) /\ (nu_4 nu <= 0 -> ordinate fig "nu_4" i = None) /\
  (nu_8 nu <= 0 -> ordinate fig "nu_8" i = None) /\ (nu_m4 nu = 0 -> ordinate fig "nu_m4" i = None).
Proof.
  intros HL fig k.
  assert (KZ : ks_not0 L i = if Nat.eqb i 0 then None else Some k).
  { unfold ks_not0, ks. fold k. destruct (Req_EM_T k 0) as [Z|NZ].
    - destruct i; [reflexivity|]. exfalso. revert Z. apply Rgt_not_eq. unfold k. apply Rmult_lt_0_compat.
      + apply Rdiv_lt_0_compat; [pose proof PI_RGT_0; lra|exact HL].
      + apply lt_0_INR. lia.
    - destruct i; [|reflexivity]. exfalso. apply NZ. unfold k. cbn. ring. }
  unfold fig, ordinate, plot_freq_diss. cbn [snd].
  destruct (Rlt_dec 0 (nu_2 nu)), (Rlt_dec 0 (nu_4 nu)), (Rlt_dec 0 (nu_8 nu)), (Req_EM_T (nu_m4 nu) 0);
    cbn; rewrite ?KZ; repeat apply conj; intros; try lra; try contradiction; try reflexivity;
    destruct (Nat.eqb i 0); reflexivity.
Qed.

(** the mode zero with a hypoviscosity: the total is not plotted (nan) *)
Theorem c245_zero coef n L nu : nu_m4 nu <> 0 -> ordinate (snd (plot_freq_diss coef n L nu)) "total" 0 = Some None.
Proof.
  intros H. assert (Z : ks_not0 L 0 = None) by (unfold ks_not0, ks; cbn; destruct (Req_EM_T _ 0) as [_|N]; [reflexivity|exfalso; apply N; ring]).
  unfold ordinate, plot_freq_diss. cbn [snd].
  destruct (Rlt_dec 0 (nu_2 nu)), (Rlt_dec 0 (nu_4 nu)), (Rlt_dec 0 (nu_8 nu)), (Req_EM_T (nu_m4 nu) 0); try contradiction;
    cbn; rewrite ?Z; reflexivity.
Qed.

Lemma nb_ks_spec coef n : 0 <= coef ->
  INR (nb_ks coef n) <= coef * INR n / 2 < INR (nb_ks coef n) + 1.
Proof.
  intros HC. unfold nb_ks. set (x := coef * INR n / 2).
  assert (0 <= x).
  { unfold x. pose proof (pos_INR n). assert (0 <= coef * INR n) by (apply Rmult_le_pos; assumption). lra. }
  destruct (base_Int_part x) as [A B].
  assert (0 <= Int_part x)%Z.
  { assert (-1 < Int_part x)%Z; [|lia]. apply lt_IZR. lra. }
  rewrite INR_IZR_INZ, Z2Nat.id by assumption. lra.
Qed.

(** all the modes kept by the dealiasing are plotted except the one of the largest wavenumber *)
Theorem c245_range_partial coef h L nu i : 0 <= coef -> 0 < L ->
  let nk := fst (plot_freq_diss coef (2 * h) L nu) in
  dealiased_axis coef (2 * h) L i = false <-> (i <= nk)%nat.
Proof.
  intros HC HL nk. unfold nk, plot_freq_diss. cbn [fst].
  destruct (nb_ks_spec coef (2 * h) HC) as [A B].
  assert (DK : 0 < 2 * PI / L) by (apply Rdiv_lt_0_compat; [pose proof PI_RGT_0; lra|exact HL]).
  assert (HH : coef * INR (2 * h) / 2 = coef * INR h) by (rewrite mult_INR; cbn; field).
  unfold dealiased_axis, ks. rewrite Nat.div2_double.
  rewrite Rabs_right.
  2:{ apply Rle_ge, Rmult_le_pos; [lra|apply pos_INR]. }
  replace (coef * (2 * PI / L * INR h)) with (2 * PI / L * (coef * INR h)) by ring.
  rewrite HH in A, B.
  destruct (Rlt_dec _ _) as [H|H].
  - split; [discriminate|]. intros HI. exfalso. apply Rmult_lt_reg_l in H; [|exact DK].
    apply le_INR in HI. lra.
  - split; [intros _|reflexivity].
    assert (INR i <= coef * INR h).
    { apply Rnot_lt_le. intros X. apply H. apply Rmult_lt_compat_l; assumption. }
    assert (INR i < INR (S (nb_ks coef (2 * h)))) by (rewrite S_INR; lra).
    apply INR_lt in H1. lia.
Qed.

(** the largest kept wavenumber, where the dissipation is the strongest, is not plotted *)
Theorem c245_range_refuted :
  exists (coef : R) (n : nat) (L : R) (nu : viscosities) (i : nat),
    0 < coef < 1 /\ 0 < L /\ 0 < nu_2 nu /\
    dealiased_axis coef n L i = false /\ (fst (plot_freq_diss coef n L nu) <= i)%nat.
Proof.
  exists (1 / 2), 8%nat, 1, (Build_viscosities 1 0 0 0), 2%nat.
  split; [lra|]. split; [lra|]. split; [cbn; lra|].
  assert (N : fst (plot_freq_diss (1 / 2) 8 1 (Build_viscosities 1 0 0 0)) = 2%nat).
  { unfold plot_freq_diss. cbn [fst].
    destruct (nb_ks_spec (1 / 2) 8) as [A B]; [lra|].
    replace (1 / 2 * INR 8 / 2) with (INR 2) in A, B by (cbn; field).
    apply INR_le in A. rewrite <- S_INR in B. apply INR_lt in B. lia. }
  rewrite N. split; [|lia].
  apply (c245_range_partial (1 / 2) 4 1 (Build_viscosities 1 0 0 0) 2); [lra|lra|].
  change (2 * 4)%nat with 8%nat. rewrite N. lia.
Qed.

(** ** Examples *)
Example c245_hyp : exists f g, compute_freq_diss 2 1 (mkOper 8 8 8 1 1 1) (1, 0, 0)%Z
  (Build_viscosities 1 1 1 1) = Some (f, g) /\ 0 < length_dir DirX (mkOper 8 8 8 1 1 1) /\ has_direction 2 DirX.
Proof.
  unfold compute_freq_diss. cbn [nu_2 nu_4 nu_8 nu_m4]. destruct (Req_EM_T 1 0); [lra|].
  cbn [K2_not0_dim]. do 2 eexists. split; [reflexivity|]. cbn. split; [lra|exact I].
Qed.

(** energy injected in the cell (0, 0), transferred to the cell (0, 1) and dissipated there *)
Definition ex_mean (key : string) (iz ih : nat) : R :=
  if String.eqb key "transfer_Kh" then match iz, ih with 0%nat, 0%nat => -1 | 0%nat, 1%nat => 1 | _, _ => 0 end
  else if String.eqb key "diss_Kh" then match iz, ih with 0%nat, 1%nat => 1 | _, _ => 0 end else 0.
Definition ex_inj (iz ih : nat) : R := match iz, ih with 0%nat, 0%nat => 1 | _, _ => 0 end.
Example c246_hyp : closed 2 2 ex_mean ex_inj /\ total 2 2 (transfer_K ex_mean) = 0 /\
  total 2 2 (diss_K ex_mean) <> 0 /\ closed_strat 2 2 ex_mean ex_inj (fun _ _ => 0) /\
  total 2 2 (diss_tot ex_mean) <> 0 /\ in_range Key_kh 2 2 1.
Proof.
  unfold closed, closed_strat, diss_tot, transfer_K, diss_K, total, sum2, ex_mean, ex_inj, in_range.
  split; [intros [|[|iz]] [|[|ih]] A B; try lia; cbn; lra|].
  split; [cbn; lra|]. split; [cbn; intros X; lra|].
  split; [intros [|[|iz]] [|[|ih]] A B; try lia; cbn; split; lra|].
  split; [cbn; intros X; lra|]. lia.
Qed.

Print Assumptions c245_total.
Print Assumptions c245_curves.
Print Assumptions c245_range_partial.
Print Assumptions c245_range_refuted.
Print Assumptions c246_ns3d.
Print Assumptions c246_strat.
Print Assumptions c246_axis.
Print Assumptions c245_zero.
