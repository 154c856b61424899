(** C284: the averaged curves of plot1d, plot2d and plot3d. *)
From Coq Require Import String List QArith Bool Lia Lqa.
From Verif Require Import XCorr_Model SpecCurves_Model.
Import ListNotations.
Local Open Scope string_scope.

(** ** Specification *)

(** the data sets of the files (ns2d: solvers/ns2d/output/spectra.py) *)
Definition saved (s : solver) (ndim : nat) : list string :=
  match s, ndim with
  | Ns2d, 1%nat => ["spectrum1Dkx_E"; "spectrum1Dky_E"]
  | Ns2d, _ => ["spectrum2D_E"]
  | Ns3d, 1%nat => saved_ns3d Spectra1D
  | Ns3d, _ => saved_ns3d Spectra3D
  | Strat3d, 1%nat => saved_strat Spectra1D
  | Strat3d, _ => saved_strat Spectra3D
  end.
Definition dims (s : solver) : list nat := match s with Ns2d => [1; 2]%nat | _ => [1; 3]%nat end.
Definition letters (s : solver) : list string := match s with Ns2d => ["x"; "y"] | _ => ["x"; "y"; "z"] end.
(** the directions which can be asked for *)
Definition direction (s : solver) (ndim : nat) (d : option string) : Prop :=
  (ndim = 1%nat /\ exists x, In x (letters s) /\ d = Some x) \/ (ndim <> 1%nat /\ In ndim (dims s) /\ d = None).

(** the mean of the records *)
Definition is_mean (l : list Q) (m : Q) : Prop := (m * inject_Z (Z.of_nat (List.length l)) == fold_right Qplus 0 l)%Q.
Definition seen (m : Q) : Prop := (1 # 1000000000000000 <= m)%Q.

Ltac ins H := cbn in H; repeat (destruct H as [H | H]; [| try (exfalso; exact H)]).

Lemma directions s ndim d : direction s ndim d ->
  In (s, ndim, d) [(Ns2d, 1%nat, Some "x"); (Ns2d, 1%nat, Some "y"); (Ns2d, 2%nat, None);
                   (Ns3d, 1%nat, Some "x"); (Ns3d, 1%nat, Some "y"); (Ns3d, 1%nat, Some "z"); (Ns3d, 3%nat, None);
                   (Strat3d, 1%nat, Some "x"); (Strat3d, 1%nat, Some "y"); (Strat3d, 1%nat, Some "z"); (Strat3d, 3%nat, None)].
Proof.
  intros [(-> & x & I & ->) | (N & I & ->)].
  - destruct s; cbn in I; repeat (destruct I as [<- | I]; [cbn; tauto |]); destruct I.
  - destruct s; cbn in I; repeat (destruct I as [<- | I]; [first [contradiction | cbn; tauto] |]); destruct I.
Qed.
Ltac dirs H := apply directions in H; cbn [In] in H;
  repeat (destruct H as [H | H]; [injection H as <- <- <- |]); [.. | destruct H].

(** ** The data sets which are read are in the files *)
Theorem c284_keys : forall s ndim d, direction s ndim d ->
  exists key, key_spectrum s ndim d None = inl key /\ In key (saved s ndim).
Proof. intros s ndim d H; dirs H; eexists; (split; [reflexivity | cbn; tauto]). Qed.

(** the energy, its parts in ns3d.strat, by direction; all but the rotational part *)
Definition suffix (ndim : nat) (d : option string) : string := match ndim, d with 1%nat, Some x => "_k" ++ x | _, _ => "" end.
Theorem c284_kinds_partial : forall ndim d kind name, direction Strat3d ndim d ->
  In (kind, name) [("K", "E"); ("A", "A"); ("Khd", "Khd"); ("Kx", "vx"); ("Ky", "vy"); ("Kz", "vz"); ("vx", "vx"); ("vy", "vy"); ("vz", "vz")] ->
  key_spectrum Strat3d ndim d (Some kind) = inl ("spectra_" ++ name ++ suffix ndim d)
  /\ In ("spectra_" ++ name ++ suffix ndim d) (saved Strat3d ndim).
Proof.
  intros ndim d kind name H I; apply directions in H; cbn [In] in H.
  repeat (destruct H as [H | H]; [first [discriminate H | injection H as <- <-; cbn [In] in I;
    repeat (destruct I as [I | I]; [injection I as <- <-; split; [reflexivity | cbn; tauto] |]); destruct I] |]); destruct H.
Qed.

(** ** The average *)
Theorem c284_average : forall file s ndim d kind key l m, key_spectrum s ndim d kind = inl key -> file key = Some l -> l <> [] -> is_mean l m ->
  exists v, averaged file s ndim d kind = inl v
    /\ (seen m -> exists x, v = Some x /\ (x == m)%Q) /\ (~ seen m -> v = None).
Proof.
  intros file s ndim d kind key l m K F N M; unfold averaged; rewrite K, F; exists (clip (mean l)); split; auto.
  assert (E : (mean l == m)%Q).
  { unfold mean; unfold is_mean in M; rewrite <- M; field; intros Z.
    destruct l; [contradiction |]; unfold Qeq in Z; cbn in Z; lia. }
  unfold clip, seen; destruct (Qle_bool (1 # 1000000000000000) (mean l)) eqn:C.
  - apply Qle_bool_iff in C; split; [intros _; exists (mean l); auto | intros K'; exfalso; apply K'; rewrite <- E; exact C].
  - split; [| auto]; intros S'; exfalso; rewrite <- E in S'; apply Qle_bool_iff in S'; congruence.
Qed.

(** ** The curves *)
Definition drawn (m coef : Q) (v : option Q) : Prop :=
  (seen m -> exists x, v = Some x /\ (x == m * coef)%Q) /\ (~ seen m -> v = None).

Theorem c284_one_curve : forall file s ndim d projection coef key l m, direction s ndim d -> s <> Strat3d ->
  key_spectrum s ndim d None = inl key -> file key = Some l -> l <> [] -> is_mean l m ->
  exists c, add_average file s ndim d projection coef = inl [c] /\ drawn m coef (value c)
    /\ (forall x, d = Some x -> label c = "$E(k_" ++ x ++ ")$").
Proof.
  intros file s ndim d projection coef key l m D S K F N M.
  destruct (c284_average file s ndim d None key l m K F N M) as (v & A & A1 & A2).
  assert (G : exists c, add_average file s ndim d projection coef = inl [c] /\ value c = nan_scale coef v /\ label c = "$E(k_" ++ str_dir d ++ ")$").
  { unfold add_average; destruct s; try contradiction; rewrite A; unfold curve_of, styleline; eexists; repeat (split; [reflexivity |]); reflexivity. }
  destruct G as (c & G & V & L); exists c; split; auto; split.
  - rewrite V; split.
    + intros Sm; destruct (A1 Sm) as (x & -> & E); exists (x * coef)%Q; split; [reflexivity |]; rewrite E; reflexivity.
    + intros Sm; rewrite (A2 Sm); reflexivity.
  - intros x ->; exact L.
Qed.

Theorem c284_strat_partial : forall (file : string -> option (list Q)) ndim d projection coef lK lA lD lZ mK mA mD mZ,
  direction Strat3d ndim d ->
  file ("spectra_E" ++ suffix ndim d) = Some lK -> file ("spectra_A" ++ suffix ndim d) = Some lA ->
  file ("spectra_Khd" ++ suffix ndim d) = Some lD -> file ("spectra_vz" ++ suffix ndim d) = Some lZ ->
  lK <> [] -> lA <> [] -> lD <> [] -> lZ <> [] -> is_mean lK mK -> is_mean lA mA -> is_mean lD mD -> is_mean lZ mZ ->
  exists cK cA rest, add_average file Strat3d ndim d projection coef = inl (cK :: cA :: rest)
    /\ drawn mK coef (value cK) /\ drawn mA coef (value cA)
    /\ (forall x, d = Some x -> label cK = "$E_K(k_" ++ x ++ ")$" /\ label cA = "$E_A(k_" ++ x ++ ")$")
    /\ style cK <> style cA
    /\ (projection = Some (Some "toroidal") -> rest = [])
    /\ (projection = Some None \/ projection = Some (Some "poloidal") ->
        exists c, rest = [c] /\ label c = "poloidal" /\ style c <> style cK /\ style c <> style cA
          /\ (seen mD -> seen mZ -> exists x, value c = Some x /\ (x == (mD + mZ) * coef)%Q)
          /\ (~ seen mD \/ ~ seen mZ -> value c = None)).
Proof.
  intros file ndim d projection coef lK lA lD lZ mK mA mD mZ D FK FA FD FZ NK NA ND NZ MK MA MD MZ.
  assert (KK : key_spectrum Strat3d ndim d (Some "K") = inl ("spectra_E" ++ suffix ndim d)) by (apply (c284_kinds_partial ndim d "K" "E" D); cbn; tauto).
  assert (KA : key_spectrum Strat3d ndim d (Some "A") = inl ("spectra_A" ++ suffix ndim d)) by (apply (c284_kinds_partial ndim d "A" "A" D); cbn; tauto).
  assert (KD : key_spectrum Strat3d ndim d (Some "Khd") = inl ("spectra_Khd" ++ suffix ndim d)) by (apply (c284_kinds_partial ndim d "Khd" "Khd" D); cbn; tauto).
  assert (KZ : key_spectrum Strat3d ndim d (Some "Kz") = inl ("spectra_vz" ++ suffix ndim d)) by (apply (c284_kinds_partial ndim d "Kz" "vz" D); cbn; tauto).
  destruct (c284_average file _ _ _ _ _ _ mK KK FK NK MK) as (vK & AK & AK1 & AK2).
  destruct (c284_average file _ _ _ _ _ _ mA KA FA NA MA) as (vA & AA & AA1 & AA2).
  destruct (c284_average file _ _ _ _ _ _ mD KD FD ND MD) as (vD & AD & AD1 & AD2).
  destruct (c284_average file _ _ _ _ _ _ mZ KZ FZ NZ MZ) as (vZ & AZ & AZ1 & AZ2).
  unfold add_average; rewrite AK, AA, AD, AZ; unfold curve_of, styleline; cbn [String.eqb Ascii.eqb Bool.eqb].
  set (z := match d with Some x => x =? "z" | None => false end).
  assert (DR : forall m v, (seen m -> exists x, v = Some x /\ (x == m)%Q) -> (~ seen m -> v = None) -> drawn m coef (nan_scale coef v)).
  { intros m v V1 V2; split; [intros Sm; destruct (V1 Sm) as (x & -> & E); exists (x * coef)%Q; split; [reflexivity | rewrite E; reflexivity] | intros Sm; rewrite (V2 Sm); reflexivity]. }
  destruct (has_polo projection) eqn:P.
  - do 3 eexists; split; [reflexivity |]; cbn [value label style]; split; [apply DR; auto |]; split; [apply DR; auto |].
    split; [intros x ->; split; reflexivity |]; split; [destruct z; discriminate |].
    split; [intros ->; discriminate P |]; intros _; eexists; split; [reflexivity |]; cbn [value label style].
    split; [reflexivity |]; split; [destruct z; discriminate |]; split; [destruct z; discriminate |]; split.
    + intros SD SZ; destruct (AD1 SD) as (x & -> & Ex), (AZ1 SZ) as (y & -> & Ey); exists ((x + y) * coef)%Q; split; [reflexivity | rewrite Ex, Ey; reflexivity].
    + intros [SD | SZ]; [rewrite (AD2 SD); reflexivity | rewrite (AZ2 SZ); destruct vD; reflexivity].
  - do 3 eexists; split; [reflexivity |]; cbn [value label style]; split; [apply DR; auto |]; split; [apply DR; auto |].
    split; [intros x ->; split; reflexivity |]; split; [destruct z; discriminate |].
    split; [auto |]; intros [-> | ->]; discriminate P.
Qed.

(** ** The styles: one per direction for ns2d and ns3d *)
Theorem c284_styles : forall s d1 d2, s <> Strat3d -> In d1 (letters s) -> In d2 (letters s) ->
  styleline s 1 (Some d1) None = styleline s 1 (Some d2) None -> d1 = d2.
Proof.
  intros s d1 d2 S I J; destruct s; [| | contradiction]; cbn in I, J;
    repeat (destruct I as [<- | I]; [repeat (destruct J as [<- | J]; [cbn; intros E; first [reflexivity | discriminate E] |]); destruct J |]); destruct I.
Qed.
Theorem c284_default : forall s ndim d, In ndim (dims s) -> (In d (default_directions s ndim) <-> direction s ndim d).
Proof.
  intros s ndim d I; unfold default_directions, direction.
  assert (N : ndim = 1%nat \/ ndim <> 1%nat) by lia; destruct N as [-> | N].
  - change (Nat.eqb 1 1) with true; cbn iota; split.
    + intros J; left; split; auto; destruct s; cbn in J; repeat (destruct J as [<- | J]; [eexists; split; [| reflexivity]; cbn; tauto |]); destruct J.
    + intros [(_ & x & J & ->) | (N & _)]; [| contradiction]; destruct s; cbn in J |- *; repeat (destruct J as [<- | J]; [tauto |]); destruct J.
  - apply Nat.eqb_neq in N as N'; rewrite N'; split.
    + intros [<- | []]; right; auto.
    + intros [(E & _) | (_ & _ & ->)]; [contradiction | left; reflexivity].
Qed.

(** ** What does not hold: the saved rotational part cannot be asked for; the curves of two default directions have the
    same style in ns3d.strat; the label of plot3d contains None; the sum of a visible and of a small part is not drawn;
    the poloidal curve is drawn for the projection "vortical", another name of the toroidal one *)
Theorem c284_refuted :
  (forall ndim d, direction Strat3d ndim d -> In ("spectra_Khr" ++ suffix ndim d) (saved Strat3d ndim) /\ key_spectrum Strat3d ndim d (Some "Khr") = inr ValueErr)
  /\ (exists d1 d2, d1 <> d2 /\ In d1 (default_directions Strat3d 1) /\ In d2 (default_directions Strat3d 1)
      /\ forall kind, styleline Strat3d 1 d1 kind = styleline Strat3d 1 d2 kind)
  /\ (exists (file : string -> option (list Q)) cs, add_average file Strat3d 3 None (Some (Some "toroidal")) 1 = inl cs /\ exists c, In c cs /\ label c = "$E_K(k_None)$")
  /\ (exists (file : string -> option (list Q)) cK cA c, add_average file Strat3d 3 None (Some None) 1 = inl [cK; cA; c]
      /\ (exists x, value cK = Some x /\ x == 1)%Q /\ file "spectra_Khd" = Some [0%Q] /\ file "spectra_vz" = Some [1%Q] /\ value c = None)
  /\ (forall (file : string -> option (list Q)) ndim d cs, add_average file Strat3d ndim d (Some (Some "vortical")) 1 = inl cs -> List.length cs = 3%nat).
Proof.
  split; [| split; [| split; [| split]]].
  - intros ndim d H; apply directions in H; cbn [In] in H.
    repeat (destruct H as [H | H]; [first [discriminate H | injection H as <- <-; split; [cbn; tauto | reflexivity]] |]); destruct H.
  - exists (Some "x"), (Some "y"); split; [discriminate |]; split; [cbn; tauto |]; split; [cbn; tauto |]; reflexivity.
  - exists (fun _ => Some [1%Q]); eexists; split; [reflexivity |]; eexists; split; [left; reflexivity | reflexivity].
  - exists (fun k => if String.eqb k "spectra_Khd" then Some [0%Q] else Some [1%Q]); do 3 eexists; split; [reflexivity |].
    split; [eexists; split; reflexivity |]; split; [reflexivity |]; split; reflexivity.
  - intros file ndim d cs H; unfold add_average in H; change (has_polo (Some (Some "vortical"))) with true in H.
    repeat match type of H with (match ?x with _ => _ end) = _ => destruct x; try discriminate H end; injection H as <-; reflexivity.
Qed.

(** the hypotheses are met *)
Example ex_c284 : direction Strat3d 1 (Some "z") /\ direction Ns3d 3 None /\ is_mean [1; 3]%Q 2 /\ seen 2 /\ ~ seen 0
  /\ In ("Kz", "vz") [("K", "E"); ("Kz", "vz")].
Proof.
  split; [left; split; auto; exists "z"; split; [cbn; tauto | reflexivity] |]; split; [right; split; [discriminate |]; split; [cbn; tauto | reflexivity] |].
  split; [reflexivity |]; split; [unfold seen; lra |]; split; [unfold seen; lra | cbn; tauto].
Qed.

Print Assumptions c284_keys.
Print Assumptions c284_kinds_partial.
Print Assumptions c284_average.
Print Assumptions c284_one_curve.
Print Assumptions c284_strat_partial.
Print Assumptions c284_styles.
Print Assumptions c284_default.
Print Assumptions c284_refuted.
