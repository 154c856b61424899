(** * Last time of the spatial means, figure of the budget of ns2d.strat, check of the injection rate: C265, C266, C267 *)

From Coq Require Import List Bool PeanoNat Lia QArith Reals Lra.
From Coquelicot Require Import Complex.
From Verif Require Import LastTime_Model.
Import ListNotations.

(** ** C265 *)
(** [t] is the last time which was saved in [f] *)
Definition no_time (f : mfile) : Prop := forall t n, ~ In (LTime t, n) f.
Definition last_saved (f : mfile) (t : Q) : Prop := exists pre n post, f = pre ++ (LTime t, n) :: post /\ no_time post.

Lemma nb_bytes_app a b : nb_bytes (a ++ b) = (nb_bytes a + nb_bytes b)%nat.
Proof. induction a as [|x a IH]; [reflexivity|]. change (snd x + nb_bytes (a ++ b) = snd x + nb_bytes a + nb_bytes b)%nat. rewrite IH. lia. Qed.

Lemma nb_bytes_cons l a : nb_bytes (l :: a) = (snd l + nb_bytes a)%nat.
Proof. reflexivity. Qed.

(** what is read: the end of the file after some lines, and perhaps the end of one line *)
Lemma seek_suffix f : forall n, exists pre post, f = pre ++ post /\ (seek_from n f = post \/ exists k, seek_from n f = (LOther, k) :: post).
Proof.
  induction f as [|(x, len) f IH]; intros n; [exists [], []; split; [reflexivity|left; reflexivity]|]. cbn [seek_from].
  destruct (n =? 0)%nat; [exists [], ((x, len) :: f); split; [reflexivity|left; reflexivity]|].
  destruct (len <=? n)%nat.
  - destruct (IH (n - len)%nat) as (pre & post & E & H). exists ((x, len) :: pre), post. split; [rewrite E; reflexivity|exact H].
  - exists [(x, len)], f. split; [reflexivity|right; eexists; reflexivity].
Qed.

(** everything after the position is read *)
Lemma seek_reads b l : forall a n, (n <= nb_bytes a)%nat -> (0 < snd l)%nat -> exists a', seek_from n (a ++ l :: b) = a' ++ l :: b.
Proof.
  induction a as [|(x, len) a IH]; intros n H P.
  - assert (n = O) by (cbn in H; lia). subst n. exists []. destruct l as (y, k). reflexivity.
  - cbn [app seek_from]. destruct (n =? 0)%nat; [exists ((x, len) :: a); reflexivity|]. rewrite nb_bytes_cons in H. cbn [snd] in H. destruct (Nat.leb_spec len n) as [L|L].
    + apply IH; [lia|exact P].
    + exists ((LOther, (len - n)%nat) :: a). reflexivity.
Qed.

Definition step cur (l : line * nat) : option Q := match fst l with LTime t => Some t | _ => cur end.

Lemma fold_no_time f : forall cur, no_time f -> fold_left step f cur = cur.
Proof.
  induction f as [|(x, n) f IH]; intros cur H; [reflexivity|]. cbn [fold_left]. rewrite IH by (intros t k I; apply (H t k); right; exact I).
  unfold step. cbn. destruct x as [t|t|]; [exfalso; apply (H t n); left; reflexivity|reflexivity|reflexivity].
Qed.

Lemma fold_last f : forall cur t, fold_left step f cur = Some t -> last_saved f t \/ (no_time f /\ cur = Some t).
Proof.
  induction f as [|(x, n) f IH]; intros cur t H; [right; split; [intros ? ? []|exact H]|]. cbn [fold_left] in H. apply IH in H. destruct H as [(pre & k & post & E & N)|[N E]].
  - left. exists ((x, n) :: pre), k, post. rewrite E. split; [reflexivity|exact N].
  - destruct x as [t'|t'|]; cbn in E.
    + injection E as ->. left. exists [], n, f. split; [reflexivity|exact N].
    + right. split; [|exact E]. intros u k [I|I]; [discriminate|apply (N u k I)].
    + right. split; [|exact E]. intros u k [I|I]; [discriminate|apply (N u k I)].
Qed.

(** a time which is returned is the last one which was saved *)
Theorem c265_right : forall f t, last_time_txt f = Some t -> last_saved f t.
Proof.
  intros f t H. unfold last_time_txt, tail_file in H. destruct (seek_suffix f (nb_bytes f - Nat.min (nb_bytes f) 1000)) as (pre & post & E & K).
  assert (G : fold_left step post None = Some t) by (destruct K as [K|(k & K)]; rewrite K in H; exact H).
  apply fold_last in G. destruct G as [(a & n & b & E' & N)|[_ G]]; [|discriminate]. exists (pre ++ a), n, b. split; [rewrite E, E', app_assoc; reflexivity|exact N].
Qed.

(** and it is returned if what was saved at this time has not more than 1000 bytes *)
Theorem c265_found_partial : forall pre t n post json, no_time post -> (0 < n)%nat -> (n + nb_bytes post <= 1000)%nat ->
  get_last_time (Some (pre ++ (LTime t, n) :: post)) json = Some t.
Proof.
  intros pre t n post json N P L. cbn [get_last_time]. unfold last_time_txt, tail_file. set (f := pre ++ (LTime t, n) :: post).
  assert (B : nb_bytes f = (nb_bytes pre + (n + nb_bytes post))%nat) by (unfold f; rewrite nb_bytes_app; reflexivity).
  destruct (seek_reads post (LTime t, n) pre (nb_bytes f - Nat.min (nb_bytes f) 1000)) as (a & R); [lia|exact P|]. fold f in R. rewrite R.
  change (fold_left step (a ++ (LTime t, n) :: post) None = Some t). rewrite fold_left_app. cbn [fold_left]. rewrite fold_no_time by exact N. reflexivity.
Qed.

(** json: the time of the last line, if it is complete and has not more than 1000 bytes *)
Theorem c265_json_partial : forall pre t n, (0 < n)%nat -> (n <= 1000)%nat -> get_last_time None (Some (pre ++ [(LJson t, n)])) = Some t.
Proof.
  intros pre t n P L. cbn [get_last_time]. unfold last_time_json, tail_file. set (f := pre ++ [(LJson t, n)]).
  assert (B : nb_bytes f = (nb_bytes pre + n)%nat) by (unfold f; rewrite nb_bytes_app, nb_bytes_cons; cbn; lia).
  destruct (seek_reads [] (LJson t, n) pre (nb_bytes f - Nat.min (nb_bytes f) 1000)) as (a & R); [lia|exact P|]. fold f in R. rewrite R.
  rewrite fold_left_app. reflexivity.
Qed.

(** what is returned for a json file is the time of its last line *)
Theorem c265_json_right : forall f t, last_time_json f = Some t -> exists pre n, f = pre ++ [(LJson t, n)].
Proof.
  intros f t H. unfold last_time_json, tail_file in H. destruct (seek_suffix f (nb_bytes f - Nat.min (nb_bytes f) 1000)) as (pre & post & E & K).
  destruct (@exists_last _ post) as (q & (x & n) & Q).
  - intros ->. destruct K as [K|(k & K)]; rewrite K in H; discriminate.
  - exists (pre ++ q), n. rewrite E, Q, app_assoc. repeat f_equal.
    destruct K as [K|(k & K)]; rewrite K, Q in H; cbn [fold_left] in H; rewrite fold_left_app in H; cbn in H; destruct x as [?|?|]; congruence.
Qed.

(** nothing is found: a record of more than 1000 bytes; a last record which is not complete, after complete ones *)
Theorem c265_refuted : exists t,
  (exists n, get_last_time None (Some [(LJson t, n)]) = None) /\
  (exists n m, (n <= 1000)%nat /\ get_last_time None (Some [(LJson t, n); (LOther, m)]) = None) /\
  (exists f, last_saved f t /\ get_last_time (Some f) None = None).
Proof.
  exists 1%Q. split; [exists 1001%nat; vm_compute; reflexivity|]. split; [exists 300%nat, 20%nat; split; [lia|vm_compute; reflexivity]|].
  exists [(LTime 1, 20%nat); (LOther, 990%nat)]. split; [|vm_compute; reflexivity].
  exists [], 20%nat, [(LOther, 990%nat)]. split; [reflexivity|]. intros t n [E|[]]. discriminate.
Qed.

Example c265_example : get_last_time (Some [(LTime 1, 20%nat); (LOther, 990%nat); (LTime 2, 20%nat); (LOther, 300%nat)]) None = Some 2%Q.
Proof. vm_compute. reflexivity. Qed.

(** ** C266 *)
Local Open Scope Q_scope.
Lemma pairs_nth l : forall i, (S i < length l)%nat -> nth i (pairs l) (0, 0) = (nth i l 0, nth (S i) l 0).
Proof.
  induction l as [|a [|b r] IH]; intros i H; cbn in H; [lia|lia|]. destruct i as [|i]; [reflexivity|]. change (nth i (pairs (b :: r)) (0, 0) = (nth i (b :: r) 0, nth (S i) (b :: r) 0)).
  apply IH. cbn. lia.
Qed.

Lemma pairs_length l : length (pairs l) = pred (length l).
Proof. induction l as [|a [|b r] IH]; [reflexivity|reflexivity|]. change (S (length (pairs (b :: r))) = S (length r)). rewrite IH. reflexivity. Qed.

(** dE/dt: the slope between two times, at the middle of these times *)
Theorem c266_slope : forall times E i, length E = length times -> (S i < length times)%nat ->
  length (curve_dtE times E) = pred (length times) /\
  nth i (curve_dtE times E) (0, 0) = ((nth (S i) times 0 + nth i times 0) / 2, (nth (S i) E 0 - nth i E 0) / (nth (S i) times 0 - nth i times 0)).
Proof.
  intros times E i L H. unfold curve_dtE. split; [rewrite combine_length, !map_length, combine_length, !pairs_length, L; lia|].
  rewrite combine_nth by (rewrite !map_length, combine_length, !pairs_length, L; lia). f_equal.
  - set (g := fun p : Q * Q => (snd p + fst p) / 2). rewrite (nth_indep (map g (pairs times)) 0 (g (0, 0))) by (rewrite map_length, pairs_length; lia).
    rewrite map_nth, pairs_nth by exact H. reflexivity.
  - set (g := fun p : Q * Q * (Q * Q) => _). rewrite (nth_indep _ 0 (g ((0, 0), (0, 0)))) by (rewrite map_length, combine_length, !pairs_length, L; lia).
    rewrite map_nth, combine_nth by (rewrite !pairs_length, L; reflexivity). rewrite !pairs_nth by (rewrite ?L; exact H). reflexivity.
Qed.

(** where the point number [i] is drawn *)
Lemma shift_nth l : forall i, (S i < length l)%nat -> nth i (shift_times l) 0 = nth i l 0 + (nth (S i) l 0 - nth i l 0) / 2.
Proof.
  induction l as [|a [|b r] IH]; intros i H; cbn in H; [lia|lia|]. destruct i as [|i]; [reflexivity|].
  change (nth i (shift_times (b :: r)) 0 = nth i (b :: r) 0 + (nth (S i) (b :: r) 0 - nth i (b :: r) 0) / 2). apply IH. cbn. lia.
Qed.

Lemma shift_last l : (0 < length l)%nat -> nth (pred (length l)) (shift_times l) 0 = nth (pred (length l)) l 0.
Proof. induction l as [|a [|b r] IH]; intros H; cbn in H; [lia|reflexivity|]. change (nth (length r) (shift_times (b :: r)) 0 = nth (length r) (b :: r) 0). apply IH. cbn. lia. Qed.

Lemma shift_length l : length (shift_times l) = length l.
Proof. induction l as [|a [|b r] IH]; [reflexivity|reflexivity|]. change (S (length (shift_times (b :: r))) = S (length (b :: r))). rewrite IH. reflexivity. Qed.

Lemma nth_tl {A} (l : list A) i d : nth i (tl l) d = nth (S i) l d.
Proof. destruct l; [destruct i; reflexivity|reflexivity]. Qed.

(** the other curves: drawn half an interval after the time of the value, except the last point *)
Theorem c266_shifted : forall times y i, length y = length times -> (S i < length times)%nat ->
  nth i (curve_second times y) (0, 0) = (nth i times 0 + (nth (S i) times 0 - nth i times 0) / 2, nth i y 0) /\
  ((S (S i) < length times)%nat -> nth i (curve_model times y) (0, 0) = (nth (S i) times 0 + (nth (S (S i)) times 0 - nth (S i) times 0) / 2, nth (S i) y 0)).
Proof.
  intros times y i L H. split.
  - unfold curve_second. rewrite combine_nth by (rewrite shift_length; lia). rewrite shift_nth by exact H. reflexivity.
  - intros H'. unfold curve_model. rewrite combine_nth.
    + rewrite !nth_tl, shift_nth by exact H'. reflexivity.
    + pose proof (shift_length times). destruct (shift_times times), y; cbn in *; lia.
Qed.

(** the last point is drawn at its time *)
Theorem c266_last_partial : forall times y, length y = length times -> (1 < length times)%nat -> let n := pred (length times) in
  nth n (curve_second times y) (0, 0) = (nth n times 0, nth n y 0) /\ nth (pred n) (curve_model times y) (0, 0) = (nth n times 0, nth n y 0).
Proof.
  intros times y L H n. split.
  - unfold curve_second. rewrite combine_nth by (rewrite shift_length; lia). unfold n. rewrite shift_last by lia. reflexivity.
  - unfold curve_model. rewrite combine_nth.
    + rewrite !nth_tl. replace (S (pred n)) with n by (unfold n; lia). unfold n at 1. rewrite shift_last by lia. reflexivity.
    + pose proof (shift_length times). destruct (shift_times times), y; cbn in *; lia.
Qed.

(** a stationary budget E = 2 t, P - epsilon = 2 t at t = 0, 1, 2: the values of P - epsilon and P are not drawn at their times *)
Theorem c266_refuted : exists times y, length y = length times /\ (exists i, (S i < length times)%nat /\ ~ fst (nth i (curve_second times y) (0, 0)) == nth i times 0)
  /\ exists i, (S i < length times)%nat /\ ~ fst (nth i (curve_model times y) (0, 0)) == nth (S i) times 0.
Proof.
  exists [0; 1; 2], [0; 2; 4]. split; [reflexivity|]. split; exists 0%nat; (split; [cbn; lia|]); vm_compute; discriminate.
Qed.

Example c266_example : curve_dtE [0; 1] [1; 3] = [((1 + 0) / 2, (3 - 1) / (1 - 0))] /\ length [1; 3] = length [0; 1] /\ (1 < length [0; 1])%nat.
Proof. split; [reflexivity|]. split; [reflexivity|cbn; lia]. Qed.

(** ** C267 *)
Local Open Scope R_scope.
(** half of the sum of the squares of the forced variable *)
Definition half_square (l : list (R * C)) : R := fold_right (fun m s => fst m * (Cmod (snd m) * Cmod (snd m)) / 2 + s) 0 l.

Lemma Cmod_sq z : Cmod z * Cmod z = fst z * fst z + snd z * snd z.
Proof. unfold Cmod. rewrite sqrt_sqrt; [ring|]. pose proof (pow2_ge_0 (fst z)). pose proof (pow2_ge_0 (snd z)). lra. Qed.

(** what is printed: the rate of change of this quantity due to the forcing alone, constant during one time step *)
Theorem c267_rate : forall deltat modes, deltat <> 0 ->
  P_f deltat modes = (half_square (map (fun m => (fst m, Cplus (snd (snd m)) (Cmult (RtoC deltat) (fst (snd m))))) modes)
                      - half_square (map (fun m => (fst m, snd (snd m))) modes)) / deltat.
Proof.
  intros dt modes H. apply (Rmult_eq_reg_r dt); [|exact H]. unfold Rdiv at 1. rewrite Rmult_assoc, Rinv_l, Rmult_1_r by exact H.
  unfold P_f, P_2. induction modes as [|(w, ((fx, fy), (vx, vy))) l IH]; [unfold P_1, sum_modes; cbn; lra|].
  unfold P_1, sum_modes in *. cbn [map fold_right half_square fst snd] in *. unfold half_square in *. cbn [map fold_right fst snd] in *.
  rewrite Cmod_sq. rewrite (Cmod_sq (vx, vy)), (Cmod_sq (Cplus _ _)).
  match type of IH with (?A + dt / 2 * ?B) * dt = ?N - ?O =>
    match goal with |- (?a + A + dt / 2 * (?b + B)) * dt = ?n + N - (?o + O) =>
      replace ((a + A + dt / 2 * (b + B)) * dt) with ((a + dt / 2 * b) * dt + (A + dt / 2 * B) * dt) by ring; rewrite IH;
      cut ((a + dt / 2 * b) * dt = n - o); [intros ->; ring|] end end.
  unfold Re, Cmult, Cconj, Cplus, RtoC. cbn [fst snd]. field.
Qed.

(** the modes which are not forced (outside of the coarse arrays: verify_injection_rate_coarse) do not count *)
Theorem c267_coarse : forall deltat modes modes', (forall m, In m modes' -> fst (snd m) = RtoC 0) -> P_f deltat (modes ++ modes') = P_f deltat modes.
Proof.
  intros dt modes modes' H. assert (Z : P_1 modes' = 0 /\ sum_modes (map (fun m => fst m * (Cmod (fst (snd m)) * Cmod (fst (snd m)))) modes') = 0).
  { unfold P_1, sum_modes. induction modes' as [|m l IH]; [split; reflexivity|]. destruct IH as [A B]; [intros x I; apply H; right; exact I|]. cbn [map fold_right].
    rewrite A, B, (H m (or_introl eq_refl)), Cmod_sq. unfold Re, Cmult, Cconj, RtoC. cbn. split; ring. }
  assert (S : forall a b, sum_modes (a ++ b) = sum_modes a + sum_modes b) by (intros a b; unfold sum_modes; induction a as [|x a IH]; cbn; [ring|rewrite IH; ring]).
  destruct Z as [A B]. unfold P_f, P_2. unfold P_1 in *. rewrite !map_app, !S, A, B. ring.
Qed.

Example c267_example : P_f 1 [(1, (RtoC 1, RtoC 2))] = 5 / 2.
Proof. unfold P_f, P_1, P_2, sum_modes. cbn [map fold_right fst snd]. rewrite Cmod_sq. unfold Re, Cmult, Cconj, RtoC. cbn. field. Qed.

Print Assumptions c265_right.
Print Assumptions c265_found_partial.
Print Assumptions c265_json_partial.
Print Assumptions c265_json_right.
Print Assumptions c265_refuted.
Print Assumptions c266_slope.
Print Assumptions c266_shifted.
Print Assumptions c266_last_partial.
Print Assumptions c266_refuted.
Print Assumptions c267_rate.
Print Assumptions c267_coarse.
