(** Model of the figures of the spectral fluxes of ns3d and ns3d.strat and of the dissipation
    frequencies.

    fluidsim/solvers/ns3d/output/spect_energy_budget.py 315-350 and
    ns3d/strat/output/spect_energy_budget.py 120-167 (plot_fluxes),
    fluidsim/base/solvers/pseudo_spect.py 193-238 (plot_freq_diss).

    A figure is the list of its curves: the label and the points, functions of the index. The
    numbers are exact; None is nan. The colours and the titles are left out. *)
From Coq Require Import String Reals ZArith List Bool.
From Verif Require Import HMeans_Model MeanVals_Model Means_Model.
Import ListNotations.
Local Open Scope R_scope.

Inductive key_k := Key_kh | Key_kz.

(** key_k[1] + "flux_" + key of compute_fluxes_mean; [mean]: load_mean *)
Definition flux (key_k : key_k) (nz nh : nat) (kz kh : nat -> R) (mean : string -> nat -> nat -> R)
    (key : string) : nat -> R :=
  let r := fluxes nz nh kz kh key (mean key) in
  match key_k with Key_kh => fst r | Key_kz => snd r end.

(** the abscissas: k_plot += deltak / 2 with deltak = k_plot[1] *)
Definition k_plot (key_k : key_k) (kz kh : nat -> R) : nat -> R :=
  let k := match key_k with Key_kh => kh | Key_kz => kz end in
  let deltak := k 1%nat in
  fun i => k i + deltak / 2.

Definition last_index (key_k : key_k) (nz nh : nat) : nat :=
  (match key_k with Key_kh => nh | Key_kz => nz end - 1)%nat.

(** ns3d *)
Definition plot_fluxes (key_k : key_k) (nz nh : nat) (kz kh : nat -> R)
    (mean : string -> nat -> nat -> R) : list (string * (nat -> R * R)) :=
  let data := flux key_k nz nh kz kh mean in
  let flux_tot := fun i => data "transfer_Kh"%string i + data "transfer_Kz"%string i in
  let D := fun i => data "diss_Kh"%string i + data "diss_Kz"%string i in
  let eps := D (last_index key_k nz nh) in
  let curve label (y : nat -> R) := (label, fun i => (k_plot key_k kz kh i, y i / eps)) in
  [ curve "Pi"%string flux_tot; curve "D"%string D;
    curve "Pi+D"%string (fun i => flux_tot i + D i) ].

(** ns3d.strat *)
Definition plot_fluxes_strat (plot_conversion : bool) (key_k : key_k) (nz nh : nat) (kz kh : nat -> R)
    (mean : string -> nat -> nat -> R) : list (string * (nat -> R * R)) :=
  let data := flux key_k nz nh kz kh mean in
  let flux_K := fun i => data "transfer_Kh"%string i + data "transfer_Kz"%string i in
  let flux_A := data "transfer_A"%string in
  let flux_tot := fun i => flux_K i + flux_A i in
  let DK := fun i => data "diss_Kh"%string i + data "diss_Kz"%string i in
  let DA := data "diss_A"%string in
  let D := fun i => DK i + DA i in
  let eps := D (last_index key_k nz nh) in
  let curve label (y : nat -> R) := (label, fun i => (k_plot key_k kz kh i, y i / eps)) in
  [ curve "Pi"%string flux_tot; curve "D"%string D;
    curve "Pi+D"%string (fun i => flux_tot i + D i);
    curve "Pi_K"%string flux_K; curve "Pi_A"%string flux_A;
    curve "D_K"%string DK; curve "D_A"%string DA ]
  ++ (if plot_conversion then [curve "B"%string (data "conv_K2A"%string)] else []).

(** ** plot_freq_diss *)

(** int(coef_dealiasing * number // 2) *)
Definition nb_ks (coef_dealiasing : R) (number : nat) : nat :=
  Z.to_nat (Int_part (coef_dealiasing * INR number / 2)).

Definition ks (length : R) (i : nat) : R := 2 * PI / length * INR i.

(** addition with nan *)
Definition add_nan (a b : option R) : option R :=
  match a, b with Some x, Some y => Some (x + y) | _, _ => None end.

(** ks_not0: nan for zero *)
Definition ks_not0 (length : R) (i : nat) : option R :=
  if Req_EM_T (ks length i) 0 then None else Some (ks length i).

(** the number of points, and the curves with the total; [None]: nan *)
Definition plot_freq_diss (coef_dealiasing : R) (number : nat) (length : R) (nu : viscosities)
  : nat * list (string * (nat -> R * option R)) :=
  let k := ks length in
  let f_2 := if Rlt_dec 0 (nu_2 nu) then [("nu_2"%string, fun i => Some (nu_2 nu * k i ^ 2))] else [] in
  let f_4 := if Rlt_dec 0 (nu_4 nu) then [("nu_4"%string, fun i => Some (nu_4 nu * k i ^ 4))] else [] in
  let f_8 := if Rlt_dec 0 (nu_8 nu) then [("nu_8"%string, fun i => Some (nu_8 nu * k i ^ 8))] else [] in
  let f_m4 := if Req_EM_T (nu_m4 nu) 0 then [] else
    [("nu_m4"%string,
      fun i => match ks_not0 length i with Some x => Some (nu_m4 nu / x ^ 4) | None => None end)] in
  let curves := f_2 ++ f_4 ++ f_8 ++ f_m4 in
  let f_d_tot := fun i => fold_left (fun s c => add_nan s (snd c i)) curves (Some 0) in
  (nb_ks coef_dealiasing number,
   map (fun c => (fst c, fun i => (k i, snd c i))) (curves ++ [("total"%string, f_d_tot)])).

(** fluidsim/operators/operators1d.py 46-53: the modes removed by the dealiasing on the axis (the
    operators in two and three dimensions have the same condition in each direction) *)
Definition dealiased_axis (coef_dealiasing : R) (number : nat) (length : R) (i : nat) : bool :=
  if Rlt_dec (coef_dealiasing * (2 * PI / length * INR (Nat.div2 number))) (Rabs (ks length i))
  then true else false.
