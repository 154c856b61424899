(** * The figures plot1d_times and plot3d_times of ns3d

    fluidsim/solvers/ns3d/output/spectra.py 101-277 (_plot_times).  Exact numbers; a spectrum is seen at one wave
    number; the figure is the list of the drawn records with their colours (numbers between 0 and 1, argument of the
    colour map) and the records of the average.  [closest], [mean], [slice], [range], [delta_t_save] are those of
    [Spec2D_Model] (the same lines of code).  The curves k^-3, k^-5/3, k^-2, the limits and labels are not modelled. *)

From Coq Require Import QArith Qabs ZArith List Bool.
From Verif Require Import PhysFiles_Model Probes_Model Spec2D_Model.
Import ListNotations.
Local Open Scope Q_scope.

(** [BadStep]: int(nan) or int(inf), ValueError or OverflowError; [NegativeNumber]: ValueError of np.linspace;
    [Empty]: times.max() without times *)
Inductive error := BadStep | NegativeNumber | Empty.

(** times.max() *)
Fixpoint maximum (x : Q) (l : list Q) : Q :=
  match l with [] => x | y :: r => maximum (if Qle_bool x y then y else x) r end.

(** 211-216: the step between the drawn records *)
Definition step (times : list Q) (tmin_plot tmax_plot : Q) (delta_t : option Q) : Z + error :=
  match delta_t_save times with
  | None => inr BadStep
  | Some d =>
      let delta_t := match delta_t with
                     | Some x => x
                     | None => (tmax_plot - tmin_plot) / inject_Z (Z.of_nat (Nat.min 20 (length times)))
                     end in
      if Qeq_bool d 0 then inr BadStep
      else let i := round_even (delta_t / d) in inl (if Z.eqb i 0 then 1%Z else i)
  end.

(** np.linspace(0, 1, n)[i] *)
Definition linspace01 (n i : nat) : Q := match n with S (S m) => inject_Z (Z.of_nat i) / inject_Z (Z.of_nat (S m)) | _ => 0 end.

(** range(imin, imax + 1, step) when imin <= imax + 1 *)
Definition records (imin imax : nat) (step : Z) : list nat :=
  if Z.ltb step 0 then [] else range imin imax (Z.to_nat step).

(** 199-260: ([(record, colour)], records of the average) *)
Definition plot_times (times : list Q) (tmin : Q) (tmax delta_t : option Q) (only_time_average : bool)
  : (list (nat * Q) * list nat) + error :=
  match times with
  | [] => inr Empty
  | t0 :: r =>
      let tmax := match tmax with None => maximum t0 r | Some t => t end in
      let imin := closest times tmin in
      let imax := closest times tmax in
      match step times (nth imin times 0) (nth imax times 0) delta_t with
      | inr e => inr e
      | inl i =>
          if Nat.ltb (imax + 1) imin then inr NegativeNumber
          else
            let nb_plots := (imax + 1 - imin)%nat in
            let drawn := if only_time_average then [] else records imin imax i in
            inl (map (fun ci => (snd ci, linspace01 nb_plots (fst ci))) (combine (seq 0 (length drawn)) drawn),
                 seq imin nb_plots)
      end
  end.

(** the drawn value at one wave number k: spectrum[spectrum < 10e-16] = 0, times ks_no0 ** coef_compensate for an
    integer coefficient; [None]: nan (k = 0, except nan ** 0 = 1) *)
Definition value (k spectrum : Q) (coef : Z) : option Q :=
  let s := if negb (Qle_bool (1 # 1000000000000000) spectrum) then 0 else spectrum in
  if Z.eqb coef 0 then Some (s * 1)
  else if Qeq_bool k 0 then None
  else Some (s * k ^ coef).
