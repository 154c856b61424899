(** * The maps in the plane (kh, kz) of the spectra, of the cross correlations and of the spectral energy budget

    fluidsim/base/output/spectra3d.py 272-319 (load_kzkh_mean, plot_kzkh), fluidsim/solvers/ns3d/strat/output/spectra.py
    106-107, fluidsim/base/output/cross_corr3d.py 31-73 (names), fluidsim/solvers/ns3d/output/spect_energy_budget.py 61-107
    (names), 195-270 (load_mean, plot_kzkh).

    A file is given at one cell: the function which gives the values of a data set in this cell, for the records between tmin and
    tmax (at least one).  Exact numbers.  The axes and the labels are not modelled. *)

From Coq Require Import String List Reals Bool.
From Verif Require Import XCorr_Model.
Import ListNotations.
Local Open Scope string_scope.

Inductive solver := Ns3d | Strat3d.
(** output.spectra, output.cross_corr *)
Inductive out := Spec | Corr.
(** the drawn pixel; np.log10(0) is -inf *)
Inductive pixel := Val (x : R) | MInf | NaN.
(** ValueError of the key, TypeError of an unknown argument, error of pcolormesh for an array without two dimensions *)
Inductive error := ValueErr | TypeErr | ShapeErr.

Definition mem (k : string) (l : list string) : bool := existsb (String.eqb k) l.

(** cross_corr3d.py 38-70: the keys of dict_kzkh *)
Definition pairs (s : solver) : list string :=
  map (fun kk => (make_small_key (fst kk) ++ make_small_key (snd kk))%string)
    (combinations (match s with Ns3d => keys_ns3d | Strat3d => keys_ns3d_strat end)).
(** the data sets of the file with two dimensions for each record *)
Definition saved_kzkh (s : solver) (o : out) : list string :=
  match o with
  | Corr => pairs s
  | Spec => match s with Ns3d => saved_ns3d SpectraKzKh | Strat3d => saved_strat SpectraKzKh end
  end.

Local Open Scope R_scope.

Definition mean (l : list R) : R := fold_right Rplus 0 l / INR (List.length l).

(** np.log10, np.sign and the product of a sign and a value *)
Definition log10 (x : R) : pixel :=
  if Rlt_dec 0 x then Val (ln x / ln 10) else if Req_EM_T x 0 then MInf else NaN.
Definition sign (x : R) : R := if Rlt_dec 0 x then 1 else if Rlt_dec x 0 then -1 else 0.
Definition times_sign (s : R) (p : pixel) : pixel :=
  match p with Val x => Val (s * x) | MInf => if Rlt_dec 0 s then MInf else NaN | NaN => NaN end.

(** spectra3d.py 298-301 *)
Definition plotted (o : out) (x : R) : pixel :=
  match o with Corr => times_sign (sign x) (log10 (Rabs x)) | Spec => log10 x end.

(** the default value of key: spectra3d.py 295, strat/output/spectra.py 106 *)
Definition default_key (s : solver) (o : out) : string :=
  match s, o with Strat3d, Spec => "Khd"%string | _, _ => "xz"%string end.

(** plot_kzkh(key=key, vmin=..., vmax=...): [limits] is true if vmin or vmax is given *)
Definition plot_kzkh (s : solver) (o : out) (file : string -> list R) (key : option string) (limits : bool) : pixel + error :=
  match s, o, limits with
  | Strat3d, Spec, true => inr TypeErr
  | _, _, _ =>
      let key := match key with Some k => k | None => default_key s o end in
      if mem key (saved_kzkh s o) then inl (plotted o (mean (file key)))
      else if mem key (axes SpectraKzKh) then inr ShapeErr
      else inr ValueErr
  end.

Local Open Scope string_scope.

(** ** The spectral energy budget *)

(** ns3d/output/spect_energy_budget.py 150-190, ns3d/strat/output/spect_energy_budget.py 76-115 *)
Definition names (s : solver) : list string :=
  (["transfer_Kh"; "transfer_Kz"; "transfer_Khr"; "diss_Kh"; "diss_Kz"] ++
   match s with Ns3d => [] | Strat3d => ["diss_A"; "conv_K2A"; "transfer_A"] end)%list.
(** compute_spectra 97-107 *)
Definition compute_spectra (name : string) : list string := [name; name ++ "_kx"; name ++ "_ky"; name ++ "_kz"].
Definition budget_file (s : solver) : list string :=
  (["times"; "info_simul"; "kx"; "ky"; "kz"; "kh"] ++ flat_map compute_spectra (names s))%list.

(** str.endswith *)
Definition endswith (suffix s : string) : bool :=
  Nat.leb (String.length suffix) (String.length s) &&
  String.eqb (substring (String.length s - String.length suffix) (String.length suffix) s) suffix.

(** 246-253 *)
Definition keys_saved (keys : list string) : list string :=
  filter (fun key => negb (mem key ["times"; "info_simul"]) && negb (prefix "k" key)
                     && negb (existsb (fun letter => endswith ("_k" ++ letter) key) ["x"; "y"; "z"])) keys.

(** 255-270; the value is drawn without logarithm *)
Definition plot_budget (keys : list string) (file : string -> list R) (key : option string) : R + error :=
  let key := match key with Some k => k | None => "transfer_Kh" end in
  if mem key (keys_saved keys) then inl (mean (file key)) else inr ValueErr.
