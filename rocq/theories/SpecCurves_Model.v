(** * The averaged curves of plot1d, plot2d and plot3d

    fluidsim/base/output/spectra.py 129-159 (keys, style), 338-363 (average), fluidsim/base/output/spectra3d.py 59-79,
    fluidsim/solvers/ns3d/strat/output/spectra.py 109-169.

    The file is the function which gives the values of a data set at one wave number, for the records from imin_plot to
    imax_plot (None: not in the file).  Exact numbers.  The NaN is None.  A direction is the letter or None (ndim <> 1).
    The names of the saved data sets are those of XCorr_Model (ns3d and ns3d.strat). *)

From Coq Require Import String List QArith Bool.
From Verif Require Import XCorr_Model.
Import ListNotations.
Local Open Scope string_scope.

Inductive solver := Ns2d | Ns3d | Strat3d.
Inductive error := ValueErr | KeyErr | TypeErr.

(** f"{direction}" *)
Definition str_dir (d : option string) : string := match d with Some s => s | None => "None" end.

(** _get_key_spectrum: base 138-142, spectra3d 59-63, strat 109-120 *)
Definition strat_base (kind : option string) : option string :=
  match kind with
  | None => Some "E"
  | Some k =>
      if String.eqb k "K" then Some "E"
      else if existsb (String.eqb k) ["A"; "Khd"; "vx"; "vy"; "vz"] then Some k
      else if prefix "K" k && Nat.eqb (String.length k) 2 && existsb (String.eqb (substring 1 1 k)) ["x"; "y"; "z"]
      then Some ("v" ++ substring 1 1 k)
      else None
  end.
Definition key_spectrum (s : solver) (ndim : nat) (d : option string) (kind : option string) : string + error :=
  match s with
  | Ns2d => inl (if Nat.eqb ndim 1 then "spectrum1Dk" ++ (str_dir d ++ "_E") else "spectrum2D_E")
  | Ns3d => if Nat.eqb ndim 1 then match d with Some x => inl ("spectra_E_k" ++ x) | None => inr TypeErr end else inl "spectra_E"
  | Strat3d =>
      match strat_base kind with
      | None => inr ValueErr
      | Some b => if Nat.eqb ndim 1 then match d with Some x => inl ("spectra_" ++ (b ++ ("_k" ++ x))) | None => inr TypeErr end
                  else inl ("spectra_" ++ b)
      end
  end.

(** _get_styleline: base 129-136, strat 122-133 *)
Definition styleline (s : solver) (ndim : nat) (d : option string) (kind : option string) : string + error :=
  let is c := match d with Some x => String.eqb x c | None => false end in
  match s with
  | Strat3d =>
      let base := match kind with
                  | None => Some "r"
                  | Some k => if String.eqb k "K" then Some "r" else if String.eqb k "A" then Some "b" else if String.eqb k "polo" then Some "m" else None
                  end in
      match base with None => inr ValueErr | Some b => inl (if is "z" then b ++ ":" else b) end
  | _ => inl (if Nat.eqb ndim 1 then if is "y" then "g" else if is "z" then "b" else "r" else "r")
  end.

(** base 338-346 *)
Definition mean (l : list Q) : Q := (fold_right Qplus 0 l / inject_Z (Z.of_nat (List.length l)))%Q.
Definition clip (x : Q) : option Q := if Qle_bool (1 # 1000000000000000) x then Some x else None.
Definition averaged (file : string -> option (list Q)) (s : solver) (ndim : nat) (d kind : option string) : option Q + error :=
  match key_spectrum s ndim d kind with
  | inr e => inr e
  | inl key => match file key with None => inr KeyErr | Some l => inl (clip (mean l)) end
  end.

Definition nan_plus (a b : option Q) : option Q := match a, b with Some x, Some y => Some (x + y)%Q | _, _ => None end.
Definition nan_scale (c : Q) (a : option Q) : option Q := match a with Some x => Some (x * c)%Q | None => None end.

Record curve := mkCurve { style : string; label : string; value : option Q }.

(** _ax_add_average: base 348-363, strat 135-169; projection: None if the attribute does not exist *)
Definition curve_of (s : solver) (ndim : nat) (d kind : option string) (lab : string) (coef : Q) (v : option Q) : curve + error :=
  match styleline s ndim d kind with inr e => inr e | inl st => inl (mkCurve st lab (nan_scale coef v)) end.
Definition has_polo (projection : option (option string)) : bool :=
  match projection with None => false | Some None => true | Some (Some p) => negb (String.eqb p "toroidal") end.
Definition add_average (file : string -> option (list Q)) (s : solver) (ndim : nat) (d : option string)
    (projection : option (option string)) (coef : Q) : list curve + error :=
  match s with
  | Strat3d =>
      match averaged file s ndim d (Some "K"), averaged file s ndim d (Some "A") with
      | inl vK, inl vA =>
          match curve_of s ndim d (Some "K") ("$E_K(k_" ++ (str_dir d ++ ")$")) coef vK, curve_of s ndim d (Some "A") ("$E_A(k_" ++ (str_dir d ++ ")$")) coef vA with
          | inl cK, inl cA =>
              if has_polo projection then
                match averaged file s ndim d (Some "Khd"), averaged file s ndim d (Some "Kz") with
                | inl v1, inl v2 =>
                    match curve_of s ndim d (Some "polo") "poloidal" coef (nan_plus v1 v2) with inl c => inl [cK; cA; c] | inr e => inr e end
                | inr e, _ => inr e
                | _, inr e => inr e
                end
              else inl [cK; cA]
          | inr e, _ => inr e
          | _, inr e => inr e
          end
      | inr e, _ => inr e
      | _, inr e => inr e
      end
  | _ =>
      match averaged file s ndim d None with
      | inl v => match curve_of s ndim d None ("$E(k_" ++ (str_dir d ++ ")$")) coef v with inl c => inl [c] | inr e => inr e end
      | inr e => inr e
      end
  end.

(** the default directions: base 153-157, spectra3d 74-78 *)
Definition default_directions (s : solver) (ndim : nat) : list (option string) :=
  if Nat.eqb ndim 1 then match s with Ns2d => [Some "x"; Some "y"] | _ => [Some "x"; Some "y"; Some "z"] end else [None].
