(** * Rates of change of the spatial means (solvers/sw1l/output/spatial_means.py 365-413, plot_rates)

    Simplifications: exact numbers; the result is the list of the curves with their labels (the mean) and the names of the
    axes (the name of the key; the prefix of the label, and the argument keys written instead of the name when there is only
    one axis, are not modelled), or the exception. *)

From Coq Require Import Ascii String List Reals.
Import ListNotations.
Local Open Scope R_scope.

(** the argument keys: a string or a list of strings; its iteration *)
Inductive keys := Str (s : string) | Lst (l : list string).
Fixpoint chars (s : string) : list string :=
  match s with EmptyString => [] | String c r => String c EmptyString :: chars r end.
Definition iterate (k : keys) : list string := match k with Str s => chars s | Lst l => l end.

(** np.gradient(f, 1.0): None is the ValueError for an array with less than two values *)
Fixpoint gradient_from (l : list R) : list R :=
  match l with
  | x :: ((y :: r) as l') => match r with z :: _ => (z - x) / 2 :: gradient_from l' | [] => [y - x] end
  | _ => []
  end.
Definition gradient (l : list R) : option (list R) :=
  match l with x :: y :: _ => Some ((y - x) :: gradient_from l) | _ => None end.

Definition mean (l : list R) : R := fold_right Rplus 0 l / INR (length l).
Fixpoint zip (f : R -> R -> R) (a b : list R) : list R :=
  match a, b with x :: a', y :: b' => f x y :: zip f a' b' | _, _ => [] end.

Inductive error := ValueError | KeyError (k : string).
Record curve := mkCurve { ylabel : string; dE_dt : list R; average : R }.

(** the dictionary of the loaded means *)
Definition lookup (d : list (string * list R)) (k : string) : option (list R) :=
  match find (fun e => String.eqb (fst e) k) d with Some e => Some (snd e) | None => None end.

(** 393-403: one key *)
Definition one_curve (d : list (string * list R)) (dt : list R) (k : string) : curve + error :=
  match lookup d k with
  | None => inr (KeyError k)
  | Some E =>
      match gradient E with
      | None => inr ValueError
      | Some g => let r := zip (fun a b => Rabs (a / b)) g dt in inl (mkCurve k r (mean r))
      end
  end.
Fixpoint all_curves (d : list (string * list R)) (dt : list R) (l : list string) : list curve + error :=
  match l with
  | [] => inl []
  | k :: r =>
      match one_curve d dt k with
      | inr e => inr e
      | inl c => match all_curves d dt r with inr e => inr e | inl cs => inl (c :: cs) end
      end
  end.

(** 386-413; plt.subplots(0) raises a ValueError *)
Definition plot_rates (d : list (string * list R)) (k : keys) : list curve + error :=
  match lookup d "t" with
  | None => inr (KeyError "t")
  | Some t =>
      match gradient t with
      | None => inr ValueError
      | Some dt => match iterate k with [] => inr ValueError | l => all_curves d dt l end
      end
  end.
