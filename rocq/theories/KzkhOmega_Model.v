(** * plot_kzkhomega of the spatiotemporal spectra

    fluidsim/base/output/spatiotemporal_spectra.py 963-1189, after the loading of the file (1016-1033).

    Exact reals.  [S ikz ikh iomega] is the loaded spectrum, [khs], [kzs] and [omegas] its axes.  The equation is already
    evaluated (its eval is not modelled) and the indices are not negative.  [emp] and [delta_emp] are the results of
    compute_omega_emp_vs_kzkh.  The attribute params.N (absent: AttributeError) is an option.  The texts and the colors
    are not modelled. *)

From Coq Require Import Reals Bool Arith List.
Import ListNotations.
Local Open Scope R_scope.

(** UnboundLocalErr: omega_disp is not defined; ValueErr: argmin of an empty array, or x and y of different sizes *)
Inductive error := IndexErr | ValueErr | UnboundLocalErr | NotImplementedErr.

Inductive equation := EqNone | EqOmega (v : R) | EqKh (v : R) | EqKz (v : R) | EqIkh (i : nat) | EqIkz (i : nat) | EqOther.

(** the kind of slice: omega (the one of the grid), the index of kh, the index of kz *)
Inductive kind := KOmega (omega : R) | KKh (ikh : nat) | KKz (ikz : nat).

(** abs(l - v).argmin() *)
Fixpoint argmin_from (best : R) (ibest i : nat) (l : list R) : nat :=
  match l with
  | [] => ibest
  | x :: r => if Rlt_dec x best then argmin_from x i (S i) r else argmin_from best ibest (S i) r
  end.
Definition nearest (l : list R) (v : R) : option nat :=
  match map (fun x => Rabs (x - v)) l with [] => None | x :: r => Some (argmin_from x 0 1 r) end.

Definition arange (n : nat) : list R := map INR (seq 0 n).

Fixpoint maximum (m : R) (l : list R) : R := match l with [] => m | x :: r => maximum (Rmax m x) r end.
Definition max_list (l : list R) : R := match l with [] => 0 | x :: r => maximum x r end.

Record figure := mkF {
  xs : list R; ys : list R; color : nat -> nat -> R;   (** index along y, index along x *)
  limits : option (R * R);                             (** the upper limits of x and y, the lower ones are 0 *)
  line : option (nat -> option R);                     (** dispersion relation at the index along x; None: nan *)
  emp_lines : option (nat -> R * R * R) }.

Section Plot.
Variables (khs kzs omegas : list R) (spectrum : nat -> nat -> nat -> R) (emp delta_emp : nat -> nat -> R) (N : option R).

(** 1041-1052: kh= and kz= *)
Definition index_equation (eq : equation) : equation + error :=
  match eq with
  | EqNone => inl (EqOmega 0)
  | EqKh v => match nearest khs v with Some i => inl (EqIkh i) | None => inr ValueErr end
  | EqKz v => match nearest kzs v with Some i => inl (EqIkz i) | None => inr ValueErr end
  | e => inl e
  end.

(** 1085-1090 and 1106-1111: reduced frequency *)
Definition reduced : list R := match N with Some n => map (fun o => o / n) omegas | None => omegas end.

(** 1054-1120 *)
Definition slice (eq : equation) : kind * list R * list R * (nat -> nat -> R) + error :=
  match eq with
  | EqOmega v =>
      match nearest omegas v with
      | Some io => inl (KOmega (nth io omegas 0), arange (length khs), arange (length kzs), fun iy ix => spectrum iy ix io)
      | None => inr ValueErr
      end
  | EqIkh i => if (i <? length khs)%nat
      then inl (KKh i, arange (length kzs), reduced, fun iy ix => spectrum ix i iy) else inr IndexErr
  | EqIkz i => if (i <? length kzs)%nat
      then inl (KKz i, arange (length khs), reduced, fun iy ix => spectrum i ix iy) else inr IndexErr
  | _ => inr NotImplementedErr
  end.

(** 1126-1132 *)
Definition drawn (linscale : bool) (v : R) : R :=
  let v := v + / 1000000000000000 in if linscale then v else ln v / ln 10.

Definition quotient (a b : R) : option R := if Req_EM_T b 0 then None else Some (a / b).

(** 1150-1170 *)
Definition dispersion (k : kind) (n dkz_over_dkh : R) : option (nat -> option R) :=
  match k with
  | KOmega omega => if Rlt_dec 0 omega then if Rle_dec omega n
      then Some (fun ix => Some (sqrt (n ^ 2 / omega ^ 2 - 1) / dkz_over_dkh * INR ix)) else None else None
  | KKh ikh => Some (fun ix => quotient (INR ikh) (sqrt (INR ikh ^ 2 + dkz_over_dkh ^ 2 * INR ix ^ 2)))
  | KKz ikz => Some (fun ix => quotient (INR ix) (sqrt (INR ix ^ 2 + dkz_over_dkh ^ 2 * INR ikz ^ 2)))
  end.

(** 1079-1081, 1100-1102 and 1180-1189: mean, upper and lower curves, divided by N *)
Definition three (n e d : R) : R * R * R := (e / n, (e + 0.5 * d) / n, (e - 0.5 * d) / n).
Definition empirical (k : kind) (n : R) : (nat -> R * R * R) + error :=
  match k with
  | KOmega _ => if (length kzs =? length khs)%nat then inr UnboundLocalErr else inr ValueErr
  | KKh i => inl (fun ix => three n (emp ix i) (delta_emp ix i))
  | KKz i => inl (fun ix => three n (emp i ix) (delta_emp i ix))
  end.

Definition plot_kzkhomega (eq : equation) (xmax ymax : option R) (plot_omega_emp linscale : bool) : figure + error :=
  match index_equation eq with
  | inr e => inr e
  | inl eq =>
      match slice eq with
      | inr e => inr e
      | inl (k, x, y, s) =>
          let color := fun iy ix => drawn linscale (s iy ix) in
          match N with
          | None => inl (mkF x y color None None None)
          | Some n =>
              match nth_error kzs 1, nth_error khs 1 with
              | Some dkz, Some dkh =>
                  let lim := (match xmax with Some m => m | None => max_list x end,
                              match ymax with Some m => m | None => max_list y end) in
                  let fig := mkF x y color (Some lim) (dispersion k n (dkz / dkh)) in
                  if plot_omega_emp then match empirical k n with inl l => inl (fig (Some l)) | inr e => inr e end
                  else inl (fig None)
              | _, _ => inr IndexErr
              end
          end
      end
  end.
End Plot.
