(** * Spectral energy budgets of the shallow water solvers with the normal modes

    fluidsim/solvers/sw1l/output/spect_energy_budget.py, classes SpectralEnergyBudgetSW1L (sw1l, sw1l.exactlin, sw1l.onlywaves)
    and SpectralEnergyBudgetSW1LModified (sw1l.exactlin.modified). Same conventions as Seb_Model: the density of each saved
    spectrum. The state is given by its fields (ux, uy, eta): the variables q, ap, am of the solvers exactlin are those of
    qapamfft_from_uxuyetafft (C105). *)

From Coq Require Import Reals ZArith String List Bool.
From Coquelicot Require Import Complex.
From Verif Require Import CExp DFT Alias_Model Oper_Model Budget_Model SW_Model SWNormal_Model Seb_Model.
Import ListNotations.
Local Open Scope R_scope.

(** the keys ux, px_ux, ..., div, urx and ury (with or without _fft) *)
Inductive key := Var (d : deriv) (v : nvar) | Div | Rotational (v : nvar).

Section SebNormal.
Variable o : oper.
Variable ms : list mode.
Variable dea : mode -> bool.
Variables f c2 : R.

(** normal_mode.py 155-198 and, for urx and ury, 368-399; [br]: bvecrot_fft *)
Definition modes_of (b br : vfield) (k : key) (j : nat) : field :=
  match k with
  | Var d v => normalmode o f c2 b d v j
  | Div => normalmode_div o f c2 b j
  | Rotational v => normalmode o f c2 br NoD v j
  end.

(** normal_mode.py 345-366 (compute of NormalModeDecompositionModified) *)
Definition bvec_rot (s : vfield) : vfield :=
  let '(ux, uy, eta) := s in
  let rot := rot_from_vec o ux uy in
  bvec_of_fields o f c2 (ux_from_rot o rot, uy_from_rot o rot, eta).

(** 310-341 and 698-718 (_transfer_keys_coeff) *)
Definition transfer_keys : list (R * key * key * key) :=
  [(-1, Var NoD Ux, Var NoD Ux, Var Px Ux);
   (-1, Var NoD Ux, Var NoD Uy, Var Py Ux);
   (-1, Var NoD Uy, Var NoD Ux, Var Px Uy);
   (-1, Var NoD Uy, Var NoD Uy, Var Py Uy);
   (1 / 2 * c2, Var Px Eta, Var NoD Eta, Var NoD Ux);
   (1 / 2 * c2, Var Py Eta, Var NoD Eta, Var NoD Uy);
   (- (1 / 2), Var NoD Ux, Var NoD Ux, Div);
   (- (1 / 2), Var NoD Uy, Var NoD Uy, Div);
   (1 / 4 * c2, Div, Var NoD Eta, Var NoD Eta)].
Definition transfer_keys_modified : list (R * key * key * key) :=
  [(-1, Var NoD Ux, Rotational Ux, Var Px Ux);
   (-1, Var NoD Ux, Rotational Uy, Var Py Ux);
   (-1, Var NoD Uy, Rotational Ux, Var Px Uy);
   (-1, Var NoD Uy, Rotational Uy, Var Py Uy);
   (- c2, Var NoD Eta, Rotational Ux, Var Px Eta);
   (- c2, Var NoD Eta, Rotational Uy, Var Py Eta)].

(** an element of the dictionary of the groups; the KeyError ([None]) does not occur (C113) *)
Definition get_group (l : option (list (string * C))) (g : string) : C :=
  match l with
  | None => RtoC 0
  | Some l => match find (fun p => String.eqb (fst p) g) l with Some p => snd p | None => RtoC 0 end
  end.

(** 366-379: Tq_fft[g] *)
Definition Tq_term (b br : vfield) (k1 k2 k3 : key) (m : mode) : option (list (string * C)) :=
  triad_of_products (fun i => modes_of b br k1 i m)
    (fun i j => dealiasing dea (fft o (gmul (ifft o ms (modes_of b br k2 i)) (ifft o ms (modes_of b br k3 j)))) m).
Fixpoint Tq_fft (keys : list (R * key * key * key)) (b br : vfield) (g : string) (m : mode) : R :=
  match keys with
  | [] => 0
  | (c, k1, k2, k3) :: keys => fst (RtoC c * get_group (Tq_term b br k1 k2 k3 m) g)%C + Tq_fft keys b br g m
  end.

(** 386-399: Cq_fft[g] *)
Definition Cq_fft (b br : vfield) (g : string) (m : mode) : R :=
  fst (RtoC (- c2) * get_group (dyad true (fun i => modes_of b br (Var NoD Ux) i m) (fun i => modes_of b br (Var Px Eta) i m)) g)%C
  + fst (RtoC (- c2) * get_group (dyad true (fun i => modes_of b br (Var NoD Uy) i m) (fun i => modes_of b br (Var Py Eta) i m)) g)%C.

(** 357-362, 406-430: Tnq_fft *)
Definition Tnq_fft (s : vfield) (m : mode) : R :=
  let '(ux_fft, uy_fft, eta_fft) := s in
  let ux := ifft o ms ux_fft in
  let uy := ifft o ms uy_fft in
  let eta := ifft o ms eta_fft in
  let Mx_fft := dealiasing dea (fft o (gmul eta ux)) in
  let My_fft := dealiasing dea (fft o (gmul eta uy)) in
  let u_udM := (Cconj (ux_fft m) * fnonlin o ms dea ux uy Mx_fft m + Cconj (uy_fft m) * fnonlin o ms dea ux uy My_fft m)%C in
  let M_udu := (Mx_fft m * Cconj (fnonlin o ms dea ux uy ux_fft m) + My_fft m * Cconj (fnonlin o ms dea ux uy uy_fft m))%C in
  let divM := ifft o ms (divfft_from_vecfft o Mx_fft My_fft) in
  let ux_divM := dealiasing dea (fft o (gmul ux divM)) in
  let uy_divM := dealiasing dea (fft o (gmul uy divM)) in
  let u_u_divM := (Cconj (ux_fft m) * ux_divM m + Cconj (uy_fft m) * uy_divM m)%C in
  1 / 2 * fst (M_udu + u_udM - u_u_divM)%C.

(** 343-469 (compute) *)
Definition sw1l_budget (modified : bool) (s : vfield) : densities :=
  let b := bvec_of_fields o f c2 s in
  let br := bvec_rot s in
  let Tq := Tq_fft (if modified then transfer_keys_modified else transfer_keys) b br in
  let Cq := Cq_fft b br in
  [("Tq_GGG"%string, Tq "GGG"%string);
   ("Tq_AGG"%string, Tq "AGG"%string);
   ("Tq_GAAs"%string, Tq "GAAs"%string);
   ("Tq_GAAd"%string, Tq "GAAd"%string);
   ("Tq_AAA"%string, Tq "AAA"%string);
   ("Tnq"%string, Tnq_fft s);
   ("Cq_GG"%string, Cq "GG"%string);
   ("Cq_AG"%string, Cq "AG"%string);
   ("Cq_aG"%string, Cq "aG"%string);
   ("Cq_AA"%string, Cq "AA"%string);
   ("Tens"%string, fun m => K2_2d o m * Tq "GGG"%string m)].
End SebNormal.
