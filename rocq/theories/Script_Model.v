(** Model of fluidsim/util/scripts/turb_trandom_anisotropic.py (create_params) and of
    fluidsim/solvers/plate2d/dimensional.py (Converter).

    Simplifications: exact numbers; the names of the runs, the messages, --modify-params and the parameters which are only
    copied are left out. *)
From Coq Require Import String Reals List ZArith.
Import ListNotations.
Local Open Scope R_scope.

Inductive error := ValueError | ZeroDivisionError | TypeError | KeyError.

(** the arguments of the script *)
Record args := mkArgs {
  a_nz : nat; ratio_nh_nz : Z; a_N : R; a_nu : option R; a_nu4 : option R; a_Rb : option R; a_Rb4 : option R; coef_nu4 : R;
  forced_field : string; nh_forcing : Z; ratio_kfmin_kf : R; ratio_kfmax_kf : R; a_F : R; delta_F : R; coef_dealiasing : R;
  spatiotemporal_spectra : bool }.
(** 83-273: the default values *)
Definition default_args : args :=
  mkArgs 32 4 10 None None None None 1 "polo" 3 (1 / 2) 2 (3 / 10) (1 / 10) (8 / 10) false.

Record params := mkParams {
  nx : Z; ny : Z; nz : nat; Lx : R; Ly : R; Lz : R; N : R; nu_2 : R; nu_4 : R; key_forced : string; noise_length : R;
  nkmin_forcing : R; nkmax_forcing : R; deltat_max : R; time_correlation : R; angle : R; delta_angle : R;
  period_spatiotemporal : option R; probes_region : Z * Z * Z }.

(** a / b *)
Definition div (a b : R) : R + error := if Req_EM_T b 0 then inr ZeroDivisionError else inl (a / b).
Definition bind {A B : Type} (x : A + error) (f : A -> B + error) : B + error := match x with inl a => f a | inr e => inr e end.
(** x ** a for a > 0: a negative number gives a complex one, which cannot be compared *)
Definition power (x a : R) : R + error := if Rlt_dec x 0 then inr TypeError else if Req_EM_T x 0 then inl 0 else inl (Rpower x a).
(** round(x, 3): to the nearest, to the even number of thousandths in the middle *)
Definition round_even (x : R) : Z :=
  let f := Int_part x in
  if Rlt_dec (frac_part x) (1 / 2) then f else if Rlt_dec (1 / 2) (frac_part x) then (f + 1)%Z else if Z.even f then f else (f + 1)%Z.
Definition round3 (x : R) : R := IZR (round_even (x * 1000)) / 1000.
(** math.asin *)
Definition math_asin (x : R) : R + error := if Rlt_dec 1 (Rabs x) then inr ValueError else inl (asin x).

Definition keys_versus_kind (kind : string) : option string :=
  if String.eqb kind "toro" then Some "vt_fft"%string else if String.eqb kind "polo" then Some "vp_fft"%string
  else if String.eqb kind "buoyancy" then Some "b_fft"%string else if String.eqb kind "vert" then Some "vz_fft"%string else None.

(** 320-339: the viscosity *)
Definition viscosity (a : args) : R + error :=
  match a_nu a, a_Rb a with
  | Some _, Some _ => inr ValueError
  | Some nu, None => if Req_EM_T nu 0 then inl nu else bind (div 1 (nu * a_N a ^ 2)) (fun _ => inl nu)
  | None, Some Rb => div 1 (Rb * a_N a ^ 2)
  | None, None => div 1 (5 * a_N a ^ 2)
  end.

(** 341-373: the hyper viscosity *)
Definition hyper_viscosity (a : args) (nu delta_kz : R) : R + error :=
  match a_nu4 a, a_Rb4 a with
  | Some _, Some _ => inr ValueError
  | Some nu4, None => inl nu4
  | None, Some Rb4 => div 1 (Rb4 * a_N a ^ 4)
  | None, None =>
      bind (power (nu ^ 3 / 1) (1 / 4)) (fun eta =>
      let k_max := coef_dealiasing a * delta_kz * INR (a_nz a) / 2 in
      if Rlt_dec 1 (eta * k_max) then inl 0
      else bind (power k_max (10 / 3)) (fun kp =>
           bind (div (coef_nu4 a * 1) kp) (fun nu4 =>
           bind (div 1 (nu4 * a_N a ^ 4)) (fun _ => inl nu4))))
  end.

(** 275-449 *)
Definition create_params (a : args) : params + error :=
  let nh := (Z.of_nat (a_nz a) * ratio_nh_nz a)%Z in
  if (ratio_nh_nz a <? 1)%Z then inr ValueError
  else
    let Lh := IZR (nh_forcing a) in
    let lz := Lh / IZR (ratio_nh_nz a) in
    bind (div (2 * PI) lz) (fun delta_kz =>
    bind (div 1 (a_N a)) (fun _Fh =>
    bind (viscosity a) (fun nu =>
    bind (hyper_viscosity a nu delta_kz) (fun nu4 =>
    match keys_versus_kind (forced_field a) with
    | None => inr KeyError
    | Some key =>
        bind (math_asin (a_F a)) (fun ang =>
        bind (math_asin (delta_F a)) (fun delta_ang =>
        bind (div (2 * PI / 1) (sin ang)) (fun kf =>
        let kf_min := kf * ratio_kfmin_kf a in
        let kf_max := kf * ratio_kfmax_kf a in
        let nkmin := Rmax 0 (round3 (kf_min / delta_kz)) in
        let nkmax := Rmin (INR (a_nz a / 2)) (round3 (kf_max / delta_kz)) in
        let period_N := 2 * PI / a_N a in
        bind (div (2 * PI) (a_N a * a_F a)) (fun tcorr =>
        inl (mkParams nh nh (a_nz a) Lh Lh lz (a_N a) nu nu4 key (lz / 2) nkmin nkmax (Rmin (1 / 10) (period_N / 16)) tcorr
               (round3 ang) (round3 delta_ang) (if spatiotemporal_spectra a then Some (period_N / 8) else None)
               ((16 * ratio_nh_nz a)%Z, (16 * ratio_nh_nz a)%Z, 16%Z))))))
    end)))).

(** base/forcing/specific.py 173-177: the forcing refuses nkmax_forcing < nkmin_forcing *)
Definition forcing_accepts (p : params) : Prop := ~ nkmax_forcing p < nkmin_forcing p.

(** ** The plates (dimensional.py) *)

Record converter := mkConverter { tilde_T : R; tilde_Z : R; tilde_L : R; tilde_nu4 : R }.
(** 43-52 *)
Definition make_converter (C h L sigma : R) : converter :=
  let t := L ^ 2 / sqrt C in mkConverter t (h / sqrt (6 * (1 - sigma))) L (L ^ 4 / t).
(** 54-84 *)
Definition compute_time_adim (c : converter) (t : R) : R := t / tilde_T c.
Definition compute_time_dim (c : converter) (t : R) : R := t * tilde_T c.
Definition compute_z_adim (c : converter) (z : R) : R := z / tilde_Z c.
Definition compute_z_dim (c : converter) (z : R) : R := z * tilde_Z c.
Definition compute_w_adim (c : converter) (w : R) : R := tilde_T c / tilde_Z c * w.
Definition compute_w_dim (c : converter) (w : R) : R := tilde_Z c / tilde_T c * w.
Definition compute_nu4_adim (c : converter) (nu4 : R) : R := nu4 / tilde_nu4 c.
Definition compute_nu4_dim (c : converter) (nu4 : R) : R := nu4 * tilde_nu4 c.
