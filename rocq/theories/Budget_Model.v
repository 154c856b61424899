(** * The tendencies of the pseudo-spectral solvers (tendencies_nonlin)

    fluidsim/solvers/{ns2d,ns2d/strat,ns2d/bouss,ns2d/with_uxuy,ns3d,ns3d/strat,ns3d/bouss,burgers1d,burgers1d/skew_sym,
    nl1d,waves2d,ad1d/pseudo_spect}.

    The state is given by its coefficients on the modes [ms] (all the modes, not only the half of them which is stored by a
    transform of real fields); the transforms are the sums of DFT.v. Exact numbers. Without forcing and without subgrid
    model. The shared arrays are the subject of the area InPlace: here the functions return their result. The operators
    of fluidfft (gradient, curl, vecfft_from_rotfft, project_perpk3d, div_vb_fft_from_vb, vector_product) are written
    from their documentation. *)

From Coq Require Import Reals ZArith List Bool.
From Coquelicot Require Import Complex.
From Verif Require Import CExp DFT Alias_Model Oper_Model.
Local Open Scope R_scope.

Notation field := (mode -> C).
Notation vfield := (field * field * field)%type.
Definition gfield := nat -> nat -> nat -> C.

Definition lift2 (f : C -> C -> C) (u v : gfield) : gfield := fun jx jy jz => f (u jx jy jz) (v jx jy jz).
Definition rsc (a : R) (u : gfield) : gfield := fun jx jy jz => (RtoC a * u jx jy jz)%C.
Definition gopp (u : gfield) : gfield := fun jx jy jz => (- u jx jy jz)%C.
Definition gmul := lift2 Cmult.
Definition gadd := lift2 Cplus.
Definition gsub := lift2 Cminus.

Section Solvers.
Variable o : oper.
Variable ms : list mode.
Variable where_dealiased : mode -> bool.

Definition ifft (a : field) : gfield := idft (grid_of o) ms a.
Definition fft (u : gfield) : field := dft (grid_of o) u.

(** operators2d.py 200-220, operators1d.py 74-, operators3d.py: dealiasing *)
Definition dealiasing (f : field) : field := fun m => if where_dealiased m then RtoC 0 else f m.

(** fluidfft *)
Definition px_fft (f : field) : field := fun m => (Ci * RtoC (Kx o m) * f m)%C.
Definition py_fft (f : field) : field := fun m => (Ci * RtoC (Ky o m) * f m)%C.
Definition pz_fft (f : field) : field := fun m => (Ci * RtoC (Kz o m) * f m)%C.

Definition K2_not0 (m : mode) : R := if ((mx m =? 0) && (my m =? 0))%Z then 1 else K2_2d o m.

Definition ux_from_rot (rot : field) : field := fun m => (Ci * RtoC (Ky o m / K2_not0 m) * rot m)%C.
Definition uy_from_rot (rot : field) : field := fun m => (- Ci * RtoC (Kx o m / K2_not0 m) * rot m)%C.
Definition rot_from_vec (ux uy : field) : field := fun m => (Ci * RtoC (Kx o m) * uy m - Ci * RtoC (Ky o m) * ux m)%C.

(** ** ns2d *)

(** solvers/ns2d/solver.py 33-39 (compute_Frot) *)
Definition compute_Frot (ux uy px_rot py_rot : gfield) (beta : R) : gfield :=
  if Req_EM_T beta 0 then gsub (gmul (gopp ux) px_rot) (gmul uy py_rot)
  else gsub (gmul (gopp ux) px_rot) (gmul uy (fun jx jy jz => py_rot jx jy jz + RtoC beta)%C).

(** solvers/ns2d/solver.py 111-187 (tendencies_nonlin) *)
Definition ns2d (beta : R) (rot : field) : field :=
  let ux := ifft (ux_from_rot rot) in
  let uy := ifft (uy_from_rot rot) in
  let px_rot := ifft (px_fft rot) in
  let py_rot := ifft (py_fft rot) in
  dealiasing (fft (compute_Frot ux uy px_rot py_rot beta)).

(** solvers/ns2d/with_uxuy.py 91-136 (tendencies_nonlin) *)
Definition ns2d_uxuy (beta : R) (u : field * field) : field * field :=
  let rot := rot_from_vec (fst u) (snd u) in
  let ux := ifft (fst u) in
  let uy := ifft (snd u) in
  let px_rot := ifft (px_fft rot) in
  let py_rot := ifft (py_fft rot) in
  let Frot := dealiasing (fft (compute_Frot ux uy px_rot py_rot beta)) in
  (ux_from_rot Frot, uy_from_rot Frot).

(** solvers/ns2d/strat/solver.py 21-28 (tendencies_nonlin_ns2dstrat) and 71-181 (tendencies_nonlin): the parameter
    beta of ns2d, which this solver also has, is not used *)
Definition ns2d_strat (N beta : R) (s : field * field) : field * field :=
  let (rot, b) := s in
  let ux := ifft (ux_from_rot rot) in
  let uy := ifft (uy_from_rot rot) in
  let px_rot := ifft (px_fft rot) in
  let py_rot := ifft (py_fft rot) in
  let px_b := ifft (px_fft b) in
  let py_b := ifft (py_fft b) in
  let Frot := gsub (gmul (gopp ux) px_rot) (gmul uy py_rot) in
  let Fb := gsub (gsub (gmul (gopp ux) px_b) (gmul uy py_b)) (rsc (N ^ 2) uy) in
  (dealiasing (fun m => fft Frot m + px_fft b m)%C, dealiasing (fft Fb)).

(** solvers/ns2d/bouss/solver.py 21-27 (tendencies_nonlin_ns2dbouss) and 65-173 *)
Definition ns2d_bouss (s : field * field) : field * field :=
  let (rot, b) := s in
  let ux := ifft (ux_from_rot rot) in
  let uy := ifft (uy_from_rot rot) in
  let px_rot := ifft (px_fft rot) in
  let py_rot := ifft (py_fft rot) in
  let px_b := ifft (px_fft b) in
  let py_b := ifft (py_fft b) in
  let Frot := gadd (gsub (gmul (gopp ux) px_rot) (gmul uy py_rot)) px_b in
  let Fb := gsub (gmul (gopp ux) px_b) (gmul uy py_b) in
  (dealiasing (fft Frot), dealiasing (fft Fb)).

(** solvers/ns2d/strat/solver.py 183-213 (check_energy_conservation); the sums over the wavenumbers are over all the
    modes; 0/0 (nan) is not modelled: [None] *)
Definition rsum (f : mode -> R) : R := fst (lsum ms (fun m => RtoC (f m))).
Definition check_energy_conservation (N : R) (rot b f_rot f_b : field) : option bool :=
  let division m := if ((mx m =? 0) && (my m =? 0))%Z then 0 else 1 / K2_not0 m in
  let ptK m := 1 / 2 * division m * fst (Cconj (rot m) * f_rot m)%C in
  let ptA m := 1 / (2 * N ^ 2) * fst (Cconj (b m) * f_b m)%C in
  let pt m := ptK m + ptA m in
  if Req_EM_T (rsum (fun m => Rabs (pt m))) 0 then None
  else Some (if Rlt_dec (rsum pt / rsum (fun m => Rabs (pt m))) (/ 10 ^ 14) then true else false).

(** ** ns3d *)

Definition vxf (v : vfield) : field := fst (fst v).
Definition vyf (v : vfield) : field := snd (fst v).
Definition vzf (v : vfield) : field := snd v.

(** the values of a vector at a mode *)
Definition at_mode (v : vfield) (m : mode) : C * C * C := (vxf v m, vyf v m, vzf v m).
Definition on_modes (P : mode -> C * C * C -> C * C * C) (v : vfield) : vfield :=
  (fun m => fst (fst (P m (at_mode v m))), fun m => snd (fst (P m (at_mode v m))), fun m => snd (P m (at_mode v m))).

Definition curl (v : vfield) : vfield :=
  (fun m => py_fft (vzf v) m - pz_fft (vyf v) m, fun m => pz_fft (vxf v) m - px_fft (vzf v) m,
   fun m => px_fft (vyf v) m - py_fft (vxf v) m)%C.
Definition div (v : vfield) : field := fun m => (px_fft (vxf v) m + py_fft (vyf v) m + pz_fft (vzf v) m)%C.

Definition project_perpk3d (m : mode) (v : C * C * C) : C * C * C :=
  let r := project_kradial3d (Kx o m) (Ky o m) (Kz o m) v in
  (fst (fst v) - fst (fst r), snd (fst v) - snd (fst r), snd v - snd r)%C.

(** solvers/ns3d/solver.py 147-174 (_init_projection): params.projection; a name which is not known is an error at the
    initialization *)
Inductive projection := Perp | Toroidal | Poloidal.
Definition projector (pr : projection) (m : mode) : C * C * C -> C * C * C :=
  match pr with
  | Perp => project_perpk3d m
  | Toroidal => project_toroidal (Kx o m) (Ky o m)
  | Poloidal => project_poloidal (Kx o m) (Ky o m) (Kz o m)
  end.

(** 149-158: where_kz_0 *)
Definition zero_kz0 (no_vz_kz0 : bool) (f : field) : field := fun m => if no_vz_kz0 && (mz m =? 0)%Z then RtoC 0 else f m.

(** 248-257 (project_state_spect) *)
Definition project_state (pr : projection) (no_vz_kz0 : bool) (v : vfield) : vfield :=
  let w := on_modes (projector pr) v in (vxf w, vyf w, zero_kz0 no_vz_kz0 (vzf w)).

Definition vdealiasing (v : vfield) : vfield := (dealiasing (vxf v), dealiasing (vyf v), dealiasing (vzf v)).

(** 176-178 (_modif_omegafft_with_f) *)
Definition modif_omega (f : option R) (om : vfield) : vfield :=
  match f with
  | None => om
  | Some f => (vxf om, vyf om, fun m => if ((mx m =? 0) && (my m =? 0) && (mz m =? 0))%Z then (vzf om m + RtoC f)%C else vzf om m)
  end.

Definition vifft (v : vfield) : gfield * gfield * gfield := (ifft (vxf v), ifft (vyf v), ifft (vzf v)).
Definition vfft (u : gfield * gfield * gfield) : vfield := (fft (fst (fst u)), fft (snd (fst u)), fft (snd u)).

(** fluidfft (vector_product) *)
Definition vector_product (a b : gfield * gfield * gfield) : gfield * gfield * gfield :=
  let '(ax, ay, az) := a in let '(bx, by_, bz) := b in
  (gsub (gmul ay bz) (gmul az by_), gsub (gmul az bx) (gmul ax bz), gsub (gmul ax by_) (gmul ay bx)).

(** solvers/ns3d/solver.py 180-246 (tendencies_nonlin) *)
Definition ns3d (pr : projection) (no_vz_kz0 : bool) (f : option R) (v : vfield) : vfield :=
  let om := modif_omega f (curl v) in
  vdealiasing (project_state pr no_vz_kz0 (vfft (vector_product (vifft v) (vifft om)))).

(** fluidfft (div_vb_fft_from_vb) *)
Definition div_vb_fft (v : gfield * gfield * gfield) (b : gfield) : field :=
  let '(vx, vy, vz) := v in div (fft (gmul vx b), fft (gmul vy b), fft (gmul vz b)).

(** solvers/ns3d/strat/solver.py 26-30 (compute_fb_fft) and 138-207 (tendencies_nonlin) *)
Definition ns3d_strat (pr : projection) (no_vz_kz0 : bool) (f : option R) (N : R) (s : vfield * field) : vfield * field :=
  let (v, b) := s in
  let om := modif_omega f (curl v) in
  let g := vfft (vector_product (vifft v) (vifft om)) in
  let g := (vxf g, vyf g, fun m => vzf g m + b m)%C in
  let fb := fun m => (- div_vb_fft (vifft v) (ifft b) m - RtoC (N ^ 2) * vzf v m)%C in
  (vdealiasing (project_state pr no_vz_kz0 g), dealiasing (zero_kz0 no_vz_kz0 fb)).

(** solvers/ns3d/bouss/solver.py 99-166 *)
Definition ns3d_bouss (pr : projection) (no_vz_kz0 : bool) (f : option R) (s : vfield * field) : vfield * field :=
  let (v, b) := s in
  let om := modif_omega f (curl v) in
  let g := vfft (vector_product (vifft v) (vifft om)) in
  let g := (vxf g, vyf g, fun m => vzf g m + b m)%C in
  let fb := fun m => (- div_vb_fft (vifft v) (ifft b) m)%C in
  (vdealiasing (project_state pr no_vz_kz0 g), dealiasing (zero_kz0 no_vz_kz0 fb)).

(** ** burgers1d, nl1d *)

(** the last mode of the array, of number nkx - 1 = nx // 2 *)
Definition oddball (f : field) : field := fun m => if (Z.abs (mx m) =? Z.of_nat (Nat.div (nx o) 2))%Z then RtoC 0 else f m.

(** solvers/burgers1d/solver.py 69-100 *)
Definition burgers (u : field) : field :=
  oddball (dealiasing (fft (gmul (gopp (ifft u)) (ifft (px_fft u))))).

(** solvers/burgers1d/skew_sym/solver.py 30-66 *)
Definition burgers_skew (u : field) : field :=
  let signal := ifft u in
  let f_signal := gmul (rsc (- (1 / 2)) signal) (ifft (px_fft u)) in
  let cons := fun m => (RtoC (- (1 / 4)) * px_fft (fft (gmul signal signal)) m)%C in
  oddball (dealiasing (fun m => fft f_signal m + cons m)%C).

(** solvers/nl1d/solver.py 55-78; the array obtained by ifft is real *)
Definition sign (x : R) : R := if Rlt_dec 0 x then 1 else if Rlt_dec x 0 then - 1 else 0.
Definition nl1d (sigma : R) (s : field) : field :=
  let signal := fun jx jy jz => fst (ifft s jx jy jz) in
  dealiasing (fft (fun jx jy jz => RtoC (- sign (signal jx jy jz) * sigma * signal jx jy jz ^ 2))).

End Solvers.

(** ** Linear solvers: waves2d and ad1d.pseudo_spect *)

Inductive wave_key := KeyF | KeyG.

(** solvers/waves2d/solver.py 115-124 (compute_freq_complex) *)
Definition waves2d_freq (f c2 : R) (o : oper) (key : wave_key) (m : mode) : C :=
  match key with
  | KeyF => RtoC 0
  | KeyG => (Ci * RtoC (sqrt (f ^ 2 + c2 * K2_2d o m)))%C
  end.

(** solvers/ad1d/pseudo_spect/solver.py 66-69 *)
Definition ad1d_freq (U : R) (o : oper) (m : mode) : C := (Ci * RtoC U * RtoC (Kx o m))%C.

(** base/time_stepping/pseudo_spect.py: a step of duration dt with tendencies_nonlin = 0 (the two solvers) multiplies
    each variable by exp(- freq_lin dt) whatever the time scheme is; viscosities zero *)
Definition linear_step (freq : mode -> C) (dt : R) (a : field) : field := fun m => (cexp (- (freq m * RtoC dt)) * a m)%C.
Definition waves2d_step (f c2 : R) (o : oper) (dt : R) (s : field * field) : field * field :=
  (linear_step (waves2d_freq f c2 o KeyF) dt (fst s), linear_step (waves2d_freq f c2 o KeyG) dt (snd s)).
Definition ad1d_step (U : R) (o : oper) (dt : R) (s : field) : field := linear_step (ad1d_freq U o) dt s.
