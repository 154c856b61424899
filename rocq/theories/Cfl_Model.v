(** * Model of the adaptive time step

    Models the CFL functions of fluidsim/base/time_stepping/base.py (class
    TimeSteppingBase), their override in fluidsim/solvers/ns2d/strat/time_stepping.py,
    and the order of the initialisations in
    fluidsim/base/time_stepping/pseudo_spect.py.

    Floats are exact rationals; NaN and infinities are not modelled.  Fields are
    the lists of their values on the grid points owned by one process. *)

From Coq Require Import ZArith QArith Qabs Qminmax List Bool.
Import ListNotations.
Open Scope Q_scope.

(** Python's [a < b] on numbers. *)
Definition qlt_bool (a b : Q) : bool := negb (Qle_bool b a).

(** Python's builtin max/min with two arguments: the first one is kept unless the
    second is strictly greater/smaller. *)
Definition pymax (a b : Q) : Q := if qlt_bool a b then b else a.
Definition pymin (a b : Q) : Q := if qlt_bool b a then b else a.

(** arr.min() / arr.max() of numpy; [None]: ValueError for an empty array. *)
Definition arr_min (l : list Q) : option Q :=
  match l with [] => None | x :: l' => Some (fold_left pymin l' x) end.
Definition arr_max (l : list Q) : option Q :=
  match l with [] => None | x :: l' => Some (fold_left pymax l' x) end.

(** max_abs, base.py 25-26. *)
Definition max_abs (l : list Q) : option Q :=
  match arr_min l, arr_max l with
  | Some a, Some b => Some (pymax (Qabs a) (Qabs b))
  | _, _ => None
  end.

(** mpi.comm.allreduce(_, op=MAX) of the values of all the processes.  The model
    takes the list of the values (at least one process). *)
Definition allreduce_max (tmps : list Q) : Q :=
  match tmps with [] => 0 | x :: l => fold_left pymax l x end.

(** "if mpi.nb_proc > 1: tmp = mpi.comm.allreduce(tmp, op=MAX)" on the process
    whose local value is [own], [all] being the local values of all the
    processes (base.py 342-343, 397-398, strat/time_stepping.py 150-151). *)
Definition reduce_tmp (all : list Q) (own : Q) : Q :=
  if (1 <? length all)%nat then allreduce_max all else own.

(** [tmp] of _compute_time_increment_CLF_uxuyuz, base.py 321-339: local to one
    process, with the test on the size. *)
Definition tmp_uxuyuz (dx dy dz : Q) (ux uy uz : list Q) : option Q :=
  match ux with
  | [] => Some 0
  | _ => match max_abs ux, max_abs uy, max_abs uz with
         | Some a, Some b, Some c => Some (a / dx + b / dy + c / dz)
         | _, _, _ => None
         end
  end.

(** [tmp] of _compute_time_increment_CLF_uxuy, base.py 359-367 (no test on the
    size: ValueError on a process without grid point). *)
Definition tmp_uxuy (dx dy : Q) (ux uy : list Q) : option Q :=
  match max_abs ux, max_abs uy with
  | Some a, Some b => Some (a / dx + b / dy)
  | _, _ => None
  end.

(** [tmp] of _compute_time_increment_CLF_ux, base.py 414-418. *)
Definition tmp_ux (dx : Q) (ux : list Q) : option Q :=
  match max_abs ux with Some a => Some (a / dx) | None => None end.

(** [tmp] of _compute_time_increment_CLF_U, base.py 421-425 (no absolute value). *)
Definition tmp_U (dx U : Q) : Q := U / dx.

(** End of all the CFL functions (base.py 350-354, 409-412,
    strat/time_stepping.py 174-176). *)
Definition update_dt (dt maybe_new_dt : Q) : Q :=
  let normalize_diff := Qabs (dt - maybe_new_dt) / maybe_new_dt in
  if qlt_bool (2 # 100) normalize_diff then maybe_new_dt else dt.

Definition deltat_cfl (CFL deltat_max tmp : Q) : Q :=
  if qlt_bool 0 tmp then CFL / tmp else deltat_max.

(** _compute_time_increment_CLF_from_tmp, base.py 341-354, on the process which
    has the time step [dt] and the local value [own]. *)
Definition clf_from_tmp (CFL deltat_max : Q) (all : list Q) (own dt : Q) : Q :=
  let tmp := reduce_tmp all own in
  update_dt dt (pymin (deltat_cfl CFL deltat_max tmp) deltat_max).

(** _compute_time_increment_CLF_uxuyeta, base.py 370-412.  [cph] is the phase
    speed (its square root formula is not modelled: any positive number). *)
Definition clf_uxuyeta (CFL deltat_max dx dy cph : Q) (all : list Q) (own dt : Q) : Q :=
  let tmp := reduce_tmp all own in
  let deltat_wave := CFL * pymin dx dy / cph in
  update_dt dt
    (pymin (pymin (deltat_cfl CFL deltat_max tmp) deltat_wave) deltat_max).

(** _compute_time_increment_CFL_uxuyb, ns2d/strat/time_stepping.py 138-176.
    [coef_group]: truth value of self.coef_group; [deltat_f]: [Some] when the
    forcing is enabled. *)
Definition clf_uxuyb (CFL deltat_max dt_disp dt_group : Q) (coef_group : bool)
           (deltat_f : option Q) (all : list Q) (own dt : Q) : Q :=
  let tmp := reduce_tmp all own in
  let dcfl := deltat_cfl CFL deltat_max tmp in
  let new := if coef_group
             then pymin (pymin (pymin dcfl dt_disp) dt_group) deltat_max
             else pymin (pymin dcfl dt_disp) deltat_max in
  let new := match deltat_f with None => new | Some f => pymin new f end in
  update_dt dt new.

(** ** Initialisation, base.py 247-297 and pseudo_spect.py 173-188 *)

Inductive scheme_family := RK2like | Eulerlike | RK4like | OtherScheme.

Record ts_params := {
  tp_use_cfl : bool;
  tp_cfl_coef : option Q;
  tp_scheme : scheme_family;    (* prefix of type_time_scheme *)
  tp_deltat0 : Q;
  tp_deltat_max : Q
}.

(** Attributes set by the initialisation; [None]: not set. *)
Record ts_attrs := {
  at_cfl : option Q;
  at_deltat : option Q;
  at_deltat_max : option Q
}.

Definition no_attrs := {| at_cfl := None; at_deltat := None; at_deltat_max := None |}.

(** _init_freq_lin, pseudo_spect.py 179-190: [freq_max] is
    [Some max(imag(freq_complex))] when the solver has compute_freq_complex.
    [pi] is a rational standing for np.pi. *)
Definition init_freq_lin (pi : Q) (freq_max : option Q) (a : ts_attrs) : ts_attrs :=
  match freq_max with
  | Some f => {| at_cfl := at_cfl a; at_deltat := at_deltat a;
                 at_deltat_max := Some ((78 # 100) * pi / f) |}
  | None => a
  end.

(** _init_compute_time_step, base.py 247-297; [None]: ValueError.  The choice of
    the CFL function is not modelled (a velocity is assumed to be available). *)
Definition init_compute_time_step (p : ts_params) (a : ts_attrs) : option ts_attrs :=
  let ocfl :=
    if tp_use_cfl p then
      match tp_cfl_coef p with
      | Some c => Some (Some c)
      | None => match tp_scheme p with
                | RK2like | Eulerlike => Some (Some (4 # 10))
                | RK4like => Some (Some 1)
                | OtherScheme => None
                end
      end
    else Some (at_cfl a) in
  match ocfl with
  | None => None
  | Some c => Some {| at_cfl := c; at_deltat := Some (tp_deltat0 p);
                      at_deltat_max := Some (tp_deltat_max p) |}
  end.

(** init_from_params, pseudo_spect.py 173-177 (the part on time steps). *)
Definition init_from_params (pi : Q) (freq_max : option Q) (p : ts_params)
  : option ts_attrs :=
  init_compute_time_step p (init_freq_lin pi freq_max no_attrs).

(** ** Histories *)

(** All the processes do the update [upd], each one with its local value and its
    own time step. *)
Definition mpi_step (upd : list Q -> Q -> Q -> Q) (dts all : list Q) : list Q :=
  map (fun od => upd all (fst od) (snd od)) (combine all dts).

(** Successive updates, for the successive lists of local values. *)
Definition mpi_run (upd : list Q -> Q -> Q -> Q) (dts : list Q) (hist : list (list Q))
  : list Q :=
  fold_left (mpi_step upd) hist dts.
