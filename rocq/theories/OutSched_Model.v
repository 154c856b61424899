(** * When the outputs are saved, printed and plotted

    Times are rationals (every double is one).  [teps t] is the double tsim + 1e-15; it is a
    parameter, because the sum is rounded (from t = 8 on the sum is t itself).  The floor division
    of doubles is the exact floor of the quotient.  What is written in the files is in
    OutFiles_Model.v; here a save is only recorded by its time. *)

From Coq Require Import QArith Qround ZArith List Bool Arith.
Import ListNotations.

Local Open Scope Q_scope.

Section Sched.

Variable teps : Q -> Q.

Inductive kind := Elapsed | Slot.

(** base/output/base.py 597-600 (SpecificOutput._online_save), spectra.py 414-417,
    spectra_multidim.py 76-80, time_signals_fft.py 203, phys_fields.py 119-122 (_online_plot) *)
Definition has_to_save_elapsed (period tsim t_last_save : Q) : bool :=
  Qle_bool period (tsim - t_last_save).

(** Python floor division of floats *)
Definition floordiv (a b : Q) : Z := Qfloor (a / b).

(** base/output/base.py 675-678 (_has_to_online_save); the same expression is inlined in
    spatial_means.py 87-94, print_stdout.py 86-93, temporal_spectra.py 370-375,
    spatiotemporal_spectra.py 440-445 *)
Definition has_to_online_save (period tsim t_last_save : Q) : bool :=
  (floordiv t_last_save period <? floordiv (teps tsim) period)%Z.

Record output := mkO {
  knd : kind;
  period : Q;          (* params.output.periods_save.<tag>, periods_print, periods_plot *)
  t_last_save : Q;     (* t_last_save, t_last_plot or t_last_print_info *)
  saved : list Q       (* times of the saves, the latest first *)
}.

Definition has_to (o : output) (tsim : Q) : bool :=
  match knd o with
  | Elapsed => has_to_save_elapsed (period o) tsim (t_last_save o)
  | Slot => has_to_online_save (period o) tsim (t_last_save o)
  end.

(** _online_save / _online_plot / _online_print of one output: t_last_save becomes tsim (not
    tsim + 1e-15) *)
Definition online_save (tsim : Q) (o : output) : output :=
  if has_to o tsim then mkO (knd o) (period o) tsim (tsim :: saved o) else o.

(** base/output/base.py 311-327 (one_time_step): the outputs with a non zero period, in order.
    [plot_ok] and [has_to_save] are params.ONLINE_PLOT_OK and _has_to_save. *)
Definition call_nonzero (tsim : Q) (o : output) : output :=
  if Qeq_bool (period o) 0 then o else online_save tsim o.

Record outputs := mkOs { prints : list output; plots : list output; saves : list output }.

Definition one_time_step (plot_ok has_to_save : bool) (tsim : Q) (os : outputs) : outputs :=
  mkOs (map (call_nonzero tsim) (prints os))
       (if plot_ok then map (call_nonzero tsim) (plots os) else plots os)
       (if has_to_save then map (call_nonzero tsim) (saves os) else saves os).

Definition run_outputs (plot_ok has_to_save : bool) (ts : list Q) (os : outputs) : outputs :=
  fold_left (fun os t => one_time_step plot_ok has_to_save t os) ts os.

(** one output alone, called at the times [ts] *)
Definition run (ts : list Q) (o : output) : output :=
  fold_left (fun o t => online_save t o) ts o.

(** initial values: base.py 580-595 (_init_files saves a record at the initial time),
    spatial_means.py 70-73 (idem), phys_fields.py 70-75 (nothing is saved),
    print_stdout.py 66-74 (t_last_print_info is minus the period) *)
Definition init_specific (k : kind) (p t0 : Q) : output := mkO k p t0 [t0].
Definition init_phys_fields (p t0 : Q) : output := mkO Slot p t0 [].
Definition init_print (p : Q) : output := mkO Slot p (- p) [].

End Sched.

Local Open Scope nat_scope.

(** ** spectra3d.py 102-187: the kzkh spectra are saved once every [kzkh_periodicity] saves

    A record is identified by the position it has in spectra1d.h5. *)
Record spectra := mkSp {
  nb_saved_times : nat;
  n1d : nat;                 (* number of records in spectra1d.h5 (and spectra3d.h5) *)
  kzkh : list nat            (* positions of the records also present in spectra_kzkh.h5 *)
}.

(** spectra3d.py 156-165 *)
Definition has_to_save_kzkh (periodicity : nat) (nb : nat) : bool :=
  negb (Nat.eqb periodicity 0) && Nat.eqb (Nat.modulo nb periodicity) 0.

(** spectra3d.py 120-154 (_init_files); [None]: the file does not exist.  dict_kzkh is computed
    with nb_saved_times = 0, hence always available here. *)
Definition spectra_init (periodicity : nat) (files : option (nat * list nat)) : spectra :=
  match files with
  | None => mkSp 1 1 (if negb (Nat.eqb periodicity 0) then [0] else [])
  | Some (n, l) =>
      let nb := n + 1 in
      mkSp nb (n + 1) (if has_to_save_kzkh periodicity nb then l ++ [n] else l)
  end.

(** spectra3d.py 174-187 (_online_save, once the test on the time is passed) *)
Definition spectra_save (periodicity : nat) (s : spectra) : spectra :=
  mkSp (nb_saved_times s + 1) (n1d s + 1)
       (if has_to_save_kzkh periodicity (nb_saved_times s) then kzkh s ++ [n1d s] else kzkh s).

Fixpoint spectra_saves (periodicity : nat) (n : nat) (s : spectra) : spectra :=
  match n with
  | O => s
  | S m => spectra_saves periodicity m (spectra_save periodicity s)
  end.

(** a run: creation of the object, then [n] saves; a history is a list of runs (restarts) *)
Definition spectra_run (periodicity : nat) (files : option (nat * list nat)) (n : nat)
  : option (nat * list nat) :=
  let s := spectra_saves periodicity n (spectra_init periodicity files) in
  Some (n1d s, kzkh s).

Definition spectra_history (periodicity : nat) (runs : list nat) : option (nat * list nat) :=
  fold_left (spectra_run periodicity) runs None.

Local Open Scope Q_scope.

(** ** solvers/plate2d/output/correlations_freq.py: sampling of the time signals

    The time step is constant (deltat is checked at restart, line 217).  The exact quotient
    t / deltat after step number i is i; its rounding is a parameter [itsim] of the functions.  The calls after
    the steps 1, ..., n are modelled (not the repeated call of end_of_simul). *)
Record correl := mkC {
  it_last_run : Q;
  nb_in_spatio_temp : nat;
  filled : list nat         (* numbers of the steps at which spatio_temp has been filled *)
}.

(** correlations_freq.py 186 and 206 *)
Definition correl_init (it_start : Q) : correl := mkC it_start 0%nat [].

(** correlations_freq.py 279-293 (_online_save): [p] is periods_save.correl_freq *)
Definition correl_online_save (itsim : nat -> Q) (p : Q) (nb_times_compute : nat) (i : nat)
  (c : correl) : correl :=
  if Qle_bool (p - 1) (itsim i - it_last_run c) then
    let nb := (nb_in_spatio_temp c + 1)%nat in
    mkC (itsim i) (if Nat.eqb nb nb_times_compute then 0%nat else nb) (i :: filled c)
  else c.

Definition correl_run (itsim : nat -> Q) (p : Q) (nb_times_compute : nat) (n : nat) (c : correl)
  : correl :=
  fold_left (fun c i => correl_online_save itsim p nb_times_compute i c) (seq 1 n) c.

(** correlations_freq.py 231-237: the interval between two samples assumed for the frequencies *)
Definition dt_output (p deltat : Q) : Q := p * deltat.
Definition omega_spacing_times_2pi_inverse (p deltat : Q) (nb_times_compute : nat) : Q :=
  inject_Z (Z.of_nat nb_times_compute) * dt_output p deltat.
