(** Model of the cross correlations and of the loading of the 3D spectra: fluidsim/base/output/cross_corr3d.py,
    fluidsim/base/output/spectra3d.py (BaseSpectra), fluidsim/base/output/base.py (one_time_step, SpecificOutput),
    fluidsim/solvers/ns3d/output/spectra.py, fluidsim/solvers/ns3d/strat/output/spectra.py.

    Simplifications: exact numbers; new run (no file in the directory), one process; a file is the list of its times and
    its keys; the spectra of an array (oper.compute_1dspectra, compute_3dspectrum, compute_spectrum_kzkh) are given. *)
From Coq Require Import String ZArith QArith Qround Reals List Bool.
From Coquelicot Require Import Complex.
Import ListNotations.

(** ** Times of the records *)

(** params.output.periods_save.cross_corr, params.output.periods_save.spectra, params.output.cross_corr.kzkh_periodicity,
    params.output.spectra.kzkh_periodicity *)
Record params := mkParams { own_period : Q; spectra_period : Q; own_kzkh : nat; spectra_kzkh : nat }.

(** the attributes of the object and its files *)
Record state := mkState { t_last_save : Q; nb_saved_times : nat; times : list Q; times_kzkh : option (list Q) }.

(** Python //: None is ZeroDivisionError *)
Definition floordiv (x p : Q) : option Z := if Qeq_bool p 0 then None else Some (Qfloor (x / p)).

Definition eps : Q := 1 # 1000000000000000.

(** spectra3d.py 156-167, a and b % with b = 0 not evaluated *)
Definition has_to_save_kzkh (periodicity nb : nat) : bool := negb (Nat.eqb periodicity 0) && Nat.eqb (Nat.modulo nb periodicity) 0.

(** base.py 676-679 *)
Definition has_to_online_save (period t last : Q) : option bool :=
  match floordiv (t + eps) period, floordiv last period with Some a, Some b => Some (Z.ltb b a) | _, _ => None end.

(** spectra3d.py 98-112, 120-154; base.py 570-574: None is an object without files (t_last_save not defined) *)
Definition init_of (period : Q) (kzkh : nat) (t : Q) : option state :=
  if Qeq_bool period 0 then None else Some (mkState t 1 [t] (if Nat.eqb kzkh 0 then None else Some [t])).
Definition init (p : params) (t : Q) : option state := init_of (spectra_period p) (spectra_kzkh p) t.

(** spectra3d.py 169-185 *)
Definition online_save_of (period : Q) (kzkh : nat) (t : Q) (s : option state) : option (option state) :=
  match s with
  | None => None
  | Some s =>
      match has_to_online_save period t (t_last_save s) with
      | None => None
      | Some false => Some (Some s)
      | Some true =>
          let kz := if has_to_save_kzkh kzkh (nb_saved_times s) then match times_kzkh s with None => None | Some l => Some (l ++ [t]) end else times_kzkh s in
          Some (Some (mkState t (nb_saved_times s + 1) (times s ++ [t]) kz))
      end
  end.
Definition online_save (p : params) (t : Q) (s : option state) : option (option state) := online_save_of (spectra_period p) (spectra_kzkh p) t s.

(** base.py 323-327, the output cross_corr *)
Definition one_time_step (p : params) (t : Q) (s : option state) : option (option state) :=
  if Qeq_bool (own_period p) 0 then Some s else online_save p t s.

(** the output of a run over the times ts after t0; None is an exception *)
Fixpoint steps (p : params) (ts : list Q) (s : option state) : option (option state) :=
  match ts with [] => Some s | t :: ts => match one_time_step p t s with None => None | Some s => steps p ts s end end.
Definition run (p : params) (t0 : Q) (ts : list Q) : option (option state) := steps p ts (init p t0).

(** ** Cross correlations *)

Local Open Scope string_scope.

(** key[:-4] *)
Definition drop4 (key : string) : string := substring 0 (String.length key - 4) key.
(** cross_corr3d.py 21-25 *)
Definition make_small_key (key : string) : string :=
  let small_key := drop4 key in
  if Nat.eqb (String.length small_key) 2 && prefix "v" small_key then substring 1 1 small_key else small_key.

(** itertools.combinations(keys, 2) *)
Fixpoint combinations {A : Type} (l : list A) : list (A * A) :=
  match l with [] => [] | x :: r => (map (fun y => (x, y)) r ++ combinations r)%list end.

Section Spectra.
Variable mode : Type.
Variable S1 S3 : Type.
Variable spectra_1d : (mode -> R) -> S1 * S1 * S1.
Variable spectrum_3d : (mode -> R) -> S3.

(** cross_corr3d.py 54: -np.real(field0.conj() * field1) *)
Definition cross (f g : mode -> C) : mode -> R := fun k => (- fst (Cconj (f k) * g k)%C)%R.

(** cross_corr3d.py 31-73: the dictionaries 1d and 3d *)
Definition compute (keys : list string) (get_var : string -> mode -> C) : list (string * S1) * list (string * S3) :=
  let one kk :=
    let key_cc := (make_small_key (fst kk) ++ make_small_key (snd kk))%string in
    let cc := cross (get_var (fst kk)) (get_var (snd kk)) in
    let '(cx, cy, cz) := spectra_1d cc in
    ([(("spectra_" ++ (key_cc ++ "_kx"))%string, cx); (("spectra_" ++ (key_cc ++ "_ky"))%string, cy); (("spectra_" ++ (key_cc ++ "_kz"))%string, cz)],
     [(("spectra_" ++ key_cc)%string, spectrum_3d cc)]) in
  (flat_map (fun kk => fst (one kk)) (combinations keys), flat_map (fun kk => snd (one kk)) (combinations keys)).
End Spectra.

Definition keys_ns3d : list string := ["vx_fft"; "vy_fft"; "vz_fft"].
Definition keys_ns3d_strat : list string := ["vx_fft"; "vy_fft"; "vz_fft"; "b_fft"].

(** ** Loading *)

Inductive file := Spectra1D | Spectra3D | SpectraKzKh.

Definition with_directions (names : list string) : list string := flat_map (fun n => [(n ++ "_kx")%string; (n ++ "_ky")%string; (n ++ "_kz")%string]) names.
Definition add_spectra (names : list string) : list string := map (fun n => ("spectra_" ++ n)%string) names.

(** solvers/ns3d/output/spectra.py 17-101: keys of the spectra saved *)
Definition saved_ns3d (f : file) : list string :=
  match f with
  | Spectra1D => (add_spectra (with_directions ["vx"; "vy"; "vz"; "E"]) ++ with_directions ["Khr"; "Khd"])%list
  | Spectra3D => (add_spectra ["vx"; "vy"; "vz"; "E"] ++ ["Khr"; "Khd"])%list
  | SpectraKzKh => ["K"; "Khr"; "Khd"]
  end.
(** solvers/ns3d/strat/output/spectra.py 56-112 *)
Definition saved_strat (f : file) : list string :=
  match f with
  | Spectra1D => add_spectra (with_directions ["vx"; "vy"; "vz"; "E"; "A"; "Khr"; "Khd"])
  | Spectra3D => add_spectra ["vx"; "vy"; "vz"; "E"; "A"; "Khr"; "Khd"]
  | SpectraKzKh => ["A"; "Khr"; "Khd"; "Kz"]
  end.
(** the other keys of the files: spectra3d.py 124-146 *)
Definition axes (f : file) : list string :=
  match f with Spectra1D => ["times"; "kx"; "ky"; "kz"] | Spectra3D => ["times"; "k_spectra3d"] | SpectraKzKh => ["times"; "kz"; "kh_spectra"] end.

(** spectra3d.py 200-253: the keys of the results; None is ValueError *)
Definition load_mean_file (keys : list string) (key_to_load : option (list string)) : option (list string) :=
  match key_to_load with
  | Some l => if forallb (fun k => existsb (String.eqb k) keys) l then Some l else None
  | None => Some (filter (prefix "spectr") keys)
  end.
(** spectra3d.py 255-287 *)
Definition load_mean (saved : file -> list string) (f : file) (key_to_load : option (list string)) : option (list string) :=
  match load_mean_file (saved f ++ axes f)%list key_to_load with
  | None => None
  | Some l => Some (l ++ match f with Spectra1D => ["kx"; "ky"; "kz"] | Spectra3D => ["k"] | SpectraKzKh => ["kz"; "kh_spectra"] end)%list
  end.

(** solvers/ns3d/output/spectra.py 192-199: key read by plot1d_times and plot3d_times *)
Definition key_plot (f : file) (key key_k : string) : string :=
  match f with Spectra1D => ("spectra_" ++ (key ++ ("_" ++ key_k)))%string | _ => ("spectra_" ++ key)%string end.
