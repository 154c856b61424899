(** * The runs of fluidsim bench and fluidsim profile

    fluidsim/util/console/bench.py 36-88 (bench), 245-294 (run), fluidsim/util/console/profile.py 43-102 (run_profile),
    105-180 (profile), 205-233 (run), fluidsim/util/console/util.py 392-396 (tear_down).

    The commands are the lists of what they do for the classes of FFT.  Outside: which simulations can be created and
    which runs finish ([simul_ok], [run_ok], by class; None is the default class); tear_down does not fail
    (rmtree(..., ignore_errors=True)).  The printing, the garbage collector and the contents of the results are not
    modelled.  The strings of the names of files are lists of ASCII characters (ShortName_Model). *)

From Coq Require Import Ascii String List ZArith Bool.
From Verif Require Import ShortName_Model.
From Verif Require Bench_Model.
Import ListNotations.

Definition fft := option string.

Inductive event := Create (t : fft) | Run (t : fft) | Warn (t : fft) | Clean (t : fft).

Section Runs.
Variables (simul_ok run_ok : fft -> bool) (testing : bool).

(** bench.py 48-78 (_bench): what is done, finished without an exception *)
Definition bench_one (t : fft) : list event * bool :=
  if simul_ok t then
    if run_ok t then ([Create t; Run t; Clean t], true)
    else if testing then ([Create t; Clean t], false)
    else ([Create t; Warn t; Clean t], true)
  else ([], false).

(** profile.py 128-170 (_profile) *)
Definition profile_one (dim : string) (t : fft) : list event * bool :=
  if String.eqb dim "2d" || String.eqb dim "3d" then
    if simul_ok t then
      if run_ok t then ([Create t; Run t; Clean t], true)
      else if testing then ([Create t; Clean t], false)
      else ([Create t; Warn t; Clean t], false)
    else ([], false)
  else ([], false).

Fixpoint each (one : fft -> list event * bool) (l : list fft) : list event * bool :=
  match l with
  | [] => ([], true)
  | t :: r =>
      let '(e, ok) := one t in
      if ok then let '(e', ok') := each one r in (e ++ e', ok') else (e, false)
  end.

(** bench.py 81-88, profile.py 173-180: str(type_fft).lower() == "all"; the classes: name, available *)
Definition is_all (t : fft) : bool := match t with Some s => String.eqb (Bench_Model.lower s) "all" | None => false end.
Definition drive (one : fft -> list event * bool) (t : fft) (classes : list (string * bool)) : list event * bool :=
  if is_all t then each one (map (fun c => Some (fst c)) (filter snd classes)) else one t.

Definition bench := drive bench_one.
Definition profile (dim : string) := drive (profile_one dim).
End Runs.

(** the number of iterations: util.py 83, 148 (default arguments 20 and 10), bench.py 59-60; None: params.time_stepping.it_end = None *)
Definition default_it (dim : string) : Z := if String.eqb dim "2d" then 20%Z else 10%Z.
Definition bench_it (dim : string) (it_end : option Z) : option Z :=
  match it_end with Some n => Some n | None => Some (default_it dim) end.
(** profile.py 133-146: it_end is always given to modif_params *)
Definition profile_it (dim : string) (it_end : option Z) : option Z := it_end.
(** profile.py 199-201: the option -it *)
Definition profile_option_it (option_it : option Z) : option Z := match option_it with Some n => Some n | None => Some 10%Z end.

(** is the pie drawn: run 205-233, profile (run_profile is called without plot, default False), analyze_stats *)
Definition run_profile_plot (plot : option bool) : bool := match plot with Some b => b | None => false end.
Definition profile_plot (plot : bool) : bool := run_profile_plot None.
Definition run_plot (stats_file : option txt) (plot : bool) : bool :=
  match stats_file with Some _ => plot | None => profile_plot plot end.

(** profile.py 208-211: os.path.split(stats_file)[-1].split("result_profile_")[-1].split("_")[0] *)
Definition solver_of_file (stats_file : txt) : txt :=
  let tmp := split_last (of_string "/") stats_file in
  split_first (of_string "_") (split_last (of_string "result_profile_") tmp).

(** util.py 297-326 (get_path_file): "_".join(["result", name, key_solver, ...]) + ext in the directory *)
Definition profile_file (dir key rest : txt) : txt :=
  dir ++ of_string "/" ++ of_string "result_profile_" ++ key ++ of_string "_" ++ rest ++ of_string ".pstats".

(** solver.py of the solvers: the key (directory) and InfoSolver.short_name, util.py 306 (short_name.lower()) *)
Definition short_names : list (string * string) :=
  [("ns2d", "NS2D"); ("ns2d.strat", "NS2D.strat"); ("ns2d.bouss", "ns2d.bouss");
   ("ns3d", "ns3d"); ("ns3d.strat", "ns3d.strat"); ("ns3d.bouss", "ns3d.bouss");
   ("sw1l", "SW1L"); ("sw1l.exactlin", "SW1Lexlin"); ("sw1l.exactlin.modified", "SW1Lexmod");
   ("sw1l.modified", "SW1Lmodif"); ("sw1l.onlywaves", "SW1Lwaves");
   ("plate2d", "Plate2D"); ("waves2d", "Waves2d"); ("nl1d", "nl1d"); ("burgers1d", "Burgers1D");
   ("burgers1d.skew_sym", "BurgersSkewSym1D"); ("ad1d", "AD1D"); ("ad1d.pseudo_spect", "AD1D")]%string.

(** profile.py 74-75: the file written by a process: path.with_name(path.stem + f"_rank{rank}" + path.suffix) for a
    path stem + ".pstats"; the files of the other processes are removed (98-100) *)
Definition rank_file (stem rank : txt) (is_rank0 : bool) : txt :=
  if is_rank0 then stem ++ of_string ".pstats" else stem ++ of_string "_rank" ++ rank ++ of_string ".pstats".
