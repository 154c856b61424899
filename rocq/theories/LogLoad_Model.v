(** The loading of the file stdout.txt by the classes print_stdout of the
    solvers, and the figure of the clock times.
    Sources: solvers/ns3d/output/print_stdout.py l.15-80 (the same in ns2d,
    plate2d and ad1d), ns2d/strat/output/print_stdout.py l.38-148,
    sw1l/output/print_stdout.py l.13-85, models0d/lorenz/output/print_stdout.py
    l.32-92, models0d/predaprey/output/print_stdout.py, base/output/print_stdout.py
    l.102-106, and lib/fluidsim_core/output/remaining_clock_time.py l.33-95. *)
From Coq Require Import String Ascii List ZArith QArith Bool.
From Verif Require Import PrintOut_Model.
Import ListNotations.
Local Open Scope string_scope.

Inductive solver := NS3D | NS2DStrat | SW1L | Lorenz | PredaPrey.

Section Log.
(** the formats of the numbers ("9.3e" etc.) and float(word): strings and the
    rounding of the numbers are not modelled in detail *)
Variable fmt : string -> Q -> string.
Variable parse : string -> option Q.

(** ** the lines written for a record *)
Record record := { r_it : Q; r_t : Q; r_dt : Q; r_vals : list Q }.
Definition val (l : list Q) (i : nat) : Q := nth i l 0%Q.
Definition sp14 : string := "              ".
(** base/output/print_stdout.py l.102-106 *)
Definition line_it (r : record) : string :=
  "it = " ++ fmt "6d" (r_it r) ++ " ; t = " ++ fmt "12.6g" (r_t r) ++ " ; deltat  = " ++ fmt "10.5g" (r_dt r).
(** _make_str_info of the solvers; the values r_vals are
    ns3d: energy, variation; ns2d.strat: energyK, energyA, energy, variation, memory;
    sw1l: energy, variation, energyK, energyA; lorenz: X, Y, Z; predaprey: X, Y, potential, variation *)
Definition lines_of (s : solver) (v : list Q) : list string :=
  match s with
  | NS3D => [sp14 ++ "energy = " ++ fmt "9.3e" (val v 0) ++ " ; Delta energy = " ++ fmt "+9.3e" (val v 1)]
  | NS2DStrat => [sp14 ++ "energyK = " ++ fmt "9.3e" (val v 0); sp14 ++ "energyA = " ++ fmt "9.3e" (val v 1);
                  sp14 ++ "energy  = " ++ fmt "9.3e" (val v 2) ++ " ; Delta energy = " ++ fmt "+9.3e" (val v 3);
                  sp14 ++ "memory  = " ++ fmt "9.3f" (val v 4) ++ " Mo."]
  | SW1L => [sp14 ++ "energy  = " ++ fmt "9.3e" (val v 0) ++ " ; Delta energy = " ++ fmt "+9.3e" (val v 1);
             sp14 ++ "energyK = " ++ fmt "9.3e" (val v 2) ++ " ; energyA      = " ++ fmt "9.3e" (val v 3)]
  | Lorenz => [sp14 ++ "X = " ++ fmt "9.3e" (val v 0) ++ " ; Y = " ++ fmt "+9.3e" (val v 1) ++ " ; Z = " ++ fmt "+9.3e" (val v 2); ""]
  | PredaPrey => [sp14 ++ "X = " ++ fmt "9.3e" (val v 0) ++ " ; Y = " ++ fmt "+9.3e" (val v 1);
                  sp14 ++ "potential = " ++ fmt "9.3e" (val v 2) ++ " ; Delta pot = " ++ fmt "+9.3e" (val v 3)]
  end.
(** the whole record; the last line is the remaining duration or empty *)
Definition write_record (s : solver) (r : record) (duration : string) : list string :=
  (line_it r :: lines_of s (r_vals r) ++ [duration])%list.

(** ** load: for each pattern, the keys and the positions of the words *)
Definition patterns (s : solver) : list (string * list (string * nat)) :=
  match s with
  | NS3D => [(sp14 ++ "energy =", [("E", 2); ("deltaE", 7)]%nat)]
  | NS2DStrat => [(sp14 ++ "energy  =", [("E", 2); ("deltaE", 7)]%nat); (sp14 ++ "energyK =", [("EK", 2)]%nat); (sp14 ++ "energyA =", [("EA", 2)]%nat)]
  | SW1L => [(sp14 ++ "energy  =", [("E", 2); ("deltaE", 7)]%nat); (sp14 ++ "energyK =", [("E_K", 2); ("E_A", 6)]%nat)]
  | Lorenz => [(sp14 ++ "X =", [("X", 2); ("Y", 6); ("Z", 10)]%nat)]
  | PredaPrey => [(sp14 ++ "potential =", [("P", 2); ("deltaP", 7)]%nat); (sp14 ++ "X =", [("X", 2); ("Y", 6)]%nat)]
  end.
Definition all_patterns (s : solver) : list (string * list (string * nat)) :=
  ("it =", [("it", 2); ("t", 6); ("deltat", 10)]%nat) :: patterns s.
(** the words of a line at the given positions; None: IndexError or ValueError *)
Definition read_words (line : string) (keys : list (string * nat)) : option (list (string * Q)) :=
  let w := words line in
  fold_right (fun ki acc => match acc, nth_error w (snd ki) with
                            | Some l, Some word => match parse word with Some x => Some ((fst ki, x) :: l)%list | None => None end
                            | _, _ => None
                            end) (Some []) keys.
(** the il-th line with the pattern *)
Definition read_pattern (file : list string) (il : nat) (p : string * list (string * nat)) : option (list (string * Q)) :=
  match nth_error (filter (prefix (fst p)) file) il with
  | Some line => read_words line (snd p)
  | None => None
  end.
Fixpoint collect {A} (l : list (option A)) : option (list A) :=
  match l with
  | [] => Some []
  | Some x :: l => match collect l with Some y => Some (x :: y) | None => None end
  | None :: _ => None
  end.
Definition load_one (s : solver) (file : list string) (il : nat) : option (list (string * Q)) :=
  option_map (@concat _) (collect (map (read_pattern file il) (all_patterns s))).
(** nt = len(lines_t); if nt > 1: nt -= 1 *)
Definition nb_loaded (file : list string) : nat :=
  let nt := length (filter (prefix "it =") file) in if (1 <? nt)%nat then nt - 1 else nt.
Definition load (s : solver) (file : list string) : option (list (list (string * Q))) :=
  collect (map (load_one s file) (seq 0 (nb_loaded file))).
End Log.

(** ** the figure of the clock times (remaining_clock_time.py l.62-80) *)
Definition last_removed (eq_times per_step : list Q) : list Q * list Q :=
  if Qle_bool (last per_step 0%Q) 0 then (removelast eq_times, removelast per_step) else (eq_times, per_step).
(** times2[0] = start; times2[1::2] = times; times2[2::2] = times[:-1] (IndexError without times) *)
Definition times2 (start : Q) (times : list Q) : option (list Q) :=
  match times with
  | [] => None
  | _ => Some (map (fun i => if (i =? 0)%nat then start else if Nat.even i then nth (i / 2 - 1) times 0%Q else nth (i / 2) times 0%Q) (seq 0 (2 * length times)))
  end.
(** values2[::2] = values; values2[1::2] = values *)
Definition values2 (values : list Q) : list Q := map (fun i => nth (i / 2) values 0%Q) (seq 0 (2 * length values)).
Definition clock_figure (start : Q) (eq_times per_step : list Q) : option (list Q * list Q) :=
  let (ts, vs) := last_removed eq_times per_step in
  match times2 start ts with Some x => Some (x, values2 vs) | None => None end.
(** np.nanmean of the curve (without nan) *)
Definition mean (l : list Q) : Q := (fold_right Qplus 0 l / inject_Z (Z.of_nat (length l)))%Q.
