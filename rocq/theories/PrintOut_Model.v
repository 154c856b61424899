(** * The file stdout.txt: what is printed and what is read back

    Times and energies are exact real numbers (the file holds 4 to 6 digits). Numbers of seconds are non negative integers. *)

From Coq Require Import String Ascii.
From Coq Require Import List Arith NArith ZArith Bool Reals.
From Coq Require Import DecimalString.
Import ListNotations.
Local Open Scope string_scope.

(** ** The variation since the last print *)

(** fluidsim/solvers/ns3d/output/print_stdout.py 16-29, ns2d/strat/output/print_stdout.py 40-62, sw1l/output/print_stdout.py 14-31
    with base/output/print_stdout.py 66-71: [energy_temp] is set with the initial state, and then at each print.
    Result: the printed pairs (energy, Delta energy). *)
Fixpoint deltas_ns3d (energy_temp : R) (energies : list R) : list (R * R) :=
  match energies with
  | [] => []
  | energy :: rest => (energy, (energy - energy_temp)%R) :: deltas_ns3d energy rest
  end.

(** fluidsim/solvers/ns2d/output/print_stdout.py 25-46 (also ad1d, plate2d): the attribute [energy_tmp] does not exist before
    the first print *)
Fixpoint deltas_ns2d (energy_tmp : option R) (energies : list R) : list (R * R) :=
  match energies with
  | [] => []
  | energy :: rest =>
      let delta_energy := match energy_tmp with Some tmp => (energy - tmp)%R | None => 0%R end in
      (energy, delta_energy) :: deltas_ns2d (Some energy) rest
  end.

(** fluidsim/solvers/models0d/predaprey/output/print_stdout.py 25-59: [potential_tmp] is read, [potential_temp] is set *)
Fixpoint deltas_predaprey (potential_tmp : R) (potential_temp : option R) (potentials : list R) : list (R * R) :=
  match potentials with
  | [] => []
  | potential :: rest => (potential, (potential - potential_tmp)%R) :: deltas_predaprey potential_tmp (Some potential) rest
  end.

(** ** The text of the remaining durations *)

Definition dec (n : N) : string := NilEmpty.string_of_uint (N.to_uint n).

(** "%02d" *)
Definition dec2 (n : N) : string := if (n <? 10)%N then "0" ++ dec n else dec n.

(** [str(timedelta(seconds=n))] (Python) *)
Definition str_timedelta (n : N) : string :=
  let days := (n / 86400)%N in
  let s := (n mod 86400)%N in
  let hms := dec (s / 3600) ++ ":" ++ dec2 (s mod 3600 / 60) ++ ":" ++ dec2 (s mod 60) in
  if (days =? 0)%N then hms
  else dec days ++ " day" ++ (if (days =? 1)%N then "" else "s") ++ ", " ++ hms.

(** the line written by _make_str_info (base/output/print_stdout.py and the solvers) *)
Definition duration_line (n : N) : string :=
  "              estimated remaining duration = " ++ str_timedelta n.

(** [str.split()]: spaces only *)
Definition is_space (c : ascii) : bool := Ascii.eqb c " ".

Fixpoint words_aux (cur : string) (s : string) : list string :=
  match s with
  | EmptyString => match cur with EmptyString => [] | _ => [cur] end
  | String c s =>
      if is_space c then match cur with EmptyString => words_aux "" s | _ => cur :: words_aux "" s end
      else words_aux (cur ++ String c "") s
  end.
Definition words (s : string) : list string := words_aux "" s.

(** [str.split(sep)] *)
Fixpoint split_aux (sep : ascii) (cur : string) (s : string) : list string :=
  match s with
  | EmptyString => [cur]
  | String c s => if Ascii.eqb c sep then cur :: split_aux sep "" s else split_aux sep (cur ++ String c "") s
  end.

(** [pattern in s] *)
Fixpoint contains (pattern s : string) : bool :=
  prefix pattern s || match s with EmptyString => false | String _ s => contains pattern s end.

(** [int(word)]; ValueError is None *)
Definition int_of (s : string) : option N :=
  match s with
  | EmptyString => None
  | _ => option_map N.of_uint (NilEmpty.uint_of_string s)
  end.

(** base/output/print_stdout.py 176-201 (_load_times): the number of seconds of a line *)
Definition read_duration (line : string) : option N :=
  let w := words line in
  let '(day, hms) := if contains "day" line then (match nth_error w 4 with Some d => int_of d | None => None end, nth_error w 6)
                     else (Some 0%N, nth_error w 4) in
  match day, hms with
  | Some day, Some hms =>
      match map int_of (split_aux ":" "" hms) with
      | [Some h; Some m; Some s] => Some (86400 * day + 3600 * h + 60 * m + s)%N
      | _ => None
      end
  | _, _ => None
  end.

(** ** Remaining clock time: computation and reading *)

Inductive line :=
| It (it : Z) (t deltat : R)
| UntilT (t_end : R)
| UntilIt (it_end : Z)
| Remaining (seconds : Z)
| Other.

Section Clock.
Variable round : R -> Z. (* Python's round: to the nearest integer *)
Variable use_t_end : bool.
Variable t_end : R.
Variable it_end : Z.

(** base/output/print_stdout.py 106-138 (_evaluate_duration_left): new value of t_clock_last and result *)
Definition evaluate_duration_left (t_clock_last : option R) (t_last_print_info t_clock tsim : R) (it : Z) (deltat : R) :
  option R * option Z :=
  (Some t_clock,
   match t_clock_last with
   | None => None
   | Some last =>
       let delta_clock_time := (t_clock - last)%R in
       let delta_equation_time := (tsim - t_last_print_info)%R in
       if Req_EM_T delta_equation_time 0 then None
       else
         let remaining_equation_time := if use_t_end then (t_end - tsim)%R else (IZR (it_end - it) * deltat)%R in
         if Rlt_dec remaining_equation_time 0 then None
         else Some (round (remaining_equation_time / delta_equation_time * delta_clock_time))
   end).

(** 86-100 (_online_print, _print_info) and _make_str_info of the solvers: the lines printed for the given instants
    (clock time, t, it, deltat) at which something is printed *)
Fixpoint printed (t_clock_last : option R) (t_last_print_info : R) (l : list (R * R * Z * R)) : list line :=
  match l with
  | [] => []
  | (t_clock, tsim, it, deltat) :: rest =>
      let '(last, remaining) := evaluate_duration_left t_clock_last t_last_print_info t_clock tsim it deltat in
      It it tsim deltat :: (match remaining with Some n => [Remaining n] | None => [] end) ++ printed last tsim rest
  end.

(** time_stepping/base.py 196-204 (main_loop): the file of a run from its first line *)
Definition stdout_of_run (period : R) (l : list (R * R * Z * R)) : list line :=
  Other :: (if use_t_end then UntilT t_end else UntilIt it_end) :: printed None (- period)%R l.
End Clock.

(** base/output/print_stdout.py 146-240 (_load_times): the state of the loop; [t_end] unbound is None *)
Record reader := { r_time_last : option R; r_time : option R; r_it_last : option Z; r_it : option Z; r_t_end : option R; r_dt : option R }.

(** one record: remaining_clock_time, equation_time, delta_equation_time, delta_time_ind, time_end *)
Record clock_record := { c_remaining : Z; c_time : R; c_delta : R; c_delta_it : Z; c_end : R }.

(** UnboundLocalError and TypeError are None *)
Fixpoint load_times_aux (st : reader) (l : list line) : option (list clock_record) :=
  match l with
  | [] => Some []
  | It it t dt :: rest =>
      load_times_aux {| r_time_last := r_time st; r_time := Some t; r_it_last := r_it st; r_it := Some it; r_t_end := r_t_end st; r_dt := Some dt |} rest
  | UntilT t_end :: rest =>
      load_times_aux {| r_time_last := r_time_last st; r_time := r_time st; r_it_last := r_it_last st; r_it := r_it st; r_t_end := Some t_end; r_dt := r_dt st |} rest
  | Remaining n :: rest =>
      match r_time st, r_time_last st, r_it st, r_it_last st, r_t_end st with
      | Some t, Some tl, Some i, Some il, Some te =>
          option_map (cons {| c_remaining := n; c_time := t; c_delta := (t - tl)%R; c_delta_it := (i - il)%Z; c_end := te |}) (load_times_aux st rest)
      | _, _, _, _, _ => None
      end
  | UntilIt _ :: rest => load_times_aux st rest
  | Other :: rest => load_times_aux st rest
  end.

Definition load_times (l : list line) : option (list clock_record) :=
  load_times_aux {| r_time_last := None; r_time := None; r_it_last := None; r_it := None; r_t_end := None; r_dt := None |} l.

(** 211-217: the clock time between two prints *)
Definition delta_clock_time (c : clock_record) : R := (c_delta c * IZR (c_remaining c) / (c_end c - c_time c))%R.

(** ** First and last times of a run *)

(** the lines of the file with their numbers of characters (newline included) *)
Inductive text := TIt (t : R) | TSave (t : R) | TOther.
Definition file := list (text * nat).

(** [readline] until a line starts with "it ="; [fuel] iterations; at the end of the file readline returns an empty line *)
Fixpoint find_first_it (fuel : nat) (f : file) : option R :=
  match fuel with
  | O => None
  | S fuel =>
      match f with
      | (TIt t, _) :: _ => Some t
      | _ :: f => find_first_it fuel f
      | [] => find_first_it fuel []
      end
  end.

Definition size (f : file) : nat := fold_right (fun l n => snd l + n)%nat O f.

(** [seek] [n] characters after the beginning: the line which is cut is not recognised *)
Fixpoint seek (n : nat) (f : file) : file :=
  match f with
  | [] => []
  | (x, len) :: rest =>
      if (n =? 0)%nat then f
      else if (len <=? n)%nat then seek (n - len) rest
      else (TOther, (len - n)%nat) :: rest
  end.

(** fluidsim/util/util.py 630-643: [line_it] and [last_line] at the end of the loop, which starts with the first line "it =" *)
Definition last_it (line_it : R) (f : file) : R :=
  fold_left (fun cur l => match fst l with TIt t => t | _ => cur end) f line_it.

Definition last_line (first : text) (f : file) : text := fold_left (fun _ l => fst l) f first.

(** fluidsim/util/util.py 608-645 (times_start_last_from_path); None: the function has not returned after [fuel] lines *)
Definition times_start_last (fuel : nat) (f : file) : option (R * R) :=
  match find_first_it fuel f with
  | None => None
  | Some t_s =>
      let nb := Nat.min (size f) 1000 in
      let tail := seek (size f - nb) f in
      Some (t_s, match last_line (TIt t_s) tail with TSave t => t | _ => last_it t_s tail end)
  end.
