(** * Files of the physical state: names, save, lookup by time, interpolation in time

    Characters are their codes (nat).  A time printed with 3 decimals is the number of thousandths
    ([ms], non-negative); the rounding of the format is a parameter.  Rank 0. *)

From Coq Require Import String Ascii List Arith Bool QArith Qabs Qminmax.
Import ListNotations.
Local Open Scope nat_scope.

Notation name := (list nat).

Definition lit (s : string) : name := map nat_of_ascii (list_ascii_of_string s).

Definition dot : nat := 46.
Definition underscore : nat := 95.

(** the [k] last decimal digits of [n] *)
Fixpoint digits (k n : nat) : name :=
  match k with
  | O => []
  | S j => digits j (n / 10) ++ [48 + n mod 10]
  end.

(** number of digits of a number printed without padding *)
Fixpoint ndig_fuel (fuel n : nat) : nat :=
  match fuel with
  | O => 1
  | S f => if Nat.ltb n 10 then 1 else S (ndig_fuel f (n / 10))
  end.
Definition ndig (n : nat) : nat := ndig_fuel n n.

Definition dec (n : nat) : name := digits (ndig n) n.

(** f"{time:0{w}.3f}" *)
Definition time_text (w ms : nat) : name :=
  digits (Nat.max (ndig (ms / 1000)) (w - 4)) (ms / 1000) ++ [dot] ++ digits 3 ms.

Definition it_text (it : option nat) : name :=
  match it with None => [] | Some i => lit "_it=" ++ dec i end.

(** base/output/phys_fields.py 164 and 181-183 *)
Definition state_name (w ms : nat) (it : option nat) : name :=
  lit "state_phys_t" ++ time_text w ms ++ it_text it ++ lit ".nc".

(** ** save, base/output/phys_fields.py 130-201 *)

Section Save.

Variable V : Type.
(** thousandths printed by the format .3f *)
Variable ms : Q -> nat.

Record file := mkFile { f_it : nat; f_time : Q; f_state : V }.

Notation dir := (list (name * file)).

Definition name_eqb (a b : name) : bool := if list_eq_dec Nat.eq_dec a b then true else false.

Fixpoint lookup (d : dir) (n : name) : option file :=
  match d with
  | [] => None
  | (m, f) :: r => if name_eqb n m then Some f else lookup r n
  end.

(** h5py file opened with mode "w" *)
Definition write (d : dir) (n : name) (f : file) : dir :=
  (n, f) :: filter (fun e => negb (name_eqb n (fst e))) d.

(** 142-158: [first] is the file given by next(glob("state_phys*")), [None] if there is none or if
    USE_T_END is false (then [w0] is 7) *)
Definition str_width (w0 : nat) (first : option name) : nat :=
  match first with None => w0 | Some n => length n - 12 - 3 end.

(** 163-201; [with_it]: 0 < period_save < 0.001 or file_with_it *)
Definition save (with_it : bool) (w : nat) (t : Q) (it : nat) (v : V) (d : dir) : dir :=
  let path_file := state_name w (ms t) (if with_it then Some it else None) in
  match lookup d path_file with
  | None => write d path_file (mkFile it t v)
  | Some f =>
      if Nat.eqb (f_it f) it then d
      else write d (state_name 7 (ms t) (Some it)) (mkFile it t v)
  end.

(** ** online saves and end of the simulation *)

(** [t_last_save], None: minus infinity *)
Record run := mkRun { t_last : option Q; files : dir }.

(** phys_fields.py 69-74: nothing is saved at the initialisation *)
Definition init_run (period_save period_plot t : Q) (d : dir) : run :=
  mkRun (if Qeq_bool period_save 0 && Qeq_bool period_plot 0 then None else Some t) d.

(** [slot a b]: the condition of _has_to_online_save for the times [a] (last) and [b] (now) *)
Variable slot : Q -> Q -> bool.
Variable with_it : bool.
(** the width used for a directory (choice of the file by glob) *)
Variable width : dir -> nat.

Record call := mkCall { c_t : Q; c_it : nat; c_v : V }.

(** phys_fields.py 111-116 (called if period_save is not 0, base.py 324-327) *)
Definition online_save (period_save : Q) (c : call) (r : run) : run :=
  if Qeq_bool period_save 0 then r
  else if match t_last r with None => true | Some a => slot a (c_t c) end
  then mkRun (Some (c_t c)) (save with_it (width (files r)) (c_t c) (c_it c) (c_v c) (files r))
  else r.

(** base/output/base.py 354-361 *)
Definition end_of_simul (period_save : Q) (c : call) (r : run) : run :=
  let r1 := online_save period_save c r in
  if match t_last r1 with None => true | Some a => negb (Qle_bool (c_t c) a) end
  then mkRun (t_last r1) (save with_it (width (files r1)) (c_t c) (c_it c) (c_v c) (files r1))
  else r1.

Definition simulation (period_save period_plot t0 : Q) (calls : list call) (final : call) (d : dir)
  : dir :=
  files (end_of_simul period_save final
    (fold_left (fun r c => online_save period_save c r) calls
       (init_run period_save period_plot t0 d))).

End Save.

(** ** Choice of a file *)

(** order of the strings *)
Fixpoint lex_ltb (a b : name) : bool :=
  match a, b with
  | _, [] => false
  | [], _ => true
  | x :: a', y :: b' => Nat.ltb x y || (Nat.eqb x y && lex_ltb a' b')
  end.

Fixpoint insert (n : name) (l : list name) : list name :=
  match l with
  | [] => [n]
  | m :: r => if lex_ltb m n then m :: insert n r else n :: l
  end.

Definition sorted (l : list name) : list name := fold_right insert [] l.

Definition is_digit (c : nat) : bool := Nat.leb 48 c && Nat.leb c 57.

Fixpoint take_digits (l : name) : name * name :=
  match l with
  | c :: r => if is_digit c then let (a, b) := take_digits r in (c :: a, b) else ([], l)
  | [] => ([], [])
  end.

Definition value (l : name) : nat := fold_left (fun acc c => acc * 10 + (c - 48)) l 0.

(** float() of a number with 3 decimals, in thousandths (None: other texts, not modelled) *)
Definition float_ms (l : name) : option nat :=
  let (a, b) := take_digits l in
  match a, b with
  | _ :: _, c :: b' =>
      let (d, e) := take_digits b' in
      if Nat.eqb c dot && Nat.eqb (length d) 3 && Nat.eqb (length e) 0
      then Some (value a * 1000 + value d) else None
  | _, _ => None
  end.

(** the text before the [n]-th separator *)
Fixpoint before (n : nat) (sep : nat) (l : name) : name :=
  match l with
  | [] => []
  | c :: r => if Nat.eqb c sep
              then match n with O => [] | S m => c :: before m sep r end
              else c :: before n sep r
  end.

(** util/util.py 154-160: ".".join(name[12:].split(".")[:2]), cut before "_" *)
Definition time_of_name (n : name) : option nat :=
  float_ms (before 0 underscore (before 1 dot (skipn 12 n))).

Fixpoint collect {A} (l : list (option A)) : option (list A) :=
  match l with
  | [] => Some []
  | None :: _ => None
  | Some a :: r => match collect r with None => None | Some r' => Some (a :: r') end
  end.

(** numpy argmin: first index of the smallest value *)
Fixpoint argmin (l : list Q) : nat :=
  match l with
  | [] => 0
  | x :: r =>
      match r with
      | [] => 0
      | _ => let i := argmin r in if Qle_bool x (nth i r 0%Q) then 0 else S i
      end
  end.

Definition q_of_ms (n : nat) : Q := inject_Z (Z.of_nat n) / 1000.

Definition max_list (l : list nat) : nat := fold_right Nat.max 0 l.

Inductive approx := NoTime | Last | At (t : Q).

(** util/util.py 116-166; None: an exception *)
Definition name_file_from_time_approx (names : list name) (t_approx : approx) : option name :=
  let path_files := sorted names in
  match path_files with
  | [] => None
  | _ =>
      match t_approx with
      | NoTime => Some (last path_files [])
      | _ =>
          match collect (map time_of_name path_files) with
          | None => None
          | Some times =>
              let t := match t_approx with At t => t | _ => q_of_ms (max_list times) end in
              nth_error path_files (argmin (map (fun x => Qabs (q_of_ms x - t)) times))
          end
      end
  end.

(** base/output/phys_fields.py 326-337 (time_from_path): first match of [0-9]+\.[0-9]+, here with 3
    decimals *)
Fixpoint search (l : name) : option nat :=
  let here :=
    let (a, b) := take_digits l in
    match a, b with
    | _ :: _, c :: b' =>
        let (d, _) := take_digits b' in
        if Nat.eqb c dot && negb (Nat.eqb (length d) 0) then Some (value a * 1000 + value d) else None
    | _, _ => None
    end in
  match here with
  | Some x => Some x
  | None => match l with [] => None | _ :: r => search r end
  end.

(** lib/fluidsim_core/output/phys_fields.py 127-140 (update_times): nothing is done when the number
    of files is the same *)
Record set_of_files := mkSet { path_files : list name; times : list (option nat) }.

Definition update_times (names : list name) (s : option set_of_files) : set_of_files :=
  let l := sorted names in
  match s with
  | Some old => if Nat.eqb (length (path_files old)) (length l) then old else mkSet l (map search l)
  | None => mkSet l (map search l)
  end.

(** ** Interpolation in time, lib/fluidsim_core/output/phys_fields.py 151-219

    [fields] are the values of the field at one point, [ts] the times of the files; None: division
    by zero or index error *)

(** math.isclose *)
Definition isclose (a b : Q) : bool :=
  Qle_bool (Qabs (a - b)) ((1 # 1000000000) * Qmax (Qabs a) (Qabs b))%Q.

Definition get_closest_time_file (ts : list Q) (t : Q) : nat :=
  argmin (map (fun x => Qabs (x - t)) ts).

Definition get_field (ts : list Q) (fields : list Q) (t : Q) : option Q :=
  let i := get_closest_time_file ts t in
  let tc := nth i ts 0%Q in
  if isclose t tc || Nat.eqb (length ts) 1 then nth_error fields i
  else
    let idx :=
      if Nat.eqb i (length ts - 1) then Some (i - 1, i)
      else if negb (Qle_bool t tc) || Nat.eqb i 0 then Some (i, i + 1)
      else if negb (Qle_bool tc t) then Some (i - 1, i)
      else None in
    match idx with
    | None => None
    | Some (i0, i1) =>
        match nth_error ts i0, nth_error ts i1, nth_error fields i0, nth_error fields i1 with
        | Some t0, Some t1, Some f0, Some f1 =>
            let dt := (t1 - t0)%Q in
            if Qeq_bool dt 0 then None
            else Some (f0 * (1 - Qabs (t - t0) / dt) + f1 * (1 - Qabs (t - t1) / dt))%Q
        | _, _, _, _ => None
        end
    end.
