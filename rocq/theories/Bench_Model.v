(** The console commands of fluidsim: the shape of the benchmarks, the box,
    the estimation of the shapes for the weak scaling, the loading and the
    plots of the benchmarks and the analysis of the profiles.
    Sources: fluidsim/util/console/util.py, bench.py, bench_analysis.py and
    profile.py, and fluidsim/util/util.py get_dim_from_solver_key.
    Floating-point numbers are rationals, the printing and the drawing of the
    figures are not modelled. *)
From Coq Require Import String Ascii List ZArith QArith Qround Bool.
Import ListNotations.

(** ** strings *)
(** str.lower (ASCII letters) *)
Definition lower_ascii (c : ascii) : ascii :=
  let n := nat_of_ascii c in if (65 <=? n)%nat && (n <=? 90)%nat then ascii_of_nat (n + 32) else c.
Fixpoint lower (s : string) : string := match s with EmptyString => EmptyString | String c s' => String (lower_ascii c) (lower s') end.
(** `sub in s` of Python *)
Fixpoint contains (sub s : string) : bool :=
  prefix sub s || match s with EmptyString => false | String _ s' => contains sub s' end.
(** str.endswith *)
Fixpoint endswith (suf s : string) : bool :=
  String.eqb suf s || match s with EmptyString => false | String _ s' => endswith suf s' end.
Fixpoint drop (n : nat) (s : string) : string := match n, s with O, _ => s | _, EmptyString => EmptyString | S n', String _ s' => drop n' s' end.

(** ** fluidsim/util/util.py l.86-102: get_dim_from_solver_key, from the name
    of the class of the operators of the solver. None: NotImplementedError. *)
Definition get_dim_from_class_name (class_name : string) : option string :=
  if String.eqb class_name "OperatorsPseudoSpectralSW1L" then Some "2"%string
  else if contains "0" class_name then Some "0"%string
  else if contains "1" class_name then Some "1"%string
  else if contains "2" class_name then Some "2"%string
  else if contains "3" class_name then Some "3"%string
  else None.

(** ** util/console/util.py l.239-290: parse_args_dim *)
Record args := { a_dim : option string; a_n0 : option Z; a_n1 : option Z; a_n2 : option Z; a_solver : option string }.
Inductive error := ConsoleError | NotImplementedError | ValueError | AttributeError.
Section Parse.
(** the name of the class of the operators of a solver key (the import of the
    solver is not modelled) *)
Variable class_name_of : string -> string.
Definition is_some {A} (o : option A) := match o with Some _ => true | None => false end.
Definition with_dim (dim : string) (a : args) : error + args :=
  let dim_l := lower dim in
  let r :=
    if String.eqb dim_l "3" || String.eqb dim_l "3d" then
      let n0 := match a_n0 a with None => Some 128%Z | s => s end in
      let n2 := match a_n2 a with None => n0 | s => s end in
      inr ("3d"%string, n0, n2)
    else if String.eqb dim_l "2" || String.eqb dim_l "2d" then
      let n0 := match a_n0 a with None => Some 512%Z | s => s end in
      inr ("2d"%string, n0, a_n2 a)
    else inl ConsoleError in
  match r with
  | inl e => inl e
  | inr (dim, n0, n2) =>
      let n1 := match a_n1 a with None => n0 | s => s end in
      let solver := match a_solver a with None => Some (if String.eqb dim "2d" then "ns2d" else "ns3d")%string | s => s end in
      inr {| a_dim := Some dim; a_n0 := n0; a_n1 := n1; a_n2 := n2; a_solver := solver |}
  end.
Definition parse_args_dim (a : args) : error + args :=
  let dim : error + option string :=
    match a_solver a with
    | Some s => match get_dim_from_class_name (class_name_of s) with Some d => inr (Some d) | None => inl NotImplementedError end
    | None => inr (a_dim a)
    end in
  match dim with
  | inl e => inl e
  | inr None =>
      if is_some (a_n0 a) && is_some (a_n1 a) && negb (is_some (a_n2 a)) then with_dim "2d" a
      else if is_some (a_n0 a) && is_some (a_n1 a) && is_some (a_n2 a) then with_dim "3d" a
      else inl ConsoleError
  | inr (Some d) => with_dim d a
  end.
End Parse.

(** ** util/console/bench.py l.88-115: get_opfft: the dimension of the FFT
    classes which are used (n2 and dim as given by the caller; dim = None for
    print_shape_loc, l.186, and estimate_shapes_weak_scaling, l.161) *)
Definition get_opfft_dim (n2 : option Z) (dim : option string) : option nat :=
  if negb (is_some n2) || match dim with Some d => String.eqb d "2d" | None => false end then Some 2%nat
  else if is_some n2 || match dim with Some d => String.eqb d "3d" | None => false end then Some 3%nat
  else None.

(** ** util/console/util.py l.38-77: modif_box_size (the printing is not modelled) *)
Record box := { Lx : Q; Ly : Q; Lz : Q }.
Local Open Scope Q_scope.
Definition modif_box_size (b : box) (n0 n1 : Z) (n2 : option Z) : box :=
  let nx := match n2 with None => n1 | Some n2 => n2 end in
  let ny := match n2 with None => n0 | Some _ => n1 end in
  let nz := n0 in
  let b :=
    if negb (nx =? ny)%Z then
      if (nx <? ny)%Z then {| Lx := Lx b; Ly := Ly b * inject_Z ny / inject_Z nx; Lz := Lz b |}
      else {| Lx := Lx b * inject_Z nx / inject_Z ny; Ly := Ly b; Lz := Lz b |}
    else b in
  match n2 with
  | Some n2 => if negb (n2 =? n0)%Z then {| Lx := Lx b; Ly := Ly b; Lz := Lx b * inject_Z nz / inject_Z nx |} else b
  | None => b
  end.

(** ** util/console/bench.py l.118-182: estimate_shapes_weak_scaling *)
(** l.151-152: int(np.log(x) / np.log(nproc_min)), the exact integer part
    (nproc_min >= 2; the rounding of the logarithms is not modelled) *)
Fixpoint int_log (fuel : nat) (b x : Z) : nat :=
  match fuel with O => O | S f => if (x <? b)%Z then O else S (int_log f b (x / b)) end.
(** l.155: np.logspace(1, num_gp, num_gp, base=nproc_min, dtype=int) *)
Definition nproc_gp (b x : Z) : list Z := map (fun i => b ^ Z.of_nat i)%Z (seq 1 (int_log (Z.to_nat x) b x)).
(** l.166-178: the shapes, as the numbers which are printed. l.173: in 3D, the
    format string "{} {}" has only two places for the three arguments. *)
Definition format2 (l : list Z) : list Z := firstn 2 l.
Definition estimate_shapes (n0 n1 : Z) (n2 : option Z) (nproc_min nproc_max : Z) : error + list (Z * list Z) :=
  if (nproc_max <=? nproc_min)%Z then inl ValueError
  else if negb (nproc_max mod nproc_min =? 0)%Z then inl ValueError
  else
    let gp := nproc_gp nproc_min nproc_max in
    let nmax := last gp 0%Z in
    inr (map (fun nproc =>
      let divisor := (nmax / nproc)%Z in
      (nproc, match n2 with
              | None => [n0; (n1 / divisor)%Z]
              | Some n2 => format2 [n0; n1; (n2 / divisor)%Z]
              end)) gp).

(** ** util/console/util.py l.293-323 (get_path_file) and l.326-388 (bench),
    and bench_analysis.py l.22-42 (load_bench) *)
Record bench_result := { r_key_solver : string; r_hostname : string; r_rest : string }.
(** the name of the file: r_rest is the description of the grid, the number of
    processes, the type of fft, the time and the pid *)
Definition file_name (r : bench_result) : string := ("result_bench_" ++ r_key_solver r ++ "_" ++ r_rest r ++ ".json")%string.
(** glob of result_bench_{solver}*.json (solver without special characters) *)
Definition glob_match (solver name : string) : bool :=
  let p := ("result_bench_" ++ solver)%string in
  prefix p name && endswith ".json" (drop (String.length p) name).
(** l.25-26: the part after the first dot if the key starts with fluidsim *)
Fixpoint after_dot (s : string) : string := match s with EmptyString => EmptyString | String c s' => if Ascii.eqb c "." then s' else after_dot s' end.
Definition short_solver (solver : string) : string := if prefix "fluidsim" solver then after_dot solver else solver.
Definition load_bench (results : list bench_result) (solver hostname : string) : list bench_result :=
  filter (fun r => glob_match (short_solver solver) (file_name r)
                   && (String.eqb hostname "any" || prefix hostname (r_hostname r))) results.

(** ** bench_analysis.py l.83-252: plot_scaling, for the results which have
    already been filtered by shape (a single column of times per iteration) *)
Record row := { w_fft : string; w_np : Z; w_t : Q }.
(** l.116-117: times per iteration *)
Definition per_iter (t nb_iter : Q) : Q := t / nb_iter.
Fixpoint insert (x : Q) (l : list Q) : list Q := match l with [] => [x] | y :: l' => if Qle_bool x y then x :: l else y :: insert x l' end.
Definition sort (l : list Q) : list Q := fold_right insert [] l.
(** l.133: DataFrame.quantile(q=0.2) with the linear interpolation *)
Definition quantile (q : Q) (l : list Q) : Q :=
  let s := sort l in
  let pos := q * inject_Z (Z.of_nat (length l) - 1) in
  let i := Z.to_nat (Qfloor pos) in
  let frac := pos - inject_Z (Qfloor pos) in
  let a := nth i s 0 in
  let b := nth (S i) s a in
  a + frac * (b - a).
Definition in_group (name : string) (np : Z) (r : row) : bool := String.eqb (w_fft r) name && (w_np r =? np)%Z.
Definition group_time (rows : list row) (name : string) (np : Z) : Q :=
  quantile (1 # 5) (map w_t (filter (in_group name np) rows)).
(** l.130: only the runs with MPI *)
Definition mpi_rows (rows : list row) : list row := filter (fun r => (1 <? w_np r)%Z) rows.
(** l.132: nb_proc.min() *)
Definition nb_proc_min (rows : list row) : Z := match map w_np rows with [] => 0%Z | n :: l => fold_left Z.min l n end.
(** l.146: the groups with the smallest number of processes *)
Definition names_at (rows : list row) (np : Z) : list string := nodup string_dec (map w_fft (filter (fun r => (w_np r =? np)%Z) rows)).
(** l.148-155: get_min: the minimum of the times *)
Definition qmin (a b : Q) : Q := if Qle_bool a b then a else b.
Definition list_min (l : list Q) : Q := match l with [] => 0 | x :: l' => fold_left qmin l' x end.
Definition best_time (rows : list row) : Q :=
  let m := nb_proc_min rows in list_min (map (fun name => group_time rows name m) (names_at rows m)).
(** l.165: min(t_min_filter, t_min_cum); the result is returned l.252 and
    given as t_min_cum for the next directory (run, l.290-305) *)
Definition t_min (t_min_cum : Q) (rows : list row) : Q := qmin (best_time rows) t_min_cum.
(** l.205, l.229 *)
Definition speedup (t_min_cum : Q) (rows : list row) (name : string) (np : Z) : Q :=
  t_min t_min_cum rows / group_time rows name np * inject_Z (nb_proc_min rows).
Inductive type_plot := strong | weak.
(** l.230-234 *)
Definition efficiency (ty : type_plot) (t_min_cum : Q) (rows : list row) (name : string) (np : Z) : Q :=
  match ty with
  | strong => speedup t_min_cum rows name np / inject_Z np * 100
  | weak => speedup t_min_cum rows name np / 2 * 100
  end.
(** l.283: the first value of t_min_cum *)
Definition t_min0 : Q := 10000000000.
(** the reference times of the directories (l.284-299) *)
Fixpoint reference_times (cum : Q) (dirs : list (list row)) : list Q :=
  match dirs with [] => [] | d :: ds => let t := t_min cum (mpi_rows d) in t :: reference_times t ds end.

(** ** profile.py l.332-420: analyze_stats *)
Record caller := { c_file : string; c_name : string; c_tt : Q }.
Record stat := { s_file : string; s_name : string; s_tt : Q; s_callers : list caller }.
Definition qsum (l : list Q) : Q := fold_right Qplus 0 l.
(** l.349-352 *)
Definition total_time (st : list stat) : Q := qsum (map s_tt st).
(** l.329 and 356-357; key_fft = fft2d or fft3d *)
Definition kinds (key_fft : string) : list string := (["fft_as"; "pythran"; ".pyx"; ".py"; "built-in"; "numpy"]%string ++ [key_fft])%list.
(** l.364-400: None if the function is not counted for the kind. key_fft is
    the last kind, thus the change of the variable time l.385 is not seen by
    another kind. *)
Definition counted (key_fft k : string) (s : stat) : option Q :=
  if contains k (s_name s) || contains k (s_file s) then
    if String.eqb k ".pyx" && (contains "fft/Sources" (s_file s) || contains "fft_as_arg" (s_name s)) then None
    else if String.eqb k key_fft then
      if contains "__pythran__" (s_name s) || contains "operators.py" (s_file s) || contains "fft_as_arg" (s_name s) then None
      else Some (qsum (map c_tt (filter (fun c => negb (contains "fft_as_arg" (c_name c)) && negb (contains "fft_as_arg" (c_file c))) (s_callers s))))
    else if String.eqb k "fft_as" && contains ".pyx" (s_file s) then None
    else if String.eqb k ".py" && contains "fft_as_arg" (s_name s) then None
    else if String.eqb k "built-in" && contains "pythran" (s_name s) then None
    else Some (s_tt s)
  else None.
(** l.358, l.402: times[k] *)
Definition time_of_kind (key_fft k : string) (st : list stat) : Q :=
  qsum (map (fun s => match counted key_fft k s with Some t => t | None => 0 end) st).
(** l.404-407: the dictionary of the long functions: name -> (time, percentage, kind) *)
Definition dict := list (string * (Q * Q * string)).
Fixpoint dict_set (k : string) (v : Q * Q * string) (d : dict) : dict :=
  match d with [] => [(k, v)] | (k', v') :: d' => if String.eqb k k' then (k, v) :: d' else (k', v') :: dict_set k v d' end.
Definition Qltb (a b : Q) : bool := negb (Qle_bool b a).
Definition add_long (key_fft : string) (threshold total : Q) (d : dict) (sk : stat * string) : dict :=
  let (s, k) := sk in
  match counted key_fft k s with
  | Some t => if Qltb threshold (t / total) then dict_set (s_name s) (t, 100 * t / total, k) d else d
  | None => d
  end.
Definition long_functions (key_fft : string) (threshold : Q) (st : list stat) : dict :=
  fold_left (add_long key_fft threshold (total_time st)) (list_prod st (kinds key_fft)) [].
(** l.428-431 and 443-446: the sums of the percentages *)
Definition sum_percent (key_fft : string) (st : list stat) : Q :=
  qsum (map (fun k => time_of_kind key_fft k st) (kinds key_fft)) / total_time st * 100.
(** plot_pie, l.262-275: the percentages of the slices, the last one is "other" *)
Definition percentage_of (e : string * (Q * Q * string)) : Q := snd (fst (snd e)).
Definition pie (d : dict) : list (string * Q) :=
  (map (fun e => (fst e, percentage_of e)) d ++ [("other"%string, 100 - qsum (map percentage_of d))])%list.
