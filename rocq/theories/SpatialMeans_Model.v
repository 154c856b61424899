(** * The files of the spatial means (spatial_means.txt and spatial_means.json)

    Files are lists of bytes.  A number is the text given by its format: some padding spaces and a
    word without white space; the conversion of this word by float() is not modelled (the functions
    return the word).  Rank 0 only. *)

From Coq Require Import String Ascii List Arith Bool.
Import ListNotations.
Local Open Scope nat_scope.

Notation bytes := (list ascii).

Definition lit (s : string) : bytes := list_ascii_of_string s.
Definition nl : ascii := "010"%char.
Definition sp : ascii := " "%char.

(** bytes.split(), str.split(): white space of ASCII *)
Definition is_space (c : ascii) : bool :=
  let n := nat_of_ascii c in
  Nat.eqb n 32 || (Nat.leb 9 n && Nat.leb n 13).

(** the successive results of readline (b"" excluded), newline included *)
Fixpoint readlines (l : bytes) : list bytes :=
  match l with
  | [] => []
  | c :: r =>
      if Ascii.eqb c nl then [c] :: readlines r
      else match readlines r with [] => [[c]] | x :: y => (c :: x) :: y end
  end.

Fixpoint startswith (p l : bytes) : bool :=
  match p, l with
  | [], _ => true
  | _ :: _, [] => false
  | a :: p', b :: l' => Ascii.eqb a b && startswith p' l'
  end.

Definition flush (cur : bytes) : list bytes := match cur with [] => [] | _ => [cur] end.

Fixpoint split_from (cur l : bytes) : list bytes :=
  match l with
  | [] => flush cur
  | c :: r => if is_space c then flush cur ++ split_from [] r else split_from (cur ++ [c]) r
  end.

Definition split (l : bytes) : list bytes := split_from [] l.

(** ** What is written by _save_one_time *)

Inductive piece := L (s : string) | N (name : string).

(** a value: padding and word *)
Definition values := string -> nat * bytes.

Definition text (v : nat * bytes) : bytes := repeat sp (fst v) ++ snd v.

Definition render_piece (r : values) (p : piece) : bytes :=
  match p with L s => lit s | N x => text (r x) end.

(** a line of the record, newline not included *)
Definition render_line (r : values) (l : list piece) : bytes := flat_map (render_piece r) l.

Definition render (r : values) (ls : list (list piece)) : bytes :=
  flat_map (fun l => render_line r l ++ [nl]) ls.

Inductive solver := NS2D | NS2DStrat | NS3D | NS3DStrat | Plate2D.

(** the parameters which choose the lines: forcing.enable, nu_4 > 0, nu_8 > 0 *)
Record flags := mkF { forcing : bool; nu4 : bool; nu8 : bool }.

Local Open Scope string_scope.

Definition header : list (list piece) := [[L "####"]; [L "time = "; N "t"]].

(** [x = v ; y = w ...] as in the format strings: labels with their spaces *)
Definition l3 (a x b y c z e : string) : list piece :=
  [L a; N x; L b; N y; L c; N z; L e].

(** solvers/ns2d/output/spatial_means.py 69-81 *)
Definition lines_ns2d (f : flags) : list (list piece) :=
  header
  ++ [[L "E    = "; N "E"; L " ; Z         = "; N "Z"; L " "];
      l3 "epsK = " "epsK" " ; epsK_hypo = " "epsK_hypo" " ; epsK_tot = " "epsK_tot" " ";
      l3 "epsZ = " "epsZ" " ; epsZ_hypo = " "epsZ_hypo" " ; epsZ_tot = " "epsZ_tot" " "]
  ++ (if forcing f then
      [l3 "PK1  = " "PK1" " ; PK2       = " "PK2" " ; PK_tot   = " "PK_tot" " ";
       l3 "PZ1  = " "PZ1" " ; PZ2       = " "PZ2" " ; PZ_tot   = " "PZ_tot" " "] else []).

(** solvers/ns2d/strat/output/spatial_means.py 88-107 (also ns2d.bouss): PA1 is written twice *)
Definition lines_ns2d_strat (f : flags) : list (list piece) :=
  header
  ++ [[L "Z    = "; N "Z"; L " "];
      l3 "E    = " "E" " ; EK         = " "EK" " ; EA        = " "EA" " ";
      l3 "epsA = " "epsA" " ; epsA_hypo  = " "epsA_hypo" " ; epsA_tot  = " "epsA_tot" " ";
      l3 "epsK = " "epsK" " ; epsK_hypo  = " "epsK_hypo" " ; epsK_tot  = " "epsK_tot" " ";
      l3 "epsZ = " "epsZ" " ; epsZ_hypo = " "epsZ_hypo" " ; epsZ_tot = " "epsZ_tot" " ";
      [L "E_shear = "; N "E_shear"; L " "]]
  ++ (if forcing f then
      [l3 "PK1  = " "PK1" " ; PK2       = " "PK2" " ; PK_tot   = " "PK_tot" " ";
       l3 "PA1  = " "PA1" " ; PA2       = " "PA1" " ; PA_tot   = " "PA_tot" " ";
       l3 "PZ1  = " "PZ1" " ; PZ2       = " "PZ2" " ; PZ_tot   = " "PZ_tot" " "] else []).

(** solvers/ns3d/output/spatial_means.py 74-94 *)
Definition lines_ns3d (f : flags) : list (list piece) :=
  header
  ++ [[L "E    = "; N "E"];
      l3 "Ex   = " "Ex" " ; Ey   = " "Ey" " ; Ez   = " "Ez" "";
      l3 "epsK = " "epsK" " ; epsK_hypo = " "epsK_hypo" " ; epsK_tot = " "epsK_tot" " "]
  ++ (if nu4 f then [[L "epsK4 = "; N "epsK4"]] else [])
  ++ (if nu8 f then [[L "epsK8 = "; N "epsK8"]] else [])
  ++ (if forcing f then
      [l3 "PK1  = " "PK1" " ; PK2       = " "PK2" " ; PK_tot   = " "PK_tot" " "] else []).

(** solvers/ns3d/strat/output/spatial_means.py 98-127 (also ns3d.bouss) *)
Definition lines_ns3d_strat (f : flags) : list (list piece) :=
  header
  ++ [[L "E    = "; N "E"];
      [L "EA   = "; N "EA"; L " ; EKz   = "; N "EKz"; L " ; EKhr   = "; N "EKhr";
       L " ; EKhd   = "; N "EKhd"; L " ; EKhs   = "; N "EKhs"; L " ; EAs    = "; N "EAs"];
      [L "epsK = "; N "epsK"; L " ; epsK_hypo = "; N "epsK_hypo"; L " ; epsA = "; N "epsA";
       L " ; epsA_hypo = "; N "epsA_hypo"; L " ; eps_tot = "; N "eps_tot"; L " "]]
  ++ (if nu4 f then [[L "epsK4 = "; N "epsK4"; L " ; epsA4 = "; N "epsA4"]] else [])
  ++ (if nu8 f then [[L "epsK8 = "; N "epsK8"; L " ; epsA8 = "; N "epsA8"]] else [])
  ++ (if forcing f then
      [l3 "PK1  = " "PK1" " ; PK2       = " "PK2" " ; PK_tot   = " "PK_tot" " ";
       l3 "PA1  = " "PA1" " ; PA2       = " "PA2" " ; PA_tot   = " "PA_tot" " "] else []).

(** solvers/plate2d/output/spatial_means.py 101-115 *)
Definition lines_plate2d (f : flags) : list (list piece) :=
  header
  ++ [[L "E    = "; N "E"; L " ; E_k    = "; N "E_k"; L " ; E_l    = "; N "E_l";
       L " ; E_e    = "; N "E_e"];
      l3 "epsK = " "epsK" " ; epsK_hypo = " "epsK_hypo" " ; epsK_tot = " "epsK_tot" "";
      [L "conv_k_to_l = "; N "conv_k_to_l"; L " : conv_l_to_e = "; N "conv_l_to_e"]]
  ++ (if forcing f then [l3 "P1 = " "P1" " ; P2 = " "P2" " ; P_tot = " "P_tot" " "] else []).

Definition lines_of (s : solver) (f : flags) : list (list piece) :=
  match s with
  | NS2D => lines_ns2d f
  | NS2DStrat => lines_ns2d_strat f
  | NS3D => lines_ns3d f
  | NS3DStrat => lines_ns3d_strat f
  | Plate2D => lines_plate2d f
  end.

(** base/output/spatial_means.py 73-80: records are appended; [fr] gives the flags of the run which
    wrote the record (they can be changed at a restart) *)
Definition file_of (s : solver) (rs : list (flags * values)) : bytes :=
  flat_map (fun fr => render (snd fr) (lines_of s (fst fr))) rs.

(** ** load *)

(** [results[name][il] = float(lines[il].split()[idx])] with [lines] those starting with [prefix];
    [optional]: only if there is such a line *)
Record col := mkC { cname : string; prefix : string; idx : nat; optional : bool }.

Definition c1 (p : string) (x : string) : list col := [mkC x p 2 false].
Definition c2 (p x y : string) : list col := [mkC x p 2 false; mkC y p 6 false].
Definition c3 (p x y z : string) : list col :=
  [mkC x p 2 false; mkC y p 6 false; mkC z p 10 false].

(** solvers/ns2d/output/spatial_means.py 98-197 *)
Definition cols_ns2d (f : bool) : list col :=
  c1 "time =" "t" ++ c2 "E    =" "E" "Z"
  ++ (if f then c3 "PK1  =" "PK1" "PK2" "PK_tot" ++ c3 "PZ1  =" "PZ1" "PZ2" "PZ_tot" else [])
  ++ c3 "epsK =" "epsK" "epsK_hypo" "epsK_tot" ++ c3 "epsZ =" "epsZ" "epsZ_hypo" "epsZ_tot".

(** solvers/ns2d/strat/output/spatial_means.py 126-283 *)
Definition cols_ns2d_strat (f : bool) : list col :=
  c1 "time =" "t" ++ c1 "Z    =" "Z" ++ c3 "E    =" "E" "EK" "EA"
  ++ (if f then c3 "PK1  =" "PK1" "PK2" "PK_tot" ++ c3 "PA1  =" "PA1" "PA2" "PA_tot"
                ++ c3 "PZ1  =" "PZ1" "PZ2" "PZ_tot" else [])
  ++ c3 "epsK =" "epsK" "epsK_hypo" "epsK_tot" ++ c3 "epsZ =" "epsZ" "epsZ_hypo" "epsZ_tot"
  ++ c3 "epsA =" "epsA" "epsA_hypo" "epsA_tot" ++ c1 "E_shear =" "E_shear".

(** solvers/ns3d/output/spatial_means.py 111-226 (the injections which are not in the file are
    zeros: omitted) *)
Definition cols_ns3d (f : bool) : list col :=
  c1 "time =" "t" ++ c1 "E    =" "E" ++ c3 "Ex   =" "Ex" "Ey" "Ez"
  ++ (if f then c3 "PK1  =" "PK1" "PK2" "PK_tot" else [])
  ++ c3 "epsK =" "epsK" "epsK_hypo" "epsK_tot"
  ++ [mkC "epsK4" "epsK4 =" 2 true; mkC "epsK8" "epsK8 =" 2 true].

(** solvers/ns3d/strat/output/spatial_means.py 142-290 (EAs is always saved by this version) *)
Definition cols_ns3d_strat (f : bool) : list col :=
  c1 "time =" "t" ++ c1 "E    =" "E"
  ++ c3 "EA   =" "EA" "EKz" "EKhr"
  ++ [mkC "EKhd" "EA   =" 14 false; mkC "EKhs" "EA   =" 18 false; mkC "EAs" "EA   =" 22 false]
  ++ (if f then c3 "PK1  =" "PK1" "PK2" "PK_tot" ++ c3 "PA1  =" "PA1" "PA2" "PA_tot" else [])
  ++ c3 "epsK =" "epsK" "epsK_hypo" "epsA"
  ++ [mkC "epsA_hypo" "epsK =" 14 false; mkC "eps_tot" "epsK =" 18 false]
  ++ [mkC "epsK4" "epsK4 =" 2 true; mkC "epsA4" "epsK4 =" 6 true;
      mkC "epsK8" "epsK8 =" 2 true; mkC "epsA8" "epsK8 =" 6 true].

(** solvers/plate2d/output/spatial_means.py 139-211 *)
Definition cols_plate2d (f : bool) : list col :=
  c1 "time =" "t" ++ c3 "E    =" "E" "E_k" "E_l" ++ [mkC "E_e" "E    =" 14 false]
  ++ (if f then c3 "P1 =" "P1" "P2" "P_tot" else [])
  ++ c3 "epsK =" "epsK" "epsK_hypo" "epsK_tot".

Definition cols_of (s : solver) (f : bool) : list col :=
  match s with
  | NS2D => cols_ns2d f
  | NS2DStrat => cols_ns2d_strat f
  | NS3D => cols_ns3d f
  | NS3DStrat => cols_ns3d_strat f
  | Plate2D => cols_plate2d f
  end.

(** the lists of lines given to _get_nb_points_from_lines (None: nt = len(lines_t)) *)
Definition checked_of (s : solver) : option (list string) :=
  match s with
  | NS3D => Some ["E    ="; "Ex   ="; "PK1  ="; "epsK ="; "epsK4 ="; "epsK8 ="]
  | NS3DStrat => Some ["E    ="; "EA   ="; "PK1  ="; "PA1  ="; "epsK ="; "epsK4 ="; "epsK8 ="]
  | _ => None
  end.

Definition lines_with (p : string) (lines : list bytes) : list bytes :=
  filter (startswith (lit p)) lines.

(** base/output/spatial_means.py 120-127; [nt - 1] is -1 only for a file without time: then some
    lines are missing too and range(-1) is empty as range(0) *)
Definition nb_points (checked : option (list string)) (lines : list bytes) : nat :=
  let nt := length (lines_with "time =" lines) in
  match checked with
  | None => nt
  | Some ps =>
      if forallb (fun p => let n := length (lines_with p lines) in Nat.eqb n 0 || Nat.eqb n nt) ps
      then nt else nt - 1
  end.

Fixpoint collect {A} (l : list (option A)) : option (list A) :=
  match l with
  | [] => Some []
  | None :: _ => None
  | Some a :: r => match collect r with None => None | Some r' => Some (a :: r') end
  end.

Definition cell_at (c : col) (lines : list bytes) (il : nat) : option bytes :=
  match nth_error (lines_with (prefix c) lines) il with
  | None => None
  | Some line => nth_error (split line) (idx c)
  end.

Definition present (c : col) (lines : list bytes) : bool :=
  negb (optional c) || negb (Nat.eqb (length (lines_with (prefix c) lines)) 0).

(** None: IndexError *)
Definition load (s : solver) (f : bool) (file : bytes) : option (list (string * list bytes)) :=
  let lines := readlines file in
  let nt := nb_points (checked_of s) lines in
  if match s with NS3DStrat => Nat.eqb (length (lines_with "EA   =" lines)) 0 | _ => false end
  then None
  else collect (map (fun c =>
         match collect (map (cell_at c lines) (seq 0 nt)) with
         | None => None
         | Some l => Some (cname c, l)
         end) (filter (fun c => present c lines) (cols_of s f))).

(** ** time_first_saved and time_last_saved, base/output/spatial_means.py 170-191 *)

(** [readline] at the end of the file gives an empty string for ever: the loop is given a number of
    iterations, [None] if it is not finished *)
Fixpoint first_loop (fuel : nat) (line : bytes) (rest : list bytes) : option bytes :=
  if startswith (lit "time =") line then Some line
  else match fuel with
       | O => None
       | S n => match rest with
                | [] => first_loop n [] []
                | l :: r => first_loop n l r
                end
       end.

Definition time_first_saved (fuel : nat) (file : bytes) : option bytes :=
  match first_loop fuel [] (readlines file) with
  | None => None
  | Some line => nth_error (split line) 2
  end.

Definition tail_of (file : bytes) : bytes :=
  let nb_char_to_read := Nat.min (length file) 1000 in
  skipn (length file - nb_char_to_read) file.

(** None: UnboundLocalError (or IndexError) *)
Definition time_last_saved (file : bytes) : option bytes :=
  match fold_left (fun acc line => if startswith (lit "time =") line then Some line else acc)
          (readlines (tail_of file)) None with
  | None => None
  | Some line => nth_error (split line) 2
  end.

(** ** JSON files (sw1l), base/output/spatial_means.py 194-281

    json.loads is modelled by what it is given *)

Definition dquote : ascii := """"%char.

Definition json_item (kv : string * bytes) : bytes :=
  ([dquote] ++ lit (fst kv) ++ [dquote] ++ lit ": " ++ snd kv)%list.

Fixpoint json_items (l : list (string * bytes)) : bytes :=
  match l with
  | [] => []
  | [kv] => json_item kv
  | kv :: r => (json_item kv ++ lit ", " ++ json_items r)%list
  end.

(** json.dump of a dictionary of numbers *)
Definition json_dump (l : list (string * bytes)) : bytes := (lit "{" ++ json_items l ++ lit "}")%list.

Definition json_file (rs : list (list (string * bytes))) : bytes :=
  flat_map (fun r => (json_dump r ++ [nl])%list) rs.

(** 266-281: the argument of json.loads (None: UnboundLocalError) *)
Definition json_last (file : bytes) : option bytes :=
  fold_left (fun _ line => Some line) (readlines (tail_of file)) None.

(** 255-264 *)
Definition json_first (file : bytes) : bytes :=
  match readlines file with [] => [] | l :: _ => l end.

(** solvers/sw1l/output/spatial_means.py: keys of a record, in the order of the updates; [sw1l] for
    SpatialMeansSW1L *)
Definition keys_sw1l (sw1l f : bool) : list string :=
  ["t"; "E"; "CPE"; "EK"; "EA"; "EKr";
   "epsK"; "epsK_hypo"; "epsA"; "epsA_hypo"; "epsCPE"; "epsCPE_hypo"]
  ++ (if sw1l then ["epsKsup"; "epsKsup_hypo"] else [])
  ++ ["epsK_tot"; "epsA_tot"; "epsCPE_tot"; "Conv"; "c2eta1d"; "c2eta2d"; "c2eta3d";
      "skew_eta"; "kurt_eta"; "skew_rot"; "kurt_rot"; "skew_div"; "kurt_div"]
  ++ (if f then ["PK1"; "PK2"; "PK_tot"; "PA1"; "PA2"; "PA_tot"] else []).
