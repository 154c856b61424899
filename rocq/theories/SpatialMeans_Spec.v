(** What the files of the spatial means should give back *)

From Coq Require Import String Ascii List Arith Bool.
From Verif Require Import SpatialMeans_Model.
Import ListNotations.
Local Open Scope nat_scope.

(** the text of a formatted number: not empty, without white space *)
Definition word_ok (w : bytes) : Prop := w <> [] /\ forallb (fun c => negb (is_space c)) w = true.

Definition values_ok (r : values) : Prop := forall x, word_ok (snd (r x)).

Local Open Scope string_scope.

(** the quantities given by load, in the order of the results *)
Definition names (s : solver) (f : flags) : list string :=
  match s with
  | NS2D => ["t"; "E"; "Z"]
      ++ (if forcing f then ["PK1"; "PK2"; "PK_tot"; "PZ1"; "PZ2"; "PZ_tot"] else [])
      ++ ["epsK"; "epsK_hypo"; "epsK_tot"; "epsZ"; "epsZ_hypo"; "epsZ_tot"]
  | NS2DStrat => ["t"; "Z"; "E"; "EK"; "EA"]
      ++ (if forcing f then ["PK1"; "PK2"; "PK_tot"; "PA1"; "PA2"; "PA_tot"; "PZ1"; "PZ2"; "PZ_tot"]
          else [])
      ++ ["epsK"; "epsK_hypo"; "epsK_tot"; "epsZ"; "epsZ_hypo"; "epsZ_tot";
          "epsA"; "epsA_hypo"; "epsA_tot"; "E_shear"]
  | NS3D => ["t"; "E"; "Ex"; "Ey"; "Ez"]
      ++ (if forcing f then ["PK1"; "PK2"; "PK_tot"] else [])
      ++ ["epsK"; "epsK_hypo"; "epsK_tot"]
      ++ (if nu4 f then ["epsK4"] else []) ++ (if nu8 f then ["epsK8"] else [])
  | NS3DStrat => ["t"; "E"; "EA"; "EKz"; "EKhr"; "EKhd"; "EKhs"; "EAs"]
      ++ (if forcing f then ["PK1"; "PK2"; "PK_tot"; "PA1"; "PA2"; "PA_tot"] else [])
      ++ ["epsK"; "epsK_hypo"; "epsA"; "epsA_hypo"; "eps_tot"]
      ++ (if nu4 f then ["epsK4"; "epsA4"] else []) ++ (if nu8 f then ["epsK8"; "epsA8"] else [])
  | Plate2D => ["t"; "E"; "E_k"; "E_l"; "E_e"]
      ++ (if forcing f then ["P1"; "P2"; "P_tot"] else [])
      ++ ["epsK"; "epsK_hypo"; "epsK_tot"]
  end.

(** the table of the printed values *)
Definition table (xs : list string) (rs : list values) : list (string * list bytes) :=
  map (fun x => (x, map (fun r : values => snd (r x)) rs)) xs.

(** the records of runs with the same parameters *)
Definition same (f : flags) (rs : list values) : list (flags * values) := map (fun r => (f, r)) rs.

(** number of characters of a formatted number: format 11.5e (11.6e, 31.26e and 17.13f for plate2d,
    the time being smaller than 10^16) *)
Definition width (s : solver) (x : string) : nat :=
  match s with
  | Plate2D => if String.eqb x "t" then 30 else if String.eqb x "E" then 34 else 14
  | _ => 13
  end.

Definition widths_ok (s : solver) (r : values) : Prop :=
  forall x, (length (text (r x)) <= width s x)%nat.
