(** * The commands of IPython: %fluidsim, %fluidsim_load, %fluidsim_reset and fluidsim-ipy-load
    (fluidsim/magic.py 73-112, lib/fluidsim_core/magic.py 33-85, lib/fluidsim_core/ipy_load.py 11-45)

    Simplifications: the namespace of the user is a function from the names to the values; the values are None and the objects
    (numbers); the functions which load a simulation or import a solver are variables (None is an exception), as the function
    float and the answer of the user; the abbreviations of the options, the combined options (-fs) and the negative numbers are
    not modelled (they are errors here). *)

From Coq Require Import Ascii String List Bool QArith.
Import ListNotations.
Local Open Scope string_scope.

Inductive value := PyNone | Obj (n : nat).
Definition namespace := string -> option value.
Definition set (ns : namespace) (k : string) (v : value) : namespace := fun x => if String.eqb x k then Some v else ns x.
Definition del (ns : namespace) (k : string) : namespace := fun x => if String.eqb x k then None else ns x.

(** lib/fluidsim_core/magic.py 33-35 *)
Definition is_defined (ns : namespace) (k : string) : bool :=
  match ns k with Some (Obj _) => true | _ => false end.

(** the namespace after the command, whether the user was asked, and whether there was an exception *)
Record result := mkResult { after : namespace; asked : bool; raised : bool }.

Section Commands.
  (** import_cls_simul, Simul.create_default_params *)
  Variable import_cls_simul : string -> option nat.
  Variable default_params : nat -> option nat.
  (** load_state_phys_file(name_dir, t_approx, merge_missing_params), load_sim_for_plot(name_dir, merge_missing_params),
      type(sim), sim.params *)
  Variable load_state_phys_file : option string -> option Q -> bool -> option nat.
  Variable load_sim_for_plot : option string -> bool -> option nat.
  Variable type_of params_of : nat -> nat.
  Variable float : string -> option Q.

  (** ** lib/fluidsim_core/magic.py 37-74: %fluidsim *)
  Definition fluidsim (solver : string) (force answer : bool) (ns : namespace) : result :=
    if String.eqb solver "" then mkResult ns false false
    else
      let ask := negb force && (is_defined ns "params" || is_defined ns "Simul") in
      if ask && negb answer then mkResult ns true false
      else
        match import_cls_simul solver with
        | None => mkResult ns ask true
        | Some Simul =>
            match default_params Simul with
            | None => mkResult ns ask true
            | Some params => mkResult (set (set ns "Simul" (Obj Simul)) "params" (Obj params)) ask false
            end
        end.

  (** ** 76-81: %fluidsim_reset *)
  Definition fluidsim_reset (ns : namespace) : namespace :=
    fold_left (fun ns k => if is_defined ns k then del ns k else ns) ["sim"; "params"; "Simul"] ns.

  (** ** fluidsim/magic.py 75-87: the arguments of %fluidsim_load *)
  Record args := mkArgs { force_overwrite : bool; state_phys : bool; t_approx : option Q; merge : bool; directory : option string }.
  Definition default_args : args := mkArgs false false None false None.
  Definition dash (w : string) : bool := match w with String c _ => Ascii.eqb c "-" | EmptyString => false end.
  Fixpoint parse (l : list string) (a : args) : option args :=
    match l with
    | [] => Some a
    | w :: r =>
        if dash w then
          if String.eqb w "-f" || String.eqb w "--force-overwrite" then
            parse r (mkArgs true (state_phys a) (t_approx a) (merge a) (directory a))
          else if String.eqb w "-s" || String.eqb w "--state-phys" then
            parse r (mkArgs (force_overwrite a) true (t_approx a) (merge a) (directory a))
          else if String.eqb w "-m" || String.eqb w "--merge-missing-params" then
            parse r (mkArgs (force_overwrite a) (state_phys a) (t_approx a) true (directory a))
          else if String.eqb w "-t" || String.eqb w "--t-approx" then
            match r with
            | x :: r' =>
                if dash x then None
                else match float x with
                     | None => None
                     | Some t => parse r' (mkArgs (force_overwrite a) (state_phys a) (Some t) (merge a) (directory a))
                     end
            | [] => None
            end
          else None
        else
          match directory a with
          | None => parse r (mkArgs (force_overwrite a) (state_phys a) (t_approx a) (merge a) (Some w))
          | Some _ => None
          end
    end.

  (** ** 89-112: %fluidsim_load *)
  Definition load (a : args) : option nat :=
    if state_phys a then load_state_phys_file (directory a) (t_approx a) (merge a) else load_sim_for_plot (directory a) (merge a).
  Definition fluidsim_load (line : list string) (answer : bool) (ns : namespace) : result :=
    match parse line default_args with
    | None => mkResult ns false true
    | Some a =>
        let ask := negb (force_overwrite a) && is_defined ns "sim" in
        if ask && negb answer then mkResult ns true false
        else
          match load a with
          | None => mkResult ns ask true
          | Some sim =>
              mkResult (set (set (set ns "Simul" (Obj (type_of sim))) "params" (Obj (params_of sim))) "sim" (Obj sim)) ask false
          end
    end.
End Commands.

(** ** lib/fluidsim_core/ipy_load.py 25-44: the code given to IPython *)
Definition lines (load_import : string) : list string :=
  ["import numpy as np"; "import matplotlib.pyplot as plt"; "import pandas as pd"; load_import;
   "print(""Loading simulation"")"; "sim = load()"; "params = sim.params";
   "print(""`sim`, `params`, `np`, `plt` and `pd` variables are available"")"].
Definition chdir_line (path : string) : string := "import os; os.chdir('" ++ path ++ "')".
Definition code (load_import : string) (path : option string) : string :=
  String.concat "; " (match path with None => lines load_import | Some p => chdir_line p :: lines load_import end).
