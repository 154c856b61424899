(** * The command fluidsim and its subcommands

    fluidsim/util/console/__main__.py 12-14 (compute_name_command), 17-31 (add_subparser), 34-39 (print_verbose_version), 42-66
    (get_parser), 69-80 (run), 83-92 (_run_from_module), pyproject.toml 80-85 (the installed commands).

    The module is its dotted name and its init_parser, which may raise ConsoleError.  The arguments after the subcommand are read
    by argparse and are not modelled.  Of the options before the subcommand only -V, --version, -h and --help, written in full,
    are modelled; argparse exits with 2 for another argument. *)

From Coq Require Import Ascii String List Bool.
Import ListNotations.
Local Open Scope string_scope.

(** name.split(".")[-1] *)
Fixpoint last_part (acc s : string) : string :=
  match s with
  | EmptyString => acc
  | String c r => if Ascii.eqb c "." then last_part "" r else last_part (acc ++ String c "") r
  end.
(** name.replace("_", "-") *)
Fixpoint dashes (s : string) : string :=
  match s with EmptyString => "" | String c r => String (if Ascii.eqb c "_" then "-"%char else c) (dashes r) end.
Definition compute_name_command (module : string) : string := dashes (last_part "" module).

(** what args.func is: the run of a module, print_help or print_verbose_version *)
Inductive func := Run (module : string) | Help | Version.
Inductive outcome := Call (f : func) | ShowVersion | ShowHelp | Exit2.

(** the modules of line 57 *)
Definition modules : list string := ["fluidsim.util.console.bench"; "fluidsim.util.console.bench_analysis"; "fluidsim.util.console.profile"].

(** the parsers of the subcommands: the name and the default func, None if it is not set (init_parser raised ConsoleError) *)
Definition add_subparser (fails : string -> bool) (m : string) : string * option func :=
  (compute_name_command m, if fails m then None else Some (Run m)).
Definition subparsers (fails : string -> bool) : list (string * option func) :=
  (map (add_subparser fails) modules ++ [("version", Some Version)])%list.

Fixpoint lookup (l : list (string * option func)) (k : string) : option (option func) :=
  match l with [] => None | (n, f) :: r => if String.eqb n k then Some f else lookup r k end.

(** 69-80: the default func of the subparser replaces the one of the parser *)
Definition run (fails : string -> bool) (argv : list string) : outcome :=
  match argv with
  | [] => Call Help
  | a :: _ =>
      if existsb (String.eqb a) ["-V"; "--version"] then ShowVersion
      else if existsb (String.eqb a) ["-h"; "--help"] then ShowHelp
      else match lookup (subparsers fails) a with
           | None => Exit2
           | Some None => Call Help
           | Some (Some f) => Call f
           end
  end.

(** 34-39: the printed lines *)
Definition print_verbose_version (version local : string) : list string :=
  ("fluidsim " ++ version) :: (if String.eqb local version then [] else ["local version: " ++ local]).

(** 83-92: the name of the program in the messages of the separate commands *)
Definition prog (module : string) : string := "fluidsim" ++ compute_name_command module.
(** pyproject.toml 83-85 *)
Definition scripts : list (string * string) :=
  [("fluidsim-profile", "fluidsim.util.console.profile"); ("fluidsim-bench", "fluidsim.util.console.bench");
   ("fluidsim-bench-analysis", "fluidsim.util.console.bench_analysis")].
