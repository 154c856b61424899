(** Model of the adaptive time step of the solver ns2d.strat, fluidsim/solvers/ns2d/strat/time_stepping.py.

    Simplifications: exact numbers; the fields are the lists of their values, one list per process; 1 / 0 of numpy (no
    wave) is None, no limit. *)
From Coq Require Import Reals List.
Import ListNotations.
Local Open Scope R_scope.

Inductive error := ZeroDivisionError | TypeError.

Definition max_list (l : list R) : R := match l with [] => 0 | x :: l => fold_left Rmax l x end.
(** np.float64 division *)
Definition np_inv_limit (num freq : R) : option R := if Req_EM_T freq 0 then None else Some (num / freq).
Definition min_opt (x : R) (o : option R) : R := match o with None => x | Some y => Rmin x y end.

(** ** The waves *)
Section Waves.
Variable N : R.
(** (KX, KZ), K_not0 (fluidfft): a positive number for the zero mode; solver.py 215-225: N kx / k *)
Definition K_not0 (k : R * R) : R := if Req_EM_T (fst k ^ 2 + snd k ^ 2) 0 then 1 else sqrt (fst k ^ 2 + snd k ^ 2).
Definition dispersion_relation (k : R * R) : R := N * (fst k / K_not0 k).
(** 65-75 *)
Definition deltat_dispersion_relation (modes : list (R * R)) : option R := np_inv_limit (1 * (2 * PI)) (max_list (map dispersion_relation modes)).
(** 121-129 *)
Definition cg_kx (k : R * R) : R := N / K_not0 k * (snd k ^ 2 / K_not0 k ^ 2).
Definition cg_kz (k : R * R) : R := - N / K_not0 k * (fst k / K_not0 k * (snd k / K_not0 k)).
Definition freq_group (modes : list (R * R)) (deltax deltay : R) : R := max_list (map cg_kx modes) / deltax + max_list (map cg_kz modes) / deltay.
Definition deltat_group_vel (coef_group : R) (modes : list (R * R)) (deltax deltay : R) : option R := np_inv_limit coef_group (freq_group modes deltax deltay).
End Waves.

(** 105-109: python numbers *)
Definition deltat_f (forcing_rate : R) : R + error :=
  if Req_EM_T forcing_rate 0 then inr ZeroDivisionError else if Rlt_dec forcing_rate 0 then inr TypeError else inl (1 / Rpower forcing_rate (1 / 3)).

Record params := mkParams { p_N : R; p_modes : list (R * R); p_dx : R; p_dy : R; p_CFL : R; p_deltat_max : R; p_coef_group : option R; p_forcing : option R }.

(** 140-156: the values of (ux, uy) of each process *)
Definition max_abs (l : list R) : R := max_list (map Rabs l).
Definition freq_CFL (p : params) (procs : list (list (R * R))) : R :=
  max_list (map (fun l => max_abs (map fst l) / p_dx p + max_abs (map snd l) / p_dy p) procs).
Definition deltat_CFL (p : params) (procs : list (list (R * R))) : R :=
  if Rlt_dec 0 (freq_CFL p procs) then p_CFL p / freq_CFL p procs else p_deltat_max p.

(** 158-172 *)
Definition maybe_new_dt (p : params) (procs : list (list (R * R))) : R + error :=
  let a := min_opt (Rmin (deltat_CFL p procs) (p_deltat_max p)) (deltat_dispersion_relation (p_N p) (p_modes p)) in
  let b := match p_coef_group p with None => a | Some c => min_opt a (deltat_group_vel (p_N p) c (p_modes p) (p_dx p) (p_dy p)) end in
  match p_forcing p with
  | None => inl b
  | Some rate => match deltat_f rate with inr e => inr e | inl d => inl (Rmin b d) end
  end.
(** 174-176 *)
Definition update (p : params) (procs : list (list (R * R))) (deltat : R) : R + error :=
  match maybe_new_dt p procs with
  | inr e => inr e
  | inl d => inl (if Rlt_dec (2 / 100) (Rabs (deltat - d) / d) then d else deltat)
  end.
