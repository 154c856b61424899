(** Model of InitFieldsLinearMode.put_ones_linear_mode (fluidsim/solvers/ns2d/strat/init_fields.py, 109-157) and of
    compute_omega_emp_vs_kzkh (fluidsim/base/output/spatiotemporal_spectra.py, 917-962).

    Simplifications: exact numbers; an array is a shape and a function of the indices; None is an exception (IndexError)
    or, for the frequencies, nan. *)
From Coq Require Import Reals ZArith List Bool.
Import ListNotations.
Local Open Scope Z_scope.

(** indices of an array of shape (n0, n1), in the order of np.argwhere *)
Definition indices (n0 n1 : Z) : list (Z * Z) :=
  flat_map (fun i => map (fun j => (Z.of_nat i, Z.of_nat j)) (seq 0 (Z.to_nat n1))) (seq 0 (Z.to_nat n0)).

Section Mode.
  (** i_mode and delta_k_adim *)
  Variables i_mode0 i_mode1 delta : Z.

  (** 139-147 *)
  Definition cond (ikx iky : Z) : bool :=
    (i_mode0 <=? ikx) && (ikx <=? i_mode0 + delta - 1) && ((i_mode1 <=? iky) && (iky <=? i_mode1 + delta - 1)).

  (** 151-153: linear_mode[tuple(index)] = 1.0, linear_mode of shape (s0, s1) *)
  Fixpoint put_ones (s0 s1 : Z) (idx : list (Z * Z)) (a : Z -> Z -> bool) : option (Z -> Z -> bool) :=
    match idx with
    | [] => Some a
    | (i, j) :: r =>
        if (i <? s0) && (j <? s1) then put_ones s0 s1 r (fun i' j' => if (i' =? i) && (j' =? j) then true else a i' j') else None
    end.

  (** one process: shapeK = (s0, s1), the rows are ky and the columns kx; np.meshgrid(ikx, iky) has the shape
      (len(iky), len(ikx)) = (shapeK[1], shapeK[0]) and iKX[i, j] = j, iKY[i, j] = i *)
  Definition put_ones_seq (s0 s1 : Z) : option (Z -> Z -> bool) :=
    put_ones s0 s1 (filter (fun ij => cond (snd ij) (fst ij)) (indices s1 s0)) (fun _ _ => false).

  (** several processes: shapeK = (s0, s1) of the process, the rows are kx from ikx_start and the columns ky;
      np.meshgrid(iky, ikx) has the shape (len(ikx), len(iky)) and iKX[i, j] = ikx_start + i, iKY[i, j] = j *)
  Definition put_ones_mpi (ikx_start s0 s1 : Z) : option (Z -> Z -> bool) :=
    put_ones s0 s1 (filter (fun ij => cond (ikx_start + fst ij) (snd ij)) (indices s0 s1)) (fun _ _ => false).
End Mode.

(** 121 and 156 *)
Definition linear_mode (amplitude N : R) (a : Z -> Z -> bool) (i j : Z) : R := if a i j then (amplitude * N ^ 2)%R else 0%R.

(** ** Empirical frequencies: one (kz, kh), the spectrum is a list over the frequencies *)

Local Open Scope R_scope.

Definition sum_list (l : list R) : R := fold_right Rplus 0 l.
Definition omega_norm (spectrum : list R) : R := sum_list spectrum.
Definition omega_emp (omegas spectrum : list R) : option R :=
  if Req_EM_T (omega_norm spectrum) 0 then None
  else Some (sum_list (map (fun os => fst os * snd os) (combine omegas spectrum)) / omega_norm spectrum).
Definition delta_omega_emp (omegas spectrum : list R) : option R :=
  match omega_emp omegas spectrum with
  | None => None
  | Some oe => Some (sqrt (sum_list (map (fun os => (fst os - oe) ^ 2 * snd os) (combine omegas spectrum)) / omega_norm spectrum))
  end.
