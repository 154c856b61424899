(** * Arrays of Fourier modes: dealiasing, real fields, coarse arrays, indices, vector decompositions

    An array is a function of its indices; only the indices inside of its shape are meaningful. *)

From Coq Require Import List Arith ZArith Bool Reals.
From Coquelicot Require Import Complex.
Import ListNotations.
Local Open Scope nat_scope.

(** ** Loops and assignments *)

Definition loop {S : Type} (n : nat) (body : nat -> S -> S) (s : S) : S :=
  fold_left (fun s i => body i s) (seq 0 n) s.

(** range(a, b) *)
Definition loop_from {S : Type} (a b : nat) (body : nat -> S -> S) (s : S) : S :=
  fold_left (fun s i => body i s) (seq a (b - a)) s.

Definition set2 {V : Type} (f : nat -> nat -> V) (i j : nat) (v : V) : nat -> nat -> V :=
  fun a b => if (a =? i) && (b =? j) then v else f a b.

Definition set3 {V : Type} (f : nat -> nat -> nat -> V) (i j k : nat) (v : V) : nat -> nat -> nat -> V :=
  fun a b c => if (a =? i) && (b =? j) && (c =? k) then v else f a b c.

Definition set4 {V : Type} (f : nat -> nat -> nat -> nat -> V) (i j k l : nat) (v : V) :
  nat -> nat -> nat -> nat -> V :=
  fun a b c d => if (a =? i) && (b =? j) && (c =? k) && (d =? l) then v else f a b c d.

(** ** Dealiasing *)

Section Dealias.
Context {V : Type}.
Variable zero : V.

(** operators2d.py 210-220 (dealiasing_setofvar); without _has_to_dealiase nothing is done *)
Definition dealiasing_setofvar_2d (has_to_dealiase : bool) (mask : nat -> nat -> bool) (nk n0 n1 : nat)
  (sov : nat -> nat -> nat -> V) : nat -> nat -> nat -> V :=
  if has_to_dealiase then
    loop n0 (fun i0 => loop n1 (fun i1 s =>
      if mask i0 i1 then loop nk (fun ik s => set3 s ik i0 i1 zero) s else s)) sov
  else sov.

(** operators3d.py 38-59 (dealiasing_setofvar) *)
Definition dealiasing_setofvar_3d (mask : nat -> nat -> nat -> bool) (nk n0 n1 n2 : nat)
  (sov : nat -> nat -> nat -> nat -> V) : nat -> nat -> nat -> nat -> V :=
  loop n0 (fun i0 => loop n1 (fun i1 => loop n2 (fun i2 s =>
    if mask i0 i1 i2 then loop nk (fun ik s => set4 s ik i0 i1 i2 zero) s else s))) sov.

(** operators3d.py 62-71 (dealiasing_variable) *)
Definition dealiasing_variable_3d (mask : nat -> nat -> nat -> bool) (n0 n1 n2 : nat)
  (f : nat -> nat -> nat -> V) : nat -> nat -> nat -> V :=
  loop n0 (fun i0 => loop n1 (fun i1 => loop n2 (fun i2 s =>
    if mask i0 i1 i2 then set3 s i0 i1 i2 zero else s))) f.

(** np.nonzero(mask): the list of the indices *)
Definition nonzero (mask : nat -> nat -> nat -> bool) (n0 n1 n2 : nat) : list (nat * nat * nat) :=
  filter (fun i => mask (fst (fst i)) (snd (fst i)) (snd i))
    (list_prod (list_prod (seq 0 n0) (seq 0 n1)) (seq 0 n2)).

(** operators3d.py 79-80 (dealiasing_variable_numpy): ff_fft[np.nonzero(where_dealiased)] = 0.0 *)
Definition dealiasing_variable_numpy (mask : nat -> nat -> nat -> bool) (n0 n1 n2 : nat)
  (f : nat -> nat -> nat -> V) : nat -> nat -> nat -> V :=
  fold_left (fun s i => set3 s (fst (fst i)) (snd (fst i)) (snd i) zero) (nonzero mask n0 n1 n2) f.

(** operators3d.py 74-76 (dealiasing_setofvar_numpy): each sov[i] is a view *)
Definition dealiasing_setofvar_numpy (mask : nat -> nat -> nat -> bool) (nk n0 n1 n2 : nat)
  (sov : nat -> nat -> nat -> nat -> V) : nat -> nat -> nat -> nat -> V :=
  loop nk (fun i s =>
    fold_left (fun s p => set4 s i (fst (fst p)) (snd (fst p)) (snd p) zero) (nonzero mask n0 n1 n2) s) sov.
End Dealias.

(** ** Projection on the real fields, operators2d.py 222-259 (project_fft_on_realX_seq) *)

Definition real_of (z : C) : C := RtoC (Re z).

Definition half_sum (a b : C) : C := Cdiv (Cplus a (Cconj b)) (RtoC 2).

(** the statements for one column *)
Definition project_pair (nky ikx ikyp : nat) (f : nat -> nat -> C) : nat -> nat -> C :=
  let ikyn := nky - ikyp in
  let kp := f ikyp ikx in
  let kn := f ikyn ikx in
  set2 (set2 f ikyp ikx (half_sum kp kn)) ikyn ikx (Cconj (half_sum kp kn)).

Definition project_fft_on_realX_seq (nky nkx : nat) (f : nat -> nat -> C) : nat -> nat -> C :=
  let kyM := nky / 2 in
  let kxM := nkx - 1 in
  let f := set2 f 0 0 (real_of (f 0 0)) in
  let f := set2 f 0 kxM (real_of (f 0 kxM)) in
  let f := set2 f kyM 0 (real_of (f kyM 0)) in
  let f := set2 f kyM kxM (real_of (f kyM kxM)) in
  loop_from 1 kyM (fun ikyp f => project_pair nky kxM ikyp (project_pair nky 0 ikyp f)) f.

(** ** Indices *)

(** operators3d.py 1183-1194 (_ik_from_ikc); also operators2d.py 271-275 and 597-601;
    ikc <= nkc / 2.0 *)
Definition ik_from_ikc (ikc nkc nk : nat) (is_x : bool) : nat :=
  if (2 * ikc <=? nkc) || is_x then ikc else ikc + nk - nkc.

(** 1196-1200 (_kadim_from_ik) *)
Definition kadim_from_ik (ik : Z) (nk : Z) (first : bool) : Z :=
  if first || (ik <=? nk / 2)%Z then ik else (ik - nk)%Z.

(** 1202-1205 (_ik_from_kadim) *)
Definition ik_from_kadim (k_adim : Z) (nk : Z) (first : bool) : Z :=
  if first || (0 <=? k_adim)%Z then k_adim else (nk + k_adim)%Z.

(** 1054-1103 (kadim_from_ik012rank, ik012rank_from_kadim): sequential, dimX_K = (0, 1, 2) *)
Definition kadim_from_ik012 (ny nz : Z) (i : Z * Z * Z) : Z * Z * Z :=
  let '(ik0, ik1, ik2) := i in (ik2, kadim_from_ik ik1 ny false, kadim_from_ik ik0 nz false).

Definition ik012_from_kadim (ny nz : Z) (k : Z * Z * Z) : Z * Z * Z :=
  let '(kx, ky, kz) := k in (ik_from_kadim kz nz false, ik_from_kadim ky ny false, kx).

(** dimX_K *)
Inductive layout := L012 | L102 | L210 | L120.

(** 1147-1162 (i012_from_ixyz) *)
Definition i012_from_ixyz {V : Type} (d : layout) (ix iy iz : V) : V * V * V :=
  match d with
  | L102 => (iy, iz, ix)
  | L012 => (iz, iy, ix)
  | L210 => (ix, iy, iz)
  | L120 => (iy, ix, iz)
  end.

(** 1164-1180 (ixyz_from_i012) *)
Definition ixyz_from_i012 {V : Type} (d : layout) (i0 i1 i2 : V) : V * V * V :=
  match d with
  | L102 => (i2, i0, i1)
  | L012 => (i2, i1, i0)
  | L210 => (i0, i1, i2)
  | L120 => (i1, i0, i2)
  end.

(** ** Coarse arrays *)

Section Coarse.
Context {V : Type}.

(** operators2d.py 587-604 (sequential branch); [small]: np.allclose(0., max(abs(...))) for the row
    nKyc//2 and the column nKxc - 1 *)
Definition put_coarse_2d (small : V -> bool) (nkyc nkxc nky : nat) (coarse arr : nat -> nat -> V) :
  option (nat -> nat -> V) :=
  if forallb (fun i => small (coarse (nkyc / 2) i)) (seq 0 nkxc)
     && forallb (fun i => small (coarse i (nkxc - 1))) (seq 0 nkyc)
  then Some (loop nkyc (fun ikyc => loop nkxc (fun ikxc a =>
               set2 a (ik_from_ikc ikyc nkyc nky false) ikxc (coarse ikyc ikxc))) arr)
  else None.

(** operators2d.py 264-281 (coarse_seq_from_fft_loc, sequential) *)
Definition coarse_from_2d (zero : V) (nkyc nkxc nky : nat) (f : nat -> nat -> V) : nat -> nat -> V :=
  loop nkyc (fun ikyc => loop nkxc (fun ikxc a =>
    set2 a ikyc ikxc (f (ik_from_ikc ikyc nkyc nky false) ikxc))) (fun _ _ => zero).

(** operators3d.py 370-379 (put_coarse_array_in_array_fft, sequential) *)
Definition put_coarse_3d (nkzc nkyc nkxc nkz nky : nat) (coarse arr : nat -> nat -> nat -> V) : nat -> nat -> nat -> V :=
  loop nkzc (fun ikzc => loop nkyc (fun ikyc => loop nkxc (fun ikxc a =>
    set3 a (ik_from_ikc ikzc nkzc nkz false) (ik_from_ikc ikyc nkyc nky false) ikxc (coarse ikzc ikyc ikxc)))) arr.

(** operators3d.py 527-540 (coarse_seq_from_fft_loc, sequential) *)
Definition coarse_from_3d (zero : V) (nkzc nkyc nkxc nkz nky : nat) (f : nat -> nat -> nat -> V) : nat -> nat -> nat -> V :=
  loop nkzc (fun ikzc => loop nkyc (fun ikyc => loop nkxc (fun ikxc a =>
    set3 a ikzc ikyc ikxc (f (ik_from_ikc ikzc nkzc nkz false) (ik_from_ikc ikyc nkyc nky false) ikxc)))) (fun _ _ _ => zero).
End Coarse.

(** ** Owner of a wavenumber *)

(** operators3d.py 667-676: the first rank whose successor starts after ik0 (the loop with break);
    [starts] are the first indices of the ranks *)
Fixpoint search_3d (ik0 : nat) (starts : list nat) (rank : Z) : Z :=
  match starts with
  | [] => (rank - 1)%Z
  | s :: r => if ik0 <? s then (rank - 1)%Z else search_3d ik0 r (rank + 1)
  end.

(** slabs; [counts]: number of rows of each rank; [same_size]: SAME_SIZE_IN_ALL_PROC *)
Definition start_rank (counts : list nat) (r : nat) : nat := fold_right Nat.add 0 (firstn r counts).
Definition starts_of (counts : list nat) : list nat := map (start_rank counts) (seq 0 (length counts)).

Definition where_3d (counts : list nat) (same_size : bool) (nk0_loc ik0 : nat) : Z * Z :=
  let rank := if same_size then Z.of_nat (ik0 / nk0_loc) else search_3d ik0 (starts_of counts) 0 in
  (rank, (Z.of_nat ik0 - Z.of_nat (start_rank counts (Z.to_nat rank)))%Z).

(** operators3d.py 680-706 (pencils): each rank has the box of first indices and sizes; allgather, then
    the first True; None: ValueError *)
Notation box := ((Z * Z * Z) * (Z * Z * Z))%type.

Definition inside (i : Z * Z * Z) (b : box) : bool :=
  let '(i0, i1, i2) := i in
  let '((f0, f1, f2), (s0, s1, s2)) := b in
  (f0 <=? i0)%Z && (i0 <? f0 + s0)%Z && ((f1 <=? i1)%Z && (i1 <? f1 + s1)%Z)
  && ((f2 <=? i2)%Z && (i2 <? f2 + s2)%Z).

Fixpoint where_pencil (i : Z * Z * Z) (boxes : list box) (rank : nat) : option (nat * (Z * Z * Z)) :=
  match boxes with
  | [] => None
  | b :: r =>
      if inside i b then
        let '(i0, i1, i2) := i in
        let '((f0, f1, f2), _) := b in
        Some (rank, ((i0 - f0)%Z, (i1 - f1)%Z, (i2 - f2)%Z))
      else where_pencil i r (S rank)
  end.

(** operators2d.py 401-442: [ikx], [iky] are the rounded indices; None: ValueError.
    The search of the rank (423-431) stops at the last rank. *)
Fixpoint search_2d (ikx : Z) (starts : list Z) (rank : nat) : nat :=
  match starts with
  | a :: ((b :: _) as r) => if (a <=? ikx)%Z && (ikx <? b)%Z then rank else search_2d ikx r (S rank)
  | _ => rank
  end.

Definition where_2d (sequential same_size transposed : bool) (counts : list nat) (nkx_seq nky_loc : nat) (nkx_loc : nat)
  (ikx iky : Z) : option (Z * Z * Z) :=
  if (Z.of_nat nkx_seq <=? ikx)%Z then None
  else
    let iky_loc := if (iky <? 0)%Z then (Z.of_nat nky_loc + iky)%Z else iky in
    let order (rank ikx_loc : Z) := if transposed then (rank, ikx_loc, iky_loc) else (rank, iky_loc, ikx_loc) in
    if sequential then Some (order (0%Z) ikx)
    else if same_size then
      (if (Z.of_nat (nkx_loc * length counts) <=? ikx)%Z then None
       else let rank := (ikx / Z.of_nat nkx_loc)%Z in
            Some (order rank (ikx - Z.of_nat (start_rank counts (Z.to_nat rank)))%Z))
    else
      let rank := search_2d ikx (map Z.of_nat (starts_of counts)) 0 in
      Some (order (Z.of_nat rank) (ikx - Z.of_nat (start_rank counts rank))%Z).

(** ** 1D grid, operators2d.py 606-615 and operators3d.py 1040-1049 (get_grid1d_seq): the point [i];
    numpy.linspace(0, length, number_points) when ONLY_COARSE_OPER, the grid of the operator otherwise *)
Definition grid1d (only_coarse : bool) (length : R) (n i : nat) : R :=
  if only_coarse then (INR i * (length / INR (n - 1)))%R else (INR i * (length / INR n))%R.

(** ** Vectors, one mode *)

Section Vectors.
Variables kx ky kz : R.

Local Open Scope R_scope.

Definition eqb0 (x : R) : bool := if Req_EM_T x 0 then true else false.

(** a[a == 0] = 1e-14 *)
Definition nozero (x : R) : R := if eqb0 x then / 10 ^ 14 else x.

Definition Kh2 : R := kx ^ 2 + ky ^ 2.
Definition K2 : R := Kh2 + kz ^ 2.

Definition inv_Kh : R := 1 / nozero Kh2.
Definition inv_K : R := 1 / nozero K2.

Definition cos_theta : R := kz * sqrt inv_K.
Definition sin_theta : R := sqrt (Kh2 * inv_K).
Definition cos_phi : R := kx * sqrt inv_Kh.
Definition sin_phi : R := ky * sqrt inv_Kh.

Notation vec := (C * C * C)%type.
Notation vx v := (fst (fst v)).
Notation vy v := (snd (fst v)).
Notation vz v := (snd v).

Definition rmul (a : R) (z : C) : C := Cmult (RtoC a) z.

(** operators3d.py 712-730 (urudfft_from_vxvyfft) *)
Definition kdotu (x y : C) : C := Cplus (rmul kx x) (rmul ky y).
Definition ud (x y : C) : C * C :=
  (rmul inv_Kh (rmul kx (kdotu x y)), rmul inv_Kh (rmul ky (kdotu x y))).
Definition ur (x y : C) : C * C := (Cminus x (fst (ud x y)), Cminus y (snd (ud x y))).

(** 732-785 (project_kradial3d) *)
Definition project_kradial3d (v : vec) : vec :=
  let tmp := rmul inv_K (Cplus (Cplus (rmul kx (vx v)) (rmul ky (vy v))) (rmul kz (vz v))) in
  (rmul kx tmp, rmul ky tmp, rmul kz tmp).

(** 858-883 (vpfft_from_vecfft) *)
Definition vp_from_vec (v : vec) : C :=
  Cminus (Cplus (rmul (cos_theta * cos_phi) (vx v)) (rmul (cos_theta * sin_phi) (vy v))) (rmul sin_theta (vz v)).

(** 885-908 (vecfft_from_vpfft) *)
Definition vec_from_vp (vp : C) : vec :=
  (rmul (cos_theta * cos_phi) vp, rmul (cos_theta * sin_phi) vp, rmul (- sin_theta) vp).

(** 787-856 (project_poloidal) *)
Definition project_poloidal (v : vec) : vec :=
  let tmp := vp_from_vec v in
  (rmul (cos_theta * cos_phi) tmp, rmul (cos_theta * sin_phi) tmp, rmul (- sin_theta) tmp).

(** 910-958 (project_toroidal) *)
Definition project_toroidal (v : vec) : vec :=
  let tmp := Cplus (rmul (- sin_phi) (vx v)) (rmul cos_phi (vy v)) in
  (rmul (- sin_phi) tmp, rmul cos_phi tmp, RtoC 0).

(** 960-975 (vtfft_from_vecfft) *)
Definition vt_from_vec (v : vec) : C :=
  Cplus (Cmult (Copp Ci) (rmul sin_phi (vx v))) (Cmult Ci (rmul cos_phi (vy v))).

(** 977-992 (vecfft_from_vtfft) *)
Definition vec_from_vt (vt : C) : vec :=
  (Cmult Ci (rmul sin_phi vt), Cmult (Copp Ci) (rmul cos_phi vt), RtoC 0).

(** 994-997 (divhfft_from_vxvyfft); rotzfft_from_vxvyfft is in fluidfft: 1j * (Kx * vy - Ky * vx) *)
Definition divh (x y : C) : C := Cmult Ci (Cplus (rmul kx x) (rmul ky y)).
Definition rotz (x y : C) : C := Cmult Ci (Cminus (rmul kx y) (rmul ky x)).

(** 999-1007 (vxvyfft_from_rotzfft) *)
Definition v_from_rotz (r : C) : C * C :=
  (Cmult Ci (rmul (ky * inv_Kh) r), Cmult (Copp Ci) (rmul (kx * inv_Kh) r)).

(** 1009-1017 (vxvyfft_from_divhfft) *)
Definition v_from_divh (d : C) : C * C :=
  (Cmult (Copp Ci) (rmul (kx * inv_Kh) d), Cmult (Copp Ci) (rmul (ky * inv_Kh) d)).

(** 1019-1038 (grad_fft_from_arr_fft) *)
Definition grad (a : C) : vec :=
  (Cmult Ci (rmul kx a), Cmult Ci (rmul ky a), Cmult Ci (rmul kz a)).
End Vectors.

(** ** Laplacian, operators2d.py 47-60 and 461-523

    one mode: [K2] is the square of the wavenumber, order = 2 n; [first]: the mode [0, 0] of rank 0;
    Kn_not0 is Kn with its first value replaced (by fluidfft) by a number which is not 0 *)
Section Laplacian.
Local Open Scope R_scope.

(** 1j**order *)
Definition sign_of (n : nat) : C := RtoC ((- 1) ^ n).

Definition laplacian (K2 : R) (n : nat) (negative : bool) (a : C) : C :=
  let sign := if negative then Cmult (RtoC (- 1)) (sign_of n) else sign_of n in
  Cmult sign (Cmult a (RtoC (K2 ^ n))).

Definition invlaplacian (K2 K2_not0 : R) (first : bool) (n : nat) (negative : bool) (a : C) : C :=
  let sign := if negative then Cmult (RtoC (- 1)) (Cinv (sign_of n)) else Cinv (sign_of n) in
  Cmult sign (if first then RtoC 0 else Cdiv a (RtoC (K2_not0 ^ n))).
End Laplacian.
