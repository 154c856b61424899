(** Model of fluidsim/base/output/horiz_means.py (HorizontalMeans).

    Simplifications: exact numbers; the arrays of a process are functions of the local indices (z, y, x); the messages
    arrive; the file is the list of its records. *)
From Coq Require Import String Reals List Bool.
Import ListNotations.
Local Open Scope R_scope.

Fixpoint sumn (n : nat) (f : nat -> R) : R := match n with O => 0 | S k => sumn k f + f k end.

(** what a process knows of the grid: iz_start, shapeX_loc *)
Record hproc := mkHproc { iz_start : nat; nz_local : nat; ny_local : nat; nx_local : nat }.
Definition arr3 : Type := nat -> nat -> nat -> R.

(** np.sum(arr3d, axis=(1, 2)) *)
Definition sum_local (p : hproc) (a : arr3) (iz : nat) : R :=
  sumn (ny_local p) (fun iy => sumn (nx_local p) (fun ix => a iz iy ix)).

(** 117: sum_global[iz_start : iz_start + nz_loc] += data *)
Definition add_slice (acc : nat -> R) (start n : nat) (data : nat -> R) : nat -> R :=
  fun iz => if (start <=? iz)%nat && (iz <? start + n)%nat then acc iz + data (iz - start)%nat else acc iz.

(** 92-120: the profile returned by the process 0; nh = nx ny (156) *)
Definition compute_hmean (nh : R) (procs : list hproc) (arrs : list arr3) : nat -> R :=
  match procs, arrs with
  | [p], [a] => fun iz => sum_local p a iz / (INR (ny_local p) * INR (nx_local p))
  | _, _ =>
      let sum_global := fold_left (fun acc pa => add_slice acc (iz_start (fst pa)) (nz_local (fst pa)) (sum_local (fst pa) (snd pa)))
                          (combine procs arrs) (fun _ => 0) in
      fun iz => sum_global iz / nh
  end.

(** 122-129: the profile is sent to all the processes, each one takes its slice *)
Definition hmean_to_3d_local (p : hproc) (profile : nat -> R) : arr3 := fun iz _ _ => profile (iz_start p + iz)%nat.

Definition minus3 (a b : arr3) : arr3 := fun iz iy ix => a iz iy ix - b iz iy ix.
Definition times3 (a b : arr3) : arr3 := fun iz iy ix => a iz iy ix * b iz iy ix.

Fixpoint map2 {A B D : Type} (f : A -> B -> D) (la : list A) (lb : list B) : list D :=
  match la, lb with a :: la, b :: lb => f a b :: map2 f la lb | _, _ => [] end.

(** 166-197: the lists are over the processes *)
Definition compute (nh : R) (procs : list hproc) (vx vy vz : list arr3) : list (string * (nat -> R)) :=
  let hmean := compute_hmean nh procs in
  let vx_mean := hmean vx in let vy_mean := hmean vy in let vz_mean := hmean vz in
  let sub v m := map2 (fun p a => minus3 a (hmean_to_3d_local p m)) procs v in
  let vxp := sub vx vx_mean in let vyp := sub vy vy_mean in let vzp := sub vz vz_mean in
  [("vx"%string, vx_mean); ("vy"%string, vy_mean); ("vz"%string, vz_mean);
   ("vxp_vxp"%string, hmean (map2 times3 vxp vxp)); ("vyp_vyp"%string, hmean (map2 times3 vyp vyp)); ("vzp_vzp"%string, hmean (map2 times3 vzp vzp));
   ("vyp_vxp"%string, hmean (map2 times3 vyp vxp)); ("vzp_vxp"%string, hmean (map2 times3 vzp vxp)); ("vzp_vyp"%string, hmean (map2 times3 vzp vyp))].

(** ** load (199-235), one key: the records are (time, profile) *)

(** np.argmin(abs(times - t)): the first index of the smallest distance *)
Fixpoint argmin_from (ibest : nat) (best : R) (i : nat) (l : list R) : nat :=
  match l with
  | [] => ibest
  | x :: r => if Rlt_dec x best then argmin_from i x (S i) r else argmin_from ibest best (S i) r
  end.
Definition argmin (l : list R) : nat := match l with [] => O | x :: r => argmin_from 0 x 1 r end.
Definition index_time (times : list R) (t : R) : nat := argmin (map (fun s => Rabs (s - t)) times).

Definition sum_list (l : list R) : R := fold_right Rplus 0 l.

(** dset_key[imin_plot : imax_plot + 1].mean(0); None: mean of nothing *)
Definition load_mean (records : list (R * (nat -> R))) (tmin tmax : option R) : option (nat -> R) :=
  let times := map fst records in
  let imin := match tmin with None => O | Some t => index_time times t end in
  let imax := match tmax with None => (length records - 1)%nat | Some t => index_time times t end in
  let rows := firstn (imax + 1 - imin) (skipn imin records) in
  match rows with [] => None | _ => Some (fun iz => sum_list (map (fun r => snd r iz) rows) / INR (length rows)) end.
