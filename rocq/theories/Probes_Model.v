(** Model of the probes of fluidsim/base/output/temporal_spectra.py (TemporalSpectra3D) and of
    save_data_as_phys_fields.

    Simplifications: exact numbers; the fields are functions of the global grid indices; a process has a box of the
    grid (start and size in the three directions, fluidfft); a record of a process is a global grid point, from which
    X, Y, Z and the fields are read; None is an exception; an element of np.empty which is not set is None. *)
From Coq Require Import QArith Qround ZArith List Bool.
Import ListNotations.
Local Open Scope Z_scope.

(** round(x), np.rint(x): to the nearest integer, ties to even *)
Definition round_even (x : Q) : Z :=
  let f := Qfloor x in
  match Qcompare (x - inject_Z f)%Q (1 # 2) with
  | Lt => f
  | Gt => f + 1
  | Eq => if Z.even f then f else f + 1
  end.

(** int(x) *)
Definition int_of (x : Q) : Z := if Qle_bool 0 x then Qfloor x else - Qfloor (- x).

(** np.arange(start, stop, step) for step > 0 *)
Definition arange (start stop step : Q) : list Q :=
  map (fun i => (start + inject_Z (Z.of_nat i) * step)%Q) (seq 0 (Z.to_nat (Qceiling ((stop - start) / step)))).

(** ** One direction: 163-190 *)

Definition eps : Q := 1 # 1000000000000000.

(** oper.deltax *)
Definition mesh (L : Q) (n : Z) : Q := (L / inject_Z n)%Q.

(** 163-165 and the same for y and z *)
Definition probes_delta (dx delta : Q) : Q :=
  let d := (dx * inject_Z (round_even (delta / dx)))%Q in if Qle_bool dx d then d else dx.

(** 166, 188 and the same for y and z *)
Definition probes_seq (dx delta xmin xmax : Q) : list Q :=
  arange (dx * inject_Z (round_even (xmin / dx)))%Q (xmax + eps)%Q (probes_delta dx delta).

(** block of a process: first index and number of points *)
Definition block : Type := Z * Z.
Definition X_min (dx : Q) (b : block) : Q := (dx * inject_Z (fst b))%Q.
Definition X_max (dx : Q) (b : block) : Q := (dx * inject_Z (fst b + snd b - 1))%Q.

(** 242-244 and the same for y and z *)
Definition probes_loc (dx : Q) (b : block) (l : list Q) : list Q :=
  filter (fun x => Qle_bool (X_min dx b) x && Qle_bool x (X_max dx b)) l.

(** 274-278: the indices in the arrays of the process *)
Definition probe_index (dx : Q) (b : block) (x : Q) : Z := int_of ((x - X_min dx b) / dx).

(** ** Three directions *)

Definition box : Type := block * block * block.

(** 270-290: global indices (x, y, z) of the points read by _get_data_probe_from_field *)
Definition records (dx dy dz : Q) (sx sy sz : list Q) (b : box) : list (Z * Z * Z) :=
  let '(bx, by_, bz) := b in
  flat_map (fun x => flat_map (fun y => map (fun z =>
    (fst bx + probe_index dx bx x, fst by_ + probe_index dy by_ y, fst bz + probe_index dz bz z))
    (probes_loc dz bz sz)) (probes_loc dy by_ sy)) (probes_loc dx bx sx).

(** ** save_data_as_phys_fields (699-797) *)

Section Save.
  Variable V : Type.

  (** a file of a process: the times and, for each time, the values of the records *)
  Definition tfile : Type := list (Q * list V).
  (** the records and the files of a process *)
  Definition prank : Type := list (Z * Z * Z) * list tfile.

  Definition times_of (f : tfile) : list Q := map fst f.

  (** 757-761: the first file such that times[0] <= time <= times[-1] *)
  Definition holds (time : Q) (f : tfile) : bool :=
    match f with
    | [] => false
    | (t0, _) :: _ => Qle_bool t0 time && Qle_bool time (last (times_of f) t0)
    end.

  (** 763: np.where(times == time)[0], has to be one index *)
  Definition values_at (time : Q) (f : tfile) : option (list V) :=
    match filter (fun r => Qeq_bool (fst r) time) f with [r] => Some (snd r) | _ => None end.

  (** 736-741: probes_x_seq[1] - xmin *)
  Definition spacing (l : list Q) : option (Q * Q) :=
    match l with a :: b :: _ => Some (a, (b - a)%Q) | _ => None end.

  Definition array3 : Type := Z -> Z -> Z -> option V.
  (** indices in the order z, y, x *)
  Definition set3 (a : array3) (iz iy ix : Z) (v : V) : array3 :=
    fun jz jy jx => if (jz =? iz) && (jy =? iy) && (jx =? ix) then Some v else a jz jy jx.

  Section OneTime.
    Variables dx dy dz : Q.
    Variables sx sy sz : Q * Q. (** first position and spacing of the probes *)

    (** 766-771 *)
    Definition probe_number (d : Q) (s : Q * Q) (g : Z) : Z := round_even ((d * inject_Z g - fst s) / snd s)%Q.

    (** 773-777 *)
    Definition put_rank (a : array3) (recs : list (Z * Z * Z)) (vals : list V) : array3 :=
      fold_left (fun a rv => let '((gx, gy, gz), v) := rv in
        set3 a (probe_number dz sz gz) (probe_number dy sy gy) (probe_number dx sx gx) v) (combine recs vals) a.

    (** 748-780 *)
    Fixpoint fields_at (time : Q) (a : array3) (ranks : list prank) : option array3 :=
      match ranks with
      | [] => Some a
      | (recs, files) :: r =>
          match find (holds time) files with
          | None => fields_at time a r
          | Some f => match values_at time f with None => None | Some vals => fields_at time (put_rank a recs vals) r end
          end
      end.
  End OneTime.

  (** 784: the name of a file is given by the time with three decimals *)
  Definition name_field (time : Q) : Z := round_even (1000 * time)%Q.

  (** h5py.File(path, "w") *)
  Fixpoint write_file (d : list (Z * array3)) (k : Z) (a : array3) : list (Z * array3) :=
    match d with
    | [] => [(k, a)]
    | (k', a') :: r => if k' =? k then (k, a) :: r else (k', a') :: write_file r k a
    end.
  Fixpoint read_file (d : list (Z * array3)) (k : Z) : option array3 :=
    match d with [] => None | (k', a) :: r => if k' =? k then Some a else read_file r k end.

  Fixpoint save_times (dx dy dz : Q) (sx sy sz : Q * Q) (ranks : list prank) (times : list Q) (d : list (Z * array3)) : option (list (Z * array3)) :=
    match times with
    | [] => Some d
    | t :: r =>
        match fields_at dx dy dz sx sy sz t (fun _ _ _ => None) ranks with
        | None => None
        | Some a => save_times dx dy dz sx sy sz ranks r (write_file d (name_field t) a)
        end
    end.

  (** 699-797 with delta_index_times = 1; 733: int(np.log10(times.max())) needs a positive time *)
  Definition save_data_as_phys_fields (dx dy dz : Q) (lx ly lz : list Q) (ranks : list prank) : option (list (Z * array3)) :=
    match ranks with
    | [] => None
    | (_, files) :: _ =>
        let times := flat_map times_of files in
        if existsb (fun t => negb (Qle_bool t 0)) times then
          match spacing lx, spacing ly, spacing lz with
          | Some sx, Some sy, Some sz => save_times dx dy dz sx sy sz ranks times []
          | _, _, _ => None
          end
        else None
    end.
End Save.
