(** * Loading of the time series of the probes
    (base/output/temporal_spectra.py and base/output/spatiotemporal_spectra.py)

    The times are integers in a common unit: any finite set of floating point numbers can be
    written like this, the comparisons are exact and the rounding of the differences is not
    modelled.  A file of a rank is its start time, read in its name
    (`float(p.name[14:-3])`), and its saved instants with the data of the probes (one column
    of the datasets, of any type [V]). *)

From Coq Require Import ZArith List Bool.
Import ListNotations.
Open Scope Z_scope.

(** The results: a value or the exception raised. *)
Inductive res (A : Type) : Type :=
| Ok (a : A)
| ValueError
| IndexError.
Arguments Ok {A} a.
Arguments ValueError {A}.
Arguments IndexError {A}.

Definition bind {A B : Type} (x : res A) (f : A -> res B) : res B :=
  match x with Ok a => f a | ValueError => ValueError | IndexError => IndexError end.

Section Load.
Context {V : Type}.

Record tfile := mkFile { fstart : Z; fsamples : list (Z * V) }.
(** `file["times"][:]` *)
Definition ftimes (f : tfile) : list Z := map fst (fsamples f).

(** spatiotemporal_spectra.py 43-70, find_index_first_geq, find_index_first_g and
    find_index_first_l: the index of the first element with the property, ValueError if there
    is none (the print is not modelled). *)
Fixpoint find_index_first (p : Z -> bool) (arr : list Z) : res nat :=
  match arr with
  | [] => ValueError
  | v :: r => if p v then Ok O else bind (find_index_first p r) (fun i => Ok (S i))
  end.

(** `np.diff` *)
Fixpoint np_diff (l : list Z) : list Z :=
  match l with
  | a :: ((b :: _) as r) => (b - a) :: np_diff r
  | _ => []
  end.

(** `.min()` and `.max()`: ValueError for an empty array. *)
Definition np_min (l : list Z) : res Z :=
  match l with [] => ValueError | a :: r => Ok (fold_left Z.min r a) end.
Definition np_max (l : list Z) : res Z :=
  match l with [] => ValueError | a :: r => Ok (fold_left Z.max r a) end.

(** spatiotemporal_spectra.py 73-78, filter_tmins_paths; tmins and paths are here the start
    times and the files of one list. *)
Definition filter_tmins_paths (tmin : Z) (fs : list tfile) : res (list tfile) :=
  match fs with
  | [_] => Ok fs
  | _ =>
      bind (np_min (np_diff (map fstart fs))) (fun delta_tmin =>
      bind (find_index_first (fun x => x <? delta_tmin)
              (map (fun f => tmin - fstart f) fs)) (fun start =>
      Ok (skipn start fs)))
  end.

(** spatiotemporal_spectra.py 91-112, get_arange_minmax: the bounds of `np.arange(start, stop)`. *)
Definition get_arange_minmax (times : list Z) (tmin tmax : Z) : res (nat * nat) :=
  match times with
  | [] => IndexError
  | t0 :: _ =>
      bind (if tmin <=? t0 then Ok O else find_index_first (fun v => tmin <=? v) times) (fun start =>
      bind (if last times 0 <=? tmax then Ok (length times)
            else find_index_first (fun v => tmax <? v) times) (fun stop =>
      Ok (start, stop)))
  end.

(** `arr[np.arange(start, stop)]` *)
Definition take_arange {A : Type} (r : nat * nat) (l : list A) : list A :=
  firstn (snd r - fst r) (skipn (fst r) l).

(** temporal_spectra.py 434-444 and spatiotemporal_spectra.py 507-516: the loop on the files of
    the first rank; [ip] is the index of the file.  Gives the arrays of times and the value of
    `ip` after the loop. *)
Fixpoint times_loop (tmin tmax : Z) (ip : nat) (fs : list tfile) : list (list Z) * nat :=
  match fs with
  | [] => ([], pred ip)
  | f :: r =>
      if tmax <? fstart f then ([], ip)
      else
        let '(ts, ip') := times_loop tmin tmax (S ip) r in
        (filter (fun t => (tmin <=? t) && (t <=? tmax)) (ftimes f) :: ts, ip')
  end.

(** `np.concatenate`: ValueError without array. *)
Definition np_concatenate {A : Type} (l : list (list A)) : res (list A) :=
  match l with [] => ValueError | _ => Ok (concat l) end.

(** temporal_spectra.py 482-520: the loop on the files of one rank of the temporal spectra.
    The test uses `tmins_files[ip]` where `ip` is not a variable of this loop: it is the value
    left by the loop on the times.  The selection of the probes of a region is not modelled. *)
Fixpoint series_loop (tmin tmax : Z) (tmins_files : list Z) (ip : nat) (fs : list tfile)
  : res (list (list V)) :=
  match fs with
  | [] => Ok []
  | f :: r =>
      match nth_error tmins_files ip with
      | None => IndexError
      | Some tmin_file =>
          if tmax <? tmin_file then Ok []
          else
            bind (get_arange_minmax (ftimes f) tmin tmax) (fun its_file =>
            bind (series_loop tmin tmax tmins_files ip r) (fun data =>
            Ok (take_arange its_file (map snd (fsamples f)) :: data)))
      end
  end.

Fixpoint map_ranks {A B : Type} (g : A -> res B) (l : list A) : res (list B) :=
  match l with
  | [] => Ok []
  | a :: r => bind (g a) (fun b => bind (map_ranks g r) (fun bs => Ok (b :: bs)))
  end.

(** temporal_spectra.py 466-518, the series of one rank. *)
Definition rank_series (tmin tmax : Z) (ip : nat) (files : list tfile) : res (list V) :=
  bind (filter_tmins_paths tmin files) (fun fs =>
  bind (series_loop tmin tmax (map fstart fs) ip fs) np_concatenate).

(** temporal_spectra.py 395-524, load_time_series, for one key: [ranks] are the files of each
    rank in the order of time.  Gives the times and the series of each rank. *)
Definition load_temporal (tmin tmax : Z) (ranks : list (list tfile))
  : res (list Z * list (list V)) :=
  match ranks with
  | [] => IndexError
  | first :: _ =>
      bind (filter_tmins_paths tmin first) (fun fs =>
      let '(ts, ip) := times_loop tmin tmax 0 fs in
      bind (np_concatenate ts) (fun times =>
      bind (np_min times) (fun tmin' =>
      bind (np_max times) (fun tmax' =>
      bind (map_ranks (rank_series tmin' tmax' ip) ranks) (fun series =>
      Ok (times, series))))))
  end.

(** *** The spatiotemporal spectra *)

(** `series[..., it] = value` *)
Fixpoint set_col (l : list (option V)) (it : nat) (v : V) : list (option V) :=
  match l, it with
  | [], _ => []
  | _ :: r, O => Some v :: r
  | a :: r, S i => a :: set_col r i v
  end.

(** spatiotemporal_spectra.py 604-610: `for i, it in enumerate(its): series[..., it] = data[:, i]`;
    IndexError when there are less columns in [data] than indices. *)
Fixpoint write_cols (series : list (option V)) (it : nat) (n : nat) (data : list V)
  : res (list (option V)) :=
  match n with
  | O => Ok series
  | S n' =>
      match data with
      | [] => IndexError
      | v :: data' => write_cols (set_col series it v) (S it) n' data'
      end
  end.

(** spatiotemporal_spectra.py 577-613, the loop on the files of one rank. *)
Fixpoint st_loop (tmin tmax : Z) (times : list Z) (fs : list tfile)
    (series : list (option V)) : res (list (option V)) :=
  match fs with
  | [] => Ok series
  | f :: r =>
      if tmax <? fstart f then Ok series
      else
        match ftimes f with
        | [] => IndexError
        | _ =>
            if last (ftimes f) 0 <? tmin then st_loop tmin tmax times r series
            else
              bind (get_arange_minmax (ftimes f) tmin tmax) (fun its_file =>
              match take_arange its_file (ftimes f) with
              | [] => IndexError
              | (tmin_keep :: _) as kept =>
                  bind (get_arange_minmax times tmin_keep (last kept 0)) (fun its =>
                  bind (write_cols series (fst its) (snd its - fst its)
                          (take_arange its_file (map snd (fsamples f)))) (fun series' =>
                  st_loop tmin tmax times r series'))
              end)
        end
  end.

(** spatiotemporal_spectra.py 549-616, the series of one rank; the elements not written of
    `np.empty` are [None]. *)
Definition st_rank_series (tmin tmax : Z) (times : list Z) (files : list tfile)
  : res (list (option V)) :=
  bind (filter_tmins_paths tmin files) (fun fs =>
  st_loop tmin tmax times fs (repeat None (length times))).

(** spatiotemporal_spectra.py 461-641, load_time_series with tmax given (the default is the
    last time of the last file), for one key; each rank has its own probes. *)
Definition load_spatiotemporal (tmin tmax : Z) (ranks : list (list tfile))
  : res (list Z * list (list (option V))) :=
  match ranks with
  | [] => IndexError
  | first :: _ =>
      bind (filter_tmins_paths tmin first) (fun fs =>
      let '(ts, _) := times_loop tmin tmax 0 fs in
      bind (np_concatenate ts) (fun times =>
      bind (np_min times) (fun tmin' =>
      bind (np_max times) (fun tmax' =>
      bind (map_ranks (st_rank_series tmin' tmax' times) ranks) (fun series =>
      Ok (times, series))))))
  end.

End Load.
Arguments tfile V : clear implicits.
