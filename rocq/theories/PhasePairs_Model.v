(** * Pairs of random phase shifts

    fluidsim/base/time_stepping/pseudo_spect.py, 302-372.

    The arrays of phase factors are addresses in a heap, because a pair is renewed in place.
    [draw n] is the n-th result of oper.get_phases_random (through the exponentials).  The
    results of randint are arguments. *)

From Coq Require Import List Arith Bool.
Import ListNotations.

Section Pairs.

Variable P : Type.
Variable draw : nat -> P * P.

Definition heap := nat -> P.
Definition write (h : heap) (a : nat) (v : P) : heap := fun b => if a =? b then v else h b.

Record pstate := mkP {
  hp : heap;
  pairs : list (nat * nat);     (* _pairs_phaseshift *)
  index : nat;                  (* _index_phaseshift *)
  prev_pair : nat;              (* _previous_index_pair *)
  prev_flip : bool;             (* _previous_index_flip *)
  ndraws : nat                  (* number of calls of get_phases_random *)
}.

(** pseudo_spect.py 92-100 (compute_phaseshift_terms): writes the two arrays, returns them *)
Definition compute_phaseshift_terms (n : nat) (a b : nat) (h : heap) : heap * (nat * nat) :=
  (write (write h a (fst (draw n))) b (snd (draw n)), (a, b)).

(** pseudo_spect.py 304-311 *)
Definition nb_steps_of (nb_pairs : nat) (given : option nat) : nat :=
  match given with
  | Some n => n
  | None => if nb_pairs =? 1 then 2 else 4 * nb_pairs
  end.

(** pseudo_spect.py 317-328: the loop; each turn allocates two new arrays *)
Fixpoint init_loop (n : nat) (i : nat) (h : heap) (l : list (nat * nat)) : heap * list (nat * nat) :=
  match n with
  | O => (h, l)
  | S n' => let (h', p) := compute_phaseshift_terms i (2 * i) (2 * i + 1) h in
            init_loop n' (S i) h' (l ++ [p])
  end.

(** pseudo_spect.py 302-328 (_init_phaseshift_random); [h] is the content of uninitialised
    memory *)
Definition init_phaseshift_random (nb_pairs : nat) (h : heap) : pstate :=
  let (h', l) := init_loop nb_pairs 0 h [] in
  mkP h' l 1 0 false nb_pairs.

(** pseudo_spect.py 330-372 (_get_phaseshift_random); None: an exception (no pair).
    [r_pair], [r_flip] are the results of randint. *)
Definition get_phaseshift_random (nb_pairs nb_steps : nat) (r_pair : nat) (r_flip : bool)
  (s : pstate) : option ((nat * nat) * pstate) :=
  let chosen :=
    if (nb_pairs =? 1) && (nb_steps =? 1) then
      match nth_error (pairs s) 0 with
      | Some ab => Some (ab, prev_pair s, prev_flip s)
      | None => None
      end
    else if (nb_pairs =? 1) && (nb_steps =? 2) then
      match nth_error (pairs s) 0 with
      | Some (a, b) =>
          Some (if index s =? 1 then (a, b) else (b, a), prev_pair s, prev_flip s)
      | None => None
      end
    else
      match nth_error (pairs s) r_pair with
      | Some (a, b) =>
          let index_flip :=
            if (r_pair =? prev_pair s) && Bool.eqb r_flip (prev_flip s) then negb r_flip
            else r_flip in
          Some (if index_flip then (a, b) else (b, a), r_pair, index_flip)
      | None => None
      end in
  match chosen with
  | None => None
  | Some (ret, pp, pf) =>
      if index s =? nb_steps then
        match pairs s with
        | [] => None
        | (a, b) :: rest =>
            let (h', p) := compute_phaseshift_terms (ndraws s) a b (hp s) in
            Some ((a, b), mkP h' (rest ++ [p]) 1 pp pf (S (ndraws s)))
        end
      else Some (ret, mkP (hp s) (pairs s) (S (index s)) pp pf (ndraws s))
  end.

(** the values of the two arrays when the function returns *)
Definition values (ret : nat * nat) (s : pstate) : P * P := (hp s (fst ret), hp s (snd ret)).

(** n calls; the randint results of call i are [rp i], [rf i]; the list of returned values *)
Fixpoint calls (nb_pairs nb_steps : nat) (rp : nat -> nat) (rf : nat -> bool) (n : nat)
  (s : pstate) : option (list (P * P) * pstate) :=
  match n with
  | O => Some ([], s)
  | S n' =>
      match calls nb_pairs nb_steps rp rf n' s with
      | None => None
      | Some (l, s1) =>
          match get_phaseshift_random nb_pairs nb_steps (rp n') (rf n') s1 with
          | None => None
          | Some (ret, s2) => Some (l ++ [values ret s2], s2)
          end
      end
  end.

End Pairs.
