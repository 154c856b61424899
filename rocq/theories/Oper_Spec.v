(** * What is expected of the arrays of Fourier modes *)

From Coq Require Import List Arith ZArith Bool Reals.
From Coquelicot Require Import Complex.
Import ListNotations.
Local Open Scope nat_scope.

(** ** Wavenumbers of a discrete Fourier transform over [n] points: the index [i] holds the wavenumber [k] *)
Definition holds (n i k : Z) : Prop := ((k = i \/ k = i - n) /\ 0 <= i < n /\ - n < 2 * k <= n)%Z.

(** ** Real fields: the coefficients of opposite wavenumbers along a column of self-conjugate wavenumber *)
Definition opposite (n i : nat) : nat := match i with O => O | S _ => n - i end.

Definition hermitian_column (n : nat) (f : nat -> nat -> C) (c : nat) : Prop :=
  forall i, i < n -> f (opposite n i) c = Cconj (f i c).

(** coefficients F kx ky of a real field over nx * ny points: periodic and conjugate for opposite wavenumbers *)
Definition spectrum_of_real_field (nx ny : Z) (F : Z -> Z -> C) : Prop :=
  (forall kx ky, F (kx + nx)%Z ky = F kx ky) /\ (forall kx ky, F kx (ky + ny)%Z = F kx ky)
  /\ (forall kx ky, F (- kx)%Z (- ky)%Z = Cconj (F kx ky)).

(** ** Distribution of consecutive rows: rank [r] holds [nth r counts] rows after those of the ranks before it *)
Fixpoint owns (counts : list nat) (i : nat) (r : nat) (j : nat) : Prop :=
  match counts, r with
  | c :: _, O => i = j /\ j < c
  | c :: rest, S r => c <= i /\ owns rest (i - c) r j
  | [], _ => False
  end.

Fixpoint total (counts : list nat) : nat := match counts with [] => 0 | c :: r => c + total r end.

(** ** Vectors of complex numbers *)
Definition dot (a b : C * C * C) : C :=
  Cplus (Cplus (Cmult (fst (fst a)) (Cconj (fst (fst b)))) (Cmult (snd (fst a)) (Cconj (snd (fst b)))))
    (Cmult (snd a) (Cconj (snd b))).

Definition vadd (a b : C * C * C) : C * C * C :=
  (Cplus (fst (fst a)) (fst (fst b)), Cplus (snd (fst a)) (snd (fst b)), Cplus (snd a) (snd b)).

Definition vnull : C * C * C := (RtoC 0, RtoC 0, RtoC 0).

(** the divergence of the mode *)
Definition divergence (kx ky kz : R) (v : C * C * C) : C :=
  Cmult Ci (Cplus (Cplus (Cmult (RtoC kx) (fst (fst v))) (Cmult (RtoC ky) (snd (fst v)))) (Cmult (RtoC kz) (snd v))).

(** the vertical component of the rotational *)
Definition vertical_rot (kx ky : R) (x y : C) : C :=
  Cmult Ci (Cminus (Cmult (RtoC kx) y) (Cmult (RtoC ky) x)).

Definition horizontal_div (kx ky : R) (x y : C) : C :=
  Cmult Ci (Cplus (Cmult (RtoC kx) x) (Cmult (RtoC ky) y)).

(** the point [i] of a periodic grid of [n] points over the length [l] *)
Definition periodic_point (l : R) (n i : nat) (x : R) : Prop := (x * INR n = l * INR i)%R.
