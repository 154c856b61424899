(** * State variables

    fluidsim/base/state.py and solvers/*/state.py.

    A solver gives its lists of keys and, for its method [compute], one rule per key.  Each rule
    is the expression assigned to [result] in the branch of this key; arrays are values of an
    arbitrary type V and the functions of the operators ([fn], by name) are arbitrary.  The part
    common to all the methods [compute] (test of the cache, branch, ValueError if there is no
    branch, record in the cache) is modelled once.  SAVE_IN_DICT and RAISE_ERROR have their
    default value True.  Exceptions: None. *)

From Coq Require Import String List Bool Arith.
Import ListNotations.
Open Scope string_scope.

Definition key := string.
Definition mem (k : key) (l : list key) : bool := existsb (String.eqb k) l.

Inductive expr :=
| Spect (k : key)          (* self.state_spect.get_var(k) *)
| Phys (k : key)           (* self.state_phys.get_var(k) *)
| Comp (k : key)           (* self.compute(k) *)
| Getv (k : key)           (* self.get_var(k) *)
| Missing                  (* an attribute that does not exist: AttributeError *)
| F0 (f : string)
| F1 (f : string) (a : expr)
| F2 (f : string) (a b : expr)
| F3 (f : string) (a b c : expr).

(** a branch of compute: expression of result, and other keys recorded before the key *)
Definition rule := (expr * list (key * expr))%type.

Record solver := mkSolver {
  keys_state_spect : list key;
  keys_state_phys : list key;
  keys_computable : list key;
  rules : key -> option rule
}.

Section State.

Variable V : Type.
Variable fn : string -> list V -> V.
Variable sol : solver.

Definition cache := key -> option (V * nat).   (* vars_computed and it_computed *)
Definition no_cache : cache := fun _ => None.
Definition store_in (c : cache) (k : key) (v : V) (it : nat) : cache :=
  fun k' => if String.eqb k k' then Some (v, it) else c k'.

Record st := mkSt { sp : key -> V; ph : key -> V; vars : cache; it : nat }.

Section Compute.

Variable s : st.

Definition lookup (c : cache) (k : key) : option V :=
  match c k with
  | Some (v, i) => if Nat.eqb (it s) i then Some v else None
  | None => None
  end.

(** evaluation of an expression, given the methods compute *)
Fixpoint eval (comp : key -> cache -> option V * cache) (e : expr) (c : cache)
  : option V * cache :=
  match e with
  | Spect k => (if mem k (keys_state_spect sol) then Some (sp s k) else None, c)
  | Phys k => (if mem k (keys_state_phys sol) then Some (ph s k) else None, c)
  | Comp k => comp k c
  | Getv k =>
      if mem k (keys_state_spect sol) then (Some (sp s k), c)
      else if mem k (keys_state_phys sol) then (Some (ph s k), c)
      else
        match lookup c k with
        | Some v => (Some v, c)
        | None =>
            match comp k c with
            | (Some v, c') => (Some v, store_in c' k v (it s))
            | r => r
            end
        end
  | Missing => (None, c)
  | F0 f => (Some (fn f []), c)
  | F1 f a =>
      match eval comp a c with
      | (Some x, c1) => (Some (fn f [x]), c1)
      | r => r
      end
  | F2 f a b =>
      match eval comp a c with
      | (Some x, c1) =>
          match eval comp b c1 with
          | (Some y, c2) => (Some (fn f [x; y]), c2)
          | r => r
          end
      | r => r
      end
  | F3 f a b d =>
      match eval comp a c with
      | (Some x, c1) =>
          match eval comp b c1 with
          | (Some y, c2) =>
              match eval comp d c2 with
              | (Some z, c3) => (Some (fn f [x; y; z]), c3)
              | r => r
              end
          | r => r
          end
      | r => r
      end
  end.

(** the other keys recorded by a branch *)
Fixpoint extras (comp : key -> cache -> option V * cache) (l : list (key * expr)) (c : cache)
  : bool * cache :=
  match l with
  | [] => (true, c)
  | (k, e) :: l' =>
      match eval comp e c with
      | (Some v, c1) => extras comp l' (store_in c1 k v (it s))
      | (None, c1) => (false, c1)
      end
  end.

(** solvers/*/state.py: compute; the fuel [n] bounds the depth of the calls *)
Fixpoint compute (n : nat) (k : key) (c : cache) : option V * cache :=
  match n with
  | O => (None, c)
  | S n' =>
      match lookup c k with
      | Some v => (Some v, c)
      | None =>
          match rules sol k with
          | None => (None, c)
          | Some (e, xs) =>
              match eval (compute n') e c with
              | (Some v, c1) =>
                  match extras (compute n') xs c1 with
                  | (true, c2) => (Some v, store_in c2 k v (it s))
                  | (false, c2) => (None, c2)
                  end
              | r => r
              end
          end
      end
  end.

End Compute.

Definition fuel := 10.

(** base/state.py 122-147 and 275-304: get_var *)
Definition get_var (k : key) (s : st) : option V * st :=
  let (r, c) := eval s (compute s fuel) (Getv k) (vars s) in
  (r, mkSt (sp s) (ph s) c (it s)).

(** base/state.py 78-80 *)
Definition clear_computed (s : st) : st := mkSt (sp s) (ph s) no_cache (it s).

Definition put (f : key -> V) (k : key) (v : V) : key -> V :=
  fun k' => if String.eqb k k' then v else f k'.

(** base/state.py 154-162 and 306-316: __setitem__ *)
Definition setitem (k : key) (v : V) (s : st) : option st :=
  if mem k (keys_state_spect sol) then Some (mkSt (put (sp s) k v) (ph s) (vars s) (it s))
  else if mem k (keys_state_phys sol) then Some (mkSt (sp s) (put (ph s) k v) (vars s) (it s))
  else None.

(** ** Initialisation from arrays.  kwargs is a list of pairs with different keys. *)

Variable zero : V.

(** base/state.py 200-206 and 377-383: the loops of init_statephys_from, init_statespect_from *)
Fixpoint init_loop (keys : list key) (kw : list (key * V)) (f : key -> V)
  : bool * (key -> V) :=
  match kw with
  | [] => (true, f)
  | (k, v) :: kw' => if mem k keys then init_loop keys kw' (put f k v) else (false, f)
  end.

(** base/state.py 176-206 (init_statephys_from), 352-383 (init_statespect_from); false: a
    ValueError has been raised *)
Definition init_statephys_from (kw : list (key * V)) (s : st) : bool * st :=
  let (ok, f) := init_loop (keys_state_phys sol) kw (fun _ => zero) in
  (ok, mkSt (sp s) f (vars s) (it s)).

Definition init_statespect_from (kw : list (key * V)) (s : st) : bool * st :=
  let (ok, f) := init_loop (keys_state_spect sol) kw (fun _ => zero) in
  (ok, mkSt f (ph s) (vars s) (it s)).

(** state_spect.set_var / state_phys.set_var for known keys *)
Definition set_spect (k : key) (v : V) (s : st) : st :=
  mkSt (put (sp s) k v) (ph s) (vars s) (it s).
Definition set_phys (k : key) (v : V) (s : st) : st :=
  mkSt (sp s) (put (ph s) k v) (vars s) (it s).

Definition kw_get (kw : list (key * V)) (k : key) : option V :=
  match find (fun p => String.eqb (fst p) k) kw with Some p => Some (snd p) | None => None end.

Definition f1 f a := fn f [a].
Definition f2 f a b := fn f [a; b].

(** *** ns2d/state.py *)

(** 91-102: statephys_from_statespect *)
Definition statephys_from_statespect_ns2d (s : st) : st :=
  let rot_fft := sp s "rot_fft" in
  let s := set_phys "rot" (f1 "ifft2" rot_fft) s in
  let s := set_phys "ux" (f1 "ifft2" (f1 "uxfft_from_rotfft" rot_fft)) s in
  set_phys "uy" (f1 "ifft2" (f1 "uyfft_from_rotfft" rot_fft)) s.

(** 111-115 *)
Definition init_from_rotfft_ns2d (rot_fft : V) (s : st) : st :=
  statephys_from_statespect_ns2d (set_spect "rot_fft" (f1 "dealiasing" rot_fft) s).

(** 117-145: init_statespect_from, init_from_uxfft, init_from_uyfft *)
Definition init_statespect_from_ns2d (kw : list (key * V)) (s : st) : bool * st :=
  match kw with
  | [(k, a)] =>
      if String.eqb k "rot_fft" then (true, init_from_rotfft_ns2d a s)
      else if String.eqb k "ux_fft" then
        (true, init_from_rotfft_ns2d (f2 "rotfft_from_vecfft" a zero) s)
      else if String.eqb k "uy_fft" then
        (true, init_from_rotfft_ns2d (f2 "rotfft_from_vecfft" zero a) s)
      else init_statespect_from [(k, a)] s
  | _ => init_statespect_from kw s
  end.

(** 147-169: init_statephys_from (also for ns2d.strat and ns2d.bouss, which inherit it) *)
Definition init_statephys_from_ns2d (kw : list (key * V)) (s : st) : bool * st :=
  match kw with
  | [(k, a)] =>
      if String.eqb k "ux" then
        (true, set_phys "rot" (f1 "ifft2" (f2 "rotfft_from_vecfft" (f1 "fft2" a) zero)) s)
      else if String.eqb k "uy" then
        (true, set_phys "rot" (f1 "ifft2" (f2 "rotfft_from_vecfft" zero (f1 "fft2" a))) s)
      else init_statephys_from [(k, a)] s
  | _ => init_statephys_from kw s
  end.

(** *** ns2d/strat/state.py *)

(** 137-151 (and ns2d/bouss/state.py 96-110) *)
Definition statephys_from_statespect_ns2d_strat (s : st) : st :=
  let s := statephys_from_statespect_ns2d s in
  set_phys "b" (f1 "ifft2" (sp s "b_fft")) s.

(** 165-173 (and ns2d/bouss/state.py 124-132) *)
Definition init_from_rotbfft (rot_fft b_fft : V) (s : st) : st :=
  let s := set_spect "rot_fft" (f1 "dealiasing" rot_fft) s in
  let s := set_spect "b_fft" (f1 "dealiasing" b_fft) s in
  statephys_from_statespect_ns2d_strat s.

(** 175-183, 233-259: init_statespect_from; with one argument, kwargs is empty after popitem *)
Definition init_statespect_from_ns2d_strat (kw : list (key * V)) (s : st) : bool * st :=
  match kw with
  | [(k, a)] =>
      if String.eqb k "rot_fft" then (true, init_from_rotbfft a zero s)
      else if String.eqb k "ap_fft" then
        (true, init_from_rotbfft (f1 "rotfft_from_apfft" a) (f1 "bfft_from_apfft" a) s)
      else if String.eqb k "am_fft" then
        (true, init_from_rotbfft (f1 "rotfft_from_amfft" a) (f1 "bfft_from_amfft" a) s)
      else if String.eqb k "ux_fft" then
        (true, init_from_rotbfft (f2 "rotfft_from_vecfft" a zero) zero s)
      else if String.eqb k "uy_fft" then
        (true, init_from_rotbfft (f2 "rotfft_from_vecfft" zero a) zero s)
      else init_statespect_from [] s
  | [_; _] =>
      match kw_get kw "rot_fft", kw_get kw "b_fft" with
      | Some r, Some b => (true, init_from_rotbfft r b s)
      | _, _ => init_statespect_from kw s
      end
  | _ => init_statespect_from kw s
  end.

(** *** ns2d/bouss/state.py 144-150 *)
Definition init_statespect_from_ns2d_bouss (kw : list (key * V)) (s : st) : bool * st :=
  match kw with
  | [_; _] =>
      match kw_get kw "rot_fft", kw_get kw "b_fft" with
      | Some r, Some b => (true, init_from_rotbfft r b s)
      | _, _ => (true, s)
      end
  | _ => init_statespect_from kw s
  end.

(** *** ns3d/state.py 126-169 (also ns3d.strat and ns3d.bouss) *)
Definition init_statespect_from_ns3d (kw : list (key * V)) (s : st) : bool * st :=
  match kw with
  | [(k, a)] =>
      if String.eqb k "rotz_fft" then
        init_statespect_from [("vx_fft", f1 "vxfft_from_rotzfft" a);
                              ("vy_fft", f1 "vyfft_from_rotzfft" a)] s
      else if String.eqb k "divh_fft" then
        init_statespect_from [("vx_fft", f1 "vxfft_from_divhfft" a);
                              ("vy_fft", f1 "vyfft_from_divhfft" a)] s
      else if String.eqb k "vp_fft" then
        init_statespect_from [("vx_fft", f1 "vxfft_from_vpfft" a);
                              ("vy_fft", f1 "vyfft_from_vpfft" a);
                              ("vz_fft", f1 "vzfft_from_vpfft" a)] s
      else if String.eqb k "vt_fft" then
        init_statespect_from [("vx_fft", f1 "vxfft_from_vtfft" a);
                              ("vy_fft", f1 "vyfft_from_vtfft" a);
                              ("vz_fft", f1 "vzfft_from_vtfft" a)] s
      else init_statespect_from kw s
  | _ => init_statespect_from kw s
  end.

(** *** plate2d/state.py 74-97 *)
Definition statephys_from_statespect_plate2d (s : st) : st :=
  let s := set_phys "w" (f1 "ifft2" (sp s "w_fft")) s in
  set_phys "z" (f1 "ifft2" (sp s "z_fft")) s.

Definition init_statespect_from_plate2d (kw : list (key * V)) (s : st) : bool * st :=
  match kw with
  | [(k, a)] =>
      if String.eqb k "w_fft" then
        let s := set_spect "w_fft" (f1 "dealiasing" a) s in
        let s := set_spect "z_fft" (f1 "dealiasing" zero) s in
        (true, statephys_from_statespect_plate2d s)
      else (true, s)
  | _ => init_statespect_from kw s
  end.

(** *** sw1l/state.py *)

(** 135-157 *)
Definition statephys_from_statespect_sw1l (s : st) : st :=
  let rot_fft := f2 "rotfft_from_vecfft" (sp s "ux_fft") (sp s "uy_fft") in
  let s := set_phys "ux" (f1 "ifft2" (sp s "ux_fft")) s in
  let s := set_phys "uy" (f1 "ifft2" (sp s "uy_fft")) s in
  let s := set_phys "eta" (f1 "ifft2" (sp s "eta_fft")) s in
  set_phys "rot" (f1 "ifft2" rot_fft) s.

(** 188-206; dealiasing of the whole state_spect *)
Definition init_from_uxuyetafft (ux uy eta : V) (s : st) : st :=
  let s := set_spect "ux_fft" (f1 "dealiasing" ux) s in
  let s := set_spect "uy_fft" (f1 "dealiasing" uy) s in
  let s := set_spect "eta_fft" (f1 "dealiasing" eta) s in
  statephys_from_statespect_sw1l s.

(** 217-222 *)
Definition init_from_qfft (q : V) (s : st) : st :=
  let rot_fft := f1 "rotfft_from_qfft" q in
  init_from_uxuyetafft (f1 "uxfft_from_rotfft" rot_fft) (f1 "uyfft_from_rotfft" rot_fft)
    (f1 "etafft_from_qfft" q) s.

(** 224-227 *)
Definition init_from_afft (a : V) (s : st) : st :=
  init_from_uxuyetafft (f1 "uxfft_from_afft" a) (f1 "uyfft_from_afft" a)
    (f1 "etafft_from_afft" a) s.

(** 229-238: the second argument is uyq_fft + uxa_fft *)
Definition init_from_qafft (q a : V) (s : st) : st :=
  let rot_fft := f1 "rotfft_from_qfft" q in
  let uxq_fft := f1 "uxfft_from_rotfft" rot_fft in
  let uyq_fft := f1 "uyfft_from_rotfft" rot_fft in
  let etaq_fft := f1 "etafft_from_qfft" q in
  let uxa_fft := f1 "uxfft_from_afft" a in
  let uya_fft := f1 "uyfft_from_afft" a in
  let etaa_fft := f1 "etafft_from_afft" a in
  init_from_uxuyetafft (f2 "add" uxq_fft uxa_fft) (f2 "add" uyq_fft uxa_fft)
    (f2 "add" etaq_fft etaa_fft) s.

(** 168-186: init_statespect_from.  With one key, the method init_from_<key without _> is
    called if it exists: etafft, rotfft, qfft, afft take one argument ([rotfft] goes through
    init_from_uxuyfft, which is represented by functions). *)
Definition init_statespect_from_sw1l (kw : list (key * V)) (s : st) : bool * st :=
  match kw with
  | [(k, a)] =>
      if String.eqb k "eta_fft" then (true, init_from_uxuyetafft zero zero a s)
      else if String.eqb k "q_fft" then (true, init_from_qfft a s)
      else if String.eqb k "a_fft" then (true, init_from_afft a s)
      else if String.eqb k "rot_fft" then
        let ux := f1 "proj_dealias_uxfft_from_rotfft" a in
        let uy := f1 "proj_dealias_uyfft_from_rotfft" a in
        let eta := f2 "etafft_no_div" ux uy in
        let s := set_spect "ux_fft" ux s in
        let s := set_spect "uy_fft" uy s in
        let s := set_spect "eta_fft" eta s in
        let s := set_phys "rot" (f1 "ifft2" (f2 "rotfft_from_vecfft" ux uy)) s in
        let s := set_phys "ux" (f1 "ifft2" ux) s in
        let s := set_phys "uy" (f1 "ifft2" uy) s in
        (true, set_phys "eta" (f1 "ifft2" eta) s)
      else init_statespect_from kw s
  | [_; _] =>
      match kw_get kw "q_fft", kw_get kw "a_fft" with
      | Some q, Some a => (true, init_from_qafft q a s)
      | _, _ => (true, s)
      end
  | _ => init_statespect_from kw s
  end.

End State.

(** ** The rules of the solvers *)

Definition table (l : list (key * expr)) (k : key) : option rule :=
  match find (fun p => String.eqb (fst p) k) l with
  | Some p => Some (snd p, [])
  | None => None
  end.

(** ns2d/state.py 48-89 *)
Definition rules_ns2d : list (key * expr) := [
  ("ux_fft", F1 "fft2" (Phys "ux"));
  ("uy_fft", F1 "fft2" (Phys "uy"));
  ("rot_fft", F2 "rotfft_from_vecfft" (Comp "ux_fft") (Comp "uy_fft"));
  ("div_fft", F2 "divfft_from_vecfft" (Comp "ux_fft") (Comp "uy_fft"));
  ("div", F1 "ifft2" (Comp "div_fft"));
  ("q", Getv "rot")].
Definition ns2d := mkSolver ["rot_fft"] ["ux"; "uy"; "rot"] [] (table rules_ns2d).

(** ns2d/strat/state.py 56-135 *)
Definition uxfft_of_state := F1 "uxfft_from_rotfft" (Spect "rot_fft").
Definition uyfft_of_state := F1 "uyfft_from_rotfft" (Spect "rot_fft").
Definition rules_ns2d_strat : list (key * expr) := [
  ("ux_fft", uxfft_of_state);
  ("uy_fft", uyfft_of_state);
  ("rot_fft", F2 "rotfft_from_vecfft" (Comp "ux_fft") (Comp "uy_fft"));
  ("q", Getv "rot");
  ("div_fft", F2 "divfft_from_vecfft" (Comp "ux_fft") (Comp "uy_fft"));
  ("div", F1 "ifft2" (Comp "div_fft"));
  ("ap_fft", F2 "add" (F1 "N2_times" uyfft_of_state) (F1 "i_omega_times" (Spect "b_fft")));
  ("am_fft", F2 "sub" (F1 "N2_times" uyfft_of_state) (F1 "i_omega_times" (Spect "b_fft")));
  ("ap", F1 "ifft2" (Comp "ap_fft"));
  ("am", F1 "ifft2" (Comp "am_fft"))].
Definition ns2d_strat := mkSolver ["rot_fft"; "b_fft"] ["ux"; "uy"; "rot"; "b"]
  ["ux_fft"; "uy_fft"; "div_fft"; "div"; "ap_fft"; "am_fft"; "ap"; "am"] (table rules_ns2d_strat).

(** ns2d/bouss/state.py 47-94 *)
Definition rules_ns2d_bouss : list (key * expr) := [
  ("ux_fft", F1 "fft2" (Phys "ux"));
  ("uy_fft", F1 "fft2" (Phys "uy"));
  ("rot_fft", F2 "rotfft_from_vecfft" (Comp "ux_fft") (Comp "uy_fft"));
  ("b_fft", F1 "fft2" (Phys "b"));
  ("div_fft", F2 "divfft_from_vecfft" (Comp "ux_fft") (Comp "uy_fft"));
  ("rot", F1 "ifft2" (Comp "rot_fft"));
  ("div", F1 "ifft2" (Comp "div_fft"));
  ("q", Comp "rot")].
Definition ns2d_bouss := mkSolver ["rot_fft"; "b_fft"] ["ux"; "uy"; "rot"; "b"] []
  (table rules_ns2d_bouss).

(** ns3d/state.py 54-108; ns3d.strat and ns3d.bouss add b *)
Definition rules_ns3d : list (key * expr) := [
  ("rotz_fft", F2 "rotzfft_from_vxvyfft" (Getv "vx_fft") (Getv "vy_fft"));
  ("rotz", F1 "ifft3d" (F2 "rotzfft_from_vxvyfft" (Getv "vx_fft") (Getv "vy_fft")));
  ("divh", F1 "ifft3d" (F2 "divhfft_from_vxvyfft" (Getv "vx_fft") (Getv "vy_fft")));
  ("divh_fft", F2 "divhfft_from_vxvyfft" (Getv "vx_fft") (Getv "vy_fft"));
  ("vp_fft", F3 "vpfft_from_vecfft" (Getv "vx_fft") (Getv "vy_fft") (Getv "vz_fft"));
  ("vp", F1 "ifft3d" (Comp "vp_fft"));
  ("vt_fft", F3 "vtfft_from_vecfft" (Getv "vx_fft") (Getv "vy_fft") (Getv "vz_fft"));
  ("vt", F1 "ifft3d" (Comp "vt_fft"))].
Definition ns3d_computable := ["rotz"; "divh"; "rotz_fft"; "divh_fft"; "vp"; "vt"; "vp_fft"; "vt_fft"].
Definition ns3d := mkSolver ["vx_fft"; "vy_fft"; "vz_fft"] ["vx"; "vy"; "vz"] ns3d_computable
  (table rules_ns3d).
Definition ns3d_strat := mkSolver ["vx_fft"; "vy_fft"; "vz_fft"; "b_fft"] ["vx"; "vy"; "vz"; "b"]
  ns3d_computable (table rules_ns3d).

(** plate2d/state.py 34-72 *)
Definition rules_plate2d : list (key * expr) := [
  ("chi_fft", F1 "minus_invlaplacian4_fft" (F1 "fft2"
     (F2 "monge_ampere_from_fft" (Spect "z_fft") (Spect "z_fft"))));
  ("chi", F1 "ifft2" (Comp "chi_fft"));
  ("Nw_fft", F1 "fft2" (F2 "monge_ampere_from_fft" (Spect "z_fft") (Comp "chi_fft")));
  ("lapz_fft", F1 "laplacian4_fft" (Spect "z_fft"))].
Definition plate2d := mkSolver ["w_fft"; "z_fft"] ["w"; "z"] ["chi_fft"; "chi"; "Nw_fft"; "lapz_fft"]
  (table rules_plate2d).

(** ad1d/state.py 31-46, ad1d/pseudo_spect/state.py 32-56 *)
Definition ad1d := mkSolver [] ["s"] [] (table [("dx_s", F1 "px" (Phys "s"))]).
Definition ad1d_pseudo_spect := mkSolver ["s_fft"] ["s"] []
  (table [("dx_s", F1 "ifft" (Comp "dx_s_fft")); ("dx_s_fft", F1 "pxffft_from_fft" (Spect "s_fft"))]).

(** sw1l/state.py 44-119 *)
Definition rules_sw1l : list (key * expr) := [
  ("Jx", F2 "mul" (F1 "one_plus" (Phys "eta")) (Phys "ux"));
  ("Jy", F2 "mul" (F1 "one_plus" (Phys "eta")) (Phys "uy"));
  ("Jx_fft", F1 "fft2" (Comp "Jx"));
  ("Jy_fft", F1 "fft2" (Comp "Jy"));
  ("rot_fft", F2 "rotfft_from_vecfft" (Spect "ux_fft") (Spect "uy_fft"));
  ("div_fft", F2 "divfft_from_vecfft" (Spect "ux_fft") (Spect "uy_fft"));
  ("div", F1 "ifft2" (Comp "div_fft"));
  ("q", F2 "sub" (Phys "rot") (F1 "f_times" (Phys "eta")));
  ("q_fft", F2 "sub" (F2 "rotfft_from_vecfft" (Spect "ux_fft") (Spect "uy_fft"))
                     (F1 "f_times" (Spect "eta_fft")));
  ("a_fft", F3 "afft_from_uxuyetafft" (Spect "ux_fft") (Spect "uy_fft") (Spect "eta_fft"));
  ("h", F1 "one_plus" (Phys "eta"));
  ("Floc", F3 "local_froude" (Comp "h") (Phys "ux") (Phys "uy"))].
Definition sw1l := mkSolver ["ux_fft"; "uy_fft"; "eta_fft"] ["ux"; "uy"; "eta"; "rot"] []
  (table rules_sw1l).

(** sw1l/modified/state.py 43-97: uy_fft is computed from ux (line 52) *)
Definition rules_sw1l_modified : list (key * expr) := [
  ("ux_fft", F1 "fft2" (Phys "ux"));
  ("uy_fft", F1 "fft2" (Phys "ux"));
  ("rot_fft", F2 "rotfft_from_vecfft" (Comp "ux_fft") (Comp "uy_fft"));
  ("div_fft", F2 "divfft_from_vecfft" (Comp "ux_fft") (Comp "uy_fft"));
  ("rot", F1 "ifft2" (Comp "rot_fft"));
  ("div", F1 "ifft2" (Comp "div_fft"));
  ("q", F2 "sub" (Comp "rot") (F1 "f_times" (Phys "eta")));
  ("q_fft", F2 "sub" (F2 "rotfft_from_vecfft" (Spect "ux_fft") (Spect "uy_fft"))
                     (F1 "f_times" (Spect "eta_fft")));
  ("a_fft", F3 "afft_from_uxuyetafft" (Spect "ux_fft") (Spect "uy_fft") (Spect "eta_fft"))].
Definition sw1l_modified := mkSolver ["ux_fft"; "uy_fft"; "eta_fft"] ["ux"; "uy"; "eta"] []
  (table rules_sw1l_modified).

(** sw1l/exactlin/state.py 44-124; the branches of ux_fft and uy_fft record both.  The mode zero
    of the velocity is taken from ap_fft and am_fft ("with_mean"). *)
Definition ux_of_waves := F2 "with_mean"
  (F2 "add" (F1 "uxfft_from_rotfft" (Comp "rot_fft")) (F1 "uxfft_from_divfft" (Comp "div_fft")))
  (Spect "ap_fft").
Definition uy_of_waves := F2 "with_mean"
  (F2 "add" (F1 "uyfft_from_rotfft" (Comp "rot_fft")) (F1 "uyfft_from_divfft" (Comp "div_fft")))
  (Spect "am_fft").
Definition rules_exactlin (k : key) : option rule :=
  if String.eqb k "div_fft" then Some (F2 "divfft_from_apamfft" (Spect "ap_fft") (Spect "am_fft"), [])
  else if String.eqb k "a_fft" then Some (F2 "add" (Spect "ap_fft") (Spect "am_fft"), [])
  else if String.eqb k "rot_fft" then
    Some (F2 "add" (F1 "rotfft_from_qfft" (Spect "q_fft")) (F1 "rotfft_from_afft" (Comp "a_fft")), [])
  else if String.eqb k "eta_fft" then
    Some (F2 "add" (F1 "etafft_from_qfft" (Spect "q_fft")) (F1 "etafft_from_afft" (Comp "a_fft")), [])
  else if String.eqb k "ux_fft" then Some (ux_of_waves, [("uy_fft", uy_of_waves)])
  else if String.eqb k "uy_fft" then Some (uy_of_waves, [("ux_fft", ux_of_waves)])
  else table rules_sw1l k.
Definition sw1l_exactlin := mkSolver ["ap_fft"; "am_fft"; "q_fft"] ["ux"; "uy"; "eta"; "rot"] []
  rules_exactlin.

(** sw1l/onlywaves/state.py 44-136: the branch of uy_fft uses self.state_ff (line 95), which does not
    exist *)
Definition uy_of_waves_bad := F2 "with_mean"
  (F2 "add" (F1 "uyfft_from_rotfft" (Comp "rot_fft")) (F1 "uyfft_from_divfft" (Comp "div_fft")))
  Missing.
Definition rules_onlywaves (k : key) : option rule :=
  if String.eqb k "div_fft" then Some (F2 "divfft_from_apamfft" (Spect "ap_fft") (Spect "am_fft"), [])
  else if String.eqb k "a_fft" then Some (F2 "add" (Spect "ap_fft") (Spect "am_fft"), [])
  else if String.eqb k "rot_fft" then Some (F1 "rotfft_from_afft" (Comp "a_fft"), [])
  else if String.eqb k "eta_fft" then Some (F1 "etafft_from_afft" (Comp "a_fft"), [])
  else if String.eqb k "ux_fft" then Some (ux_of_waves, [("uy_fft", uy_of_waves)])
  else if String.eqb k "uy_fft" then Some (uy_of_waves_bad, [("ux_fft", ux_of_waves)])
  else if String.eqb k "rot" then Some (F1 "ifft2" (Comp "rot_fft"), [])
  else if String.eqb k "q_fft" then Some (F0 "zeros_K", [])
  else if String.eqb k "q" then Some (F0 "zeros_X", [])
  else table rules_sw1l k.
Definition sw1l_onlywaves := mkSolver ["ap_fft"; "am_fft"] ["ux"; "uy"; "eta"] [] rules_onlywaves.
