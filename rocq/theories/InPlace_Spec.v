(** * Mathematical content of tendencies_nonlin, as functions of the variables of the state

    Written without any array: [x k] is the variable [k] of the state, the result is the
    variable [k] of the tendencies. *)

Section Spec.

Variable V : Type.
Variable ifft fft : V -> V.
Variable plus : V -> V -> V.
Variable neg : V -> V.
Variable dealias : V -> V.
Variable forcing : option (nat -> V).

Definition forced (k : nat) (v : V) : V :=
  match forcing with None => v | Some F => plus v (F k) end.

Variable vfrx vfry gx gy : V -> V.
Variable k_Frot : V -> V -> V -> V -> V.

(** physical velocity of a vorticity *)
Definition phys_rot (x : nat -> V) (k : nat) : V :=
  match k with 0 => ifft (vfrx (x 0)) | _ => ifft (vfry (x 0)) end.

Definition spec_ns2d (x : nat -> V) (k : nat) : V :=
  forced 0 (dealias (fft (k_Frot (phys_rot x 0) (phys_rot x 1)
                            (ifft (gx (x 0))) (ifft (gy (x 0)))))).

Variable k_strat_rot k_strat_b : V -> V -> V -> V -> V -> V -> V.

Definition six (K : V -> V -> V -> V -> V -> V -> V) (x : nat -> V) : V :=
  K (phys_rot x 0) (phys_rot x 1) (ifft (gx (x 0))) (ifft (gy (x 0)))
    (ifft (gx (x 1))) (ifft (gy (x 1))).

Definition spec_ns2d_strat (x : nat -> V) (k : nat) : V :=
  match k with
  | 0 => forced 0 (dealias (plus (fft (six k_strat_rot x)) (gx (x 1))))
  | _ => forced 1 (dealias (fft (six k_strat_b x)))
  end.

Variable k_bouss_rot k_bouss_b : V -> V -> V -> V -> V -> V -> V.

Definition spec_ns2d_bouss (x : nat -> V) (k : nat) : V :=
  match k with
  | 0 => forced 0 (dealias (fft (six k_bouss_rot x)))
  | _ => forced 1 (dealias (fft (six k_bouss_b x)))
  end.

Variable rotf : V -> V -> V.

Definition phys_each (x : nat -> V) (k : nat) : V := ifft (x k).

Definition spec_with_uxuy (x : nat -> V) (k : nat) : V :=
  let rot := rotf (x 0) (x 1) in
  let F := dealias (fft (k_Frot (ifft (x 0)) (ifft (x 1)) (ifft (gx rot)) (ifft (gy rot)))) in
  match k with 0 => forced 0 (vfrx F) | _ => forced 1 (vfry F) end.

Variable rotx roty rotz : V -> V -> V -> V.
Variable modif_f : option (V -> V).
Variable crossx crossy crossz : V -> V -> V -> V -> V -> V -> V.
Variable projx projy projz : V -> V -> V -> V.
Variable no_vz_kz0 : option (V -> V).
Variable turb : option (nat -> V -> V -> V -> V).

Definition app_opt (g : option (V -> V)) (v : V) : V :=
  match g with None => v | Some g => g v end.

(** velocity x vorticity in physical space, one component of the cross product *)
Definition lamb (K : V -> V -> V -> V -> V -> V -> V) (x : nat -> V) : V :=
  K (ifft (x 0)) (ifft (x 1)) (ifft (x 2))
    (ifft (rotx (x 0) (x 1) (x 2))) (ifft (roty (x 0) (x 1) (x 2)))
    (ifft (app_opt modif_f (rotz (x 0) (x 1) (x 2)))).

(** projection, optional removal of the kz = 0 modes, truncation of one vector field *)
Definition project_end (X Y Z : V) (k : nat) : V :=
  match k with
  | 0 => dealias (projx X Y Z)
  | 1 => dealias (projy X Y Z)
  | _ => dealias (app_opt no_vz_kz0 (projz X Y Z))
  end.

Definition turbed (x : nat -> V) (k : nat) (v : V) : V :=
  match turb with None => v | Some T => plus v (T k (x 0) (x 1) (x 2)) end.

Definition spec_ns3d (x : nat -> V) (k : nat) : V :=
  project_end (turbed x 0 (forced 0 (fft (lamb crossx x))))
              (turbed x 1 (forced 1 (fft (lamb crossy x))))
              (turbed x 2 (forced 2 (fft (lamb crossz x)))) k.

Variable div_vb : V -> V -> V -> V -> V.

Definition spec_buoyant (fb : (nat -> V) -> V) (x : nat -> V) (k : nat) : V :=
  match k with
  | 3 => dealias (app_opt no_vz_kz0 (forced 3 (fb x)))
  | _ => project_end (forced 0 (fft (lamb crossx x)))
                     (forced 1 (fft (lamb crossy x)))
                     (forced 2 (plus (fft (lamb crossz x)) (x 3))) k
  end.

Variable k_fb : V -> V -> V.

Definition div_of (x : nat -> V) : V :=
  div_vb (ifft (x 0)) (ifft (x 1)) (ifft (x 2)) (ifft (x 3)).

(** - div(v b) - N^2 vz *)
Definition spec_ns3d_strat : (nat -> V) -> nat -> V :=
  spec_buoyant (fun x => k_fb (div_of x) (x 2)).

(** - div(v b) *)
Definition spec_ns3d_bouss : (nat -> V) -> nat -> V :=
  spec_buoyant (fun x => neg (div_of x)).

Variable monge : V -> V -> V.
Variable invlap4 lap4 : V -> V.

(** dz/dt = w, dw/dt = - Delta^2 z + N_w *)
Definition spec_plate2d (x : nat -> V) (k : nat) : V :=
  let w := x 0 in let z := x 1 in
  match k with
  | 0 => forced 0 (dealias (plus (neg (lap4 z)) (monge z (neg (invlap4 (monge z z))))))
  | _ => forced 1 (dealias w)
  end.

Variable k_F1x k_F1y k_pressure : V -> V -> V -> V.
Variable k_flux divf : V -> V -> V.

Definition phys_sw1l (x : nat -> V) (k : nat) : V :=
  match k with 3 => ifft (rotf (x 0) (x 1)) | _ => ifft (x k) end.

Definition spec_sw1l (x : nat -> V) (k : nat) : V :=
  let ux := phys_sw1l x 0 in let uy := phys_sw1l x 1 in
  let eta := phys_sw1l x 2 in let rot := phys_sw1l x 3 in
  let p := fft (k_pressure eta ux uy) in
  match k with
  | 0 => forced 0 (dealias (plus (fft (k_F1x rot ux uy)) (neg (dealias (gx p)))))
  | 1 => forced 1 (dealias (plus (fft (k_F1y rot ux uy)) (neg (dealias (gy p)))))
  | _ => forced 2 (dealias (neg (divf (fft (k_flux eta ux)) (fft (k_flux eta uy)))))
  end.

Variable k_NL k_adv : V -> V -> V -> V -> V.
Variable k_FC : bool -> V -> V.
Variable c2mul : V -> V.

Definition spec_sw1l_modified (x : nat -> V) (k : nat) : V :=
  let vx := ifft (vfrx (rotf (x 0) (x 1))) in
  let vy := ifft (vfry (rotf (x 0) (x 1))) in
  let adv c := k_NL vx vy (ifft (gx (x c))) (ifft (gy (x c))) in
  match k with
  | 0 => forced 0 (dealias (plus (fft (plus (k_FC true (ifft (x 1))) (adv 0)))
                              (neg (gx (c2mul (x 2))))))
  | 1 => forced 1 (dealias (plus (fft (plus (k_FC false (ifft (x 0))) (adv 1)))
                              (neg (gy (c2mul (x 2))))))
  | _ => forced 2 (dealias (plus (neg (fft (k_adv vx vy (ifft (gx (x 2))) (ifft (gy (x 2))))))
                              (neg (divf (x 0) (x 1)))))
  end.

Variable uxf uyf etaf : V -> V -> V -> V.
Variable k_rotq k_N1x k_N1y k_ke k_mul : V -> V -> V.
Variable half : V -> V.
Variable toq top tom : V -> V -> V -> V.

(** physical variables of (ap, am, q) *)
Definition phys_exactlin (x : nat -> V) (k : nat) : V :=
  match k with
  | 0 => ifft (uxf (x 2) (x 0) (x 1))
  | 1 => ifft (uyf (x 2) (x 0) (x 1))
  | 2 => ifft (etaf (x 2) (x 0) (x 1))
  | _ => ifft (k_rotq (x 2) (etaf (x 2) (x 0) (x 1)))
  end.

Definition to_modes (Nx Ny Ne : V) (k : nat) : V :=
  match k with
  | 0 => forced 0 (dealias (top Nx Ny Ne))
  | 1 => forced 1 (dealias (tom Nx Ny Ne))
  | _ => forced 2 (dealias (toq Nx Ny Ne))
  end.

Definition spec_exactlin (x : nat -> V) (k : nat) : V :=
  let ux := phys_exactlin x 0 in let uy := phys_exactlin x 1 in
  let eta := phys_exactlin x 2 in let rot := phys_exactlin x 3 in
  let ke := half (fft (k_ke ux uy)) in
  to_modes (plus (fft (k_N1x rot uy)) (neg (gx ke)))
           (plus (fft (k_N1y rot ux)) (neg (gy ke)))
           (neg (divf (fft (k_mul eta ux)) (fft (k_mul eta uy)))) k.

Variable rotfft_from_q rotfft_from_a : V -> V.

Definition spec_exactlin_modified (x : nat -> V) (k : nat) : V :=
  let ux := phys_exactlin x 0 in let uy := phys_exactlin x 1 in
  let eta := phys_exactlin x 2 in
  let rot_fft := plus (rotfft_from_q (x 2)) (rotfft_from_a (plus (x 0) (x 1))) in
  let vx := ifft (vfrx rot_fft) in let vy := ifft (vfry rot_fft) in
  let adv c := neg (divf (fft (k_mul vx c)) (fft (k_mul vy c))) in
  to_modes (adv ux) (adv uy) (adv eta) k.

Variable zero : V.
Variable f_pos : bool.

Definition phys_onlywaves (x : nat -> V) (k : nat) : V :=
  match k with
  | 0 => ifft (uxf zero (x 0) (x 1))
  | 1 => ifft (uyf zero (x 0) (x 1))
  | _ => ifft (etaf zero (x 0) (x 1))
  end.

Definition spec_onlywaves (x : nat -> V) (k : nat) : V :=
  let ux := phys_onlywaves x 0 in let uy := phys_onlywaves x 1 in
  let eta := phys_onlywaves x 2 in
  let ke := half (fft (k_ke ux uy)) in
  let rot := ifft (rotfft_from_a (plus (x 0) (x 1))) in
  let Nx := if f_pos then plus (neg (gx ke)) (fft (k_N1x rot uy)) else neg (gx ke) in
  let Ny := if f_pos then plus (neg (gy ke)) (fft (k_N1y rot ux)) else neg (gy ke) in
  to_modes Nx Ny (neg (divf (fft (k_mul eta ux)) (fft (k_mul eta uy)))) k.

Variable px : V -> V.
Variable k_burgers k_skew : V -> V -> V.
Variable oddball k_cons k_square k_nl1d : V -> V.

Definition spec_burgers1d (x : nat -> V) (k : nat) : V :=
  oddball (dealias (fft (k_burgers (ifft (x 0)) (ifft (px (x 0)))))).

Definition spec_skew_sym (x : nat -> V) (k : nat) : V :=
  oddball (dealias (plus (fft (k_skew (ifft (x 0)) (ifft (px (x 0)))))
                      (k_cons (px (fft (k_square (ifft (x 0)))))))).

Definition spec_nl1d (x : nat -> V) (k : nat) : V := dealias (fft (k_nl1d (ifft (x 0)))).

End Spec.
