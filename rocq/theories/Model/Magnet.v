(** Magnets: track_magnet.h, track_magnet_kick.h, track_magnet_drift.h, track_magnet_configure.h.
    Floating point numbers are real numbers. Radiation, spin and the edges are not modelled. *)
From Coq Require Import Reals ZArith List Bool.
From Verif.Model Require Import Maps Curved.
Import ListNotations.
Local Open Scope R_scope.

(** * Kicks *)

(** Arrays [knl] and [ksl] with their order and 1/order! *)
Record mult := mkMult { mu_order : nat; mu_inv : R; mu_knl : list R; mu_ksl : list R }.

(** track_magnet_kick.h:kick_simple_single_coordinates, the loop *)
Fixpoint kick_loop (index : nat) (inv x y chi factor : R) (knl ksl : list R) (dpx_mul dpy_mul : R)
  : R * R :=
  match index with
  | O => (dpx_mul, dpy_mul)
  | S i =>
      let zre := dpx_mul * x - dpy_mul * y in
      let zim := dpx_mul * y + dpy_mul * x in
      let inv := inv * INR index in
      let this_knl := chi * nth i knl 0 * factor in
      let this_ksl := chi * nth i ksl 0 * factor in
      kick_loop i inv x y chi factor knl ksl (this_knl * inv + zre) (this_ksl * inv + zim)
  end.

(** track_magnet_kick.h:kick_simple_single_coordinates (pointers not NULL) *)
Definition kick_coordinates (x y chi : R) (m : mult) (factor kick_weight : R) : R * R :=
  let dpx_mul := chi * nth (mu_order m) (mu_knl m) 0 * factor * mu_inv m in
  let dpy_mul := chi * nth (mu_order m) (mu_ksl m) 0 * factor * mu_inv m in
  let (dpx_mul, dpy_mul) :=
    kick_loop (mu_order m) (mu_inv m) x y chi factor (mu_knl m) (mu_ksl m) dpx_mul dpy_mul in
  (kick_weight * - dpx_mul, kick_weight * dpy_mul).

(** track_magnet_kick.h:kick_simple_single_particle *)
Definition kick_simple (m : mult) (factor kick_weight : R) (p : part) : part :=
  let (dpx, dpy) := kick_coordinates (p_x p) (p_y p) (p_chi p) m factor kick_weight in
  add_py dpy (add_px dpx p).

(** The parameters of the kicks which are the same for all kicks of a body. [kp_rel]: NULL when the
    element has no relative multipoles. *)
Record kickpar := mkKp {
  kp_length : R; kp_mult : mult; kp_rel : option mult; kp_ref : R; kp_factor : R;
  kp_k0 : R; kp_k1 : R; kp_k2 : R; kp_k3 : R; kp_k0s : R; kp_k1s : R; kp_k2s : R; kp_k3s : R;
  kp_h : R; kp_hxl : R; kp_k0h : R; kp_k1h : R; kp_rot : bool }.

(** track_magnet_kick.h:track_magnet_kick_single_particle *)
Definition magnet_kick (k : kickpar) (kick_weight : R) (p : part) : part :=
  let length := kp_length k in
  let chi := p_chi p in
  let x := p_x p in
  let y := p_y p in
  let main := mkMult 3 (1 / 6)
    [kp_k0 k * length; kp_k1 k * length; kp_k2 k * length; kp_k3 k * length]
    [kp_k0s k * length; kp_k1s k * length; kp_k2s k * length; kp_k3s k * length] in
  let p1 := kick_simple (kp_mult k) (kp_factor k) kick_weight p in
  let p2 := match kp_rel k with
            | None => p1
            | Some m => kick_simple m (kp_factor k * kp_ref k) kick_weight p1
            end in
  let p3 := kick_simple main 1 kick_weight p2 in
  let hl := kp_h k * length * kick_weight + kp_hxl k * kick_weight in
  let dpx := if kp_rot k then hl * (1 + p_delta p3) else 0 in
  let dzeta := if kp_rot k then - (1 / p_rvv p3) * hl * x else 0 in
  let htot := if is0 length then kp_h k else kp_h k + kp_hxl k / length in
  let k0l_mult := nth 0 (mu_knl (kp_mult k)) 0 * kp_factor k in
  let k0l_mult := match kp_rel k with
                  | None => k0l_mult
                  | Some m => k0l_mult + nth 0 (mu_knl m) 0 * kp_factor k * kp_ref k
                  end in
  let dpx := dpx - chi * (kp_k0h k * length + k0l_mult) * kick_weight * htot * x in
  let k1l_mult := if Nat.leb 1 (mu_order (kp_mult k)) then nth 1 (mu_knl (kp_mult k)) 0 * kp_factor k
                  else 0 in
  let k1l_mult := match kp_rel k with
                  | None => k1l_mult
                  | Some m => if Nat.leb 1 (mu_order m)
                              then k1l_mult + nth 1 (mu_knl m) 0 * kp_factor k * kp_ref k
                              else k1l_mult
                  end in
  let dpx := dpx + htot * chi * (kp_k1h k * length + k1l_mult) * kick_weight
                   * (- x * x + 1 / 2 * y * y) in
  let dpy := htot * chi * (kp_k1h k * length + k1l_mult) * kick_weight * x * y in
  add_zeta dzeta (add_py dpy (add_px dpx p3)).

(** * Drifts *)

(** track_magnet_drift.h:track_expanded_combined_dipole_quad_single_particle, the functions Cx, Sx *)
Definition cfun (K length : R) : R :=
  if Rlt_dec 0 K then cos (sqrt K * length)
  else if Rlt_dec K 0 then cosh (sqrt (- K) * length) else 1.
Definition sfun (K length : R) : R :=
  if Rlt_dec 0 K then sin (sqrt K * length) / sqrt K
  else if Rlt_dec K 0 then sinh (sqrt (- K) * length) / sqrt (- K) else length.

(** track_magnet_drift.h:track_expanded_combined_dipole_quad_single_particle *)
Definition combined_dipole_quad (length k0_ k1_ h : R) (p : part) : part :=
  let x := p_x p in let y := p_y p in
  let px := p_px p in let py := p_py p in
  let rvv := p_rvv p in
  let delta_plus_1 := p_delta p + 1 in
  let k0 := p_chi p * k0_ / delta_plus_1 in
  let k1 := p_chi p * k1_ / delta_plus_1 in
  let Kx := k0 * h + k1 in
  let Ky := - k1 in
  let Sx := sfun Kx length in let Cx := cfun Kx length in
  let Sy := sfun Ky length in let Cy := cfun Ky length in
  let xp := px / delta_plus_1 in
  let yp := py / delta_plus_1 in
  let A := - Kx * x - k0 + h in
  let B := xp in
  let C := - Ky * y in
  let D := yp in
  let x_ := x * Cx + xp * Sx in
  let y_ := y * Cy + yp * Sy in
  let px_ := (A * Sx + B * Cx) * delta_plus_1 in
  let py_ := (C * Sy + D * Cy) * delta_plus_1 in
  let x_ := if is0 Kx then x_ - (k0 - h) * (1 / 2) * (length * length)
            else x_ + (k0 - h) * (Cx - 1) / Kx in
  let length_ := length in
  let length_ :=
    if is0 Kx then
      length_ + h * length * (3 * length * xp + 6 * x - (k0 - h) * (length * length)) / 6
      + 1 / 2 * (B * B) * length
    else
      length_ - (h * ((Cx - 1) * xp + Sx * A + length * (k0 - h))) / Kx
      + 1 / 2 * (- (A * A * Cx * Sx) / (2 * Kx) + B * B * Cx * Sx / 2 + A * A * length / (2 * Kx)
                 + B * B * length / 2 - A * B * (Cx * Cx) / Kx + A * B / Kx) in
  let length_ :=
    if is0 Ky then length_ + 1 / 2 * (D * D) * length
    else
      length_
      + 1 / 2 * (- (C * C * Cy * Sy) / (2 * Ky) + D * D * Cy * Sy / 2 + C * C * length / (2 * Ky)
                 + D * D * length / 2 - C * D * (Cy * Cy) / Ky + C * D / Ky) in
  let dzeta := length - length_ / rvv in
  add_s length (add_zeta dzeta (set_py py_ (set_y y_ (set_px px_ (set_x x_ p))))).

(** fabs(k0_chi) < 1e-8 *)
Definition tiny (a : R) : bool := if Rlt_dec (Rabs a) (/ 100000000) then true else false.

(** track_magnet_drift.h:track_curved_exact_bend_single_particle *)
Definition curved_exact_bend (length k0 h : R) (p : part) : part :=
  let k0_chi := k0 * p_chi p in
  if tiny k0_chi then polar_drift length h p
  else
    let rvv := p_rvv p in
    let x0 := p_x p in let y0 := p_y p in
    let px0 := p_px p in let py := p_py p in
    let one_plus_delta := p_delta p + 1 in
    let hs := h * length in
    let sin_hs := sin hs in let cos_hs := cos hs in let sin_hs_2 := sin (hs / 2) in
    let pz0 := sqrt (one_plus_delta * one_plus_delta - px0 * px0 - py * py) in
    let C := pz0 - k0_chi * (1 / h + x0) in
    let pxs := px0 * cos_hs + C * sin_hs in
    let pzs := sqrt (one_plus_delta * one_plus_delta - pxs * pxs - py * py) in
    let delta_pz := (px0 - pxs) * (px0 + pxs) / (pz0 + pzs) in
    let delta_D := - 2 * C * (sin_hs_2 * sin_hs_2) - px0 * sin_hs in
    let delta_x := (delta_pz - delta_D) / k0_chi in
    let delta_px := - 2 * px0 * (sin_hs_2 * sin_hs_2) + C * sin_hs in
    let N_a := px0 * delta_pz - pz0 * delta_px in
    let D_a := pz0 * pzs + px0 * pxs in
    let delta_a := atan2 N_a D_a in
    let integ := (hs + delta_a) / k0_chi in
    let new_y := y0 + py * integ in
    let delta_ell := one_plus_delta * integ in
    add_s length (add_zeta (length - delta_ell / rvv) (set_y new_y (set_px pxs (add_x delta_x p)))).

(** track_magnet_drift.h:track_straight_exact_bend_single_particle *)
Definition straight_exact_bend (length k0 : R) (p : part) : part :=
  let k0_chi := k0 * p_chi p in
  if tiny k0_chi then drift_exact length p
  else
    let rvv := p_rvv p in
    let x := p_x p in let y := p_y p in
    let px := p_px p in let py := p_py p in
    let s := length in
    let one_plus_delta := p_delta p + 1 in
    let A := 1 / sqrt (one_plus_delta * one_plus_delta - py * py) in
    let pz := sqrt (one_plus_delta * one_plus_delta - px * px - py * py) in
    let new_px := px - k0_chi * s in
    let new_x := x + (sqrt (one_plus_delta * one_plus_delta - new_px * new_px - py * py) - pz)
                     / k0_chi in
    let D := asin (A * px) - asin (A * new_px) in
    let new_y := y + py / k0_chi * D in
    let delta_ell := one_plus_delta / k0_chi * D in
    add_s s (add_zeta (length - delta_ell / rvv) (set_y new_y (set_px new_px (set_x new_x p)))).

Definition set_ax (a : R) (p : part) : part :=
  mkPart (p_x p) (p_px p) (p_y p) (p_py p) (p_zeta p) (p_s p) (p_delta p) (p_ptau p) (p_rpp p)
    (p_rvv p) (p_chi p) (p_beta0 p) a (p_ay p) (p_spin_x p) (p_spin_y p) (p_spin_z p).
Definition set_ay (a : R) (p : part) : part :=
  mkPart (p_x p) (p_px p) (p_y p) (p_py p) (p_zeta p) (p_s p) (p_delta p) (p_ptau p) (p_rpp p)
    (p_rvv p) (p_chi p) (p_beta0 p) (p_ax p) a (p_spin_x p) (p_spin_y p) (p_spin_z p).

(** IS_ZERO of track_magnet_drift.h *)
Definition IS_ZERO (a : R) : bool := if Rlt_dec (Rabs a) (/ 1000000000) then true else false.

(** track_magnet_drift.h:track_solenoid_single_particle *)
Definition solenoid (length ks x0_solenoid y0_solenoid : R) (p : part) : part :=
  let sk := ks / 2 in
  if IS_ZERO sk then set_ay 0 (set_ax 0 (drift_exact length p))
  else if IS_ZERO length then p
  else
    let skl := sk * length in
    let x := p_x p - x0_solenoid in
    let px := p_px p in
    let y := p_y p - y0_solenoid in
    let py := p_py p in
    let rvv := p_rvv p in
    let pk1 := px + sk * y in
    let pk2 := py - sk * x in
    let ptr2 := pk1 * pk1 + pk2 * pk2 in
    let one_plus_delta := 1 + p_delta p in
    let pz := sqrt (one_plus_delta * one_plus_delta - ptr2) in
    let cosTh := cos (skl / pz) in
    let sinTh := sin (skl / pz) in
    let si := sin (skl / pz) / sk in
    let r0 := cosTh * x + sinTh * y in
    let r1 := cosTh * px + sinTh * py in
    let r2 := cosTh * y - sinTh * x in
    let r3 := cosTh * py - sinTh * px in
    let new_x := cosTh * r0 + si * r1 in
    let new_px := cosTh * r1 - sk * sinTh * r0 in
    let new_y := cosTh * r2 + si * r3 in
    let new_py := cosTh * r3 - sk * sinTh * r2 in
    let dzeta := length * (1 - one_plus_delta / (pz * rvv)) in
    let new_ax := - (1 / 2) * ks * new_y in
    let new_ay := 1 / 2 * ks * new_x in
    set_ay new_ay (set_ax new_ax (add_s length (add_zeta dzeta
      (set_py new_py (set_y (new_y + y0_solenoid) (set_px new_px (set_x (new_x + x0_solenoid) p))))))).

(** The nested integrators of drift models 7 and 8 (track_magnet_drift.h:515-555): polar drifts of
    d * length and kicks of px by k * k0 * chi * length in turn. *)
Definition px_kick (k k0 length : R) (p : part) : part :=
  set_px (p_px p - k * k0 * p_chi p * length) p.
Fixpoint nested (length k0 h : R) (coeffs : list (R * R)) (last : R) (p : part) : part :=
  match coeffs with
  | [] => polar_drift (last * length) h p
  | (d, k) :: t => nested length k0 h t last (px_kick k k0 length (polar_drift (d * length) h p))
  end.

Definition dec (m : Z) (e : nat) : R := IZR m / pow 10 e.

Definition nested4 : list (R * R) :=
  [(dec 6756035959798289 16, dec 13512071919596578 16);
   (dec (-17560359597982889) 17, dec (-17024143839193155) 16);
   (dec (-17560359597982889) 17, dec 13512071919596578 16)].
Definition nested4_last : R := dec 6756035959798289 16.

Definition d0 : R := dec 3922568052387799819591407413100 31.
Definition d1 : R := dec 5100434119184584780271052295575 31.
Definition d2 : R := dec (-4710533854097565531482416645304) 31.
Definition d3 : R := dec 6875316825251809316199569366290 32.
Definition c0 : R := dec 7845136104775599639182814826199 31.
Definition c1 : R := dec 2355732133593569921359289764951 31.
Definition c2 : R := dec (-1177679984178870098432412305556) 30.
Definition c3 : R := dec 1315186320683906284756403692882 30.

Definition nested6 : list (R * R) :=
  [(d0, c0); (d1, c1); (d2, c2); (d3, c3); (d3, c2); (d2, c1); (d1, c0)].

(** The parameters of the drifts of a body *)
Record driftpar := mkDp {
  dp_model : Z; dp_k0 : R; dp_k1 : R; dp_ks : R; dp_h : R; dp_x0 : R; dp_y0 : R }.

(** track_magnet_drift.h:track_magnet_drift_single_particle *)
Definition magnet_drift (d : driftpar) (length : R) (p : part) : part :=
  let m := dp_model d in
  if Z.eqb m (-1) then p
  else if is0 length then p
  else if Z.eqb m 0 then drift_expanded length p
  else if Z.eqb m 1 then drift_exact length p
  else if Z.eqb m 2 then polar_drift length (dp_h d) p
  else if Z.eqb m 3 then combined_dipole_quad length (dp_k0 d) (dp_k1 d) (dp_h d) p
  else if Z.eqb m 4 then curved_exact_bend length (dp_k0 d) (dp_h d) p
  else if Z.eqb m 5 then straight_exact_bend length (dp_k0 d) p
  else if Z.eqb m 6 then solenoid length (dp_ks d) (dp_x0 d) (dp_y0 d) p
  else if Z.eqb m 7 then nested length (dp_k0 d) (dp_h d) nested4 nested4_last p
  else if Z.eqb m 8 then nested length (dp_k0 d) (dp_h d) nested6 d0 p
  else p.

(** * The body *)
Section Body.
Context {A : Type}.
Variables drift kick : R -> A -> A.

Fixpoint times (n : nat) (f : A -> A) (a : A) : A :=
  match n with O => a | S k => times k f (f a) end.

(** track_magnet.h:track_magnet_body_single_particle, integrator 1 *)
Definition teapot (num_kicks : Z) (length : R) (a : A) : A :=
  let kick_weight := 1 / IZR num_kicks in
  let edge := if Z.ltb 1 num_kicks then 1 / IZR (2 * (1 + num_kicks)) else 1 / 2 in
  let inside := if Z.ltb 1 num_kicks then IZR num_kicks / (IZR (num_kicks * num_kicks) - 1) else 0 in
  let a := drift (edge * length) a in
  let a := times (Z.to_nat (num_kicks - 1))
             (fun a => drift (inside * length) (kick kick_weight a)) a in
  drift (edge * length) (kick kick_weight a).

(** integrator 3 *)
Definition uniform (num_kicks : Z) (length : R) (a : A) : A :=
  let kick_weight := 1 / IZR num_kicks in
  times (Z.to_nat num_kicks)
    (fun a => drift (1 / 2 * kick_weight * length)
                (kick kick_weight (drift (1 / 2 * kick_weight * length) a))) a.

(** integrator 2 *)
Definition yoshida_slices (num_kicks : Z) : Z :=
  (num_kicks / 7 + (if Z.eqb (num_kicks mod 7) 0 then 0 else 1))%Z.
Definition yoshida (num_kicks : Z) (length : R) (a : A) : A :=
  let n := yoshida_slices num_kicks in
  let slice_length := length / IZR n in
  let kick_weight := 1 / IZR n in
  let D d a := drift (slice_length * d) a in
  let K k a := kick (kick_weight * k) a in
  times (Z.to_nat n)
    (fun a =>
      let a := D d0 a in let a := K c0 a in
      let a := D d1 a in let a := K c1 a in
      let a := D d2 a in let a := K c2 a in
      let a := D d3 a in let a := K c3 a in
      let a := D d3 a in let a := K c2 a in
      let a := D d2 a in let a := K c1 a in
      let a := D d1 a in let a := K c0 a in
      D d0 a) a.

(** track_magnet.h:180-275: an unknown integrator does nothing *)
Definition body (only_drift : bool) (integrator num_kicks : Z) (length : R) (a : A) : A :=
  if only_drift then drift length a
  else if Z.eqb integrator 1 then teapot num_kicks length a
  else if Z.eqb integrator 3 then uniform num_kicks length a
  else if Z.eqb integrator 2 then yoshida num_kicks length a
  else a.
End Body.

(** * The magnet *)
Record magnet := mkMag {
  mg_length : R; mg_mult : mult; mg_rel : option mult; mg_ref : R;
  mg_kicks : Z; mg_model : Z; mg_default_model : Z; mg_integrator : Z; mg_default_integrator : Z;
  mg_h : R; mg_hxl : R;
  mg_k0 : R; mg_k1 : R; mg_k2 : R; mg_k3 : R; mg_k0s : R; mg_k1s : R; mg_k2s : R; mg_k3s : R;
  mg_ks : R; mg_x0 : R; mg_y0 : R }.

(** track_magnet_configure.h:configure_tracking_model, the drift model *)
Definition drift_model_of (model : Z) (h : R) : Z :=
  let model := if Z.eqb model 1 then 3%Z else model in
  let h_is_zero := tiny h in
  if Z.eqb model 2 then (if h_is_zero then 5 else 4)%Z
  else if Z.eqb model 3 then (if h_is_zero then 1 else 7)%Z
  else if Z.eqb model 4 then 3%Z
  else if Z.eqb model 5 then 1%Z
  else if Z.eqb model 6 then 0%Z
  else if Z.eqb model (-1) then (-1)%Z
  else if Z.eqb model (-2) then 6%Z
  else if Z.eqb model 7 then (if h_is_zero then 1 else 2)%Z
  else if Z.eqb model 8 then (if h_is_zero then 1 else 8)%Z
  else 99999999%Z.

(** The parameters of the drifts and kicks: k0_drift, k1_drift, h_drift, ks_drift, k0_kick, k1_kick,
    h_kick, k0_h_correction, k1_h_correction, kick_rot_frame. An unknown model leaves zeros. *)
Definition config (dm : Z) (k0 k1 h ks : R) : (R * R * R * R) * (R * R * R * R * R * bool) :=
  if (Z.eqb dm (-1) || Z.eqb dm 0 || Z.eqb dm 1) then ((0, 0, 0, 0), (k0, k1, h, k0, k1, true))
  else if Z.eqb dm 2 then ((0, 0, h, 0), (k0, k1, h, k0, k1, false))
  else if Z.eqb dm 3 then ((k0, k1, h, 0), (0, 0, h, 0, k1, false))
  else if Z.eqb dm 4 then ((k0, 0, h, 0), (0, k1, h, 0, k1, false))
  else if Z.eqb dm 5 then ((k0, 0, 0, 0), (0, k1, 0, 0, 0, false))
  else if Z.eqb dm 6 then ((0, 0, 0, ks), (k0, k1, h, k0, k1, true))
  else if (Z.eqb dm 7 || Z.eqb dm 8) then ((k0, 0, h, 0), (0, k1, h, k0, k1, false))
  else ((0, 0, 0, 0), (0, 0, 0, 0, 0, false)).

Definition all0 (n : nat) (l : list R) : bool := forallb is0 (firstn (S n) l).

(** track_magnet_kick.h:kick_is_inactive *)
Definition kick_is_inactive (g : magnet) : bool :=
  is0 (mg_h g) && is0 (mg_k0 g) && is0 (mg_k1 g) && is0 (mg_k2 g) && is0 (mg_k3 g)
  && is0 (mg_k0s g) && is0 (mg_k1s g) && is0 (mg_k2s g) && is0 (mg_k3s g)
  && all0 (mu_order (mg_mult g)) (mu_knl (mg_mult g)) && all0 (mu_order (mg_mult g)) (mu_ksl (mg_mult g)).

(** ceil and the truncation of a nonnegative number to an integer *)
Definition ceil (x : R) : Z := (- (up (- x) - 1))%Z.
Definition trunc (x : R) : Z := (up x - 1)%Z.

(** track_magnet.h:517-551: model, integrator and number of kicks *)
Definition used_model (g : magnet) : Z :=
  if Z.eqb (mg_model g) 0 then mg_default_model g else mg_model g.
Definition used_integrator (g : magnet) : Z :=
  if Z.eqb (used_model g) (-1) then 3%Z
  else if Z.eqb (mg_integrator g) 0 then mg_default_integrator g else mg_integrator g.
Definition used_kicks (g : magnet) (weight core_length : R) : Z :=
  let n := if Z.eqb (used_model g) (-1) then 1%Z else mg_kicks g in
  let n := if negb (if Req_EM_T weight 1 then true else false) && Z.ltb 0 n
           then ceil (IZR n * weight) else n in
  if Z.eqb n 0 then
    if kick_is_inactive g then 0%Z
    else if tiny (mg_h g) then 1%Z
    else
      let b_circum := 2 * (314159 / 100000) / Rabs (mg_h g) in
      let n := trunc (Rabs core_length / b_circum / (5 / 10000)) in
      if Z.ltb n 1 then 1%Z else n
  else n.

(** track_magnet.h:track_magnet_particles for a magnet without active edges which is not an rbend
    with straight body *)
Definition track_magnet (backtrack : bool) (weight : R) (g : magnet) (p : part) : part :=
  let core_length := if backtrack then - mg_length g * weight else mg_length g * weight in
  let factor := if backtrack then - 1 * weight else 1 * weight in
  let hxl := if backtrack then - mg_hxl g else mg_hxl g in
  let dm := drift_model_of (used_model g) (mg_h g) in
  let n := used_kicks g weight core_length in
  match config dm (mg_k0 g) (mg_k1 g) (mg_h g) (mg_ks g) with
  | ((k0_drift, k1_drift, h_drift, ks_drift), (k0_kick, k1_kick, h_kick, k0h, k1h, rot)) =>
      let d := mkDp dm k0_drift k1_drift ks_drift h_drift (mg_x0 g) (mg_y0 g) in
      let k := mkKp core_length (mg_mult g) (mg_rel g) (mg_ref g) factor
                 k0_kick k1_kick (mg_k2 g) (mg_k3 g) (mg_k0s g) (mg_k1s g) (mg_k2s g) (mg_k3s g)
                 h_kick hxl k0h k1h rot in
      let only_drift := Z.eqb n 0 && is0 k0_kick && is0 k1_kick && is0 h_kick in
      body (magnet_drift d) (magnet_kick k) only_drift (used_integrator g) n core_length p
  end.

(** thin_slice_multipole.h, thin_slice_bend.h, thin_slice_quadrupole.h, ...: a thin slice hands the fields of its
    parent to track_magnet_particles with its own weight and the model "kick only"; so does multipole.h
    for a Multipole which is not thick, with weight one. *)
Definition kick_only (g : magnet) : magnet :=
  mkMag (mg_length g) (mg_mult g) (mg_rel g) (mg_ref g) 1 (-1) (mg_default_model g) 3
    (mg_default_integrator g) (mg_h g) (mg_hxl g) (mg_k0 g) (mg_k1 g) (mg_k2 g) (mg_k3 g)
    (mg_k0s g) (mg_k1s g) (mg_k2s g) (mg_k3s g) (mg_ks g) (mg_x0 g) (mg_y0 g).
Definition thin_slice (backtrack : bool) (weight : R) (g : magnet) (p : part) : part :=
  track_magnet backtrack weight (kick_only g) p.
