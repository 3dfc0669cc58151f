(** Precession of the spin in magnets: xtrack/beam_elements/elements_src/track_magnet_radiation.h. Floating point numbers are
    real numbers; QELEM and C_LIGHT are arguments. *)
From Coq Require Import Reals Bool.
From Verif.Model Require Import Maps.
Local Open Scope R_scope.

Definition v3 : Type := R * R * R.

(** lines 11-27 direction_of_motion *)
Definition direction_of_motion (px py delta : R) : v3 :=
  let iix := px / (1 + delta) in
  let iiy := py / (1 + delta) in
  let iis := sqrt (1 - iix * iix + iiy * iiy) in
  (iix, iiy, iis).

(** lines 29-60 separate_par_perp_components: parallel and perpendicular part *)
Definition separate_par_perp (B i : v3) : v3 * v3 :=
  let '(Bx, By, Bz) := B in let '(ix, iy, iz) := i in
  let B_par := Bx * ix + By * iy + Bz * iz in
  let par_x := B_par * ix in let par_y := B_par * iy in let par_z := B_par * iz in
  ((par_x, par_y, par_z), (Bx - par_x, By - par_y, Bz - par_z)).

(** lines 62-93 compute_b_perp_mod *)
Definition b_perp_mod (kin_px kin_py delta : R) (B : v3) : R :=
  let '(_, (bx, by_, bz)) := separate_par_perp B (direction_of_motion kin_px kin_py delta) in
  sqrt (bx * bx + by_ * by_ + bz * bz).

(** What the particles have beside [part]: mass0, q0, gamma0, anomalous_magnetic_moment; and the constants *)
Record beam := mkBeam { b_mass0 : R; b_q0 : R; b_gamma0 : R; b_G : R; b_qelem : R; b_clight : R }.

(** lines 130-141 *)
Definition gamma_of (b : beam) (p : part) : R := b_gamma0 b * (1 + p_beta0 p * p_ptau p).
Definition brho_of (b : beam) (p : part) : R :=
  let beta := p_beta0 p * p_rvv p in
  let mass0_kg := b_mass0 b * b_qelem b / b_clight b / b_clight b in
  let P_J := mass0_kg * beta * gamma_of b p * b_clight b in
  P_J / (b_q0 b * b_qelem b).

(** lines 143-182: Omega_BMT *)
Definition omega (b : beam) (B : v3) (p : part) : v3 :=
  let kin_px_mean := p_px p + p_ax p in
  let kin_py_mean := p_py p + p_ay p in
  let '((lx, ly, lz), (tx, ty, tz)) := separate_par_perp B (direction_of_motion kin_px_mean kin_py_mean (p_delta p)) in
  let f t l := - 1 / brho_of b p * ((1 + b_G b * gamma_of b p) * t + (1 + b_G b) * l) in
  (f tx lx, f ty ly, f tz lz).

(** lines 121-128, 229-232: rotation to and from the middle of the bend *)
Definition frame_rotation (hx length : R) (s : v3) : v3 :=
  let '(x, y, z) := s in
  let sn := if is0 hx then 0 else sin (hx * length / 2) in
  let cs := if is0 hx then 1 else cos (hx * length / 2) in
  (x * cs + z * sn, y, - x * sn + z * cs).

(** lines 184-227 *)
Definition bmt_rotation (O : v3) (l_path : R) (s : v3) : v3 :=
  let '(Ox, Oy, Oz) := O in let '(sx, sy, sz) := s in
  let md := sqrt (Ox * Ox + Oy * Oy + Oz * Oz) in
  if Rlt_dec (/ 10000000000) md then
    let phi := md * l_path in
    let t0 := cos (phi / 2) in
    let tx := Ox / md * sin (phi / 2) in
    let ty := Oy / md * sin (phi / 2) in
    let tz := Oz / md * sin (phi / 2) in
    ((t0 * t0 + tx * tx - ty * ty - tz * tz) * sx + 2 * (tx * ty - t0 * tz) * sy + 2 * (tx * tz + t0 * ty) * sz,
     2 * (tx * ty + t0 * tz) * sx + (t0 * t0 - tx * tx + ty * ty - tz * tz) * sy + 2 * (ty * tz - t0 * tx) * sz,
     2 * (tx * tz - t0 * ty) * sx + 2 * (ty * tz + t0 * tx) * sy + (t0 * t0 - tx * tx - ty * ty + tz * tz) * sz)
  else s.

(** lines 95-240 magnet_spin; None: the particle is lost (state -33) *)
Definition spin_of (p : part) : v3 := (p_spin_x p, p_spin_y p, p_spin_z p).
Definition with_spin (s : v3) (p : part) : part := let '(x, y, z) := s in set_spin x y z p.
Definition magnet_spin (backtrack : bool) (b : beam) (B : v3) (hx length l_path : R) (p : part) : option part :=
  if negb (is0 (p_spin_x p)) || negb (is0 (p_spin_y p)) || negb (is0 (p_spin_z p)) then
    if backtrack then None
    else Some (with_spin (frame_rotation hx length (bmt_rotation (omega b B p) l_path (frame_rotation hx length (spin_of p)))) p)
  else Some p.

(** lines 278-342 magnet_estimate_field *)
Definition estimate_field (b : beam) (p0c length hx hy old_px old_py old_ax old_ay ks : R) (p : part) : v3 :=
  let delta := p_delta p in
  let old_kin_px := old_px - old_ax in let old_kin_py := old_py - old_ay in
  let new_kin_px := p_px p - p_ax p in let new_kin_py := p_py p - p_ay p in
  let old_ps := sqrt ((1 + delta) * (1 + delta) - old_kin_px * old_kin_px - old_kin_py * old_kin_py) in
  let new_ps := sqrt ((1 + delta) * (1 + delta) - new_kin_px * new_kin_px - new_kin_py * new_kin_py) in
  let old_xp := old_kin_px / old_ps in let old_yp := old_kin_py / old_ps in
  let new_xp := new_kin_px / new_ps in let new_yp := new_kin_py / new_ps in
  let xp_mid := 1 / 2 * (old_xp + new_xp) in let yp_mid := 1 / 2 * (old_yp + new_yp) in
  let xpp_mid := (new_xp - old_xp) / length in let ypp_mid := (new_yp - old_yp) / length in
  let x_mid := p_x p - 1 / 2 * length * xp_mid in let y_mid := p_y p - 1 / 2 * length * yp_mid in
  let hhh := 1 + hx * x_mid + hy * y_mid in
  let hprime := hx * xp_mid + hy * yp_mid in
  let tempx := xp_mid * xp_mid + hhh * hhh in let tempy := yp_mid * yp_mid + hhh * hhh in
  let kappa_x := - (hhh * (xpp_mid - hhh * hx) - 2 * hprime * xp_mid) / (tempx * sqrt tempx) in
  let kappa_y := - (hhh * (ypp_mid - hhh * hy) - 2 * hprime * yp_mid) / (tempy * sqrt tempy) in
  (- kappa_y * brho_of b p, kappa_x * brho_of b p, ks * (p0c / b_clight b / b_q0 b)).
