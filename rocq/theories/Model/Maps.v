(** Tracking maps of one particle: drifts, rotations and shifts of the reference frame
    (the [*_single_particle] functions of [xtrack/beam_elements/elements_src] and the
    [*_track_local_particle] functions of the elements built on them).

    Floating point numbers are real numbers. The maps are total functions on the reals; the
    code returns NaN where it takes the square root of a negative number or divides by zero, and
    the model says nothing there: the theorems carry the conditions under which all the
    square roots and quotients are defined. Frozen variables are not considered (see [Energy]). *)
From Coq Require Import Reals ZArith List Bool.
Import ListNotations.
Local Open Scope R_scope.

(** particles.py:38-63 (the variables read or written by the maps) *)
Record part := mkPart {
  p_x : R; p_px : R; p_y : R; p_py : R; p_zeta : R; p_s : R;
  p_delta : R; p_ptau : R; p_rpp : R; p_rvv : R; p_chi : R; p_beta0 : R;
  p_ax : R; p_ay : R;
  p_spin_x : R; p_spin_y : R; p_spin_z : R }.

(** LocalParticle_set_*, generated (particles.py:199-228) *)
Definition set_x (a : R) (p : part) : part :=
  mkPart a (p_px p) (p_y p) (p_py p) (p_zeta p) (p_s p) (p_delta p) (p_ptau p) (p_rpp p) (p_rvv p)
    (p_chi p) (p_beta0 p) (p_ax p) (p_ay p) (p_spin_x p) (p_spin_y p) (p_spin_z p).
Definition set_px (a : R) (p : part) : part :=
  mkPart (p_x p) a (p_y p) (p_py p) (p_zeta p) (p_s p) (p_delta p) (p_ptau p) (p_rpp p) (p_rvv p)
    (p_chi p) (p_beta0 p) (p_ax p) (p_ay p) (p_spin_x p) (p_spin_y p) (p_spin_z p).
Definition set_y (a : R) (p : part) : part :=
  mkPart (p_x p) (p_px p) a (p_py p) (p_zeta p) (p_s p) (p_delta p) (p_ptau p) (p_rpp p) (p_rvv p)
    (p_chi p) (p_beta0 p) (p_ax p) (p_ay p) (p_spin_x p) (p_spin_y p) (p_spin_z p).
Definition set_py (a : R) (p : part) : part :=
  mkPart (p_x p) (p_px p) (p_y p) a (p_zeta p) (p_s p) (p_delta p) (p_ptau p) (p_rpp p) (p_rvv p)
    (p_chi p) (p_beta0 p) (p_ax p) (p_ay p) (p_spin_x p) (p_spin_y p) (p_spin_z p).
Definition set_zeta (a : R) (p : part) : part :=
  mkPart (p_x p) (p_px p) (p_y p) (p_py p) a (p_s p) (p_delta p) (p_ptau p) (p_rpp p) (p_rvv p)
    (p_chi p) (p_beta0 p) (p_ax p) (p_ay p) (p_spin_x p) (p_spin_y p) (p_spin_z p).
Definition set_s (a : R) (p : part) : part :=
  mkPart (p_x p) (p_px p) (p_y p) (p_py p) (p_zeta p) a (p_delta p) (p_ptau p) (p_rpp p) (p_rvv p)
    (p_chi p) (p_beta0 p) (p_ax p) (p_ay p) (p_spin_x p) (p_spin_y p) (p_spin_z p).
Definition set_a (a b : R) (p : part) : part :=
  mkPart (p_x p) (p_px p) (p_y p) (p_py p) (p_zeta p) (p_s p) (p_delta p) (p_ptau p) (p_rpp p) (p_rvv p)
    (p_chi p) (p_beta0 p) a b (p_spin_x p) (p_spin_y p) (p_spin_z p).
Definition set_spin (a b c : R) (p : part) : part :=
  mkPart (p_x p) (p_px p) (p_y p) (p_py p) (p_zeta p) (p_s p) (p_delta p) (p_ptau p) (p_rpp p) (p_rvv p)
    (p_chi p) (p_beta0 p) (p_ax p) (p_ay p) a b c.

(** LocalParticle_add_to_*, generated (particles.py:199-228) *)
Definition add_x (a : R) (p : part) : part := set_x (p_x p + a) p.
Definition add_px (a : R) (p : part) : part := set_px (p_px p + a) p.
Definition add_y (a : R) (p : part) : part := set_y (p_y p + a) p.
Definition add_py (a : R) (p : part) : part := set_py (p_py p + a) p.
Definition add_zeta (a : R) (p : part) : part := set_zeta (p_zeta p + a) p.
Definition add_s (a : R) (p : part) : part := set_s (p_s p + a) p.

(** local_particle_custom_api.h:52-57 *)
Definition get_pzeta (p : part) : R := p_ptau p / p_beta0 p.

(** Comparison of a floating point number with zero ([!= 0]). *)
Definition is0 (a : R) : bool := if Req_EM_T a 0 then true else false.

(** * Drifts *)

(** track_drift.h:Drift_single_particle_expanded; track_magnet_drift.h:12-24 *)
Definition drift_expanded (length : R) (p : part) : part :=
  let rpp := p_rpp p in
  let rv0v := 1 / p_rvv p in
  let xp := p_px p * rpp in
  let yp := p_py p * rpp in
  let dzeta := 1 - rv0v * (1 + (xp * xp + yp * yp) / 2) in
  add_zeta (length * dzeta) (add_s length (add_y (yp * length) (add_x (xp * length) p))).

(** track_drift.h:Drift_single_particle_exact; track_magnet_drift.h:27-43 *)
Definition drift_exact (length : R) (p : part) : part :=
  let px := p_px p in
  let py := p_py p in
  let rv0v := 1 / p_rvv p in
  let one_plus_delta := 1 + p_delta p in
  let one_over_pz := 1 / sqrt (one_plus_delta * one_plus_delta - px * px - py * py) in
  let dzeta := 1 - rv0v * one_plus_delta * one_over_pz in
  add_s length (add_zeta (dzeta * length)
    (add_y (py * one_over_pz * length) (add_x (px * one_over_pz * length) p))).

(** drift.h:25-43: the model is 2 when XTRACK_USE_EXACT_DRIFTS is defined; a model which is
    neither 1 nor 2 does nothing. *)
Definition run_drift (use_exact : bool) (model : Z) (length : R) (p : part) : part :=
  let model := if use_exact then 2%Z else if Z.eqb model 0 then 1%Z else model in
  if Z.eqb model 1 then drift_expanded length p
  else if Z.eqb model 2 then drift_exact length p
  else p.

(** drift.h:Drift_track_local_particle *)
Definition Drift_track (use_exact backtrack : bool) (model : Z) (length : R) (p : part) : part :=
  run_drift use_exact model (if backtrack then - length else length) p.

(** drift_slice.h:DriftSlice_track_local_particle *)
Definition DriftSlice_track (use_exact backtrack : bool) (parent_model : Z)
    (parent_length weight : R) (p : part) : part :=
  run_drift use_exact parent_model
    (if backtrack then - weight * parent_length else weight * parent_length) p.

(** * Rotations and shifts *)

(** track_srotation.h:SRotation_single_particle. [synrad]: XTRACK_MULTIPOLE_NO_SYNRAD is not
    defined. *)
Definition srotation (synrad : bool) (sin_z cos_z : R) (p : part) : part :=
  let x_hat := cos_z * p_x p + sin_z * p_y p in
  let y_hat := - sin_z * p_x p + cos_z * p_y p in
  let px_hat := cos_z * p_px p + sin_z * p_py p in
  let py_hat := - sin_z * p_px p + cos_z * p_py p in
  let q := set_py py_hat (set_px px_hat (set_y y_hat (set_x x_hat p))) in
  let spin_x_0 := p_spin_x p in
  let spin_y_0 := p_spin_y p in
  if synrad && (negb (is0 spin_x_0) || negb (is0 spin_y_0)) then
    set_spin (cos_z * spin_x_0 + sin_z * spin_y_0) (- sin_z * spin_x_0 + cos_z * spin_y_0)
      (p_spin_z p) q
  else q.

(** track_xrotation.h:XRotation_single_particle *)
Definition xrotation (synrad : bool) (sin_angle cos_angle tan_angle : R) (p : part) : part :=
  let beta0 := p_beta0 p in
  let x := p_x p in let y := p_y p in
  let px := p_px p in let py := p_py p in
  let t := p_zeta p / beta0 in
  let pt := get_pzeta p * beta0 in
  let pz := sqrt (1 + 2 * pt / beta0 + pt * pt - px * px - py * py) in
  let ptt := 1 - tan_angle * py / pz in
  let y_hat := y / (cos_angle * ptt) in
  let py_hat := cos_angle * py + sin_angle * pz in
  let x_hat := x + tan_angle * y * px / (pz * ptt) in
  let t_hat := t - tan_angle * y * (1 / beta0 + pt) / (pz * ptt) in
  let spin_y_0 := p_spin_y p in
  let spin_z_0 := p_spin_z p in
  let q :=
    if synrad && (negb (is0 spin_y_0) || negb (is0 spin_z_0)) then
      set_spin (p_spin_x p) (cos_angle * spin_y_0 + sin_angle * spin_z_0)
        (- sin_angle * spin_y_0 + cos_angle * spin_z_0) p
    else p in
  set_zeta (t_hat * beta0) (set_y y_hat (set_py py_hat (set_x x_hat q))).

(** track_yrotation.h:YRotation_single_particle *)
Definition yrotation (synrad : bool) (sin_angle cos_angle tan_angle : R) (p : part) : part :=
  let beta0 := p_beta0 p in
  let x := p_x p in let y := p_y p in
  let px := p_px p in let py := p_py p in
  let t := p_zeta p / beta0 in
  let pt := get_pzeta p * beta0 in
  let pz := sqrt (1 + 2 * pt / beta0 + pt * pt - px * px - py * py) in
  let ptt := 1 + tan_angle * px / pz in
  let x_hat := x / (cos_angle * ptt) in
  let px_hat := cos_angle * px - sin_angle * pz in
  let y_hat := y - tan_angle * x * py / (pz * ptt) in
  let t_hat := t + tan_angle * x * (1 / beta0 + pt) / (pz * ptt) in
  let spin_x_0 := p_spin_x p in
  let spin_z_0 := p_spin_z p in
  let q :=
    if synrad && (negb (is0 spin_x_0) || negb (is0 spin_z_0)) then
      set_spin (cos_angle * spin_x_0 - sin_angle * spin_z_0) (p_spin_y p)
        (sin_angle * spin_x_0 + cos_angle * spin_z_0) p
    else p in
  set_zeta (t_hat * beta0) (set_y y_hat (set_px px_hat (set_x x_hat q))).

(** track_xyshift.h:XYShift_single_particle *)
Definition xyshift (dx dy : R) (p : part) : part := add_y (- dy) (add_x (- dx) p).

Section Elements.
Variable synrad backtrack : bool.

(** srotation.h:SRotation_track_local_particle *)
Definition SRotation_track (sin_z cos_z : R) (p : part) : part :=
  srotation synrad (if backtrack then - sin_z else sin_z) cos_z p.

(** xrotation.h:XRotation_track_local_particle *)
Definition XRotation_track (sin_angle cos_angle tan_angle : R) (p : part) : part :=
  xrotation synrad (if backtrack then - sin_angle else sin_angle) cos_angle
    (if backtrack then - tan_angle else tan_angle) p.

(** yrotation.h:YRotation_track_local_particle *)
Definition YRotation_track (sin_angle cos_angle tan_angle : R) (p : part) : part :=
  yrotation synrad (if backtrack then - sin_angle else sin_angle) cos_angle
    (if backtrack then - tan_angle else tan_angle) p.

(** beam_elements/_common.py:_ROT_AX_TO_ID; rotation.py:75-82 ([seq], a permutation of the
    three axes) *)
Inductive axis := Ax | Ay | As.

(** rotation.h:31-55 (one turn of the loop) *)
Definition rotate_about (rot_x rot_y rot_s : R) (p : part) (a : axis) : part :=
  match a with
  | Ax => if is0 rot_x then p else xrotation synrad (sin rot_x) (cos rot_x) (tan rot_x) p
  | Ay => if is0 rot_y then p else yrotation synrad (sin rot_y) (cos rot_y) (tan rot_y) p
  | As => if is0 rot_s then p else srotation synrad (sin rot_s) (cos rot_s) p
  end.

(** rotation.h:Rotation_track_local_particle *)
Definition Rotation_track (rot_x rot_y rot_s : R) (first second third : axis) (p : part) : part :=
  let f a := if backtrack then - a else a in
  let rots := if backtrack then [third; second; first] else [first; second; third] in
  fold_left (rotate_about (f rot_x) (f rot_y) (f rot_s)) rots p.

(** xyshift.h:XYShift_track_local_particle *)
Definition XYShift_track (dx dy : R) (p : part) : part :=
  xyshift (if backtrack then - dx else dx) (if backtrack then - dy else dy) p.

(** translation.h:Translation_track_local_particle *)
Definition Translation_track (shift_x shift_y : R) (p : part) : part :=
  xyshift (if backtrack then - shift_x else shift_x) (if backtrack then - shift_y else shift_y) p.

(** zetashift.h:ZetaShift_track_local_particle *)
Definition ZetaShift_track (dzeta : R) (p : part) : part :=
  add_zeta (- (if backtrack then - dzeta else dzeta)) p.

End Elements.

(** x_rotation.py:55-88, s_rotation.py:39-67, y_rotation.py (the trigonometric values stored by
    an element created from an angle in degrees) *)
Definition angle_rad (angle : R) : R := angle / 180 * PI.

(** * Misalignments: track_misalignments.h *)

Section Misalignment.
Variable synrad : bool.

(** track_misalignments.h:17-31, the macros. X_ROTATE flips signs. *)
Definition Y_ROTATE (theta : R) (p : part) : part :=
  if is0 theta then p else yrotation synrad (sin theta) (cos theta) (tan theta) p.
Definition X_ROTATE (phi : R) (p : part) : part :=
  if is0 phi then p else xrotation synrad (- sin phi) (cos phi) (- tan phi) p.
Definition S_ROTATE (psi : R) (p : part) : part :=
  if is0 psi then p else srotation synrad (sin psi) (cos psi) p.
Definition S_SHIFT (ds : R) (p : part) : part :=
  if is0 ds then p else add_s (- ds) (add_zeta (- ds) (drift_exact ds p)).

(** The two sequences of track_misalignments.h:59-76, 97-114, 227-243 and 385-401. *)
Definition to_misaligned (mx my ms theta phi psi psi_f : R) (p : part) : part :=
  S_ROTATE psi_f (S_ROTATE psi (X_ROTATE phi (Y_ROTATE theta (S_SHIFT ms (xyshift mx my p))))).
Definition from_misaligned (mx my ms theta phi psi psi_f : R) (p : part) : part :=
  xyshift mx my (S_SHIFT ms (Y_ROTATE theta (X_ROTATE phi (S_ROTATE psi (S_ROTATE psi_f p))))).

(** track_misalignments.h:track_misalignment_entry_straight (38-77) *)
Definition entry_straight (dx dy ds theta phi psi anchor psi_f : R) (backtrack : bool)
    (p : part) : part :=
  let mis_x := dx - anchor * cos phi * sin theta in
  let mis_y := dy - anchor * sin phi in
  let mis_s := ds - anchor * (cos phi * cos theta - 1) in
  if backtrack then from_misaligned (- mis_x) (- mis_y) (- mis_s) (- theta) (- phi) (- psi) (- psi_f) p
  else to_misaligned mis_x mis_y mis_s theta phi psi psi_f p.

(** track_misalignments.h:track_misalignment_exit_straight (80-116) *)
Definition exit_straight (dx dy ds theta phi psi anchor length psi_f : R) (backtrack : bool)
    (p : part) : part :=
  let neg_part_length := anchor - length in
  let mis_x := neg_part_length * cos phi * sin theta - dx in
  let mis_y := neg_part_length * sin phi - dy in
  let mis_s := neg_part_length * (cos phi * cos theta - 1) - ds in
  if backtrack then to_misaligned (- mis_x) (- mis_y) (- mis_s) theta phi psi psi_f p
  else from_misaligned mis_x mis_y mis_s (- theta) (- phi) (- psi) (- psi_f) p.
End Misalignment.

(** * The element with its misalignments: track_local_particle_with_transformations.h *)

(** shift_x, shift_y, shift_s, rot_y_rad, rot_x_rad, rot_s_rad_no_frame, rot_shift_anchor, rot_s_rad *)
Record align := mkAlign {
  al_x : R; al_y : R; al_s : R; al_theta : R; al_phi : R; al_psi : R; al_anchor : R; al_tilt : R }.

(** track_local_particle_with_transformations.h:184-191 *)
Definition rot_shift_active (a : align) : bool :=
  negb (is0 (al_x a)) || negb (is0 (al_y a)) || negb (is0 (al_s a)) || negb (is0 (al_phi a))
  || negb (is0 (al_theta a)) || negb (is0 (al_tilt a)) || negb (is0 (al_psi a)).

(** track_local_particle_with_transformations.h:90-200, for an element which is not CURVED.
    [offset]: slice_offset of a slice, 0 otherwise. [len]: length * weight (zero for a thin element).
    [body]: the tracking function of the element, which reads the backtrack flag. *)
Definition track_aligned (synrad : bool) (a : align) (offset len : R) (backtrack : bool)
    (body : bool -> part -> part) (p : part) : part :=
  if rot_shift_active a then
    let anchor := al_anchor a - offset in
    let entry := entry_straight synrad (al_x a) (al_y a) (al_s a) (al_theta a) (al_phi a) (al_psi a)
                   anchor (al_tilt a) backtrack in
    let exit := exit_straight synrad (al_x a) (al_y a) (al_s a) (al_theta a) (al_phi a) (al_psi a)
                   anchor len (al_tilt a) backtrack in
    if backtrack then entry (body true (exit p)) else exit (body false (entry p))
  else body backtrack p.
