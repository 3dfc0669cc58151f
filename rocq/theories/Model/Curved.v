(** Misalignment of curved elements (track_misalignments.h:119-405) and the drift in polar
    coordinates (track_magnet_drift.h:46-86). Floating point numbers are real numbers. *)
From Coq Require Import Reals Bool.
From Verif.Model Require Import Maps.
Local Open Scope R_scope.

(** atan2 of math.h *)
Definition atan2 (y x : R) : R :=
  if Rlt_dec 0 x then atan (y / x)
  else if Rlt_dec x 0 then
    if Rle_dec 0 y then atan (y / x) + PI else atan (y / x) - PI
  else if Rlt_dec 0 y then PI / 2
  else if Rlt_dec y 0 then - (PI / 2) else 0.

(** The arrays [double m[4][4]] with the last row 0 0 0 1. *)
Record aff := mkAff {
  m00 : R; m01 : R; m02 : R; m03 : R;
  m10 : R; m11 : R; m12 : R; m13 : R;
  m20 : R; m21 : R; m22 : R; m23 : R }.

(** track_misalignments.h:matrix_multiply_4x4 (last row of both factors 0 0 0 1) *)
Definition matrix_multiply_4x4 (a b : aff) : aff := mkAff
  (m00 a * m00 b + m01 a * m10 b + m02 a * m20 b)
  (m00 a * m01 b + m01 a * m11 b + m02 a * m21 b)
  (m00 a * m02 b + m01 a * m12 b + m02 a * m22 b)
  (m00 a * m03 b + m01 a * m13 b + m02 a * m23 b + m03 a)
  (m10 a * m00 b + m11 a * m10 b + m12 a * m20 b)
  (m10 a * m01 b + m11 a * m11 b + m12 a * m21 b)
  (m10 a * m02 b + m11 a * m12 b + m12 a * m22 b)
  (m10 a * m03 b + m11 a * m13 b + m12 a * m23 b + m13 a)
  (m20 a * m00 b + m21 a * m10 b + m22 a * m20 b)
  (m20 a * m01 b + m21 a * m11 b + m22 a * m21 b)
  (m20 a * m02 b + m21 a * m12 b + m22 a * m22 b)
  (m20 a * m03 b + m21 a * m13 b + m22 a * m23 b + m23 a).

(** track_misalignments.h:matrix_rigid_affine_inverse *)
Definition matrix_rigid_affine_inverse (m : aff) : aff := mkAff
  (m00 m) (m10 m) (m20 m) (- m00 m * m03 m - m10 m * m13 m - m20 m * m23 m)
  (m01 m) (m11 m) (m21 m) (- m01 m * m03 m - m11 m * m13 m - m21 m * m23 m)
  (m02 m) (m12 m) (m22 m) (- m02 m * m03 m - m12 m * m13 m - m22 m * m23 m).

(** track_misalignments.h:158-176 and 286-306, [misalignment_matrix] *)
Definition misalignment_matrix (dx dy ds theta phi psi : R) : aff :=
  let s_phi := sin phi in let c_phi := cos phi in
  let s_theta := sin theta in let c_theta := cos theta in
  let s_psi := sin psi in let c_psi := cos psi in
  mkAff
    (- s_phi * s_psi * s_theta + c_psi * c_theta) (- c_psi * s_phi * s_theta - c_theta * s_psi)
    (c_phi * s_theta) dx
    (c_phi * s_psi) (c_phi * c_psi) s_phi dy
    (- c_theta * s_phi * s_psi - c_psi * s_theta) (- c_psi * c_theta * s_phi + s_psi * s_theta)
    (c_phi * c_theta) ds.

(** track_misalignments.h:183-208 and 324-349, [matrix_first_part] and [matrix_second_part] *)
Definition arc_matrix (part_angle h psi_f : R) : aff :=
  mkAff
    ((cos part_angle - 1) * (cos psi_f * cos psi_f) + 1)
    ((cos part_angle - 1) * cos psi_f * sin psi_f)
    (- cos psi_f * sin part_angle)
    ((cos part_angle - 1) * cos psi_f / h)
    ((cos part_angle - 1) * cos psi_f * sin psi_f)
    ((cos part_angle - 1) * (sin psi_f * sin psi_f) + 1)
    (- sin part_angle * sin psi_f)
    ((cos part_angle - 1) * sin psi_f / h)
    (cos psi_f * sin part_angle)
    (sin part_angle * sin psi_f)
    (cos part_angle)
    (sin part_angle / h).

(** track_misalignments.h:222-224 and 378-380 *)
Definition rot_theta (m : aff) : R := atan2 (m02 m) (m22 m).
Definition rot_phi (m : aff) : R := atan2 (m12 m) (sqrt (m10 m * m10 m + m11 m * m11 m)).
Definition rot_psi (m : aff) : R := atan2 (m10 m) (m11 m).

(** track_misalignments.h:180, 318 *)
Definition curvature (length angle h : R) : R := if is0 length then h else angle / length.

(** track_misalignments.h:178-216 *)
Definition misaligned_entry (dx dy ds theta phi psi anchor length angle h psi_f : R) : aff :=
  let h := curvature length angle h in
  let first_part := arc_matrix (anchor * h) h psi_f in
  matrix_multiply_4x4 (matrix_multiply_4x4 first_part (misalignment_matrix dx dy ds theta phi psi))
    (matrix_rigid_affine_inverse first_part).

(** track_misalignments.h:308-370 *)
Definition realign (dx dy ds theta phi psi anchor length angle h psi_f : R) : aff :=
  let h := curvature length angle h in
  let second_part := arc_matrix (angle - h * anchor) h psi_f in
  matrix_multiply_4x4
    (matrix_multiply_4x4 (matrix_rigid_affine_inverse second_part)
      (matrix_rigid_affine_inverse (misalignment_matrix dx dy ds theta phi psi)))
    second_part.

(** track_misalignments.h:track_misalignment_entry_curved (119-245) *)
Definition entry_curved (synrad : bool) (dx dy ds theta phi psi anchor length angle h psi_f : R)
    (backtrack : bool) (p : part) : part :=
  if is0 angle && (negb (is0 length) || is0 h) then
    entry_straight synrad dx dy ds theta phi psi anchor psi_f backtrack p
  else
    let m := misaligned_entry dx dy ds theta phi psi anchor length angle h psi_f in
    if backtrack then
      from_misaligned synrad (- m03 m) (- m13 m) (- m23 m)
        (- rot_theta m) (- rot_phi m) (- rot_psi m) (- psi_f) p
    else
      to_misaligned synrad (m03 m) (m13 m) (m23 m) (rot_theta m) (rot_phi m) (rot_psi m) psi_f p.

(** track_misalignments.h:track_misalignment_exit_curved (248-403). The sequence of the exit has its
    s-rotation by psi_with_frame on the other side. *)
Definition exit_curved (synrad : bool) (dx dy ds theta phi psi anchor length angle h psi_f : R)
    (backtrack : bool) (p : part) : part :=
  if is0 angle && (negb (is0 length) || is0 h) then
    exit_straight synrad dx dy ds theta phi psi anchor length psi_f backtrack p
  else
    let m := realign dx dy ds theta phi psi anchor length angle h psi_f in
    if backtrack then
      S_ROTATE synrad psi_f
        (xyshift (- m03 m) (- m13 m) (S_SHIFT (- m23 m)
          (Y_ROTATE synrad (- rot_theta m) (X_ROTATE synrad (- rot_phi m)
            (S_ROTATE synrad (- rot_psi m) p)))))
    else
      S_ROTATE synrad (rot_psi m) (X_ROTATE synrad (rot_phi m) (Y_ROTATE synrad (rot_theta m)
        (S_SHIFT (m23 m) (xyshift (m03 m) (m13 m) (S_ROTATE synrad (- psi_f) p))))).

(** track_local_particle_with_transformations.h:90-200, for a CURVED element ([len], [angle]: of the
    slice; [h] of the element or parent) *)
Definition track_aligned_curved (synrad : bool) (a : align) (offset len angle h : R)
    (backtrack : bool) (body : bool -> part -> part) (p : part) : part :=
  if rot_shift_active a then
    let anchor := al_anchor a - offset in
    let entry := entry_curved synrad (al_x a) (al_y a) (al_s a) (al_theta a) (al_phi a) (al_psi a)
                   anchor len angle h (al_tilt a) backtrack in
    let exit := exit_curved synrad (al_x a) (al_y a) (al_s a) (al_theta a) (al_phi a) (al_psi a)
                   anchor len angle h (al_tilt a) backtrack in
    if backtrack then entry (body true (exit p)) else exit (body false (entry p))
  else body backtrack p.

(** track_magnet_drift.h:track_polar_drift_single_particle *)
Definition polar_drift (length h : R) (p : part) : part :=
  let rvv := p_rvv p in
  let x := p_x p in let y := p_y p in
  let px := p_px p in let py := p_py p in
  let s := length in
  let one_plus_delta := p_delta p + 1 in
  let pz := sqrt (one_plus_delta * one_plus_delta - px * px - py * py) in
  let rho := 1 / h in
  let ca := cos (h * s) in
  let sa := sin (h * s) in
  let sa2 := sin (1 / 2 * h * s) in
  let ipz := 1 / pz in
  let pxt := px * ipz in
  let iptt := 1 / (ca - sa * pxt) in
  let pst := (x + rho) * sa * ipz * iptt in
  let new_x := (x + rho * (2 * sa2 * sa2 + sa * pxt)) * iptt in
  let new_px := ca * px + sa * pz in
  let new_y := y + pst * py in
  let delta_ell := one_plus_delta * (x + rho) * sa / ca / pz / (1 - px * sa / ca / pz) in
  add_s s (add_zeta (length - delta_ell / rvv) (set_y new_y (set_px new_px (set_x new_x p)))).
