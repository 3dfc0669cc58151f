(** C75: precession of the spin in magnets. *)
From Coq Require Import Reals Bool.
From Verif.Model Require Import Maps Spin.
From Verif.Spec Require Import Spin.
From Verif.Proofs Require Spin SpinField.
Local Open Scope R_scope.

(** The length of the spin is kept, and nothing but the spin changes. *)
Theorem C75_norm : forall b B hx l lp p q, magnet_spin false b B hx l lp p = Some q -> norm (spin_of q) = norm (spin_of p).
Proof. exact Verif.Proofs.Spin.spin_norm. Qed.
Print Assumptions C75_norm.
Theorem C75_only_spin : forall b B hx l lp p q, magnet_spin false b B hx l lp p = Some q -> q = with_spin (spin_of q) p.
Proof. exact Verif.Proofs.Spin.spin_only. Qed.
Print Assumptions C75_only_spin.

(** Particles without spin are not touched; particles with spin are lost when tracked backwards. *)
Theorem C75_backtrack : forall b B hx l lp p,
  (spin_of p = (0, 0, 0) -> forall bt, magnet_spin bt b B hx l lp p = Some p) /\
  (spin_of p <> (0, 0, 0) -> magnet_spin true b B hx l lp p = None).
Proof. exact Verif.Proofs.Spin.spin_back. Qed.
Print Assumptions C75_backtrack.

(** The precession takes place in the frame of the middle of the bend. *)
Theorem C75_form : forall b B hx l lp p, exists q, magnet_spin false b B hx l lp p = Some q /\
  spin_of q = turn (hx * l / 2) (bmt_rotation (omega b B p) lp (turn (hx * l / 2) (spin_of p))).
Proof. exact Verif.Proofs.Spin.spin_form. Qed.
Print Assumptions C75_form.
(** There the spin solves ds/dl = Omega x s exactly, for any path length, and slices add up. *)
Theorem C75_equation : forall O s l, / 10000000000 < norm O ->
  derivative (fun l => bmt_rotation O l s) l (cross O (bmt_rotation O l s)) /\ bmt_rotation O 0 s = s.
Proof. exact Verif.Proofs.Spin.spin_equation. Qed.
Print Assumptions C75_equation.
Theorem C75_slices : forall O l1 l2 s, bmt_rotation O l2 (bmt_rotation O l1 s) = bmt_rotation O (l1 + l2) s.
Proof. exact Verif.Proofs.Spin.spin_slices. Qed.
Print Assumptions C75_slices.

(** Without vertical momentum and vector potential, Omega is that of Thomas, Bargmann, Michel and Telegdi, and the field
    which makes the particle radiate is the part of the field perpendicular to the motion. *)
Theorem C75_omega : forall b B p, p_ax p = 0 -> p_ay p = 0 -> p_py p = 0 -> 0 < 1 + p_delta p ->
  p_px p * p_px p <= (1 + p_delta p) * (1 + p_delta p) ->
  omega b B p = bmt (b_G b) (gamma_of b p) (brho_of b p) (motion p) B.
Proof. exact Verif.Proofs.SpinField.omega_bmt. Qed.
Print Assumptions C75_omega.
Theorem C75_perpendicular : forall p B, p_ax p = 0 -> p_ay p = 0 -> p_py p = 0 -> 0 < 1 + p_delta p ->
  p_px p * p_px p <= (1 + p_delta p) * (1 + p_delta p) ->
  dot (motion p) (motion p) = 1 /\
  b_perp_mod (p_px p) (p_py p) (p_delta p) B = norm (plus B (scale (- dot B (motion p)) (motion p))).
Proof. exact Verif.Proofs.SpinField.perp_field. Qed.
Print Assumptions C75_perpendicular.

(** On the reference orbit of a bend the spin turns by G gamma times the angle of the bend. *)
Theorem C75_spin_tune : forall b p0c length hx p, on_orbit p -> brho_of b p <> 0 ->
  / 10000000000 < Rabs ((1 + b_G b * gamma_of b p) * hx) ->
  exists q, magnet_spin false b (estimate_field b p0c length hx 0 0 0 0 0 0 p) hx length length p = Some q /\
    spin_of q = turn (- (b_G b * gamma_of b p * (hx * length))) (spin_of p).
Proof. exact Verif.Proofs.SpinField.spin_tune. Qed.
Print Assumptions C75_spin_tune.

(** Energy and rigidity in it are those of the particle, not of the reference particle. *)
Theorem C75_rigidity : forall b p0c p, consistent b p0c p ->
  gamma_of b p = (b_mass0 b * b_gamma0 b + p_ptau p * p0c) / b_mass0 b /\ brho_of b p = p0c * (1 + p_delta p) / (b_q0 b * b_clight b).
Proof. exact Verif.Proofs.SpinField.rigidity. Qed.
Print Assumptions C75_rigidity.

(** In a straight magnet the field is that which bends the particle along its trajectory, and that of the solenoid. *)
Theorem C75_field : forall b p0c length old_px old_py old_ax old_ay ks p,
  let xp0 := slope (old_px - old_ax) (old_py - old_ay) (p_delta p) in
  let yp0 := slope (old_py - old_ay) (old_px - old_ax) (p_delta p) in
  let xp1 := slope (p_px p - p_ax p) (p_py p - p_ay p) (p_delta p) in
  let yp1 := slope (p_py p - p_ay p) (p_px p - p_ax p) (p_delta p) in
  estimate_field b p0c length 0 0 old_px old_py old_ax old_ay ks p =
  (brho_of b p * curvature ((yp0 + yp1) / 2) ((yp1 - yp0) / length),
   - brho_of b p * curvature ((xp0 + xp1) / 2) ((xp1 - xp0) / length), ks * (p0c / (b_q0 b * b_clight b))).
Proof. exact Verif.Proofs.SpinField.straight_field. Qed.
Print Assumptions C75_field.

(** With vertical momentum the direction of motion is not a unit vector, a field along the motion counts as perpendicular
    and Omega is wrong. *)
Theorem C75_direction_refuted : exists px py delta, px * px + py * py < (1 + delta) * (1 + delta) /\
  norm (direction_of_motion px py delta) <> 1.
Proof. exact Verif.Proofs.SpinField.direction_refuted. Qed.
Print Assumptions C75_direction_refuted.
Theorem C75_perpendicular_refuted : exists p, p_ax p = 0 /\ p_ay p = 0 /\ 0 < 1 + p_delta p /\ dot (motion p) (motion p) = 1 /\
  b_perp_mod (p_px p) (p_py p) (p_delta p) (motion p) <> 0.
Proof. exact Verif.Proofs.SpinField.perp_refuted. Qed.
Print Assumptions C75_perpendicular_refuted.
Theorem C75_omega_refuted : exists b B p, p_ax p = 0 /\ p_ay p = 0 /\ 0 < 1 + p_delta p /\
  (p_px p * p_px p + p_py p * p_py p < (1 + p_delta p) * (1 + p_delta p)) /\ brho_of b p <> 0 /\
  omega b B p <> bmt (b_G b) (gamma_of b p) (brho_of b p) (motion p) B.
Proof. exact Verif.Proofs.SpinField.omega_refuted. Qed.
Print Assumptions C75_omega_refuted.
(** With a vector potential (solenoids) it is added to the momentum instead of subtracted. *)
Theorem C75_potential_refuted : exists b B p, p_py p = 0 /\ p_ay p = 0 /\ 0 < 1 + p_delta p /\
  ((p_px p - p_ax p) * (p_px p - p_ax p) < (1 + p_delta p) * (1 + p_delta p)) /\ brho_of b p <> 0 /\
  omega b B p <> bmt (b_G b) (gamma_of b p) (brho_of b p) (motion p) B.
Proof. exact Verif.Proofs.SpinField.potential_refuted. Qed.
Print Assumptions C75_potential_refuted.

Example C75_case : let p := SpinField.part1 0 0 0 in on_orbit p /\ brho_of SpinField.beam1 p <> 0 /\
  / 10000000000 < Rabs ((1 + b_G SpinField.beam1 * gamma_of SpinField.beam1 p) * (1 / 100)) /\
  spin_of p = (0, 0, 1) /\ / 10000000000 < norm (0, 1, 0).
Proof. exact SpinField.case. Qed.
Example C75_case_consistent : consistent SpinField.beam1 (3 / 4) (SpinField.part1 0 0 0).
Proof. exact SpinField.case_consistent. Qed.
