(** C76: exciters, AC dipoles and electron lenses. *)
From Coq Require Import Reals List ZArith.
From Verif.Model Require Import Excite.
From Verif.Spec Require Import Excite.
From Verif.Proofs Require Excite.
Import ListNotations.
Local Open Scope R_scope.

(** Each particle gets the kick of the multipole scaled by the sample of the time at which it passes; the waveform repeats. *)
Theorem C76_sample : forall c e p n, c <> 0 -> p_beta0 p <> 0 -> (0 < nsamples e)%Z -> (0 <= n < x_nduration e)%Z ->
  IZR n <= samples_since_start c e p < IZR n + 1 ->
  kicked e (nth (Z.to_nat (n mod nsamples e)) (x_samples e) 0) p (track_exciter c false e p).
Proof. exact Verif.Proofs.Excite.sample. Qed.
Print Assumptions C76_sample.
(** Before the sample period that precedes the start and after the duration there is no kick. *)
Theorem C76_outside : forall c bt e p, c <> 0 -> p_beta0 p <> 0 -> (0 <= x_nduration e)%Z ->
  samples_since_start c e p <= -1 \/ IZR (x_nduration e) <= samples_since_start c e p -> track_exciter c bt e p = p.
Proof. exact Verif.Proofs.Excite.outside. Qed.
Print Assumptions C76_outside.
(** In the sample period before the start the first sample is applied already: the conversion to an integer is toward zero. *)
Theorem C76_before : forall c e p, c <> 0 -> p_beta0 p <> 0 -> (0 < nsamples e)%Z -> (0 < x_nduration e)%Z ->
  -1 < samples_since_start c e p < 0 -> kicked e (nth 0 (x_samples e) 0) p (track_exciter c false e p).
Proof. exact Verif.Proofs.Excite.before. Qed.
Print Assumptions C76_before.
Theorem C76_before_refuted : exists c e p, c <> 0 /\ p_beta0 p <> 0 /\ (0 < nsamples e)%Z /\ samples_since_start c e p < 0 /\
  track_exciter c false e p <> p.
Proof. exact Verif.Proofs.Excite.before_refuted. Qed.
Print Assumptions C76_before_refuted.
(** Tracking back undoes the kick; so does the element made for it when the duration is that of the samples, but not in general: it forgets the duration. *)
Theorem C76_undone : forall c bt e p, (0 < nsamples e)%Z -> track_exciter c (negb bt) e (track_exciter c bt e p) = p.
Proof. exact Verif.Proofs.Excite.undone. Qed.
Print Assumptions C76_undone.
Theorem C76_undone_element : forall c e p, (0 < nsamples e)%Z -> x_nduration e = nsamples e ->
  track_exciter c false (backtrack_element e) (track_exciter c false e p) = p.
Proof. exact Verif.Proofs.Excite.undone_element. Qed.
Print Assumptions C76_undone_element.
Theorem C76_undone_element_refuted : exists c e p, c <> 0 /\ p_beta0 p <> 0 /\ (0 < nsamples e)%Z /\
  track_exciter c false (backtrack_element e) (track_exciter c false e p) <> p.
Proof. exact Verif.Proofs.Excite.undone_element_refuted. Qed.
Print Assumptions C76_undone_element_refuted.
(** An AC dipole follows its ramps and oscillates with the turn; in twiss mode it is a gradient. *)
Theorem C76_ac_program : forall a p r1 r2 r3 r4, a_twiss a = false -> a_ramp a = (r1, r2, r3, r4) ->
  (0 <= r1 < r2)%Z -> (r2 <= r3)%Z -> (r3 < r4 < 65536)%Z ->
  exists v, envelope r1 r2 r3 r4 (p_turn p) v /\
    let kick := v * (a_volt a * (3 / 10)) / (p_p0c p / 10 ^ 9) * sin (2 * PI * (a_lag a + a_freq a * IZR (p_turn p))) in
    track_acdipole a p = match a_plane a with O => p | 1%nat => add_kick kick 0 p | _ => add_kick 0 kick p end.
Proof. exact Verif.Proofs.Excite.ac_program. Qed.
Print Assumptions C76_ac_program.
Theorem C76_ac_twiss : forall a p, a_twiss a = true ->
  track_acdipole a p = match a_plane a with O => p | 1%nat => add_kick (a_grad a * p_x p) 0 p | _ => add_kick 0 (a_grad a * p_y p) p end.
Proof. exact Verif.Proofs.Excite.ac_twiss. Qed.
Print Assumptions C76_ac_twiss.
(** Ramps from turn 65536 on wrap around: the kick comes before the ramp. *)
Theorem C76_ac_refuted : exists a p r1 r2 r3 r4, a_twiss a = false /\ a_ramp a = (r1, r2, r3, r4) /\
  (0 <= r1 < r2)%Z /\ (r2 <= r3)%Z /\ (r3 < r4 < 2 ^ 32)%Z /\ (p_turn p < r1)%Z /\ track_acdipole a p <> p.
Proof. exact Verif.Proofs.Excite.ac_refuted. Qed.
Print Assumptions C76_ac_refuted.
(** Electron lens: in the hole only the residual kick. *)
Theorem C76_elens_hollow : forall c eps0 emass bt e p, 0 <= l_r1 e -> p_x p * p_x p + p_y p * p_y p <= l_r1 e * l_r1 e ->
  track_elens c eps0 emass bt e p = add_kick (l_resx e) (l_resy e) p.
Proof. exact Verif.Proofs.Excite.elens_hollow. Qed.
Print Assumptions C76_elens_hollow.
(** Elsewhere the kick is radial; outside the electrons it falls with the radius. *)
Theorem C76_elens_radial : forall c eps0 emass bt e p, let p' := track_elens c eps0 emass bt e p in
  0 <= l_r1 e -> l_r1 e * l_r1 e < p_x p * p_x p + p_y p * p_y p ->
  p_x p * (p_py p' - p_py p) = p_y p * (p_px p' - p_px p).
Proof. exact Verif.Proofs.Excite.elens_radial. Qed.
Print Assumptions C76_elens_radial.
Theorem C76_elens_outside : forall c eps0 emass e p, let p' := track_elens c eps0 emass false e p in
  0 < l_r1 e < l_r2 e -> l_r2 e * l_r2 e < p_x p * p_x p + p_y p * p_y p ->
  p_x p * (p_px p' - p_px p) + p_y p * (p_py p' - p_py p) =
  - (theta_max c eps0 emass (l_length e) e p * l_r2 e / (p_rpp p * p_chi p)).
Proof. exact Verif.Proofs.Excite.elens_outside. Qed.
Print Assumptions C76_elens_outside.
(** The force is that of a line of electrons that comes the other way, with the velocity of electrons of the given voltage. *)
Theorem C76_elens_force : forall c eps0 emass e p beta_e, let p' := track_elens c eps0 emass false e p in
  0 < c -> 0 < eps0 -> 0 < emass -> 0 < l_voltage e -> 0 < p_p0c p -> p_q0 p <> 0 -> p_rvv p * p_beta0 p <> 0 -> p_rpp p * p_chi p <> 0 ->
  0 < beta_e -> beta_e * beta_e = 1 - (emass / (l_voltage e + emass)) * (emass / (l_voltage e + emass)) ->
  0 < l_r1 e < l_r2 e -> l_r2 e * l_r2 e < p_x p * p_x p + p_y p * p_y p ->
  (p_x p * (p_px p' - p_px p) + p_y p * (p_py p' - p_py p)) * (p_rpp p * p_chi p) * (p_p0c p / (p_q0 p * c)) =
  - (l_current e * l_length e / (2 * PI * eps0) * (1 / (beta_e * (p_rvv p * p_beta0 p)) + 1) / (c * c)).
Proof. exact Verif.Proofs.Excite.elens_force. Qed.
Print Assumptions C76_elens_force.
(** Within the electrons the kick is that of the share of the current inside the radius, given by the polynomial in mm. *)
Theorem C76_elens_profile : forall c eps0 emass e p, let p' := track_elens c eps0 emass false e p in let r := sqrt (p_x p * p_x p + p_y p * p_y p) in
  0 <= l_r1 e -> l_r1 e < r <= l_r2 e ->
  p_x p * (p_px p' - p_px p) + p_y p * (p_py p' - p_py p) =
  - (match l_poly e with [] => (r ^ 2 - l_r1 e ^ 2) / (l_r2 e ^ 2 - l_r1 e ^ 2) | l => horner l (1000 * r) end *
     theta_max c eps0 emass (l_length e) e p * l_r2 e / (p_rpp p * p_chi p)).
Proof. exact Verif.Proofs.Excite.elens_profile. Qed.
Print Assumptions C76_elens_profile.
(** The share of the current inside the radius is 0 at the hole, 1 at the outer radius and grows in between. *)
Theorem C76_elens_edges : forall e, 0 <= l_r1 e < l_r2 e -> l_poly e = [] -> frr e (l_r1 e) = 0 /\ frr e (l_r2 e) = 1 /\
  forall r s, l_r1 e <= r -> r <= s -> s <= l_r2 e -> 0 <= frr e r <= frr e s.
Proof. exact Verif.Proofs.Excite.elens_edges. Qed.
Print Assumptions C76_elens_edges.
(** Tracking back undoes it, except for residual kicks. *)
Theorem C76_elens_undone : forall c eps0 emass bt e p, 0 <= l_r1 e ->
  l_r1 e * l_r1 e < p_x p * p_x p + p_y p * p_y p \/ l_resx e = 0 /\ l_resy e = 0 ->
  track_elens c eps0 emass (negb bt) e (track_elens c eps0 emass bt e p) = p.
Proof. exact Verif.Proofs.Excite.elens_undone. Qed.
Print Assumptions C76_elens_undone.
Theorem C76_elens_refuted : exists c eps0 emass e p, 0 < l_r1 e < l_r2 e /\
  track_elens c eps0 emass true e (track_elens c eps0 emass false e p) <> p.
Proof. exact Verif.Proofs.Excite.elens_refuted. Qed.
Print Assumptions C76_elens_refuted.

Example C76_case : (0 < nsamples (Verif.Proofs.Excite.exc1 None))%Z /\ x_nduration (Verif.Proofs.Excite.exc1 None) = nsamples (Verif.Proofs.Excite.exc1 None) /\
  IZR 0 <= samples_since_start 1 (Verif.Proofs.Excite.exc1 None) (Verif.Proofs.Excite.part1 0 0) < IZR 0 + 1 /\
  track_exciter 1 false (Verif.Proofs.Excite.exc1 None) (Verif.Proofs.Excite.part1 0 0) <> Verif.Proofs.Excite.part1 0 0.
Proof. exact Verif.Proofs.Excite.case_exciter. Qed.
Example C76_case_ac : a_twiss (mkA 1 0 (1 / 4) (10, 20, 30, 40)%Z 1 false 0) = false /\ (0 <= 10 < 20)%Z /\ (20 <= 30)%Z /\ (30 < 40 < 65536)%Z.
Proof. repeat split. all: discriminate. Qed.
Example C76_case_lens : let e := mkL 1 1 2 1 1 0 0 [] in let p := Verif.Proofs.Excite.part1 0 0 in
  0 < l_r1 e < l_r2 e /\ l_poly e = [] /\ p_x p * p_x p + p_y p * p_y p <= l_r1 e * l_r1 e.
Proof. cbn. repeat split; try apply Rlt_0_1; rewrite ?Rmult_0_l, ?Rplus_0_r, ?Rmult_1_l; try apply Rle_0_1. apply IZR_lt; reflexivity. Qed.
