(** Tracking is symplectic. Each theorem is closed by a lemma. *)
From Coq Require Import Reals ZArith List Bool.
From Verif.Model Require Import Maps Curved Magnet Rf.
From Verif.Spec Require Import Frames Aligned Poses Magnets Rf Symplectic.
From Verif.Proofs Require Symplectic SympBody SympRf SympAlign SympCases SympExamples MapsCases MagnetCases RfCases.
Import ListNotations.
Local Open Scope R_scope.

(** * C72. Tracking through an element without radiation, forwards or backwards, is differentiable and leaves
    the symplectic form of (x, px), (y, py), (zeta, ptau / beta0) as it is, for every particle which goes
    through the element. *)
Theorem C72_drift : forall use_exact backtrack model L p, kinematic p ->
  (use_exact = true \/ model = 2%Z -> 0 < pz2 p) ->
  symplectic (Drift_track use_exact backtrack model L) p.
Proof. exact SympAlign.symp_Drift. Qed.
Print Assumptions C72_drift.

Theorem C72_drift_slice : forall use_exact backtrack model L weight p, kinematic p ->
  (use_exact = true \/ model = 2%Z -> 0 < pz2 p) ->
  symplectic (DriftSlice_track use_exact backtrack model L weight) p.
Proof. exact SympAlign.symp_DriftSlice. Qed.
Print Assumptions C72_drift_slice.

Theorem C72_shifts : forall backtrack dx dy dz p,
  symplectic (XYShift_track backtrack dx dy) p /\ symplectic (Translation_track backtrack dx dy) p /\
  symplectic (ZetaShift_track backtrack dz) p.
Proof. exact SympAlign.symp_shifts. Qed.
Print Assumptions C72_shifts.

Theorem C72_rotation : forall sp (backtrack : bool) rx ry rs a1 a2 a3 p,
  physical p -> cos rx <> 0 -> cos ry <> 0 ->
  (if backtrack then forward_all (- rx) (- ry) (- rs) [a3; a2; a1] ident p
   else forward_all rx ry rs [a1; a2; a3] ident p) ->
  symplectic (Rotation_track sp backtrack rx ry rs a1 a2 a3) p.
Proof. exact SympAlign.symp_rotation. Qed.
Print Assumptions C72_rotation.

(** A misaligned element is symplectic where its body is. *)
Theorem C72_misaligned : forall sp a offset len body p, enterable a p ->
  (forall q, enters sp a (al_anchor a - offset) p q -> leavable a (body false q) /\ symplectic (body false) q) ->
  symplectic (track_aligned sp a offset len false body) p.
Proof. exact SympAlign.symp_aligned. Qed.
Print Assumptions C72_misaligned.

Theorem C72_misaligned_bend : forall sp a offset L h body p,
  L <> 0 -> h <> 0 -> rot_shift_active a = true ->
  enterable_bend a (al_anchor a - offset) h p ->
  (forall q, enters_bend sp a (al_anchor a - offset) h p q -> physical q ->
     leavable_bend sp a (al_anchor a - offset) L h (body false q) /\ symplectic (body false) q) ->
  symplectic (track_aligned_curved sp a offset L (h * L) h false body) p.
Proof. exact SympAlign.symp_bend_aligned. Qed.
Print Assumptions C72_misaligned_bend.

(** Every magnet (bend, quadrupole, sextupole, octupole, multipole, solenoid, and their slices), with every
    model, integrator and number of kicks *)
Theorem C72_magnet : forall backtrack weight g p, kinematic p -> goes_through backtrack weight g p ->
  symplectic (track_magnet backtrack weight g) p.
Proof. exact SympBody.symp_magnet. Qed.
Print Assumptions C72_magnet.

(** Every cavity; and, with a reference particle of unit charge, crab cavities and the dipole part of an
    RFMultipole *)
Theorem C72_rf : forall o backtrack weight e a,
  rf_model_known (rf_used_model e) -> o_preserve o = false -> kinematic (r_part a) ->
  (rm_order (rf_mult e) = None /\ rf_tvoltage e = 0) \/
  (Rabs (r_q0 a) = 1 /\ o_kill o = false /\ (rm_order (rf_mult e) = None \/ rm_order (rf_mult e) = Some O)) ->
  r_p0c a <> 0 -> r_cr a <> 0 -> p_chi (r_part a) <> 0 ->
  goes_through_rf o backtrack weight e a ->
  symplectic (fun p => r_part (track_rf o backtrack weight e (beside a p))) (r_part a).
Proof. exact SympRf.symp_rf. Qed.
Print Assumptions C72_rf.

(** A line is symplectic where its elements are. *)
Theorem C72_line : forall l p,
  Forall (fun e : (part -> part) * (part -> Prop) => forall p, snd e p -> symplectic (fst e) p) l ->
  fits l p -> symplectic (through l) p.
Proof. exact Symplectic.symp_line. Qed.
Print Assumptions C72_line.

(** An RFMultipole of order one is not symplectic. *)
Theorem C72_multipole_refuted : exists o c a,
  o_preserve o = false /\ o_kill o = false /\ rfm_order c = 1%nat /\ kinematic (r_part a) /\ Rabs (r_q0 a) = 1 /\
  r_p0c a <> 0 /\ r_cr a <> 0 /\ p_chi (r_part a) <> 0 /\ moving (r_part (RFMultipole_track o false c a)) /\
  ~ symplectic (fun p => r_part (RFMultipole_track o false c (beside a p))) (r_part a).
Proof. exact SympCases.rfquad_wrong. Qed.
Print Assumptions C72_multipole_refuted.

(** A CrabCavity is not symplectic when the charge of the reference particle is not one. *)
Theorem C72_crab_refuted : exists o c a,
  o_preserve o = false /\ o_kill o = false /\ cb_length c = 0 /\ kinematic (r_part a) /\ r_q0 a = 2 /\
  r_p0c a <> 0 /\ r_cr a <> 0 /\ p_chi (r_part a) <> 0 /\ moving (r_part (CrabCavity_track o false c a)) /\
  ~ symplectic (fun p => r_part (CrabCavity_track o false c (beside a p))) (r_part a).
Proof. exact SympCases.crab_wrong. Qed.
Print Assumptions C72_crab_refuted.

(** With the option to preserve angles, elements which change the energy are not symplectic. *)
Theorem C72_preserve_refuted : exists o c a,
  o_preserve o = true /\ o_kill o = false /\ rfm_order c = 0%nat /\ kinematic (r_part a) /\ r_q0 a = 1 /\
  r_p0c a <> 0 /\ r_cr a <> 0 /\ p_chi (r_part a) <> 0 /\ moving (r_part (RFMultipole_track o false c a)) /\
  ~ symplectic (fun p => r_part (RFMultipole_track o false c (beside a p))) (r_part a).
Proof. exact SympExamples.preserve_not. Qed.
Print Assumptions C72_preserve_refuted.

(** The reference particle goes through a bend with any number of kicks, forwards and backwards, and through a
    static gap with three kicks; a particle with a slope goes through a misaligned kick. *)
Example C72_case :
  kinematic SympExamples.rest /\
  (forall b n, goes_through b 1 (MagnetCases.bend 2 (1 / 10) (1 / 10) n 2 1) SympExamples.rest) /\
  goes_through_rf RfCases.plain false 1 (cavity_el (RfCases.gap 2 3)) (RfCases.of_charge 1) /\
  (enterable MapsCases.al1 MapsCases.p1 /\ rot_shift_active MapsCases.al1 = true /\
   (forall q, enters true MapsCases.al1 (al_anchor MapsCases.al1 - 0) MapsCases.p1 q ->
     leavable MapsCases.al1 (MapsCases.push (1/10) false q) /\ symplectic (MapsCases.push (1/10) false) q)).
Proof.
  exact (conj SympExamples.rest_kin (conj SympExamples.rest_goes (conj SympExamples.gap_goes SympExamples.push_case))).
Qed.
