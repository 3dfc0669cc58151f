(** C37, C38, C41: drifts, rotations, shifts and misalignments. *)
From Coq Require Import Reals ZArith List Bool.
From Verif.Model Require Import Energy Maps Curved.
From Verif.Spec Require Import Energy Frames Aligned Poses.
From Verif.Proofs Require Frames FrameMaps Misalign Aligned Bends MapsCases BendCases.
Import ListNotations.
Local Open Scope R_scope.

(** The hypothesis [kinematic] of the theorems below holds for the variables kept by the particles
    (C12). *)
Theorem C37_kinematic : forall e p, consistent e ->
  p_beta0 p = e_beta0 e -> p_delta p = e_delta e -> p_ptau p = e_ptau e ->
  p_rvv p = e_rvv e -> p_rpp p = e_rpp e -> kinematic p.
Proof. exact MapsCases.consistent_kinematic. Qed.
Print Assumptions C37_kinematic.

(** * C37. Two drifts are one drift of the total length, in both models. *)
Theorem C37_compose : forall ue b m L1 L2 p,
  Drift_track ue b m L2 (Drift_track ue b m L1 p) = Drift_track ue b m (L1 + L2) p.
Proof. exact FrameMaps.drift_compose. Qed.
Print Assumptions C37_compose.

(** The slices of a drift are the drift. *)
Theorem C37_slices : forall ue b m L ws p, fold_right Rplus 0 ws = 1 ->
  fold_left (fun q w => DriftSlice_track ue b m L w q) ws p = Drift_track ue b m L p.
Proof. exact FrameMaps.drift_slices_whole. Qed.
Print Assumptions C37_slices.

(** Backtracking (in either direction) restores the particle. *)
Theorem C37_backtrack : forall ue b m L p,
  Drift_track ue (negb b) m L (Drift_track ue b m L p) = p.
Proof. exact FrameMaps.drift_back. Qed.
Print Assumptions C37_backtrack.
Theorem C37_slice_backtrack : forall ue b m L w p,
  DriftSlice_track ue (negb b) m L w (DriftSlice_track ue b m L w p) = p.
Proof. exact FrameMaps.drift_slice_back. Qed.
Print Assumptions C37_slice_backtrack.

(** The exact drift is free motion up to the plane at the distance L; zeta gains L minus beta0 c
    times the time it takes. *)
Theorem C37_free_motion : forall sp L p, physical p ->
  exists q, sees sp ident (V3 0 0 L) p q /\ drift_exact L p = add_s L (add_zeta L q).
Proof. exact FrameMaps.drift_exact_ray. Qed.
Print Assumptions C37_free_motion.

(** On axis the two models agree. *)
Theorem C37_on_axis : forall ue b m m' L p, kinematic p -> p_px p = 0 -> p_py p = 0 ->
  (m = 0 \/ m = 1 \/ m = 2)%Z -> (m' = 0 \/ m' = 1 \/ m' = 2)%Z ->
  Drift_track ue b m L p = Drift_track ue b m' L p.
Proof. exact FrameMaps.drift_on_axis. Qed.
Print Assumptions C37_on_axis.

Example C37_case : physical MapsCases.p1 /\ p_px MapsCases.p1 = 3 / 5.
Proof. split; [exact MapsCases.p1_physical|reflexivity]. Qed.

(** * C38. Rotations and shifts are undone by backtracking. *)
Theorem C38_srotation : forall sp b s c p, physical p -> s * s + c * c = 1 ->
  SRotation_track sp (negb b) s c (SRotation_track sp b s c p) = p.
Proof. exact FrameMaps.srotation_back. Qed.
Print Assumptions C38_srotation.
Theorem C38_xrotation : forall sp (b : bool) s c t p,
  physical p -> s * s + c * c = 1 -> c <> 0 -> t = s / c ->
  forward (Rot_x (if b then - s else s) c) p ->
  XRotation_track sp (negb b) s c t (XRotation_track sp b s c t p) = p.
Proof. exact FrameMaps.xrotation_back. Qed.
Print Assumptions C38_xrotation.
Theorem C38_yrotation : forall sp (b : bool) s c t p,
  physical p -> s * s + c * c = 1 -> c <> 0 -> t = s / c ->
  forward (Rot_y (if b then - s else s) c) p ->
  YRotation_track sp (negb b) s c t (YRotation_track sp b s c t p) = p.
Proof. exact FrameMaps.yrotation_back. Qed.
Print Assumptions C38_yrotation.
Theorem C38_rotation : forall sp (b : bool) rx ry rs a1 a2 a3 p,
  physical p -> cos rx <> 0 -> cos ry <> 0 ->
  (if b then forward_all (- rx) (- ry) (- rs) [a3; a2; a1] ident p
   else forward_all rx ry rs [a1; a2; a3] ident p) ->
  Rotation_track sp (negb b) rx ry rs a1 a2 a3 (Rotation_track sp b rx ry rs a1 a2 a3 p) = p.
Proof. exact Misalign.rotation_back. Qed.
Print Assumptions C38_rotation.
Theorem C38_xyshift : forall b dx dy p, XYShift_track (negb b) dx dy (XYShift_track b dx dy p) = p.
Proof. exact FrameMaps.xyshift_back. Qed.
Print Assumptions C38_xyshift.
Theorem C38_translation : forall b dx dy p,
  Translation_track (negb b) dx dy (Translation_track b dx dy p) = p.
Proof. exact FrameMaps.translation_back. Qed.
Print Assumptions C38_translation.
Theorem C38_zetashift : forall b d p, ZetaShift_track (negb b) d (ZetaShift_track b d p) = p.
Proof. exact FrameMaps.zetashift_back. Qed.
Print Assumptions C38_zetashift.

(** Each rotation gives the same free ray and the same spin, seen from the turned frame. *)
Theorem C38_srotation_frame : forall sp s c p, physical p -> s * s + c * c = 1 ->
  sees sp (Rot_s s c) (V3 0 0 0) p (srotation sp s c p).
Proof. exact Frames.srotation_sees. Qed.
Print Assumptions C38_srotation_frame.
Theorem C38_xrotation_frame : forall sp s c t p,
  physical p -> s * s + c * c = 1 -> c <> 0 -> t = s / c -> forward (Rot_x s c) p ->
  sees sp (Rot_x s c) (V3 0 0 0) p (xrotation sp s c t p).
Proof. exact Frames.xrotation_sees. Qed.
Print Assumptions C38_xrotation_frame.
Theorem C38_yrotation_frame : forall sp s c t p,
  physical p -> s * s + c * c = 1 -> c <> 0 -> t = s / c -> forward (Rot_y s c) p ->
  sees sp (Rot_y s c) (V3 0 0 0) p (yrotation sp s c t p).
Proof. exact Frames.yrotation_sees. Qed.
Print Assumptions C38_yrotation_frame.
Theorem C38_rotation_frame : forall sp rx ry rs a1 a2 a3 p,
  physical p -> cos rx <> 0 -> cos ry <> 0 -> forward_all rx ry rs [a1; a2; a3] ident p ->
  sees sp (turns rx ry rs [a1; a2; a3]) (V3 0 0 0) p (Rotation_track sp false rx ry rs a1 a2 a3 p).
Proof. exact Misalign.rotation_sees. Qed.
Print Assumptions C38_rotation_frame.
Theorem C38_xyshift_frame : forall sp dx dy p, physical p ->
  sees sp ident (V3 dx dy 0) p (xyshift dx dy p).
Proof. exact Frames.xyshift_sees. Qed.
Print Assumptions C38_xyshift_frame.
(** The view from a frame is unique, so the theorems above determine the maps. *)
Theorem C38_frame_unique : forall sp M e p q q', v_z (app M (momentum p)) <> 0 ->
  sees sp M e p q -> sees sp M e p q' -> q = q'.
Proof. exact Frames.sees_unique. Qed.
Print Assumptions C38_frame_unique.

(** The angles of consecutive rotations about the same axis add up. *)
Theorem C38_srotation_add : forall sp a b p, physical p ->
  srotation sp (sin b) (cos b) (srotation sp (sin a) (cos a) p)
  = srotation sp (sin (a + b)) (cos (a + b)) p.
Proof. exact FrameMaps.srotation_add. Qed.
Print Assumptions C38_srotation_add.
Theorem C38_xrotation_add : forall sp a b p, physical p ->
  cos a <> 0 -> cos b <> 0 -> cos (a + b) <> 0 ->
  forward (Rot_x (sin a) (cos a)) p -> forward (Rot_x (sin (a + b)) (cos (a + b))) p ->
  xrotation sp (sin b) (cos b) (tan b) (xrotation sp (sin a) (cos a) (tan a) p)
  = xrotation sp (sin (a + b)) (cos (a + b)) (tan (a + b)) p.
Proof. exact FrameMaps.xrotation_add. Qed.
Print Assumptions C38_xrotation_add.
Theorem C38_yrotation_add : forall sp a b p, physical p ->
  cos a <> 0 -> cos b <> 0 -> cos (a + b) <> 0 ->
  forward (Rot_y (sin a) (cos a)) p -> forward (Rot_y (sin (a + b)) (cos (a + b))) p ->
  yrotation sp (sin b) (cos b) (tan b) (yrotation sp (sin a) (cos a) (tan a) p)
  = yrotation sp (sin (a + b)) (cos (a + b)) (tan (a + b)) p.
Proof. exact FrameMaps.yrotation_add. Qed.
Print Assumptions C38_yrotation_add.

Example C38_case : physical MapsCases.p1
  /\ forward (Rot_x (5/13) (12/13)) MapsCases.p1 /\ forward (Rot_y (5/13) (12/13)) MapsCases.p1
  /\ ~ forward (Rot_y (- (12/13)) (5/13)) MapsCases.p1.
Proof.
  exact (conj MapsCases.p1_physical (conj MapsCases.p1_forward_x
    (conj MapsCases.p1_forward_y MapsCases.p1_backward))).
Qed.

(** * C41. Misaligned straight elements. *)
(** At the entry the particle is seen from the frame of the displaced element. *)
Theorem C41_entry_frame : forall sp a anchor p, enterable a p ->
  let q := entry_straight sp (al_x a) (al_y a) (al_s a) (al_theta a) (al_phi a) (al_psi a)
             anchor (al_tilt a) false p in
  enters sp a anchor p q /\ leavable a q.
Proof. exact Aligned.entry_sees. Qed.
Print Assumptions C41_entry_frame.

(** A misaligned drift is the drift. *)
Theorem C41_no_field : forall sp a offset L p, enterable a p ->
  track_aligned sp a offset L false (fun b => Drift_track true b 0 L) p = Drift_track true false 0 L p.
Proof. exact Aligned.aligned_drift. Qed.
Print Assumptions C41_no_field.

(** The entry, the exit, and the whole element are undone by backtracking. *)
Theorem C41_entry_backtrack : forall sp dx dy ds th ph ps an pf p, physical p -> can_enter th ph p ->
  entry_straight sp dx dy ds th ph ps an pf true (entry_straight sp dx dy ds th ph ps an pf false p) = p.
Proof. exact Misalign.entry_back. Qed.
Print Assumptions C41_entry_backtrack.
Theorem C41_exit_backtrack : forall sp dx dy ds th ph ps an L pf p,
  physical p -> can_leave th ph ps pf p ->
  exit_straight sp dx dy ds th ph ps an L pf true (exit_straight sp dx dy ds th ph ps an L pf false p) = p.
Proof. exact Misalign.exit_back. Qed.
Print Assumptions C41_exit_backtrack.
Theorem C41_backtrack : forall sp a offset len body p, enterable a p ->
  (forall q, enters sp a (al_anchor a - offset) p q ->
     leavable a (body false q) /\ body true (body false q) = q) ->
  track_aligned sp a offset len true body (track_aligned sp a offset len false body p) = p.
Proof. exact Aligned.aligned_back. Qed.
Print Assumptions C41_backtrack.

(** The transformations between the slices of a misaligned element cancel. *)
Theorem C41_slices : forall sp a pieces p, pieces <> [] -> enterable a p ->
  (forall q, enters sp a (al_anchor a) p q -> leavable_after a pieces q) ->
  track_pieces sp a 0 pieces p
  = track_aligned sp a 0 (total_length pieces) false (fun _ => bodies pieces) p.
Proof. exact Aligned.aligned_pieces. Qed.
Print Assumptions C41_slices.

Example C41_case : enterable MapsCases.al1 MapsCases.p1 /\ rot_shift_active MapsCases.al1 = true
  /\ (forall q, enters true MapsCases.al1 (al_anchor MapsCases.al1 - 0) MapsCases.p1 q ->
       leavable MapsCases.al1 (MapsCases.push (1/10) false q)
       /\ MapsCases.push (1/10) true (MapsCases.push (1/10) false q) = q).
Proof. exact (conj MapsCases.p1_enterable (conj MapsCases.al1_active MapsCases.p1_push)). Qed.

(** ** Misaligned bends: [h] is the curvature and [h * L] the angle. *)
(** At the entry the particle is seen from the frame of the displaced bend, and at the exit from
    the nominal exit frame. *)
Theorem C41_bend_entry_frame : forall sp a anchor L h, L <> 0 -> h <> 0 -> forall p,
  enterable_bend a anchor h p ->
  let q := entry_curved sp (al_x a) (al_y a) (al_s a) (al_theta a) (al_phi a) (al_psi a)
             anchor L (h * L) h (al_tilt a) false p in
  enters_bend sp a anchor h p q /\ physical q.
Proof. exact Bends.bend_entry_from. Qed.
Print Assumptions C41_bend_entry_frame.
Theorem C41_bend_exit_frame : forall sp a anchor L h, L <> 0 -> h <> 0 -> forall q,
  leavable_bend sp a anchor L h q ->
  let r := exit_curved sp (al_x a) (al_y a) (al_s a) (al_theta a) (al_phi a) (al_psi a)
             anchor L (h * L) h (al_tilt a) false q in
  leaves_bend sp a anchor L h q r /\ physical r.
Proof. exact Bends.bend_exit_from. Qed.
Print Assumptions C41_bend_exit_frame.

(** The drift in polar coordinates is free motion up to the end of the arc. *)
Theorem C41_polar_drift : forall sp L h p, physical p -> h <> 0 -> cos (h * L) <> 0 ->
  forward (transp (rotn (arc (h * L) h))) p -> (sp = true -> spin p = V3 0 0 0) ->
  sees_from sp (arc (h * L) h) p (add_s (- L) (add_zeta (- L) (polar_drift L h p))).
Proof. exact Bends.polar_from. Qed.
Print Assumptions C41_polar_drift.

(** A displaced bend without field acts as the bend in place. *)
Theorem C41_bend_no_field : forall sp a anchor L h p, L <> 0 -> h <> 0 -> cos (h * L) <> 0 ->
  (sp = true -> spin p = V3 0 0 0) ->
  enterable_bend a anchor h p ->
  forward (transp (rotn (tilted_arc (h * L) h (al_tilt a)))) p ->
  (forall q, enters_bend sp a anchor h p q -> forward (transp (rotn (arc (h * L) h))) q) ->
  (forall r, sees_from sp (pmul (bend_entry a anchor h) (tilted_arc (h * L) h (al_tilt a))) p r ->
     reachable (bend_exit a anchor L h) r) ->
  exit_curved sp (al_x a) (al_y a) (al_s a) (al_theta a) (al_phi a) (al_psi a)
    anchor L (h * L) h (al_tilt a) false
    (polar_drift L h
      (entry_curved sp (al_x a) (al_y a) (al_s a) (al_theta a) (al_phi a) (al_psi a)
         anchor L (h * L) h (al_tilt a) false p))
  = S_ROTATE sp (- al_tilt a) (polar_drift L h (S_ROTATE sp (al_tilt a) p)).
Proof. exact Bends.bend_no_field. Qed.
Print Assumptions C41_bend_no_field.

(** A misaligned bend is undone by backtracking. *)
Theorem C41_bend_backtrack : forall sp a offset L h body p, L <> 0 -> h <> 0 ->
  enterable_bend a (al_anchor a - offset) h p ->
  (forall q, enters_bend sp a (al_anchor a - offset) h p q ->
     leavable_bend sp a (al_anchor a - offset) L h (body false q) /\ body true (body false q) = q) ->
  track_aligned_curved sp a offset L (h * L) h true body
    (track_aligned_curved sp a offset L (h * L) h false body p) = p.
Proof. exact Bends.curved_back. Qed.
Print Assumptions C41_bend_backtrack.

(** The transformations between the slices of a misaligned bend cancel. *)
Theorem C41_bend_slices : forall sp a h pieces p, pieces <> [] -> h <> 0 ->
  Forall (fun x => 0 < fst x) pieces ->
  enterable_bend a (al_anchor a) h p ->
  (forall q, enters_bend sp a (al_anchor a) h p q -> bend_joints sp a h 0 pieces q) ->
  track_bend_pieces sp a h 0 pieces p
  = track_aligned_curved sp a 0 (total_length pieces) (h * total_length pieces) h false
      (fun _ => bodies pieces) p.
Proof. exact Bends.curved_pieces. Qed.
Print Assumptions C41_bend_slices.

Example C41_bend_case : enterable_bend BendCases.al2 0 1 MapsCases.p1
  /\ rot_shift_active BendCases.al2 = true.
Proof. exact (conj BendCases.al2_enterable BendCases.al2_active). Qed.
