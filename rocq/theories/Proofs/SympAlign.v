From Coq Require Import Reals ZArith List Bool Lra Psatz.
From Verif.Model Require Import Maps Curved Magnet.
From Verif.Spec Require Import Frames Aligned Symplectic.
From Verif.Proofs Require Import Frames FrameMaps Misalign Aligned.
From Verif.Proofs Require Import Symplectic SympBody.
Import ListNotations.
Local Open Scope R_scope.

Lemma symp_S sp a p : symplectic (S_ROTATE sp a) p.
Proof. unfold S_ROTATE. destruct (is0 a); [apply symp_id|]. apply symp_srot. apply sc1. Qed.
Lemma symp_Y sp a p : physical p -> cos a <> 0 -> forward (Rot_y (sin a) (cos a)) p -> symplectic (Y_ROTATE sp a) p.
Proof.
  intros Hp C F. unfold Y_ROTATE. destruct (is0 a); [apply symp_id|].
  apply symp_yrot; auto; [apply sc1|]. unfold forward in F. revert F. vunf. intros F. lra.
Qed.
Lemma symp_X sp a p : physical p -> cos a <> 0 -> forward (Rot_x (- sin a) (cos a)) p -> symplectic (X_ROTATE sp a) p.
Proof.
  intros Hp C F. unfold X_ROTATE. destruct (is0 a); [apply symp_id|].
  apply symp_xrot; auto.
  - pose proof (sc1 a). nra.
  - unfold tan. field. exact C.
  - unfold forward in F. revert F. vunf. intros F. lra.
Qed.
Lemma symp_SS a p : physical p -> symplectic (S_SHIFT a) p.
Proof.
  intros Hp. unfold S_SHIFT. destruct (is0 a); [apply symp_id|].
  apply (symp_comp (fun q => add_zeta (- a) (drift_exact a q)) (add_s (- a))); [|apply symp_s].
  apply (symp_comp (drift_exact a) (add_zeta (- a))); [now apply symp_drift_exact|apply symp_zeta].
Qed.

Lemma symp_to sp mx my ms th ph ps pf p : physical p -> can_enter th ph p ->
  symplectic (to_misaligned sp mx my ms th ph ps pf) p.
Proof.
  intros Hp (C1 & C2 & F1 & F2).
  destruct (xyshift_sees' sp mx my p Hp) as [H1 P1].
  destruct (S_SHIFT_sees' sp ms _ P1) as [H2 P2].
  pose proof (sees_trans _ _ _ _ _ _ _ _ H1 H2) as H12. vsimp.
  assert (G1 : forward (Rot_y (sin th) (cos th)) (S_SHIFT ms (xyshift mx my p))).
  { apply (sees_forward _ _ _ _ _ _ H12). vsimp. exact F1. }
  destruct (Y_ROTATE_sees sp th _ P2 C1 G1) as [H3 P3].
  pose proof (sees_trans _ _ _ _ _ _ _ _ H12 H3) as H13. vsimp.
  assert (G2 : forward (Rot_x (- sin ph) (cos ph)) (Y_ROTATE sp th (S_SHIFT ms (xyshift mx my p)))).
  { apply (sees_forward _ _ _ _ _ _ H13). vsimp. exact F2. }
  pose proof (symp_xyshift mx my p) as S1.
  pose proof (symp_comp _ _ p S1 (symp_SS ms _ P1)) as S2. cbv beta in S2.
  pose proof (symp_comp _ _ p S2 (symp_Y sp th _ P2 C1 G1)) as S3. cbv beta in S3.
  pose proof (symp_comp _ _ p S3 (symp_X sp ph _ P3 C2 G2)) as S4. cbv beta in S4.
  pose proof (symp_comp _ _ p S4 (symp_S sp ps _)) as S5. cbv beta in S5.
  exact (symp_comp _ _ p S5 (symp_S sp pf _)).
Qed.

(** A rotation about s, then the frame is left *)
Lemma symp_from sp mx my ms th ph ps pf p : physical p -> can_leave th ph ps pf p ->
  symplectic (from_misaligned sp mx my ms (- th) (- ph) (- ps) (- pf)) p.
Proof.
  intros Hp (C1 & C2 & F1 & F2). rewrite attitude_transp in F2.
  destruct (S_ROTATE_sees sp (- pf) p Hp) as [H1 P1].
  destruct (S_ROTATE_sees sp (- ps) _ P1) as [H2 P2].
  pose proof (sees_trans _ _ _ _ _ _ _ _ H1 H2) as H12. vsimp.
  assert (C2' : cos (- ph) <> 0) by now rewrite cos_neg.
  assert (C1' : cos (- th) <> 0) by now rewrite cos_neg.
  assert (G1 : forward (Rot_x (- sin (- ph)) (cos (- ph))) (S_ROTATE sp (- ps) (S_ROTATE sp (- pf) p))).
  { apply (sees_forward _ _ _ _ _ _ H12). rewrite !sin_neg, !cos_neg, Ropp_involutive. exact F1. }
  destruct (X_ROTATE_sees sp (- ph) _ P2 C2' G1) as [H3 P3].
  pose proof (sees_trans _ _ _ _ _ _ _ _ H12 H3) as H13. vsimp.
  assert (G2 : forward (Rot_y (sin (- th)) (cos (- th)))
    (X_ROTATE sp (- ph) (S_ROTATE sp (- ps) (S_ROTATE sp (- pf) p)))).
  { apply (sees_forward _ _ _ _ _ _ H13). vsimp. exact F2. }
  destruct (Y_ROTATE_sees sp (- th) _ P3 C1' G2) as [H4 P4].
  pose proof (symp_S sp (- pf) p) as S1.
  pose proof (symp_comp _ _ p S1 (symp_S sp (- ps) _)) as S2. cbv beta in S2.
  pose proof (symp_comp _ _ p S2 (symp_X sp (- ph) _ P2 C2' G1)) as S3. cbv beta in S3.
  pose proof (symp_comp _ _ p S3 (symp_Y sp (- th) _ P3 C1' G2)) as S4. cbv beta in S4.
  pose proof (symp_comp _ _ p S4 (symp_SS ms _ P4)) as S5. cbv beta in S5.
  exact (symp_comp _ _ p S5 (symp_xyshift mx my _)).
Qed.

Lemma symp_entry sp a an p : enterable a p ->
  symplectic (entry_straight sp (al_x a) (al_y a) (al_s a) (al_theta a) (al_phi a) (al_psi a) an (al_tilt a) false) p.
Proof. intros [Hp Hc]. unfold entry_straight. now apply symp_to. Qed.
Lemma symp_exit sp a an len p : leavable a p ->
  symplectic (exit_straight sp (al_x a) (al_y a) (al_s a) (al_theta a) (al_phi a) (al_psi a) an len (al_tilt a) false) p.
Proof. intros [Hp Hc]. unfold exit_straight. now apply symp_from. Qed.

(** A misaligned element is symplectic where its body is. *)
Lemma symp_aligned sp a off len body p : enterable a p ->
  (forall q, enters sp a (al_anchor a - off) p q -> leavable a (body false q) /\ symplectic (body false) q) ->
  symplectic (track_aligned sp a off len false body) p.
Proof.
  intros He Hb. destruct (entry_sees sp a (al_anchor a - off) p He) as [Hs _].
  destruct (Hb _ Hs) as [L2 B2]. unfold track_aligned.
  destruct (rot_shift_active a) eqn:E.
  - pose proof (symp_comp _ _ p (symp_entry sp a (al_anchor a - off) p He) B2) as S1. cbv beta in S1.
    exact (symp_comp _ _ p S1 (symp_exit sp a (al_anchor a - off) len _ L2)).
  - rewrite inactive_id in B2 by exact E. exact B2.
Qed.

(** The Rotation element *)
Lemma symp_about sp rx ry rs a p : physical p -> cos rx <> 0 -> cos ry <> 0 -> forward (turn rx ry rs a) p ->
  symplectic (fun q => rotate_about sp rx ry rs q a) p.
Proof.
  intros Hp Cx Cy F. destruct a; cbn [turn rotate_about] in *.
  - destruct (is0 rx); [apply symp_id|]. apply symp_xrot; auto; [apply sc1|].
    unfold forward in F. revert F. vunf. intros F. lra.
  - destruct (is0 ry); [apply symp_id|]. apply symp_yrot; auto; [apply sc1|].
    unfold forward in F. revert F. vunf. intros F. lra.
  - destruct (is0 rs); [apply symp_id|]. apply symp_srot. apply sc1.
Qed.
Lemma symp_rotations sp rx ry rs l : cos rx <> 0 -> cos ry <> 0 -> forall p, physical p ->
  forward_all rx ry rs l ident p -> symplectic (fun q => fold_left (rotate_about sp rx ry rs) l q) p.
Proof.
  intros Cx Cy. induction l as [|a l IH]; intros p Hp Hf; [apply symp_id|].
  destruct Hf as [Hf Hl]. rewrite mmul_id_r in Hf, Hl.
  pose proof (rotate_about_sees sp rx ry rs p a Hp Cx Cy Hf) as H1.
  pose proof (sees_physical _ _ _ _ _ H1 Hf Hp) as Hq.
  refine (symp_comp _ _ p (symp_about sp rx ry rs a p Hp Cx Cy Hf) (IH _ Hq _)).
  apply (forward_all_sees _ _ _ _ _ _ _ _ _ _ H1). rewrite mmul_id_l. exact Hl.
Qed.
Lemma symp_rotation sp (b : bool) rx ry rs a1 a2 a3 p : physical p -> cos rx <> 0 -> cos ry <> 0 ->
  (if b then forward_all (- rx) (- ry) (- rs) [a3; a2; a1] ident p
   else forward_all rx ry rs [a1; a2; a3] ident p) ->
  symplectic (Rotation_track sp b rx ry rs a1 a2 a3) p.
Proof.
  intros Hp Cx Cy F. unfold Rotation_track. destruct b; apply symp_rotations; auto; now rewrite cos_neg.
Qed.

(** * Misaligned bends *)
From Verif.Spec Require Import Poses.
From Verif.Proofs Require Curved Bends.
Lemma symp_bend_aligned sp a off L h body p : L <> 0 -> h <> 0 -> rot_shift_active a = true ->
  enterable_bend a (al_anchor a - off) h p ->
  (forall q, enters_bend sp a (al_anchor a - off) h p q -> physical q ->
     leavable_bend sp a (al_anchor a - off) L h (body false q) /\ symplectic (body false) q) ->
  symplectic (track_aligned_curved sp a off L (h * L) h false body) p.
Proof.
  intros HL Hh Ha He Hb. unfold track_aligned_curved. rewrite Ha. set (an := al_anchor a - off) in *.
  destruct (Bends.bend_entry_from sp a an L h HL Hh p He) as [H1 P1].
  destruct (Hb _ H1 P1) as [[P2 L2] B]. destruct He as [Hp Hr].
  pose proof (Bends.hL L h HL Hh) as HB. pose proof (Bends.hLL L h HL) as EL.
  assert (SE : symplectic (entry_curved sp (al_x a) (al_y a) (al_s a) (al_theta a) (al_phi a) (al_psi a) an L
    (h * L) h (al_tilt a) false) p).
  { unfold entry_curved. rewrite (Curved.bend_test _ _ _ HB). cbv zeta. apply symp_to; [exact Hp|].
    apply Curved.can_enter_pose; rewrite (Curved.entry_matrix _ _ _ _ _ _ _ _ _ _ _ HB); unfold Curved.entry_pose;
      rewrite EL; [|exact Hr]. apply Curved.rigid_entry; [apply Curved.rigid_tarc|apply Curved.rigid_mis]. }
  pose proof (symp_comp _ _ p SE B) as S1. cbv beta in S1.
  set (q := body false _) in *.
  refine (symp_comp _ _ p S1 _). fold q.
  destruct (Curved.tilt_from sp (- al_tilt a) q P2) as [T1 T2]. specialize (L2 _ T1).
  unfold exit_curved. rewrite (Curved.bend_test _ _ _ HB). cbv zeta.
  set (m := realign _ _ _ _ _ _ _ _ _ _ _).
  assert (E : Curved.pose_of m = bend_exit a an L h).
  { unfold m. rewrite (Curved.exit_matrix _ _ _ _ _ _ _ _ _ _ _ HB). unfold Curved.exit_pose. now rewrite EL. }
  assert (Hc : can_enter (rot_theta m) (rot_phi m) (S_ROTATE sp (- al_tilt a) q)).
  { apply Curved.can_enter_pose; rewrite E; [|exact L2].
    apply Curved.rigid_entry; [apply Curved.rigid_tarc|apply Curved.rigid_inv, Curved.rigid_mis]. }
  pose proof (symp_to sp (m03 m) (m13 m) (m23 m) (rot_theta m) (rot_phi m) (rot_psi m) 0 _ T2 Hc) as S2.
  refine (symp_ext _ _ q _ (symp_comp _ _ q (symp_S sp (- al_tilt a) q) S2)).
  intros r. cbv beta. unfold to_misaligned. unfold S_ROTATE at 1. unfold is0 at 1.
  destruct (Req_EM_T 0 0) as [_|n]; [reflexivity|now elim n].
Qed.

(** * Drifts and shifts as elements *)
Lemma symp_run_drift ex m L p : kinematic p -> (ex = true \/ m = 2%Z -> 0 < pz2 p) -> symplectic (run_drift ex m L) p.
Proof.
  intros K H. unfold run_drift. destruct ex; cbn [Z.eqb Pos.eqb].
  - apply symp_drift_exact. split; auto.
  - destruct (Z.eqb_spec m 0); [now apply symp_drift_expanded|].
    destruct (Z.eqb_spec m 1); [now apply symp_drift_expanded|].
    destruct (Z.eqb_spec m 2); [apply symp_drift_exact; split; auto|apply symp_id].
Qed.
Lemma symp_Drift ex b m L p : kinematic p -> (ex = true \/ m = 2%Z -> 0 < pz2 p) -> symplectic (Drift_track ex b m L) p.
Proof. intros. now apply symp_run_drift. Qed.
Lemma symp_DriftSlice ex b m L w p : kinematic p -> (ex = true \/ m = 2%Z -> 0 < pz2 p) ->
  symplectic (DriftSlice_track ex b m L w) p.
Proof. intros. now apply symp_run_drift. Qed.
Lemma symp_shifts b dx dy dz p : symplectic (XYShift_track b dx dy) p /\ symplectic (Translation_track b dx dy) p /\
  symplectic (ZetaShift_track b dz) p.
Proof. refine (conj _ (conj _ _)); [apply symp_xyshift|apply symp_xyshift|apply symp_zeta]. Qed.
