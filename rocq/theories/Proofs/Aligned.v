From Coq Require Import Reals ZArith Lra List Bool.
From Verif.Model Require Import Maps.
From Verif.Spec Require Import Frames Aligned.
From Verif.Proofs Require Import Frames FrameMaps Misalign.
Import ListNotations.
Local Open Scope R_scope.

Lemma attitude_z th ph ps pf :
  app (transp (attitude th ph ps pf)) (V3 0 0 1) = V3 (cos ph * sin th) (sin ph) (cos ph * cos th).
Proof. unfold attitude. apply vec_eq; mcbv; ring. Qed.

Lemma entry_origin_eq a an :
  entry_origin a an =
  V3 (al_x a - an * cos (al_phi a) * sin (al_theta a)) (al_y a - an * sin (al_phi a))
     (al_s a - an * (cos (al_phi a) * cos (al_theta a) - 1)).
Proof.
  unfold entry_origin.
  replace (app _ (V3 0 0 an)) with
    (vscale an (app (transp (attitude (al_theta a) (al_phi a) (al_psi a) (al_tilt a))) (V3 0 0 1))).
  2:{ rewrite <- app_scale. f_equal. apply vec_eq; mcbv; cbv [vscale v_x v_y v_z]; ring. }
  rewrite attitude_z. apply vec_eq; cbv [vsub vadd vscale v_x v_y v_z]; ring.
Qed.

Lemma entry_sees sp a an p : enterable a p ->
  let q := entry_straight sp (al_x a) (al_y a) (al_s a) (al_theta a) (al_phi a) (al_psi a) an (al_tilt a) false p in
  enters sp a an p q /\ leavable a q.
Proof.
  intros [Hp Hc] q. unfold enters. rewrite entry_origin_eq.
  destruct (to_misaligned_sees sp (al_x a - an * cos (al_phi a) * sin (al_theta a))
    (al_y a - an * sin (al_phi a)) (al_s a - an * (cos (al_phi a) * cos (al_theta a) - 1))
    (al_theta a) (al_phi a) (al_psi a) (al_tilt a) p Hp Hc) as [H1 H2].
  split; [exact H1|split; [exact H2|]]. exact (enter_leave _ _ _ _ _ _ _ _ Hp Hc H1).
Qed.

Lemma inactive_id sp a an p : rot_shift_active a = false ->
  entry_straight sp (al_x a) (al_y a) (al_s a) (al_theta a) (al_phi a) (al_psi a) an (al_tilt a) false p = p.
Proof.
  unfold rot_shift_active. rewrite !orb_false_iff, !negb_false_iff.
  intros ((((((H1 & H2) & H3) & H4) & H5) & H6) & H7).
  apply is0_true in H1, H2, H3, H4, H5, H6, H7. rewrite H1, H2, H3, H4, H5, H6, H7.
  unfold entry_straight, to_misaligned, S_ROTATE, X_ROTATE, Y_ROTATE, S_SHIFT.
  rewrite sin_0, cos_0. unfold is0.
  destruct (Req_EM_T 0 0) as [_|n]; [|now elim n].
  destruct (Req_EM_T (0 - an * (1 * 1 - 1)) 0) as [_|n]; [|elim n; ring].
  unfold xyshift, add_y, add_x, set_y, set_x. pcbn. etransitivity; [|apply part_eta]. f_equal; ring.
Qed.

Lemma aligned_back sp a off len body p : enterable a p ->
  (forall q, enters sp a (al_anchor a - off) p q ->
     leavable a (body false q) /\ body true (body false q) = q) ->
  track_aligned sp a off len true body (track_aligned sp a off len false body p) = p.
Proof.
  intros He Hb. destruct (entry_sees sp a (al_anchor a - off) p He) as [Hs _].
  destruct (Hb _ Hs) as [[P2 L2] B2]. unfold track_aligned.
  destruct (rot_shift_active a) eqn:E.
  - rewrite exit_back by assumption. rewrite B2. destruct He. now apply entry_back.
  - rewrite inactive_id in B2 by exact E. exact B2.
Qed.

Lemma aligned_drift sp a off L p : enterable a p ->
  track_aligned sp a off L false (fun b => Drift_track true b 0 L) p = Drift_track true false 0 L p.
Proof.
  intros [Hp Hc]. unfold track_aligned. destruct (rot_shift_active a); [|reflexivity].
  unfold Drift_track, run_drift. cbn [Z.eqb]. now apply misaligned_drift.
Qed.

Lemma pieces_inactive sp a off pieces p : rot_shift_active a = false ->
  track_pieces sp a off pieces p = bodies pieces p.
Proof.
  intros E. revert off p; induction pieces as [|[l b] t IH]; intros off p; cbn; [reflexivity|].
  rewrite IH. unfold track_aligned. now rewrite E.
Qed.

Lemma exit_len sp dx dy ds th ph ps an L an' L' pf b p : an - L = an' - L' ->
  exit_straight sp dx dy ds th ph ps an L pf b p = exit_straight sp dx dy ds th ph ps an' L' pf b p.
Proof. intros H. unfold exit_straight. now rewrite H. Qed.

Lemma pieces_active sp a pieces : rot_shift_active a = true -> forall off l0 (b0 : bool -> part -> part) p0,
  let q := b0 false p0 in leavable a q -> leavable_after a pieces q ->
  track_pieces sp a (off + l0) pieces
    (exit_straight sp (al_x a) (al_y a) (al_s a) (al_theta a) (al_phi a) (al_psi a)
       (al_anchor a - off) l0 (al_tilt a) false (b0 false p0))
  = exit_straight sp (al_x a) (al_y a) (al_s a) (al_theta a) (al_phi a) (al_psi a)
       (al_anchor a - off) (l0 + total_length pieces) (al_tilt a) false (bodies pieces (b0 false p0)).
Proof.
  intros E. induction pieces as [|[l b] t IH]; intros off l0 b0 p0 q [P L] Ha.
  - cbn. now rewrite Rplus_0_r.
  - cbn [track_pieces bodies total_length]. destruct Ha as [Ha1 Ha2]. fold q.
    unfold track_aligned at 1. rewrite E.
    replace (al_anchor a - (off + l0)) with (al_anchor a - off - l0) by ring.
    rewrite slices_join by assumption.
    replace (al_anchor a - off - l0) with (al_anchor a - (off + l0)) by ring.
    rewrite (IH (off + l0) l b q); [|exact Ha1|exact Ha2].
    apply exit_len. ring.
Qed.

Lemma aligned_pieces sp a pieces p : pieces <> [] -> enterable a p ->
  (forall q, enters sp a (al_anchor a) p q -> leavable_after a pieces q) ->
  track_pieces sp a 0 pieces p
  = track_aligned sp a 0 (total_length pieces) false (fun _ => bodies pieces) p.
Proof.
  intros Hn He Hb. destruct (entry_sees sp a (al_anchor a) p He) as [Hs _].
  specialize (Hb _ Hs). unfold track_aligned at 1. destruct (rot_shift_active a) eqn:E.
  - destruct pieces as [|[l b] t]; [congruence|]. cbn [track_pieces bodies total_length].
    unfold track_aligned. rewrite E. rewrite !Rminus_0_r.
    destruct Hb as [H1 H2].
    pose proof (pieces_active sp a t E 0 l b _ H1 H2) as H. rewrite Rminus_0_r in H. exact H.
  - rewrite pieces_inactive by exact E. reflexivity.
Qed.
