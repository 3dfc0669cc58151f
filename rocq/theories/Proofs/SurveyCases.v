From Coq Require Import Reals ZArith Lra Lia List Bool.
From Verif.Model Require Import Maps Curved Survey.
From Verif.Spec Require Import Frames Poses Survey.
From Verif.Proofs Require Import Frames FrameMaps Misalign Curved Survey SurveyTrack SurveySlices MapsCases.
Import ListNotations.
Local Open Scope R_scope.

(** a quarter of a circle, then a rotation *)
Definition els1 : list selem := [Other 2 (PI / 2) 0; XRot (3 / 5) (4 / 5); Shift 1 2].
Lemma els1_case : exists fs f,
  get_survey els1 0 0 0 0 0 0 0 false = Some fs /\ nth_error fs 2 = Some f
  /\ w11 (f_w f) = 4 / 5 /\ w22 (f_w f) = 0.
Proof.
  destruct (survey_total els1 0 0 0 0 0 0 0) as (fs & H & Hl).
  destruct (nth_error fs 2) as [f|] eqn:E.
  2:{ apply nth_error_None in E. rewrite Hl in E. cbn in E. lia. }
  exists fs, f. split; [exact H|]. split; [exact E|].
  pose proof (survey_end _ _ _ _ _ _ _ _ _ _ H E) as P.
  assert (is0 (PI / 2) = false) as Z.
  { unfold is0. destruct (Req_EM_T (PI / 2) 0); [|reflexivity]. pose proof PI_RGT_0. lra. }
  destruct (atan2_unit (3 / 5) (4 / 5)) as [S C]; [lra|].
  assert (P1 := f_equal (fun A => v_y (m_y (rotn A))) P).
  assert (P2 := f_equal (fun A => v_z (m_z (rotn A))) P). clear P.
  unfold els1, end_of in P1, P2. cbn [firstn fold_left exit_of] in P1, P2. rewrite Z, bend_end_0, S, C in P1, P2.
  unfold get_E_from_angles in P1, P2. rewrite !sin_0, !cos_0, sin_PI2, cos_PI2 in P1, P2.
  revert P1 P2. scbv. intros -> ->. split; lra.
Qed.

(** drifts, rotations and shifts *)
Definition free1 : list free_elem :=
  [FYRot (5 / 13) (12 / 13); FDrift 2; FShift 1 2; FSRot (3 / 5) (4 / 5)].
Lemma free1_ok : line_ok true free1 p1.
Proof.
  cbn [line_ok free1 free_ok]. repeat split; try lra. exact p1_forward_y.
Qed.

(** a straight bend without angle whose faces are turned *)
Definition faces : rbend := mkRBend 1 0 PI 0 false true 0.
Lemma faces_differ : end_of (rbend_slices faces [BThick 1]) <> exit_of (whole_rbend faces).
Proof.
  unfold rbend_slices. rewrite end_cons, end_app, end_one, straight_body_end by reflexivity.
  assert (P10 : 0 < / 10 ^ 10) by (apply Rinv_0_lt_compat, pow_lt; lra).
  assert (B : bends faces = false).
  { unfold bends. cbn [faces rb_angle]. rewrite Rabs_R0. destruct (Rlt_dec (/ 10 ^ 10) 0); [lra|reflexivity]. }
  assert (Hh : rb_h faces = 0).
  { unfold rb_h. cbn [faces rb_angle]. rewrite Rabs_R0. destruct (Rlt_dec 0 (/ 10 ^ 10)); [reflexivity|lra]. }
  assert (Hl : rb_length faces = 1).
  { unfold rb_length. cbn [faces rb_angle]. rewrite Rabs_R0. destruct (Rlt_dec 0 (/ 10 ^ 10)); [reflexivity|lra]. }
  cbn [exit_of whole_rbend]. rewrite B, Hh, Hl, Rmult_0_l, plain_0.
  cbn [faces rb_straight_body rb_tilt rb_length_straight body_total fold_right body_weight].
  unfold rb_angle_in, rb_angle_out. cbn [faces rb_angle rb_angle_diff].
  rewrite !bend_end_0. intros E. apply (f_equal (fun A => v_x (orig A))) in E.
  replace (/ 2 * 0 - PI / 2) with (- (PI / 2)) in E by ring.
  replace (/ 2 * 0 + PI / 2) with (PI / 2) in E by ring.
  rewrite sin_neg, cos_neg, sin_PI2, cos_PI2 in E. revert E. unfold Rdiv. rewrite !Rmult_0_l. scbv. lra.
Qed.
Lemma sliceable1 : sliceable (mkRBend 2 (PI / 3) 0 (1 / 10) true true (PI / 4)).
Proof.
  right. cbn [rb_angle rb_length_straight]. unfold rb_angle_in, rb_angle_out. cbn [rb_angle rb_angle_diff].
  assert (P : / 10 ^ 10 < 1).
  { rewrite <- Rinv_1. apply Rinv_lt_contravar; [rewrite Rmult_1_l; apply pow_lt; lra|].
    apply Rlt_pow_R1; [lra|lia]. }
  pose proof PI_RGT_0. pose proof PI2_1. split; [|split].
  - assert (H1 : / 10 ^ 10 <= / 10).
    { replace (10 ^ 10) with (10 * 10 ^ 9) by ring. rewrite Rinv_mult.
      assert (/ 10 ^ 9 <= 1).
      { rewrite <- Rinv_1. apply Rinv_le_contravar; [lra|]. apply pow_R1_Rle. lra. }
      pose proof (Rinv_0_lt_compat (10 ^ 9)). assert (0 < 10 ^ 9) by (apply pow_lt; lra). nra. }
    rewrite Rabs_right by lra. lra.
  - rewrite Rabs_right by lra. lra.
  - replace (/ 2 * (PI / 3) - 0 / 2) with (PI / 6) by field.
    replace (/ 2 * (PI / 3) + 0 / 2) with (PI / 6) by field. rewrite sin_PI6. lra.
Qed.
Lemma els1_reversible : Forall reversible els1.
Proof. repeat constructor. cbn. lra. Qed.
