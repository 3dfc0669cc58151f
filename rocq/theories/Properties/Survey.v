(** C44, C58, C59, C60: the survey. *)
From Coq Require Import Reals ZArith List Bool.
From Verif.Model Require Import Maps Curved Survey.
From Verif.Spec Require Import Frames Poses Survey.
From Verif.Proofs Require Survey SurveyTrack SurveySlices SurveyCases MapsCases.
Import ListNotations.
Local Open Scope R_scope.

(** * C44. Every survey succeeds and has one frame per element and one at the end. *)
Theorem C44_total : forall els X0 Y0 Z0 theta0 phi0 psi0 element0, exists frames,
  get_survey els X0 Y0 Z0 theta0 phi0 psi0 element0 false = Some frames
  /\ length frames = S (length els).
Proof. exact Survey.survey_total. Qed.
Print Assumptions C44_total.

(** All frames are orthonormal and right-handed. *)
Theorem C44_orthonormal : forall els X0 Y0 Z0 theta0 phi0 psi0 element0 frames,
  get_survey els X0 Y0 Z0 theta0 phi0 psi0 element0 false = Some frames -> Forall orthonormal frames.
Proof. exact Survey.survey_orthonormal. Qed.
Print Assumptions C44_orthonormal.

(** The frame at the starting element is the given one. *)
Theorem C44_start : forall els X0 Y0 Z0 theta0 phi0 psi0 element0 frames, (element0 <= length els)%nat ->
  get_survey els X0 Y0 Z0 theta0 phi0 psi0 element0 false = Some frames ->
  nth_error frames element0 = Some (Frame (A3 X0 Y0 Z0) (get_E_from_angles theta0 phi0 psi0)).
Proof. exact Survey.survey_at. Qed.
Print Assumptions C44_start.

(** Each element moves the frame by the displacement from its entry to its exit, also upstream of the
    starting element. *)
Theorem C44_steps : forall els X0 Y0 Z0 theta0 phi0 psi0 element0 frames k e f g,
  get_survey els X0 Y0 Z0 theta0 phi0 psi0 element0 false = Some frames -> nth_error els k = Some e ->
  nth_error frames k = Some f -> nth_error frames (S k) = Some g ->
  place g = pmul (place f) (exit_of e).
Proof. exact Survey.survey_steps. Qed.
Print Assumptions C44_steps.

(** Starting from any element with the position and the angles found there by any survey reproduces
    that survey (the roll and the elevation are not right angles: w11 <> 0; the angles of the table
    are unwrapped). *)
Theorem C44_restart : forall els X0 Y0 Z0 theta0 phi0 psi0 element0 frames j f theta phi psi,
  get_survey els X0 Y0 Z0 theta0 phi0 psi0 element0 false = Some frames ->
  nth_error frames j = Some f -> w11 (f_w f) <> 0 ->
  unwrapped (get_theta (f_w f)) theta -> unwrapped (get_phi (f_w f)) phi ->
  unwrapped (get_psi (f_w f)) psi ->
  get_survey els (a0 (f_v f)) (a1 (f_v f)) (a2 (f_v f)) theta phi psi j false = Some frames.
Proof. exact Survey.survey_restart. Qed.
Print Assumptions C44_restart.

(** The relative transform between two rows of the table depends only on the elements in between. *)
Theorem C44_relative : forall els X0 Y0 Z0 theta0 phi0 psi0 frames element0 k l f g,
  get_survey els X0 Y0 Z0 theta0 phi0 psi0 element0 false = Some frames -> (k <= l)%nat ->
  nth_error frames k = Some f -> nth_error frames l = Some g ->
  place (relative_transform f g) = end_of (firstn (l - k) (skipn k els)).
Proof. exact Survey.relative_end. Qed.
Print Assumptions C44_relative.

Example C44_case : exists frames f,
  get_survey SurveyCases.els1 0 0 0 0 0 0 0 false = Some frames /\ nth_error frames 2 = Some f
  /\ w11 (f_w f) = 4 / 5 /\ w22 (f_w f) = 0.
Proof. exact SurveyCases.els1_case. Qed.

(** * C58. Without fields, a particle tracked from one end of a line to the other is the same free
    particle, seen from the frames of the survey at the two ends. *)
Theorem C58_track_survey : forall sp els p X0 Y0 Z0 theta0 phi0 psi0 element0 frames f g,
  physical p -> line_ok sp els p ->
  get_survey (map surveyed els) X0 Y0 Z0 theta0 phi0 psi0 element0 false = Some frames ->
  nth_error frames 0 = Some f -> nth_error frames (length els) = Some g ->
  sees_from sp (pmul (pinv (place f)) (place g)) p
    (add_s (- free_total els) (add_zeta (- free_total els) (tracked_line sp els p))).
Proof. exact SurveyTrack.track_survey. Qed.
Print Assumptions C58_track_survey.

Example C58_case : physical MapsCases.p1 /\ line_ok true SurveyCases.free1 MapsCases.p1.
Proof. exact (conj MapsCases.p1_physical SurveyCases.free1_ok). Qed.

(** * C59. Slicing does not move the frames outside the sliced element. *)
(** Pieces with the same end do not move the other frames. *)
Theorem C59_replaced : forall A e pieces B X0 Y0 Z0 theta0 phi0 psi0 frames frames',
  end_of pieces = exit_of e ->
  get_survey (A ++ e :: B) X0 Y0 Z0 theta0 phi0 psi0 0 false = Some frames ->
  get_survey (A ++ pieces ++ B) X0 Y0 Z0 theta0 phi0 psi0 0 false = Some frames' ->
  (forall k, (k <= length A)%nat -> nth_error frames' k = nth_error frames k)
  /\ (forall k, nth_error frames' (length A + length pieces + k) = nth_error frames (length A + 1 + k)).
Proof. exact SurveySlices.survey_replaced. Qed.
Print Assumptions C59_replaced.
(** The thick slices of a bend (or of a straight element) end where the bend ends. *)
Theorem C59_bend : forall l a f ws, fold_right Rplus 0 ws = 1 ->
  end_of (bend_slices l a f ws) = exit_of (Other l a f).
Proof. exact SurveySlices.bend_slices_whole. Qed.
Print Assumptions C59_bend.
(** So do the thick slices of an RBend with curved body. *)
Theorem C59_rbend_curved : forall b ws, sliceable b -> rb_straight_body b = false ->
  fold_right Rplus 0 ws = 1 ->
  end_of (rbend_slices b (map BThick ws)) = exit_of (whole_rbend b).
Proof. exact SurveySlices.curved_slices_whole. Qed.
Print Assumptions C59_rbend_curved.
(** And the slices of an RBend with straight body, thick or thin. *)
Theorem C59_rbend_straight : forall b body, sliceable b -> rb_straight_body b = true ->
  fold_right (fun s a => body_weight s + a) 0 body = 1 ->
  end_of (rbend_slices b body) = exit_of (whole_rbend b).
Proof. exact SurveySlices.straight_slices_whole. Qed.
Print Assumptions C59_rbend_straight.
(** Not when the angle is zero and the faces are turned. *)
Theorem C59_angle_diff_refuted : exists b body, rb_angle b = 0 /\ rb_straight_body b = true
  /\ fold_right (fun s a => body_weight s + a) 0 body = 1
  /\ end_of (rbend_slices b body) <> exit_of (whole_rbend b).
Proof.
  exact (ex_intro _ SurveyCases.faces (ex_intro _ [BThick 1]
    (conj eq_refl (conj eq_refl (conj (Rplus_0_r 1) SurveyCases.faces_differ))))).
Qed.
Print Assumptions C59_angle_diff_refuted.

Example C59_case : sliceable (mkRBend 2 (PI / 3) 0 (1 / 10) true true (PI / 4)).
Proof. exact SurveyCases.sliceable1. Qed.

(** * C60. The reversed survey. *)
(** Reversing twice gives the survey back; s is then counted from the start of the line. *)
Theorem C60_twice : forall frames, reverse_frames (reverse_frames frames) = frames.
Proof. exact SurveySlices.reverse_frames_twice. Qed.
Print Assumptions C60_twice.
Theorem C60_s_twice : forall a s, reverse_s (reverse_s (a :: s)) = map (fun b => b - a) (a :: s).
Proof. exact SurveySlices.reverse_s_twice. Qed.
Print Assumptions C60_s_twice.
(** It is the survey of the elements met when travelling in the opposite direction. *)
Theorem C60_reversed_line : forall els X0 Y0 Z0 theta0 phi0 psi0 element0 frames
    X1 Y1 Z1 theta1 phi1 psi1 last_frame,
  Forall reversible els ->
  get_survey els X0 Y0 Z0 theta0 phi0 psi0 element0 false = Some frames ->
  nth_error frames (length els) = Some last_frame ->
  reverse_frame last_frame = Frame (A3 X1 Y1 Z1) (get_E_from_angles theta1 phi1 psi1) ->
  get_survey (rev (map reversed els)) X1 Y1 Z1 theta1 phi1 psi1 0 false = Some (reverse_frames frames).
Proof. exact SurveySlices.survey_reverse. Qed.
Print Assumptions C60_reversed_line.

Example C60_case : Forall reversible SurveyCases.els1.
Proof. exact SurveyCases.els1_reversible. Qed.
