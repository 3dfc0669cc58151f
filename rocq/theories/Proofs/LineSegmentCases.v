From Coq Require Import Reals List Arith Lra Lia Bool.
From Verif.Model Require Import LineSegment.
From Verif.Spec Require Import LineSegment.
From Verif.Proofs Require Import LineSegment.
Import ListNotations.
Local Open Scope R_scope.

Definition unit_optics : optics := mkOptics 1 0 1 0 0 0 0 0 0 0 0 0.
Lemma unit_positive : positive unit_optics.
Proof. split; cbn; lra. Qed.

Lemma cos_half : forall a, a = PI -> cos a = -1 /\ sin a = 0.
Proof. intros a ->. split; [apply cos_PI | apply sin_PI]. Qed.
Lemma is0_0 : is0 0 = true.
Proof. apply is0_true. reflexivity. Qed.
Lemma is0_1 : is0 1 = false.
Proof. apply is0_false. lra. Qed.

(** Tunes of zero and a chromaticity of one: nothing turns *)
Lemma flat :
  make 0 None 0 1 0 None 0 0 0 0 0 0 0 unit_optics unit_optics frozen =
  Some (mkSegment 0 0 0 [0 / INR (fact 0); 1 / INR (fact 1)] [0 / INR (fact 0)] 0 0 0 0 unit_optics unit_optics frozen).
Proof. unfold make, derivatives. rewrite is0_0, is0_1. reflexivity. Qed.
Lemma flat_chroma : exists delta_of g p,
  make 0 None 0 1 0 None 0 0 0 0 0 0 0 unit_optics unit_optics frozen = Some g /\
  normal_x unit_optics (delta delta_of (track delta_of g p)) (track delta_of g p) <>
  turn (2 * PI * taylor 0 (given None 0 1 0) (delta delta_of p)) (normal_x unit_optics (delta delta_of p) p).
Proof.
  exists (fun _ => 1 / 2).
  set (g := mkSegment 0 0 0 [0 / INR (fact 0); 1 / INR (fact 1)] [0 / INR (fact 0)] 0 0 0 0 unit_optics unit_optics frozen).
  exists g, (mkParticle 1 0 0 0 0 0 0). split; [exact flat|].
  assert (N : forall p, track (fun _ => 1 / 2) g p = track (fun _ => 1 / 2) (mkSegment 0 0 0 [0] [0] 0 0 0 0 unit_optics unit_optics frozen) p).
  { intros p. unfold track, transverse, phase_x, phase_y.
    assert (D : detuning g = false /\ detuning (mkSegment 0 0 0 [0] [0] 0 0 0 0 unit_optics unit_optics frozen) = false).
    { unfold detuning. cbn [g_coeffs_dqx g_coeffs_dqy g_det_xx g_det_xy g_det_yx g_det_yy any_chroma g].
      replace (0 / INR (fact 0)) with 0 by (cbn; field). rewrite !is0_0. split; reflexivity. }
    destruct D as [-> ->]. reflexivity. }
  rewrite N. clear N.
  destruct (rotation (fun _ => 1 / 2) (mkSegment 0 0 0 [0] [0] 0 0 0 0 unit_optics unit_optics frozen) (mkParticle 1 0 0 0 0 0 0)) as [X _];
    [right; split; constructor | exact unit_positive | exact unit_positive |].
  cbn [g_end g_start] in X. rewrite X. clear X.
  unfold angle_x. cbn [g_qx g_det_xx g_det_xy g_coeffs_dqx tl poly given taylor fact INR pow].
  unfold normal_x, normal, turn, delta. cbn [x px fst snd o_betx o_alfx o_x o_px o_dx o_dpx unit_optics Nat.add Nat.mul].
  match goal with |- (cos ?a * _ + _, _) <> (cos ?b * _ + _, _) => replace a with 0 by ring; destruct (cos_half b) as [-> ->] end.
  - cbn. field.
  - rewrite cos_0, sin_0, sqrt_1. intros H. apply (f_equal fst) in H. cbn [fst] in H. lra.
Qed.

(** A second derivative without a first: the second is taken for the first *)
Lemma second : exists delta_of g p,
  make 0 None 1 0 1 None 1 0 0 0 0 0 0 unit_optics unit_optics frozen = Some g /\
  normal_x unit_optics (delta delta_of (track delta_of g p)) (track delta_of g p) <>
  turn (2 * PI * taylor 0 (given None 1 0 1) (delta delta_of p)) (normal_x unit_optics (delta delta_of p) p).
Proof.
  exists (fun _ => 1).
  set (g := mkSegment 0 1 1 [1 / INR (fact 0); 1 / INR (fact 1)] [1 / INR (fact 0)] 0 0 0 0 unit_optics unit_optics frozen).
  exists g, (mkParticle 1 0 0 0 0 0 0). split.
  - unfold make, derivatives. rewrite is0_0, is0_1. reflexivity.
  - destruct (rotation (fun _ => 1) g (mkParticle 1 0 0 0 0 0 0)) as [X _];
      [left; left; cbn; lra | exact unit_positive | exact unit_positive |].
    cbn [g_end g_start g] in X. rewrite X. clear X.
    unfold angle_x. cbn [g_qx g_det_xx g_det_xy g_coeffs_dqx tl poly given taylor g].
    unfold normal_x, normal, turn, delta. cbn [x px fst snd o_betx o_alfx o_x o_px o_dx o_dpx unit_optics pzeta].
    match goal with |- (cos ?a * _ + _, _) <> (cos ?b * _ + _, _) =>
      replace a with (0 + 2 * INR 2 * PI) by (cbn; field); replace b with (PI + 2 * INR 1 * PI) by (cbn; field) end.
    rewrite !cos_period, !sin_period, cos_0, sin_0, cos_PI, sin_PI, sqrt_1.
    intros H. apply (f_equal fst) in H. cbn [fst] in H. lra.
Qed.

(** A segment with tunes, chromaticity and detuning *)
Definition ring : segment :=
  mkSegment 100 (62 / 100) (64 / 100) [62 / 100; 5] [64 / 100; 3] 10 20 20 10 unit_optics unit_optics frozen.
Lemma ring_regular : regular ring.
Proof. left. left. cbn. lra. Qed.
Lemma ring_case : forall p, Nat.iter 3 (track (fun w => w) ring) p = track (fun w => w) (times 3 ring) p.
Proof.
  intros p. apply turns; try reflexivity; try exact unit_positive; try exact ring_regular.
  - split; discriminate.
  - left. split; reflexivity.
Qed.
