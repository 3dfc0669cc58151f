(** Precession in the field of a magnet, and cases. *)
From Coq Require Import Reals Bool Lra Lia Psatz.
From Verif.Model Require Import Maps Spin.
From Verif.Spec Require Import Spin.
From Verif.Proofs Require Import Spin.
Local Open Scope R_scope.

Lemma sqrt_is : forall x r, 0 <= r -> x = r * r -> sqrt x = r.
Proof. intros x r H ->. now apply sqrt_square. Qed.
Lemma long_scaled : forall k d, 0 < d -> k * k <= d * d -> sqrt (1 - k / d * (k / d)) = sqrt (d * d - k * k) / d.
Proof.
  intros k d D H. apply sqrt_is.
  - apply Rmult_le_pos; [apply sqrt_pos|left; now apply Rinv_0_lt_compat].
  - transitivity (sqrt (d * d - k * k) * sqrt (d * d - k * k) / (d * d)); [|field; lra]. rewrite sqrt_sqrt by lra. field; lra.
Qed.
(** Without vertical momentum and vector potential, Omega is that of Thomas, Bargmann, Michel and Telegdi. *)
Theorem omega_bmt : forall b B p, p_ax p = 0 -> p_ay p = 0 -> p_py p = 0 -> 0 < 1 + p_delta p ->
  p_px p * p_px p <= (1 + p_delta p) * (1 + p_delta p) ->
  omega b B p = bmt (b_G b) (gamma_of b p) (brho_of b p) (motion p) B.
Proof.
  intros b [[Bx By] Bz] p X Y P D H. unfold omega, motion, direction_of_motion. rewrite X, Y, P, !Rplus_0_r, !Rminus_0_r.
  replace (0 / (1 + p_delta p)) with 0 by (field; lra). rewrite !Rmult_0_l, Rplus_0_r, Rminus_0_r. rewrite long_scaled by assumption.
  generalize (sqrt ((1 + p_delta p) * (1 + p_delta p) - p_px p * p_px p) / (1 + p_delta p)) (p_px p / (1 + p_delta p)).
  intros u v. unfold separate_par_perp, bmt, scale, plus, dot. unfold Rdiv. f_equal; [f_equal|]; ring.
Qed.
Theorem perp_field : forall p B, p_ax p = 0 -> p_ay p = 0 -> p_py p = 0 -> 0 < 1 + p_delta p ->
  p_px p * p_px p <= (1 + p_delta p) * (1 + p_delta p) ->
  dot (motion p) (motion p) = 1 /\
  b_perp_mod (p_px p) (p_py p) (p_delta p) B = norm (plus B (scale (- dot B (motion p)) (motion p))).
Proof.
  intros p [[Bx By] Bz] X Y P D H. unfold motion, b_perp_mod, direction_of_motion. rewrite X, Y, P, !Rminus_0_r.
  replace (0 / (1 + p_delta p)) with 0 by (field; lra). rewrite !Rmult_0_l, Rplus_0_r, Rminus_0_r. rewrite long_scaled by assumption.
  set (d := 1 + p_delta p) in *. set (k := p_px p) in *. split.
  - unfold dot. transitivity ((k * k + sqrt (d * d - k * k) * sqrt (d * d - k * k)) / (d * d)); [field; lra|].
    rewrite sqrt_sqrt by lra. field; lra.
  - generalize (sqrt (d * d - k * k) / d) (k / d). intros u v.
    unfold separate_par_perp, norm, dot, plus, scale. f_equal. ring.
Qed.

(** * On the reference orbit of a bend *)
Lemma bmt_vertical : forall o l s, / 10000000000 < Rabs o -> bmt_rotation (0, o, 0) l s = turn (o * l) s.
Proof.
  intros o l [[x y] z] H. unfold bmt_rotation.
  replace (sqrt (0 * 0 + o * o + 0 * 0)) with (Rabs o) by (rewrite <- sqrt_Rsqr_abs; unfold Rsqr; f_equal; ring).
  destruct (Rlt_dec _ (Rabs o)); [|lra].
  assert (P : 0 < Rabs o) by lra.
  assert (C : cos (Rabs o * l / 2) = cos (o * l / 2)).
  { unfold Rabs. destruct (Rcase_abs o); [|reflexivity]. rewrite <- cos_neg. f_equal. field. }
  assert (S : o / Rabs o * sin (Rabs o * l / 2) = sin (o * l / 2)).
  { unfold Rabs in *. destruct (Rcase_abs o).
    - replace (- o * l / 2) with (- (o * l / 2)) by field. rewrite sin_neg. field; lra.
    - field; lra. }
  rewrite C, S. replace (0 / Rabs o) with 0 by (field; lra). rewrite !Rmult_0_l.
  unfold turn. replace (o * l) with (2 * (o * l / 2)) by field. rewrite cos_2a, sin_2a.
  pose proof (sin2_cos2 (o * l / 2)) as T. unfold Rsqr in T.
  revert T. replace (2 * (o * l / 2) / 2) with (o * l / 2) by field. generalize (cos (o * l / 2)) (sin (o * l / 2)). intros c s T.
  f_equal; [f_equal|]; try ring. replace (c * c - 0 + s * s - 0) with 1 by lra. ring.
Qed.
Lemma orbit_field : forall b p0c length hx p, on_orbit p ->
  estimate_field b p0c length hx 0 0 0 0 0 0 p = (0, hx * brho_of b p, 0).
Proof.
  intros b p0c length hx p (X & PX & Y & PY & AX & AY & D). unfold estimate_field. cbv zeta. rewrite X, PX, Y, PY, AX, AY.
  set (d := 1 + p_delta p) in *.
  replace (0 - 0) with 0 by ring. replace (d * d - 0 * 0 - 0 * 0) with (d * d) by ring. rewrite sqrt_square by lra.
  replace (0 / d) with 0 by (field; lra).
  replace (0 + 0) with 0 by ring. replace (0 - 0) with 0 by ring.
  assert (Z : 0 / length = 0) by (unfold Rdiv; ring). rewrite Z.
  replace (1 / 2 * 0) with 0 by ring.
  repeat match goal with |- context [sqrt ?a] => replace a with 1 by ring end. rewrite sqrt_1. f_equal; [f_equal|]; try ring; field.
Qed.
Theorem spin_tune : forall b p0c length hx p, on_orbit p -> brho_of b p <> 0 -> / 10000000000 < Rabs ((1 + b_G b * gamma_of b p) * hx) ->
  exists q, magnet_spin false b (estimate_field b p0c length hx 0 0 0 0 0 0 p) hx length length p = Some q /\
    spin_of q = turn (- (b_G b * gamma_of b p * (hx * length))) (spin_of p).
Proof.
  intros b p0c length hx p O R G. rewrite orbit_field by assumption.
  destruct (spin_form b (0, hx * brho_of b p, 0) hx length length p) as (q & E & S). exists q. split; [exact E|]. rewrite S.
  replace (omega b (0, hx * brho_of b p, 0) p) with (0, - ((1 + b_G b * gamma_of b p) * hx), 0).
  - rewrite bmt_vertical by (now rewrite Rabs_Ropp). rewrite !turn_turn. f_equal. field.
  - destruct O as (X & PX & Y & PY & AX & AY & D). rewrite omega_bmt; auto; [|rewrite PX; nra].
    unfold motion. rewrite PX, PY, AX, AY. unfold bmt, dot, scale, plus. f_equal; [f_equal|]; field; lra.
Qed.

(** * Energy, rigidity and field of the particle *)
Theorem rigidity : forall b p0c p, consistent b p0c p ->
  gamma_of b p = (b_mass0 b * b_gamma0 b + p_ptau p * p0c) / b_mass0 b /\ brho_of b p = p0c * (1 + p_delta p) / (b_q0 b * b_clight b).
Proof.
  intros b p0c p (M & Q & QE & C & P & V). cbv zeta in V.
  assert (G : gamma_of b p = (b_mass0 b * b_gamma0 b + p_ptau p * p0c) / b_mass0 b).
  { unfold gamma_of. rewrite P. field; assumption. }
  split; [exact G|]. rewrite <- V. unfold brho_of. cbv zeta. rewrite G. field; auto.
Qed.
(** In a straight magnet the estimated transverse field is the one that bends the particle along its trajectory. *)
Theorem straight_field : forall b p0c length old_px old_py old_ax old_ay ks p,
  let xp0 := slope (old_px - old_ax) (old_py - old_ay) (p_delta p) in
  let yp0 := slope (old_py - old_ay) (old_px - old_ax) (p_delta p) in
  let xp1 := slope (p_px p - p_ax p) (p_py p - p_ay p) (p_delta p) in
  let yp1 := slope (p_py p - p_ay p) (p_px p - p_ax p) (p_delta p) in
  estimate_field b p0c length 0 0 old_px old_py old_ax old_ay ks p =
  (brho_of b p * curvature ((yp0 + yp1) / 2) ((yp1 - yp0) / length),
   - brho_of b p * curvature ((xp0 + xp1) / 2) ((xp1 - xp0) / length), ks * (p0c / (b_q0 b * b_clight b))).
Proof.
  intros. unfold estimate_field. cbv zeta. subst xp0 yp0 yp1 xp1. cbv zeta. unfold slope.
  set (d2 := (1 + p_delta p) * (1 + p_delta p)).
  replace (d2 - (old_py - old_ay) * (old_py - old_ay) - (old_px - old_ax) * (old_px - old_ax)) with
          (d2 - (old_px - old_ax) * (old_px - old_ax) - (old_py - old_ay) * (old_py - old_ay)) by ring.
  replace (d2 - (p_py p - p_ay p) * (p_py p - p_ay p) - (p_px p - p_ax p) * (p_px p - p_ax p)) with
          (d2 - (p_px p - p_ax p) * (p_px p - p_ax p) - (p_py p - p_ay p) * (p_py p - p_ay p)) by ring.
  generalize ((old_px - old_ax) / sqrt (d2 - (old_px - old_ax) * (old_px - old_ax) - (old_py - old_ay) * (old_py - old_ay)))
             ((old_py - old_ay) / sqrt (d2 - (old_px - old_ax) * (old_px - old_ax) - (old_py - old_ay) * (old_py - old_ay)))
             ((p_px p - p_ax p) / sqrt (d2 - (p_px p - p_ax p) * (p_px p - p_ax p) - (p_py p - p_ay p) * (p_py p - p_ay p)))
             ((p_py p - p_ay p) / sqrt (d2 - (p_px p - p_ax p) * (p_px p - p_ax p) - (p_py p - p_ay p) * (p_py p - p_ay p))).
  intros x0 y0 x1 y1. rewrite !Rmult_0_l, !Rplus_0_r. unfold curvature.
  replace (1 / 2 * (x0 + x1)) with ((x0 + x1) / 2) by field. replace (1 / 2 * (y0 + y1)) with ((y0 + y1) / 2) by field.
  replace (1 * 1) with 1 by ring. rewrite !Rmult_0_r, !Rminus_0_r. unfold Rdiv. rewrite !Rinv_mult. f_equal; [f_equal|]; ring.
Qed.

(** * The vertical momentum enters the direction with the wrong sign *)
Definition beam1 : beam := mkBeam 1 1 (5 / 4) 1 1 1.
Definition part1 (px py ax : R) : part := mkPart 0 px 0 py 0 0 0 0 1 1 1 (3 / 5) ax 0 0 0 1.
Lemma part1_brho : forall px py ax, gamma_of beam1 (part1 px py ax) = 5 / 4 /\ brho_of beam1 (part1 px py ax) = 3 / 4.
Proof. intros. unfold brho_of, gamma_of, beam1, part1; cbn. split; field. Qed.
Lemma root34 : 116 / 100 < sqrt (34 / 25) < 117 / 100.
Proof.
  pose proof (sqrt_pos (34 / 25)). pose proof (sqrt_sqrt (34 / 25) ltac:(lra)). split; nra.
Qed.
Lemma direction1 : direction_of_motion 0 (3 / 5) 0 = (0, 3 / 5, sqrt (34 / 25)).
Proof. unfold direction_of_motion. f_equal; [f_equal; field|]. f_equal. field. Qed.
Lemma direction_refuted : exists px py delta, px * px + py * py < (1 + delta) * (1 + delta) /\ norm (direction_of_motion px py delta) <> 1.
Proof.
  exists 0, (3 / 5), 0. split; [lra|]. rewrite direction1. unfold norm, dot. rewrite sqrt_sqrt by lra.
  intro E. assert (S := sqrt_sqrt (0 * 0 + 3 / 5 * (3 / 5) + 34 / 25) ltac:(lra)). rewrite E in S. lra.
Qed.
Lemma perp_refuted : exists p, p_ax p = 0 /\ p_ay p = 0 /\ 0 < 1 + p_delta p /\ dot (motion p) (motion p) = 1 /\
  b_perp_mod (p_px p) (p_py p) (p_delta p) (motion p) <> 0.
Proof.
  exists (part1 0 (3 / 5) 0).
  assert (M : motion (part1 0 (3 / 5) 0) = (0, 3 / 5, 4 / 5)).
  { unfold motion, part1; cbn. replace ((1 + 0) * (1 + 0) - (0 - 0) * (0 - 0) - (3 / 5 - 0) * (3 / 5 - 0)) with (4 / 5 * (4 / 5)) by field.
    rewrite sqrt_square by lra. f_equal; [f_equal|]; field. }
  rewrite M. unfold part1; cbn [p_ax p_ay p_delta p_px p_py]. repeat split; try lra.
  - unfold dot; lra.
  - unfold b_perp_mod. rewrite direction1. unfold separate_par_perp. intro E. apply sqrt_eq_0 in E.
    + pose proof root34. set (r := sqrt (34 / 25)) in *.
      assert (Y : 3 / 5 - (0 * 0 + 3 / 5 * (3 / 5) + 4 / 5 * r) * (3 / 5) < 0) by lra.
      revert E. generalize (0 - (0 * 0 + 3 / 5 * (3 / 5) + 4 / 5 * r) * 0) (4 / 5 - (0 * 0 + 3 / 5 * (3 / 5) + 4 / 5 * r) * r).
      revert Y. generalize (3 / 5 - (0 * 0 + 3 / 5 * (3 / 5) + 4 / 5 * r) * (3 / 5)). intros. pose proof (Rle_0_sqr r1). pose proof (Rle_0_sqr r2). unfold Rsqr in *. nra.
    + apply Rplus_le_le_0_compat; [apply Rplus_le_le_0_compat|]; apply Rle_0_sqr.
Qed.
Lemma omega_refuted : exists b B p, p_ax p = 0 /\ p_ay p = 0 /\ 0 < 1 + p_delta p /\
  (p_px p * p_px p + p_py p * p_py p < (1 + p_delta p) * (1 + p_delta p)) /\ brho_of b p <> 0 /\
  omega b B p <> bmt (b_G b) (gamma_of b p) (brho_of b p) (motion p) B.
Proof.
  exists beam1, (0, 0, 1), (part1 0 (3 / 5) 0). destruct (part1_brho 0 (3 / 5) 0) as [G R].
  split; [reflexivity|split; [reflexivity|split; [cbn; lra|split; [cbn; lra|split; [rewrite R; lra|]]]]].
  unfold omega. rewrite G, R. unfold motion, part1; cbn [p_px p_py p_ax p_ay p_delta b_G beam1].
  replace (0 + 0) with 0 by ring. replace (3 / 5 + 0) with (3 / 5) by ring. rewrite direction1.
  replace ((1 + 0) * (1 + 0) - (0 - 0) * (0 - 0) - (3 / 5 - 0) * (3 / 5 - 0)) with (4 / 5 * (4 / 5)) by field.
  rewrite sqrt_square by lra. unfold separate_par_perp, bmt, dot, scale, plus. pose proof root34. intro E. injection E as E1 E2 E3.
  replace (- 1 / (3 / 4)) with (- (4 / 3)) in E2 by field. replace (- / (3 / 4)) with (- (4 / 3)) in E2 by field.
  set (r := sqrt (34 / 25)) in *.
  replace ((3 / 5 - 0) / (1 + 0)) with (3 / 5) in E2 by field. replace (4 / 5 / (1 + 0)) with (4 / 5) in E2 by field. 
  replace ((0 - 0) / (1 + 0)) with 0 in E2 by field. lra.
Qed.
Lemma potential_refuted : exists b B p, p_py p = 0 /\ p_ay p = 0 /\ 0 < 1 + p_delta p /\
  ((p_px p - p_ax p) * (p_px p - p_ax p) < (1 + p_delta p) * (1 + p_delta p)) /\ brho_of b p <> 0 /\
  omega b B p <> bmt (b_G b) (gamma_of b p) (brho_of b p) (motion p) B.
Proof.
  exists beam1, (0, 0, 1), (part1 0 0 (3 / 5)). destruct (part1_brho 0 0 (3 / 5)) as [G R].
  split; [reflexivity|split; [reflexivity|split; [cbn; lra|split; [cbn; lra|split; [rewrite R; lra|]]]]].
  unfold omega. rewrite G, R. unfold motion, direction_of_motion, part1; cbn [p_px p_py p_ax p_ay p_delta b_G beam1].
  replace ((1 + 0) * (1 + 0) - (0 - 3 / 5) * (0 - 3 / 5) - (0 - 0) * (0 - 0)) with (4 / 5 * (4 / 5)) by field.
  replace (1 - (0 + 3 / 5) / (1 + 0) * ((0 + 3 / 5) / (1 + 0)) + (0 + 0) / (1 + 0) * ((0 + 0) / (1 + 0))) with (4 / 5 * (4 / 5)) by field.
  rewrite sqrt_square by lra. unfold separate_par_perp, bmt, dot, scale, plus. intro E. injection E as E1 E2 E3.
  replace (- 1 / (3 / 4)) with (- (4 / 3)) in E1 by field. replace (- / (3 / 4)) with (- (4 / 3)) in E1 by field.
  replace ((0 + 3 / 5) / (1 + 0)) with (3 / 5) in E1 by field. replace (4 / 5 / (1 + 0)) with (4 / 5) in E1 by field.
  replace ((0 - 3 / 5) / (1 + 0)) with (- (3 / 5)) in E1 by field. replace ((0 + 0) / (1 + 0)) with 0 in E1 by field. replace ((0 - 0) / (1 + 0)) with 0 in E1 by field. lra.
Qed.

Lemma case : let p := part1 0 0 0 in on_orbit p /\ brho_of beam1 p <> 0 /\ / 10000000000 < Rabs ((1 + b_G beam1 * gamma_of beam1 p) * (1 / 100)) /\
  spin_of p = (0, 0, 1) /\ / 10000000000 < norm (0, 1, 0).
Proof.
  cbv zeta. destruct (part1_brho 0 0 0) as [G R]. rewrite G, R. split; [unfold on_orbit, part1; cbn; lra|].
  split; [lra|]. split; [cbn; rewrite Rabs_right; lra|]. split; [reflexivity|].
  unfold norm, dot. replace (0 * 0 + 1 * 1 + 0 * 0) with 1 by ring. rewrite sqrt_1; lra.
Qed.
Lemma case_consistent : consistent beam1 (3 / 4) (part1 0 0 0).
Proof. unfold consistent, beam1, part1; cbn. repeat split; lra. Qed.
