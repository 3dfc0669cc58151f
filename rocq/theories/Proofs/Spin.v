(** Proofs for the precession of the spin. *)
From Coq Require Import Reals Bool Lra Lia Psatz.
From Verif.Model Require Import Maps Spin.
From Verif.Spec Require Import Spin.
Local Open Scope R_scope.

Lemma is0_true : forall a, is0 a = true -> a = 0.
Proof. intros a; unfold is0; destruct (Req_EM_T a 0); [auto|discriminate]. Qed.

Lemma some_inj : forall {A} (a b : A), Some a = Some b -> a = b.
Proof. congruence. Qed.

(** * Rotations *)
Lemma turn_dot : forall a s, dot (turn a s) (turn a s) = dot s s.
Proof.
  intros a [[x y] z]. unfold turn, dot. pose proof (sin2_cos2 a) as H. unfold Rsqr in H.
  replace (_ + _ + _) with ((x * x + z * z) * (sin a * sin a + cos a * cos a) + y * y) by ring. rewrite H; ring.
Qed.
Lemma turn_turn : forall a b s, turn a (turn b s) = turn (a + b) s.
Proof. intros a b [[x y] z]. unfold turn. rewrite cos_plus, sin_plus. f_equal; [f_equal|]; ring. Qed.
Lemma turn_0 : forall s, turn 0 s = s.
Proof. intros [[x y] z]. unfold turn. rewrite cos_0, sin_0. f_equal; [f_equal|]; ring. Qed.
Lemma frame_turn : forall hx l s, frame_rotation hx l s = turn (hx * l / 2) s.
Proof.
  intros hx l [[x y] z]. unfold frame_rotation. destruct (is0 hx) eqn:E.
  - apply is0_true in E; subst. replace (0 * l / 2) with 0 by field. rewrite turn_0. f_equal; [f_equal|]; ring.
  - unfold turn. f_equal; ring.
Qed.
(** The matrix of a quaternion *)
Definition quat (t0 tx ty tz : R) (s : v3) : v3 := let '(sx, sy, sz) := s in
  ((t0 * t0 + tx * tx - ty * ty - tz * tz) * sx + 2 * (tx * ty - t0 * tz) * sy + 2 * (tx * tz + t0 * ty) * sz,
   2 * (tx * ty + t0 * tz) * sx + (t0 * t0 - tx * tx + ty * ty - tz * tz) * sy + 2 * (ty * tz - t0 * tx) * sz,
   2 * (tx * tz - t0 * ty) * sx + 2 * (ty * tz + t0 * tx) * sy + (t0 * t0 - tx * tx - ty * ty + tz * tz) * sz).
Definition around (nx ny nz phi : R) (s : v3) : v3 := quat (cos (phi / 2)) (nx * sin (phi / 2)) (ny * sin (phi / 2)) (nz * sin (phi / 2)) s.
Lemma quat_dot : forall t0 tx ty tz s, t0 * t0 + tx * tx + ty * ty + tz * tz = 1 -> dot (quat t0 tx ty tz s) (quat t0 tx ty tz s) = dot s s.
Proof.
  intros t0 tx ty tz [[x y] z] H. unfold quat, dot.
  transitivity ((t0 * t0 + tx * tx + ty * ty + tz * tz) * (t0 * t0 + tx * tx + ty * ty + tz * tz) * (x * x + y * y + z * z)); [ring|].
  rewrite H; ring.
Qed.
Lemma around_dot : forall nx ny nz phi s, nx * nx + ny * ny + nz * nz = 1 -> dot (around nx ny nz phi s) (around nx ny nz phi s) = dot s s.
Proof.
  intros nx ny nz phi s H. apply quat_dot. pose proof (sin2_cos2 (phi / 2)) as T. unfold Rsqr in T.
  replace (_ + _ + _ + _) with (cos (phi / 2) * cos (phi / 2) + (nx * nx + ny * ny + nz * nz) * (sin (phi / 2) * sin (phi / 2))) by ring.
  rewrite H; lra.
Qed.
Lemma around_add : forall nx ny nz a b s, nx * nx + ny * ny + nz * nz = 1 -> around nx ny nz a (around nx ny nz b s) = around nx ny nz (a + b) s.
Proof.
  intros nx ny nz a b [[x y] z] H. unfold around. replace ((a + b) / 2) with (a / 2 + b / 2) by field. rewrite cos_plus, sin_plus.
  assert (E : cos (a / 2) * cos (b / 2) - sin (a / 2) * sin (b / 2)
    = cos (a / 2) * cos (b / 2) - (nx * nx + ny * ny + nz * nz) * (sin (a / 2) * sin (b / 2))) by (rewrite H; ring).
  rewrite E. clear E H. generalize (cos (a / 2)) (sin (a / 2)) (cos (b / 2)) (sin (b / 2)). intros. unfold quat. f_equal; [f_equal|]; ring.
Qed.
(** Formula of Rodrigues *)
Lemma around_rodrigues : forall nx ny nz phi s, nx * nx + ny * ny + nz * nz = 1 ->
  around nx ny nz phi s = plus (plus (scale (cos phi) s) (scale (sin phi) (cross (nx, ny, nz) s))) (scale ((1 - cos phi) * dot (nx, ny, nz) s) (nx, ny, nz)).
Proof.
  intros nx ny nz phi [[x y] z] H. pose proof (sin2_cos2 (phi / 2)) as T. unfold Rsqr in T.
  replace (cos phi) with (cos (2 * (phi / 2))) by (f_equal; field). replace (sin phi) with (sin (2 * (phi / 2))) by (f_equal; field).
  rewrite cos_2a, sin_2a. unfold around. revert T. generalize (cos (phi / 2)) (sin (phi / 2)). intros c s T.
  assert (O : 1 = c * c + s * s) by lra.
  unfold quat, plus, scale, cross, dot.
  assert (X : nx * nx = 1 - ny * ny - nz * nz) by lra. assert (Y : ny * ny = 1 - nx * nx - nz * nz) by lra. assert (Z : nz * nz = 1 - nx * nx - ny * ny) by lra.
  f_equal; [f_equal|].
  - replace (1 - (c * c - s * s)) with (2 * (s * s)) by lra. apply Rminus_diag_uniq.
    transitivity (s * s * x * (1 - (nx * nx + ny * ny + nz * nz))); [ring|rewrite H; ring].
  - replace (1 - (c * c - s * s)) with (2 * (s * s)) by lra. apply Rminus_diag_uniq.
    transitivity (s * s * y * (1 - (nx * nx + ny * ny + nz * nz))); [ring|rewrite H; ring].
  - replace (1 - (c * c - s * s)) with (2 * (s * s)) by lra. apply Rminus_diag_uniq.
    transitivity (s * s * z * (1 - (nx * nx + ny * ny + nz * nz))); [ring|rewrite H; ring].
Qed.

(** * The precession *)
Lemma bmt_around : forall O, / 10000000000 < norm O ->
  exists nx ny nz, nx * nx + ny * ny + nz * nz = 1 /\ O = scale (norm O) (nx, ny, nz) /\
    forall l s, bmt_rotation O l s = around nx ny nz (norm O * l) s.
Proof.
  intros [[ox oy] oz] H. unfold norm, dot in H |- *. set (m := sqrt (ox * ox + oy * oy + oz * oz)) in *.
  assert (M : m * m = ox * ox + oy * oy + oz * oz) by (apply sqrt_sqrt; nra).
  assert (P : 0 < m) by lra.
  exists (ox / m), (oy / m), (oz / m). split; [|split].
  - transitivity ((ox * ox + oy * oy + oz * oz) / (m * m)); [field; lra|]. rewrite <- M. field; lra.
  - unfold scale. f_equal; [f_equal|]; field; lra.
  - intros l' [[x y] z]. unfold bmt_rotation. fold m. destruct (Rlt_dec _ m); [reflexivity|lra].
Qed.
Lemma bmt_weak : forall O l s, ~ / 10000000000 < norm O -> bmt_rotation O l s = s.
Proof. intros [[ox oy] oz] l [[x y] z] H. unfold norm, dot in H. unfold bmt_rotation. destruct (Rlt_dec _ _); [contradiction|reflexivity]. Qed.
Lemma bmt_dot : forall O l s, dot (bmt_rotation O l s) (bmt_rotation O l s) = dot s s.
Proof.
  intros O l s. destruct (Rlt_dec (/ 10000000000) (norm O)) as [H|H]; [|now rewrite bmt_weak].
  destruct (bmt_around O H) as (nx & ny & nz & N & _ & E). rewrite E. now apply around_dot.
Qed.
Lemma spin_with : forall s p, spin_of (with_spin s p) = s.
Proof. intros [[x y] z] p. reflexivity. Qed.

(** The length of the spin is kept. *)
Theorem spin_norm : forall b B hx l lp p q, magnet_spin false b B hx l lp p = Some q -> norm (spin_of q) = norm (spin_of p).
Proof.
  intros b B hx l lp p q H. unfold magnet_spin in H. destruct (_ || _ || _); apply some_inj in H; subst q; [|reflexivity].
  unfold norm. apply (f_equal sqrt). rewrite spin_with, !frame_turn, turn_dot, bmt_dot. apply turn_dot.
Qed.
(** Only the spin changes. *)
Theorem spin_only : forall b B hx l lp p q, magnet_spin false b B hx l lp p = Some q -> q = with_spin (spin_of q) p.
Proof.
  intros b B hx l lp p q H. unfold magnet_spin in H. destruct (_ || _ || _); apply some_inj in H; subst q; [|destruct p; reflexivity].
  now rewrite spin_with.
Qed.
(** Without spin nothing happens; with spin, particles cannot be tracked backwards. *)
Theorem spin_back : forall b B hx l lp p,
  (spin_of p = (0, 0, 0) -> forall bt, magnet_spin bt b B hx l lp p = Some p) /\
  (spin_of p <> (0, 0, 0) -> magnet_spin true b B hx l lp p = None).
Proof.
  intros b B hx l lp p. unfold magnet_spin, spin_of at 1 3. split.
  - intros E bt. assert (X : p_spin_x p = 0) by congruence. assert (Y : p_spin_y p = 0) by congruence. assert (Z : p_spin_z p = 0) by congruence.
    rewrite X, Y, Z. unfold is0. destruct (Req_EM_T 0 0); [reflexivity|contradiction].
  - intro N. unfold is0. destruct (Req_EM_T (p_spin_x p) 0) as [X|]; [|reflexivity].
    destruct (Req_EM_T (p_spin_y p) 0) as [Y|]; [|reflexivity]. destruct (Req_EM_T (p_spin_z p) 0) as [Z|]; [|reflexivity].
    destruct N. unfold spin_of. now rewrite X, Y, Z.
Qed.
(** The general form: turn by half the angle of the bend, precess, turn by the other half. *)
Theorem spin_form : forall b B hx l lp p, exists q, magnet_spin false b B hx l lp p = Some q /\
  spin_of q = turn (hx * l / 2) (bmt_rotation (omega b B p) lp (turn (hx * l / 2) (spin_of p))).
Proof.
  intros b B hx l lp p. destruct (magnet_spin false b B hx l lp p) as [q|] eqn:E.
  - exists q. split; [reflexivity|]. unfold magnet_spin in E. destruct (_ || _ || _) eqn:Z; apply some_inj in E; subst q.
    + now rewrite spin_with, !frame_turn.
    + apply orb_false_iff in Z. destruct Z as [Z Z3]. apply orb_false_iff in Z. destruct Z as [Z1 Z2].
      apply negb_false_iff, is0_true in Z1. apply negb_false_iff, is0_true in Z2. apply negb_false_iff, is0_true in Z3.
      assert (S : spin_of p = (0, 0, 0)) by (unfold spin_of; now rewrite Z1, Z2, Z3). rewrite S.
      assert (T : forall a, turn a (0, 0, 0) = (0, 0, 0)) by (intro; unfold turn; f_equal; [f_equal|]; ring).
      rewrite T. assert (D := bmt_dot (omega b B p) lp (0, 0, 0)).
      destruct (bmt_rotation (omega b B p) lp (0, 0, 0)) as [[x y] z]. unfold dot in D.
      assert (x = 0) by nra. assert (y = 0) by nra. assert (z = 0) by nra. subst. now rewrite T.
  - unfold magnet_spin in E. destruct (_ || _ || _); discriminate.
Qed.

(** The spin obeys ds/dl = Omega x s along the path. *)
Lemma wave : forall m a c d l, derivable_pt_lim (fun l => a * cos (m * l) + c * sin (m * l) + d) l (m * (c * cos (m * l) - a * sin (m * l))).
Proof.
  intros m a c d l.
  assert (L : derivable_pt_lim (fun l => m * l) l (m * 1)) by (apply (derivable_pt_lim_scal id m l 1), derivable_pt_lim_id).
  rewrite Rmult_1_r in L.
  assert (C : derivable_pt_lim (fun l => cos (m * l)) l (- sin (m * l) * m)).
  { apply (derivable_pt_lim_comp (fun l => m * l) cos l m (- sin (m * l))); [exact L|apply derivable_pt_lim_cos]. }
  assert (S : derivable_pt_lim (fun l => sin (m * l)) l (cos (m * l) * m)).
  { apply (derivable_pt_lim_comp (fun l => m * l) sin l m (cos (m * l))); [exact L|apply derivable_pt_lim_sin]. }
  replace (m * (c * cos (m * l) - a * sin (m * l))) with (a * (- sin (m * l) * m) + c * (cos (m * l) * m) + 0) by ring.
  apply (derivable_pt_lim_plus (fun l => a * cos (m * l) + c * sin (m * l)) (fun _ => d)); [|apply derivable_pt_lim_const].
  apply (derivable_pt_lim_plus (fun l => a * cos (m * l)) (fun l => c * sin (m * l))).
  - apply (derivable_pt_lim_scal (fun l => cos (m * l)) a l _ C).
  - apply (derivable_pt_lim_scal (fun l => sin (m * l)) c l _ S).
Qed.
Lemma derivable_ext : forall f g l d, (forall x, f x = g x) -> derivable_pt_lim f l d -> derivable_pt_lim g l d.
Proof. intros f g l d E H eps Heps. destruct (H eps Heps) as [del D]. exists del. intros h Hh Hd. rewrite <- !E. now apply D. Qed.
Theorem spin_equation : forall O s l, / 10000000000 < norm O ->
  derivative (fun l => bmt_rotation O l s) l (cross O (bmt_rotation O l s)) /\ bmt_rotation O 0 s = s.
Proof.
  intros O s l H. destruct (bmt_around O H) as (nx & ny & nz & N & EO & E). set (m := norm O) in *. destruct s as [[x y] z]. split.
  - assert (F : forall q, bmt_rotation O q (x, y, z) = plus (plus (scale (cos (m * q)) (x, y, z)) (scale (sin (m * q)) (cross (nx, ny, nz) (x, y, z)))) (scale ((1 - cos (m * q)) * dot (nx, ny, nz) (x, y, z)) (nx, ny, nz)))
      by (intro q; rewrite E; now apply around_rodrigues).
    set (k := nx * x + ny * y + nz * z).
    assert (FX : forall q, px_ (bmt_rotation O q (x, y, z)) = (x - k * nx) * cos (m * q) + (ny * z - nz * y) * sin (m * q) + k * nx)
      by (intro; rewrite F; unfold px_, plus, scale, cross, dot, k; cbn [fst snd]; ring).
    assert (FY : forall q, py_ (bmt_rotation O q (x, y, z)) = (y - k * ny) * cos (m * q) + (nz * x - nx * z) * sin (m * q) + k * ny)
      by (intro; rewrite F; unfold py_, plus, scale, cross, dot, k; cbn [fst snd]; ring).
    assert (FZ : forall q, pz_ (bmt_rotation O q (x, y, z)) = (z - k * nz) * cos (m * q) + (nx * y - ny * x) * sin (m * q) + k * nz)
      by (intro; rewrite F; unfold pz_, plus, scale, cross, dot, k; cbn [fst snd]; ring).
    assert (CR : cross O (bmt_rotation O l (x, y, z)) =
      (m * (ny * pz_ (bmt_rotation O l (x, y, z)) - nz * py_ (bmt_rotation O l (x, y, z))),
       m * (nz * px_ (bmt_rotation O l (x, y, z)) - nx * pz_ (bmt_rotation O l (x, y, z))),
       m * (nx * py_ (bmt_rotation O l (x, y, z)) - ny * px_ (bmt_rotation O l (x, y, z))))).
    { destruct (bmt_rotation O l (x, y, z)) as [[u v] w]. rewrite EO. unfold cross, scale, px_, py_, pz_; cbn [fst snd]. f_equal; [f_equal|]; ring. }
    rewrite CR, !FX, !FY, !FZ. clear CR F E EO. split; [|split]; unfold px_ at 2 || unfold py_ at 2 || unfold pz_ at 2; cbn [fst snd].
    + eapply derivable_ext; [intro q; symmetry; apply FX|].
      replace (m * _) with (m * ((ny * z - nz * y) * cos (m * l) - (x - k * nx) * sin (m * l))); [apply wave|].
      f_equal. apply Rminus_diag_uniq. unfold k. transitivity (sin (m * l) * x * (nx * nx + ny * ny + nz * nz - 1)); [ring|rewrite N; ring].
    + eapply derivable_ext; [intro q; symmetry; apply FY|].
      replace (m * _) with (m * ((nz * x - nx * z) * cos (m * l) - (y - k * ny) * sin (m * l))); [apply wave|].
      f_equal. apply Rminus_diag_uniq. unfold k. transitivity (sin (m * l) * y * (nx * nx + ny * ny + nz * nz - 1)); [ring|rewrite N; ring].
    + eapply derivable_ext; [intro q; symmetry; apply FZ|].
      replace (m * _) with (m * ((nx * y - ny * x) * cos (m * l) - (z - k * nz) * sin (m * l))); [apply wave|].
      f_equal. apply Rminus_diag_uniq. unfold k. transitivity (sin (m * l) * z * (nx * nx + ny * ny + nz * nz - 1)); [ring|rewrite N; ring].
  - rewrite E. unfold around. replace (m * 0 / 2) with 0 by field. rewrite cos_0, sin_0. unfold quat. f_equal; [f_equal|]; ring.
Qed.
Theorem spin_slices : forall O l1 l2 s, bmt_rotation O l2 (bmt_rotation O l1 s) = bmt_rotation O (l1 + l2) s.
Proof.
  intros O l1 l2 s. destruct (Rlt_dec (/ 10000000000) (norm O)) as [H|H]; [|now rewrite !bmt_weak].
  destruct (bmt_around O H) as (nx & ny & nz & N & _ & E). rewrite !E, around_add by assumption. f_equal; ring.
Qed.
