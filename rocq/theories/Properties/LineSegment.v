(** C65: linear maps of segments. *)
From Coq Require Import Reals List Arith.
From Verif.Model Require Import LineSegment.
From Verif.Spec Require Import LineSegment.
From Verif.Proofs Require LineSegment LineSegmentCases.
Import ListNotations.
Local Open Scope R_scope.

(** In Courant-Snyder coordinates at its two ends the segment is a rotation, by the tune at the particle's momentum (the
    Taylor sum of the derivatives given) plus the detuning with the two actions. *)
Theorem C65_tunes (delta_of : R -> R) (len : R) dnqx (qx dqx ddqx : R) dnqy (qy dqy ddqy a b c d : R) (o0 o1 : optics) (m : mode) (g : segment) (p : particle) :
  make len dnqx qx dqx ddqx dnqy qy dqy ddqy a b c d o0 o1 m = Some g ->
  hd 0 (given dnqx qx dqx ddqx) <> 0 \/ hd 0 (given dnqy qy dqy ddqy) <> 0 \/ a <> 0 \/ b <> 0 \/ c <> 0 \/ d <> 0 ->
  dqx <> 0 \/ ddqx = 0 -> dqy <> 0 \/ ddqy = 0 -> positive o0 -> positive o1 ->
  let q := track delta_of g p in
  let e := delta delta_of p in
  let Jx := half_square (normal_x o0 e p) in
  let Jy := half_square (normal_y o0 e p) in
  normal_x o1 (delta delta_of q) q =
    turn (2 * PI * (taylor 0 (given dnqx qx dqx ddqx) e + a * Jx + b * Jy)) (normal_x o0 e p) /\
  normal_y o1 (delta delta_of q) q =
    turn (2 * PI * (taylor 0 (given dnqy qy dqy ddqy) e + c * Jx + d * Jy)) (normal_y o0 e p).
Proof. exact (Verif.Proofs.LineSegment.tunes delta_of len dnqx qx dqx ddqx dnqy qy dqy ddqy a b c d o0 o1 m g p). Qed.
Print Assumptions C65_tunes.

(** The actions do not change. *)
Theorem C65_actions (delta_of : R -> R) (g : segment) (p : particle) :
  regular g -> positive (g_start g) -> positive (g_end g) ->
  let q := track delta_of g p in
  half_square (normal_x (g_end g) (delta delta_of q) q) = half_square (normal_x (g_start g) (delta delta_of p) p) /\
  half_square (normal_y (g_end g) (delta delta_of q) q) = half_square (normal_y (g_start g) (delta delta_of p) p).
Proof. exact (Verif.Proofs.LineSegment.actions delta_of g p). Qed.
Print Assumptions C65_actions.

(** Areas between particles of one momentum do not change. *)
Theorem C65_area (delta_of : R -> R) (g : segment) (p q : particle) :
  regular g -> positive (g_start g) -> positive (g_end g) ->
  g_det_xx g = 0 -> g_det_xy g = 0 -> g_det_yx g = 0 -> g_det_yy g = 0 -> delta delta_of p = delta delta_of q ->
  let p' := track delta_of g p in
  let q' := track delta_of g q in
  wedge (offset_x (g_end g) (delta delta_of p') p') (offset_x (g_end g) (delta delta_of q') q') =
  wedge (offset_x (g_start g) (delta delta_of p) p) (offset_x (g_start g) (delta delta_of q) q) /\
  wedge (offset_y (g_end g) (delta delta_of p') p') (offset_y (g_end g) (delta delta_of q') q') =
  wedge (offset_y (g_start g) (delta delta_of p) p) (offset_y (g_start g) (delta delta_of q) q).
Proof. exact (Verif.Proofs.LineSegment.area delta_of g p q). Qed.
Print Assumptions C65_area.

(** Two segments which fit together are one segment with the sums of tunes, derivatives, detunings and lengths. *)
Theorem C65_compose (delta_of : R -> R) (a b : segment) (p : particle) :
  g_end a = g_start b -> positive (g_start a) -> positive (g_end a) -> positive (g_end b) ->
  regular a -> regular b -> regular (joined a b) -> filled a -> filled b -> joinable a b ->
  track delta_of b (track delta_of a p) = track delta_of (joined a b) p.
Proof. exact (Verif.Proofs.LineSegment.compose delta_of a b p). Qed.
Print Assumptions C65_compose.

(** Any number of turns is one segment with as many times the tunes. *)
Theorem C65_turns (delta_of : R -> R) (n : nat) (g : segment) (p : particle) :
  g_end g = g_start g -> positive (g_start g) -> regular g -> filled g -> joinable g g ->
  Nat.iter n (track delta_of g) p = track delta_of (times n g) p.
Proof. exact (Verif.Proofs.LineSegment.turns delta_of n g p). Qed.
Print Assumptions C65_turns.

(** The linear longitudinal motion keeps the particle on its ellipse. *)
Theorem C65_bunch (delta_of : R -> R) (g : segment) (p : particle) (qs bets len : R) :
  regular g -> positive (g_start g) -> positive (g_end g) -> g_mode g = fixed_qs qs bets len -> bets <> 0 -> len <= 0 ->
  let q := track delta_of g p in
  zeta q * zeta q + bets * bets * (pzeta q * pzeta q) = zeta p * zeta p + bets * bets * (pzeta p * pzeta p).
Proof. exact (Verif.Proofs.LineSegment.bunch delta_of g p qs bets len). Qed.
Print Assumptions C65_bunch.

(** With tunes of zero the chromaticity is not applied. *)
Theorem C65_flat_refuted :
  let o := mkOptics 1 0 1 0 0 0 0 0 0 0 0 0 in
  exists delta_of g p, make 0 None 0 1 0 None 0 0 0 0 0 0 0 o o frozen = Some g /\
    normal_x o (delta delta_of (track delta_of g p)) (track delta_of g p) <>
    turn (2 * PI * taylor 0 (given None 0 1 0) (delta delta_of p)) (normal_x o (delta delta_of p) p).
Proof. exact Verif.Proofs.LineSegmentCases.flat_chroma. Qed.
Print Assumptions C65_flat_refuted.

(** A second derivative given without a first one is applied as the first. *)
Theorem C65_second_refuted :
  let o := mkOptics 1 0 1 0 0 0 0 0 0 0 0 0 in
  exists delta_of g p, make 0 None 1 0 1 None 1 0 0 0 0 0 0 o o frozen = Some g /\
    normal_x o (delta delta_of (track delta_of g p)) (track delta_of g p) <>
    turn (2 * PI * taylor 0 (given None 1 0 1) (delta delta_of p)) (normal_x o (delta delta_of p) p).
Proof. exact Verif.Proofs.LineSegmentCases.second. Qed.
Print Assumptions C65_second_refuted.

Import Verif.Proofs.LineSegmentCases.
(** Three turns in a ring with chromaticity and detuning *)
Example C65_case : forall p, Nat.iter 3 (track (fun w => w) ring) p = track (fun w => w) (times 3 ring) p.
Proof. exact ring_case. Qed.
