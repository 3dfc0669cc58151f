(** C39, C40, C42, C43 *)
From Coq Require Import Reals ZArith List Bool.
From Verif.Model Require Import Maps Curved Magnet FeedDown.
From Verif.Spec Require Import Frames Magnets.
From Verif.Proofs Require MagnetBack MagnetSum ThinSlices FeedDown FeedDownTrack MagnetCases.
Import ListNotations.
Local Open Scope R_scope.

(** C39 *)
Theorem C39_backtrack : forall w g p,
  passes w g p -> track_magnet true w g (track_magnet false w g p) = p.
Proof. exact MagnetBack.magnet_back. Qed.
Print Assumptions C39_backtrack.

(** Straight magnets: no condition on the particle. *)
Theorem C39_straight : forall w g p,
  match drift_model_of (used_model g) (mg_h g) with (-1)%Z | 0%Z | 1%Z | 5%Z => True | _ => False end ->
  track_magnet true w g (track_magnet false w g p) = p.
Proof. exact (fun w g p H => MagnetBack.magnet_back w g p (MagnetBack.easy_passes w g p H)). Qed.
Print Assumptions C39_straight.

(** The matrix model loses the path length of a bend without curvature and without gradient. *)
Theorem C39_matrix_refuted : exists g p,
  mg_h g = 0 /\ mg_k1 g = 0 /\ used_model g = 4%Z /\ p_delta p = 0 /\
  p_zeta (track_magnet true 1 g (track_magnet false 1 g p)) <> p_zeta p.
Proof.
  exists (MagnetCases.bend 1 0 1 1 4 3), MagnetCases.at_rest. repeat (split; [reflexivity|]).
  destruct MagnetCases.flat_bend_lost as [E1 E2]. rewrite E1, E2. intros H. apply (Rlt_irrefl 0).
  rewrite <- H at 2. apply Rdiv_lt_0_compat; prove_sup.
Qed.
Print Assumptions C39_matrix_refuted.

(** The reference particle passes through a bend, for any number of kicks. *)
Example C39_case : forall n,
  let g := MagnetCases.bend 2 (1 / 10) (1 / 10) n 2 1 in
  passes 1 g MagnetCases.at_rest /\
  track_magnet true 1 g (track_magnet false 1 g MagnetCases.at_rest) = MagnetCases.at_rest.
Proof.
  exact (fun n => conj (MagnetCases.reference_passes n)
                       (C39_backtrack 1 _ _ (MagnetCases.reference_passes n))).
Qed.

(** C40 *)
Theorem C40_totals : forall i n len, known i -> (1 <= n)%Z ->
  body (fun x (st : R * R) => (fst st + x, snd st)) (fun w st => (fst st, snd st + w)) false i n len (0, 0)
  = (len, 1).
Proof. exact MagnetSum.body_totals. Qed.
Print Assumptions C40_totals.

Theorem C40_kicks : forall k i n len p, known i -> (1 <= n)%Z ->
  body (fun _ q => q) (magnet_kick k) false i n len p = magnet_kick k 1 p.
Proof. exact MagnetSum.body_kicks. Qed.
Print Assumptions C40_kicks.

Theorem C40_drifts : forall (A : Type) (drift : R -> A -> A) i n len a, known i -> (1 <= n)%Z ->
  (forall x y p, drift y (drift x p) = drift (x + y) p) -> (forall p, drift 0 p = p) ->
  body drift (fun _ q => q) false i n len a = drift len a.
Proof. exact (@MagnetSum.body_drifts). Qed.
Print Assumptions C40_drifts.

Theorem C40_path : forall w g p, (0 <= mg_kicks g)%Z -> 0 < w -> known (used_integrator g) ->
  let m := drift_model_of (used_model g) (mg_h g) in
  (0 <= m <= 8)%Z -> m <> 6%Z ->
  p_s (track_magnet false w g p) = p_s p + stretch m * (mg_length g * w) /\
  p_s (track_magnet true w g p) = p_s p - stretch m * (mg_length g * w).
Proof. exact MagnetSum.magnet_s. Qed.
Print Assumptions C40_path.

(** In every model but the matrix one (4) the strengths are applied once, whichever part of them the
    drifts and the kicks take; for the bend-kick-bend model (2) from 1e-8 on. *)
Theorem C40_strength : forall L k0 k0s kn ks n model integrator w p,
  In model [1; 2; 3; 5; 6; 7; 8]%Z -> (model = 2%Z -> / 100000000 <= Rabs (k0 * p_chi p)) -> (1 <= n)%Z -> (0 <= integrator <= 3)%Z -> 0 < w ->
  let q := track_magnet false w (corrector L k0 k0s kn ks n model integrator) p in
  p_px q = p_px p - p_chi p * (k0 * L + kn) * w /\ p_py q = p_py p + p_chi p * (k0s * L + ks) * w.
Proof. exact MagnetSum.corrector_any. Qed.
Print Assumptions C40_strength.

(** The kicks inside the nested drifts of the models rot-kick-rot (7 and 8) add up to the whole bending: exactly for
    the one of sixth order, up to 1e-16 for the one of fourth order. *)
Theorem C40_nested : forall d l p, (dp_model d = 7 \/ dp_model d = 8)%Z -> dp_h d = 0 ->
  p_px (magnet_drift d l p) = p_px p - (if Z.eqb (dp_model d) 7 then 1 + 1 / 10 ^ 16 else 1) * (dp_k0 d * p_chi p * l).
Proof. exact MagnetSum.nested_bends. Qed.
Print Assumptions C40_nested.

(** A weaker dipole is not applied at all by the bend-kick-bend model. *)
Theorem C40_weak_refuted : exists L k0 n p, L * k0 <> 0 /\ (1 <= n)%Z /\ p_chi p = 1 /\
  p_px (track_magnet false 1 (corrector L k0 0 0 0 n 2 1) p) = p_px p.
Proof. exact MagnetCases.weak_dipole. Qed.
Print Assumptions C40_weak_refuted.

(** A slice of a solenoid shorter than 1e-9 does not advance. *)
Theorem C40_solenoid_refuted :
  exists d p l, dp_model d = 6%Z /\ l <> 0 /\ p_s (magnet_drift d l p) = p_s p.
Proof. exact MagnetCases.short_solenoid. Qed.
Print Assumptions C40_solenoid_refuted.

(** A thick multipole of which only the curvature is set acts as a drift unless a number of kicks is given. *)
Theorem C40_curvature_refuted : exists g0 g1 p,
  mg_hxl g0 <> 0 /\ mg_kicks g0 = 0%Z /\ g1 = MagnetCases.thick_curved 1 /\ g0 = MagnetCases.thick_curved 0 /\
  p_px (track_magnet false 1 g0 p) = p_px p /\ p_px (track_magnet false 1 g1 p) = p_px p + mg_hxl g1.
Proof.
  exists (MagnetCases.thick_curved 0), (MagnetCases.thick_curved 1), MagnetCases.at_rest.
  split; [exact R1_neq_R0|]. repeat (split; [reflexivity|]). split.
  - exact MagnetCases.thick_curved_idle.
  - exact (eq_trans MagnetCases.thick_curved_one (eq_sym (Rplus_0_l 1))).
Qed.
Print Assumptions C40_curvature_refuted.

Example C40_case :
  body (fun x (st : R * R) => (fst st + x, snd st)) (fun w st => (fst st, snd st + w)) false 2 100 3 (0, 0)
  = (3, 1) /\
  p_px (track_magnet false (1 / 2) (corrector 2 1 0 3 0 5 6 1) MagnetCases.at_rest) = 0 - 1 * (1 * 2 + 3) * (1 / 2) /\
  p_px (track_magnet false (1 / 2) (corrector 2 1 0 3 0 5 2 1) MagnetCases.at_rest) = 0 - 1 * (1 * 2 + 3) * (1 / 2).
Proof.
  split; [|split].
  - apply C40_totals; [right; left; reflexivity|discriminate].
  - apply (C40_strength 2 1 0 3 0 5 6 1 (1 / 2) MagnetCases.at_rest); [cbn; tauto|discriminate|discriminate| |].
    + split; discriminate.
    + apply Rdiv_lt_0_compat; prove_sup.
  - apply (C40_strength 2 1 0 3 0 5 2 1 (1 / 2) MagnetCases.at_rest); [cbn; tauto| |discriminate| |].
    + intros _. exact MagnetCases.strong_enough.
    + split; discriminate.
    + apply Rdiv_lt_0_compat; prove_sup.
Qed.

(** C42 *)
Theorem C42_thin_slices : forall g, mg_hxl g = 0 -> forall backtrack ws p,
  ws <> [] -> Forall (fun w => 0 < w) ws ->
  fold_left (fun q w => thin_slice backtrack w g q) ws p = thin_slice backtrack (fold_right Rplus 0 ws) g p.
Proof. exact ThinSlices.slices_sum. Qed.
Print Assumptions C42_thin_slices.

(** The slices of a curved thin multipole each apply the whole curvature. *)
Theorem C42_hxl_refuted : exists g p,
  mg_hxl g <> 0 /\
  p_px (thin_slice false (1 / 2) g (thin_slice false (1 / 2) g p)) = 2 /\ p_px (thin_slice false 1 g p) = 1.
Proof.
  exists MagnetCases.curved_multipole, MagnetCases.at_rest. split; [exact R1_neq_R0|].
  exact MagnetCases.curved_slices_differ.
Qed.
Print Assumptions C42_hxl_refuted.

Example C42_case : forall p, let g := MagnetCases.bend 2 (1 / 10) (1 / 10) 0 0 0 in
  thin_slice false (1 / 2) g (thin_slice false (1 / 2) g p) = thin_slice false (1 / 2 + (1 / 2 + 0)) g p.
Proof.
  intros p. apply (C42_thin_slices (MagnetCases.bend 2 (1 / 10) (1 / 10) 0 0 0) eq_refl false [1 / 2; 1 / 2] p); [discriminate|].
  repeat constructor; apply Rdiv_lt_0_compat; prove_sup.
Qed.

(** C43 *)
Theorem C43_field : forall kn ks dx dy psi x0 y0 kn' ks', kn <> [] ->
  feed_down kn ks dx dy psi x0 y0 None = Some (kn', ks') ->
  forall x y chi f w,
  let o := (length kn - 1)%nat in
  let X := cos psi * (x0 + x - dx) + sin psi * (y0 + y - dy) in
  let Y := - sin psi * (x0 + x - dx) + cos psi * (y0 + y - dy) in
  kick_coordinates x y chi (mkMult o (/ INR (fact o)) kn' ks') f w =
  turned psi (kick_coordinates X Y chi (mkMult o (/ INR (fact o)) kn ks) f w).
Proof. exact FeedDown.fd_kick. Qed.
Print Assumptions C43_field.

(** The same for tracking: a displaced and rolled multipole acts on a particle at an orbit like the
    multipole of the strengths of [feed_down] on the offset of the particle from the orbit. *)
Theorem C43_tracking : forall kn ks dx dy psi x0 y0 kn' ks', kn <> [] ->
  feed_down kn ks dx dy psi x0 y0 None = Some (kn', ks') ->
  forall synrad anchor p,
  let o := (length kn - 1)%nat in
  let moved := set_x (p_x p - x0) (set_y (p_y p - y0) p) in
  let q := track_aligned synrad (mkAlign dx dy 0 0 0 0 anchor psi) 0 0 false
             (fun bt => track_magnet bt 1 (thin_multipole o kn ks)) p in
  let r := track_magnet false 1 (thin_multipole o kn' ks') moved in
  p_px q = p_px r /\ p_py q = p_py r /\ p_x q = x0 + p_x r /\ p_y q = y0 + p_y r.
Proof. exact FeedDownTrack.fd_track. Qed.
Print Assumptions C43_tracking.

Theorem C43_truncated : forall kn ks dx dy psi x0 y0 mo full out,
  feed_down kn ks dx dy psi x0 y0 None = Some full ->
  feed_down kn ks dx dy psi x0 y0 (Some mo) = Some out ->
  fst out = firstn (S mo) (fst full) /\ snd out = firstn (S mo) (snd full).
Proof. exact FeedDown.fd_truncated. Qed.
Print Assumptions C43_truncated.

(** A displaced quadrupole has a dipole component. *)
Example C43_case : forall d, feed_down [0; 1] [0; 0] d 0 0 0 0 None = Some ([- d; 1], [0; 0]).
Proof. exact MagnetCases.displaced_quadrupole. Qed.
