From Coq Require Import Reals ZArith Lra Lia List Bool Arith.
From Verif.Model Require Import Maps Curved Magnet FeedDown.
From Verif.Spec Require Import Magnets.
From Verif.Proofs Require Import FrameMaps MagnetKick MagnetBack MagnetSum ThinSlices Cx FeedDown.
Import ListNotations.
Local Open Scope R_scope.

(** * The kick of a thin multipole *)
Lemma thin_multipole_kick o knl ksl bt p :
  let k := kick_coordinates (p_x p) (p_y p) (p_chi p) (mkMult o (/ INR (fact o)) knl ksl) 1 1 in
  track_magnet bt 1 (thin_multipole o knl ksl) p =
  kicked (if bt then - fst k else fst k) (if bt then - snd k else snd k) 0 p.
Proof.
  cbv zeta. change (track_magnet bt 1 (thin_multipole o knl ksl) p) with (thin_slice bt 1 (thin_multipole o knl ksl) p).
  rewrite slice_eq; [|reflexivity|lra]. cbv zeta.
  set (k := fwd_kick 1 _).
  assert (E : k = mkKp (0 * 1) (mkMult o (/ INR (fact o)) knl ksl) None 0 (1 * 1) 0 0 0 0 0 0 0 0 0 0 0 0 true) by reflexivity.
  assert (Hz : FZ k p = 0).
  { rewrite E. unfold FZ. cbn [kp_rot kp_h kp_length kp_hxl]. ring. }
  assert (Hh : htot k = 0).
  { rewrite E. unfold htot. cbn [kp_length kp_h kp_hxl]. destruct (is0 (0 * 1)); unfold Rdiv; ring. }
  assert (Hm : kc (p_x p) (p_y p) (p_chi p) (mainm k) 1 = (0, 0)).
  { rewrite E. unfold kc, kick_coordinates, mainm.
    cbn [kp_length kp_k0 kp_k1 kp_k2 kp_k3 kp_k0s kp_k1s kp_k2s kp_k3s mu_order mu_inv mu_knl mu_ksl nth
       kick_loop fst snd]. f_equal; ring. }
  assert (HX : FX k p = fst (kick_coordinates (p_x p) (p_y p) (p_chi p) (mkMult o (/ INR (fact o)) knl ksl) 1 1)).
  { unfold FX. rewrite Hh, Hm. rewrite E. unfold relx, kc. cbn [kp_length kp_factor kp_hxl kp_mult kp_rel kp_rot kp_h fst snd].
    rewrite (Rmult_1_l 1). ring. }
  assert (HY : FY k p = snd (kick_coordinates (p_x p) (p_y p) (p_chi p) (mkMult o (/ INR (fact o)) knl ksl) 1 1)).
  { unfold FY. rewrite Hh, Hm. rewrite E. unfold rely, kc. cbn [kp_length kp_factor kp_hxl kp_mult kp_rel kp_rot kp_h fst snd].
    rewrite (Rmult_1_l 1). ring. }
  rewrite HX, HY, Hz. destruct bt; f_equal; ring.
Qed.

(** * Shifts and rolls *)
Lemma roll_coords syn psi p :
  let q := S_ROTATE syn psi p in
  p_x q = cos psi * p_x p + sin psi * p_y p /\ p_y q = - sin psi * p_x p + cos psi * p_y p /\
  p_px q = cos psi * p_px p + sin psi * p_py p /\ p_py q = - sin psi * p_px p + cos psi * p_py p /\
  p_chi q = p_chi p.
Proof.
  cbv zeta. unfold S_ROTATE, is0. destruct (Req_EM_T psi 0) as [->|_].
  - rewrite cos_0, sin_0. repeat split; ring.
  - unfold srotation. destruct (syn && _); repeat split.
Qed.
Lemma roll_0 syn p : S_ROTATE syn 0 p = p.
Proof. unfold S_ROTATE, is0. destruct (Req_EM_T 0 0); congruence. Qed.
Lemma rots_0 syn p : X_ROTATE syn 0 p = p /\ Y_ROTATE syn 0 p = p /\ S_SHIFT 0 p = p.
Proof. unfold X_ROTATE, Y_ROTATE, S_SHIFT, is0. destruct (Req_EM_T 0 0); [repeat split|congruence]. Qed.

Lemma entry_roll syn dx dy anchor psi p :
  entry_straight syn dx dy 0 0 0 0 anchor psi false p = S_ROTATE syn psi (xyshift dx dy p).
Proof.
  unfold entry_straight, to_misaligned. rewrite cos_0, sin_0.
  replace (dx - anchor * 1 * 0) with dx by ring. replace (dy - anchor * 0) with dy by ring.
  replace (0 - anchor * (1 * 1 - 1)) with 0 by ring.
  rewrite roll_0. destruct (rots_0 syn (S_SHIFT 0 (xyshift dx dy p))) as (_ & -> & _).
  destruct (rots_0 syn (S_SHIFT 0 (xyshift dx dy p))) as (-> & _ & _).
  destruct (rots_0 syn (xyshift dx dy p)) as (_ & _ & ->). reflexivity.
Qed.
Lemma exit_roll syn dx dy anchor len psi p :
  exit_straight syn dx dy 0 0 0 0 anchor len psi false p = xyshift (- dx) (- dy) (S_ROTATE syn (- psi) p).
Proof.
  unfold exit_straight, from_misaligned. rewrite cos_0, sin_0, Ropp_0.
  replace ((anchor - len) * 1 * 0 - dx) with (- dx) by ring. replace ((anchor - len) * 0 - dy) with (- dy) by ring.
  replace ((anchor - len) * (1 * 1 - 1) - 0) with 0 by ring.
  rewrite roll_0. set (q := S_ROTATE syn (- psi) p).
  destruct (rots_0 syn q) as (-> & _ & _). destruct (rots_0 syn q) as (_ & -> & _). destruct (rots_0 syn q) as (_ & _ & ->).
  reflexivity.
Qed.

Section Track.
Variables (kn ks : list R) (dx dy psi x0 y0 : R) (kn' ks' : list R).
Hypothesis Hne : kn <> [].
Hypothesis Hfd : feed_down kn ks dx dy psi x0 y0 None = Some (kn', ks').

Lemma fd_track syn anchor p :
  let o := (length kn - 1)%nat in
  let moved := set_x (p_x p - x0) (set_y (p_y p - y0) p) in
  let q := track_aligned syn (mkAlign dx dy 0 0 0 0 anchor psi) 0 0 false
             (fun bt => track_magnet bt 1 (thin_multipole o kn ks)) p in
  let r := track_magnet false 1 (thin_multipole o kn' ks') moved in
  p_px q = p_px r /\ p_py q = p_py r /\ p_x q = x0 + p_x r /\ p_y q = y0 + p_y r.
Proof.
  cbv zeta. set (o := (length kn - 1)%nat).
  set (moved := set_x (p_x p - x0) (set_y (p_y p - y0) p)).
  rewrite (thin_multipole_kick o kn' ks' false moved).
  pose proof (fd_kick kn ks dx dy psi x0 y0 kn' ks' Hne Hfd (p_x p - x0) (p_y p - y0) (p_chi p) 1 1) as K.
  cbv zeta in K. fold o in K.
  change (p_x moved) with (p_x p - x0). change (p_y moved) with (p_y p - y0). change (p_chi moved) with (p_chi p).
  rewrite K. clear K.
  replace (x0 + (p_x p - x0) - dx) with (p_x p - dx) by ring.
  replace (y0 + (p_y p - y0) - dy) with (p_y p - dy) by ring.
  unfold track_aligned. cbn [al_x al_y al_s al_theta al_phi al_psi al_anchor al_tilt].
  destruct (rot_shift_active _) eqn:A.
  - rewrite entry_roll, exit_roll, thin_multipole_kick.
    set (e := S_ROTATE syn psi (xyshift dx dy p)).
    destruct (roll_coords syn psi (xyshift dx dy p)) as (E1 & E2 & E3 & E4 & E5). fold e in E1, E2, E3, E4, E5.
    change (p_x (xyshift dx dy p)) with (p_x p - dx) in *. change (p_y (xyshift dx dy p)) with (p_y p - dy) in *.
    change (p_px (xyshift dx dy p)) with (p_px p) in *. change (p_py (xyshift dx dy p)) with (p_py p) in *.
    change (p_chi (xyshift dx dy p)) with (p_chi p) in *.
    rewrite E1, E2, E5. set (F := kick_coordinates _ _ _ _ _ _).
    set (f := kicked (fst F) (snd F) 0 e).
    destruct (roll_coords syn (- psi) f) as (G1 & G2 & G3 & G4 & _).
    change (p_px (xyshift (- dx) (- dy) (S_ROTATE syn (- psi) f))) with (p_px (S_ROTATE syn (- psi) f)).
    change (p_py (xyshift (- dx) (- dy) (S_ROTATE syn (- psi) f))) with (p_py (S_ROTATE syn (- psi) f)).
    change (p_x (xyshift (- dx) (- dy) (S_ROTATE syn (- psi) f))) with (p_x (S_ROTATE syn (- psi) f) - - dx).
    change (p_y (xyshift (- dx) (- dy) (S_ROTATE syn (- psi) f))) with (p_y (S_ROTATE syn (- psi) f) - - dy).
    rewrite G1, G2, G3, G4, cos_neg, sin_neg.
    change (p_px f) with (p_px e + fst F). change (p_py f) with (p_py e + snd F).
    change (p_x f) with (p_x e). change (p_y f) with (p_y e).
    rewrite E1, E2, E3, E4. unfold turned, kicked, moved. pcbn.
    cbn [set_x set_y fst snd p_x p_y p_px p_py].
    pose proof (sin2_cos2 psi) as S. unfold Rsqr in S.
    assert (Sx : forall a, cos psi * cos psi * a + sin psi * sin psi * a = a)
      by (intros a; transitivity ((sin psi * sin psi + cos psi * cos psi) * a); [ring|rewrite S; ring]).
    repeat split.
    + rewrite <- (Sx (p_px p)) at 3. ring.
    + rewrite <- (Sx (p_py p)) at 3. ring.
    + pose proof (Sx (p_x p - dx)). lra.
    + pose proof (Sx (p_y p - dy)). lra.
  - unfold rot_shift_active in A. cbn [al_x al_y al_s al_theta al_phi al_psi al_anchor al_tilt] in A.
    assert (Z : dx = 0 /\ dy = 0 /\ psi = 0).
    { repeat (apply orb_false_elim in A; destruct A as [A ?]).
      repeat match goal with H : negb (is0 _) = false |- _ => apply negb_false_iff in H; apply is0_true in H end.
      auto. }
    destruct Z as (-> & -> & ->). rewrite thin_multipole_kick. rewrite cos_0, sin_0.
    replace (1 * (p_x p - 0) + 0 * (p_y p - 0)) with (p_x p) by ring.
    replace (- 0 * (p_x p - 0) + 1 * (p_y p - 0)) with (p_y p) by ring.
    set (F := kick_coordinates _ _ _ _ _ _). unfold turned, kicked, moved. pcbn.
    rewrite cos_0, sin_0. cbn [set_x set_y fst snd p_x p_y p_px p_py]. repeat split; ring.
Qed.
End Track.
