From Coq Require Import Reals ZArith Lra Lia List Bool.
From Verif.Model Require Import Maps Curved Magnet.
From Verif.Spec Require Import Frames Magnets.
From Verif.Proofs Require Import Frames FrameMaps Magnet MagnetKick MagnetDrift.
Import ListNotations.
Local Open Scope R_scope.

Lemma is0_neg l : is0 (- l) = is0 l.
Proof. unfold is0. destruct (Req_EM_T l 0), (Req_EM_T (- l) 0); try reflexivity; lra. Qed.

Lemma nested4_rev L : rev (nested_ops L nested4 nested4_last) = nested_ops L nested4 nested4_last.
Proof. reflexivity. Qed.
Lemma nested6_rev L : rev (nested_ops L nested6 d0) = nested_ops L nested6 d0.
Proof. reflexivity. Qed.

Lemma drift_back d l p : drift_ok d l p -> magnet_drift d (- l) (magnet_drift d l p) = p.
Proof.
  destruct d as [m k0 k1 ks h x0 y0]. unfold drift_ok, magnet_drift. cbn [dp_model dp_k0 dp_k1 dp_ks dp_h dp_x0 dp_y0].
  intros H. destruct (Z.eqb_spec m (-1)); [reflexivity|].
  rewrite is0_neg. destruct (is0 l) eqn:E0; [reflexivity|].
  assert (Hl : l <> 0) by (unfold is0 in E0; destruct (Req_EM_T l 0); congruence).
  specialize (H Hl). clear E0 Hl.
  destruct (Z.eqb_spec m 0) as [->|].
  { rewrite drift_expanded_add, Rplus_opp_r. apply drift_expanded_0. }
  destruct (Z.eqb_spec m 1) as [->|].
  { rewrite drift_exact_add, Rplus_opp_r. apply drift_exact_0. }
  destruct (Z.eqb_spec m 2) as [->|]. { now apply polar_back. }
  destruct (Z.eqb_spec m 3) as [->|]. { now apply combined_back. }
  destruct (Z.eqb_spec m 4) as [->|]. { now apply curved_back. }
  destruct (Z.eqb_spec m 5) as [->|]. { apply straight_bend_back. }
  destruct (Z.eqb_spec m 6) as [->|]. { now apply solenoid_back. }
  destruct (Z.eqb_spec m 7) as [->|]. { apply nested_back; [exact nested4_rev|exact H]. }
  destruct (Z.eqb_spec m 8) as [->|]. { apply nested_back; [exact nested6_rev|exact H]. }
  reflexivity.
Qed.

Lemma track_fwd w g p :
  track_magnet false w g p =
  body (magnet_drift (fwd_drift g)) (magnet_kick (fwd_kick w g)) (fwd_only_drift w g) (used_integrator g)
    (used_kicks g w (mg_length g * w)) (mg_length g * w) p.
Proof.
  unfold track_magnet, fwd_drift, fwd_only_drift, fwd_kick.
  destruct (config _ _ _ _ _) as [[[[a b] c] d] [[[[[e f] i] j] k] rot]]. reflexivity.
Qed.

Lemma kicks_neg g w L : used_kicks g w (- L) = used_kicks g w L.
Proof. unfold used_kicks. now rewrite Rabs_Ropp. Qed.

Lemma scale_neg_eq k L f hxl : L = -1 * kp_length k -> f = -1 * kp_factor k -> hxl = -1 * kp_hxl k ->
  mkKp L (kp_mult k) (kp_rel k) (kp_ref k) f (kp_k0 k) (kp_k1 k) (kp_k2 k) (kp_k3 k)
    (kp_k0s k) (kp_k1s k) (kp_k2s k) (kp_k3s k) (kp_h k) hxl (kp_k0h k) (kp_k1h k) (kp_rot k) = scale (-1) k.
Proof. intros -> -> ->. reflexivity. Qed.

Lemma track_bwd w g p :
  track_magnet true w g p =
  body (magnet_drift (fwd_drift g)) (magnet_kick (scale (-1) (fwd_kick w g))) (fwd_only_drift w g)
    (used_integrator g) (used_kicks g w (mg_length g * w)) (- (mg_length g * w)) p.
Proof.
  unfold track_magnet.
  replace (- mg_length g * w) with (- (mg_length g * w)) by ring. rewrite kicks_neg.
  unfold fwd_only_drift, fwd_drift.
  assert (E : match config (drift_model_of (used_model g) (mg_h g)) (mg_k0 g) (mg_k1 g) (mg_h g) (mg_ks g) with
    | (_, (k0, k1, h, k0h, k1h, rot)) =>
      mkKp (- (mg_length g * w)) (mg_mult g) (mg_rel g) (mg_ref g) (- 1 * w)
        k0 k1 (mg_k2 g) (mg_k3 g) (mg_k0s g) (mg_k1s g) (mg_k2s g) (mg_k3s g) h (- mg_hxl g) k0h k1h rot end
    = scale (-1) (fwd_kick w g)).
  { unfold fwd_kick. destruct (config _ _ _ _ _) as [[[[a b] c] d] [[[[[e f] i] j] k] rot]].
    unfold scale. cbn [kp_length kp_factor kp_hxl kp_mult kp_rel kp_ref kp_k0 kp_k1 kp_k2 kp_k3 kp_k0s kp_k1s
      kp_k2s kp_k3s kp_h kp_k0h kp_k1h kp_rot].
    f_equal; ring. }
  rewrite <- E. unfold fwd_kick.
  destruct (config _ _ _ _ _) as [[[[a b] c] d] [[[[[e f] i] j] k] rot]]. reflexivity.
Qed.

Lemma magnet_back w g p : passes w g p -> track_magnet true w g (track_magnet false w g p) = p.
Proof.
  intros H. rewrite track_bwd, track_fwd.
  apply (body_back (magnet_drift (fwd_drift g)) (magnet_kick (fwd_kick w g))
           (magnet_kick (scale (-1) (fwd_kick w g))) (drift_ok (fwd_drift g))).
  - intros l a. apply drift_back.
  - intros w' a. apply kick_back.
  - unfold passes, passes_body in H. rewrite body_run in H. apply watched in H. tauto.
Qed.

(** Magnets through which every particle passes *)
Lemma all_ok_true {A} (drift kick : R -> A -> A) (ok : R -> A -> Prop) ops a :
  (forall l a, ok l a) -> all_ok drift kick ok ops a.
Proof. intros H. revert a. induction ops as [|o t IH]; intros a; cbn; [exact I|]. destruct o; auto. Qed.
Lemma easy_passes w g p :
  match drift_model_of (used_model g) (mg_h g) with (-1)%Z | 0%Z | 1%Z | 5%Z => True | _ => False end ->
  passes w g p.
Proof.
  intros H. unfold passes, passes_body. rewrite body_run. apply watched. split; [exact I|].
  apply all_ok_true. intros l a. unfold drift_ok, fwd_drift.
  set (dm := drift_model_of (used_model g) (mg_h g)) in *.
  assert (E : dp_model (match config dm (mg_k0 g) (mg_k1 g) (mg_h g) (mg_ks g) with
     | (k0, k1, h, ks, _) => mkDp dm k0 k1 ks h (mg_x0 g) (mg_y0 g) end) = dm).
  { destruct (config _ _ _ _ _) as [[[[? ?] ?] ?] ?]. reflexivity. }
  rewrite E. intros _. destruct dm as [|q|q]; [exact I| |]; 
    repeat (destruct q as [q|q|]; try exact I; try contradiction).
Qed.
