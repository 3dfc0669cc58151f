From Coq Require Import Reals ZArith List Bool Lra Lia.
From Verif.Model Require Import Maps Curved Magnet.
From Verif.Spec Require Import Frames Magnets Symplectic.
From Verif.Proofs Require Import Frames FrameMaps Magnet MagnetKick MagnetDrift MagnetBack.
From Verif.Proofs Require Import Symplectic SympMagnet SympBend SympSolenoid SympQuad.
Import ListNotations.
Local Open Scope R_scope.

Lemma symp_kin f p : kinematic p -> symplectic f p -> kinematic (f p).
Proof.
  intros K [_ [J [H _]]]. destruct (fam_const p K) as [Fc Mc].
  destruct (H _ _ Fc Mc) as [F _]. exact (fam_kin _ _ F).
Qed.

Lemma symp_nested l k0 h last cs : forall p, kinematic p -> nested_ok l k0 h cs last p ->
  symplectic (nested l k0 h cs last) p.
Proof.
  induction cs as [|[d k] cs IH]; intros p K H; cbn [nested nested_ok] in *.
  - now apply symp_polar.
  - destruct H as [H1 H2].
    assert (S1 : symplectic (polar_drift (d * l) h) p) by now apply symp_polar.
    assert (S2 : symplectic (fun q => px_kick k k0 l (polar_drift (d * l) h q)) p).
    { apply (symp_comp (polar_drift (d * l) h) (px_kick k k0 l)); [exact S1|apply symp_px_kick]. }
    apply (symp_comp (fun q => px_kick k k0 l (polar_drift (d * l) h q)) (nested l k0 h cs last)); [exact S2|].
    apply IH; [exact (symp_kin _ _ K S2)|]. exact H2.
Qed.

Lemma set_axy p a b : symplectic (fun q => set_ay b (set_ax a q)) p.
Proof.
  apply (symp_keeps _ _ (fun u => u)).
  - intros q. repeat split.
  - reflexivity.
  - intros c u _ (H1 & H2 & H3 & H4 & H5 & _). repeat split; assumption.
  - reflexivity.
Qed.

Lemma chi_const (f g : part -> part) p k0 : kinematic p ->
  (forall q, k0 * p_chi q = k0 * p_chi p -> f q = g q) -> symplectic g p -> symplectic f p.
Proof.
  intros K E. apply symp_near_chi. intros q Hq. apply E. now rewrite Hq.
Qed.

Lemma symp_drift d l p : kinematic p -> can_drift d l p -> symplectic (magnet_drift d l) p.
Proof.
  intros K. destruct d as [m k0 k1 ks h x0 y0]. unfold can_drift, magnet_drift.
  cbn [dp_model dp_k0 dp_k1 dp_ks dp_h dp_x0 dp_y0].
  intros H. destruct (Z.eqb_spec m (-1)); [apply symp_id|].
  destruct (is0 l) eqn:E0; [apply symp_id|].
  assert (Hl : l <> 0) by (unfold is0 in E0; destruct (Req_EM_T l 0); congruence).
  specialize (H Hl). clear E0 Hl.
  destruct (Z.eqb_spec m 0) as [->|]. { now apply symp_drift_expanded. }
  destruct (Z.eqb_spec m 1) as [->|]. { now apply symp_drift_exact. }
  destruct (Z.eqb_spec m 2) as [->|]. { now apply symp_polar. }
  destruct (Z.eqb_spec m 3) as [->|]. { now apply symp_combined. }
  destruct (Z.eqb_spec m 4) as [->|].
  { destruct H as [[H1 H2]|[H1 H2]].
    - apply (chi_const _ (polar_drift l h) p k0 K); [|now apply symp_polar].
      intros q Hq. unfold curved_exact_bend. rewrite Hq. unfold tiny. destruct (Rlt_dec _ _); [reflexivity|contradiction].
    - apply symp_curved_bend; [exact K|lra|exact H2]. }
  destruct (Z.eqb_spec m 5) as [->|].
  { destruct H as [H1 H2]. destruct (Rlt_dec (Rabs (k0 * p_chi p)) (/ 100000000)) as [Ht|Ht].
    - apply (chi_const _ (drift_exact l) p k0 K); [|now apply symp_drift_exact].
      intros q Hq. unfold straight_exact_bend. rewrite Hq. unfold tiny. destruct (Rlt_dec _ _); [reflexivity|contradiction].
    - apply symp_straight_bend; [now split|exact Ht|exact H2]. }
  destruct (Z.eqb_spec m 6) as [->|].
  { destruct H as [[H1 H2]|[H1 H2]].
    - apply (symp_ext (fun q => set_ay 0 (set_ax 0 (drift_exact l q)))).
      + intros q. unfold solenoid, IS_ZERO. destruct (Rlt_dec (Rabs (ks / 2)) _); [reflexivity|contradiction].
      + apply (symp_comp (drift_exact l) (fun q => set_ay 0 (set_ax 0 q))); [now apply symp_drift_exact|apply set_axy].
    - destruct (Rlt_dec (Rabs l) (/ 1000000000)) as [Hs|Hs].
      + apply (symp_ext (fun q => q)); [|apply symp_id]. intros q. unfold solenoid, IS_ZERO.
        destruct (Rlt_dec (Rabs (ks / 2)) _); [lra|]. destruct (Rlt_dec (Rabs l) _); [reflexivity|contradiction].
      + apply symp_solenoid; [exact K|lra|exact Hs|exact H2]. }
  destruct (Z.eqb_spec m 7) as [->|]. { now apply symp_nested. }
  destruct (Z.eqb_spec m 8) as [->|]. { now apply symp_nested. }
  apply symp_id.
Qed.

(** * The body *)
Lemma symp_run d k l : forall p P, kinematic p ->
  snd (run (see_drift d) (watch_kick k) l (p, P)) ->
  P /\ symplectic (run (magnet_drift d) (magnet_kick k) l) p.
Proof.
  induction l as [|o l IH]; intros p P K H.
  - split; [exact H|apply symp_id].
  - change (snd (run (see_drift d) (watch_kick k) l (step (see_drift d) (watch_kick k) (p, P) o))) in H.
    assert (HS : forall q, run (magnet_drift d) (magnet_kick k) l (step (magnet_drift d) (magnet_kick k) q o)
                  = run (magnet_drift d) (magnet_kick k) (o :: l) q) by reflexivity.
    destruct o as [x|w]; cbn [step see_drift watch_kick fst snd] in H.
    + assert (HF : forall Q, kinematic p -> snd (run (see_drift d) (watch_kick k) l (magnet_drift d x p, Q)) -> Q).
      { clear. intros Q _. revert Q. generalize (magnet_drift d x p). induction l as [|o l IH]; intros q Q H; [exact H|].
        destruct o as [x'|w']; cbn in H; apply IH in H; [exact (proj1 H)|exact H]. }
      pose proof (HF _ K H) as [HP Hf]. split; [exact HP|].
      assert (S1 := symp_drift d x p K Hf).
      destruct (IH _ _ (symp_kin _ _ K S1) H) as [_ S2].
      exact (symp_ext _ _ p HS (symp_comp (magnet_drift d x) _ p S1 S2)).
    + assert (S1 := symp_magnet_kick k w p K).
      destruct (IH _ _ (symp_kin _ _ K S1) H) as [HP S2]. split; [exact HP|].
      exact (symp_ext _ _ p HS (symp_comp (magnet_kick k w) _ p S1 S2)).
Qed.

Lemma turned_eq k : turned k = scale (-1) k.
Proof. unfold turned, scale. f_equal; ring. Qed.

Lemma symp_magnet back w g p : kinematic p -> goes_through back w g p ->
  symplectic (track_magnet back w g) p.
Proof.
  intros K H. unfold goes_through in H. rewrite body_run in H. destruct back.
  - apply (symp_ext (run (magnet_drift (fwd_drift g)) (magnet_kick (turned (fwd_kick w g)))
      (body_ops (fwd_only_drift w g) (used_integrator g) (used_kicks g w (mg_length g * w)) (- (mg_length g * w))))).
    + intros q. rewrite track_bwd, body_run, turned_eq. reflexivity.
    + exact (proj2 (symp_run _ _ _ _ _ K H)).
  - apply (symp_ext (run (magnet_drift (fwd_drift g)) (magnet_kick (fwd_kick w g))
      (body_ops (fwd_only_drift w g) (used_integrator g) (used_kicks g w (mg_length g * w)) (mg_length g * w)))).
    + intros q. rewrite track_fwd, body_run. reflexivity.
    + exact (proj2 (symp_run _ _ _ _ _ K H)).
Qed.
