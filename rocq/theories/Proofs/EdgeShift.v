From Coq Require Import Reals ZArith List Bool Lra Lia.
From Verif.Model Require Import Maps Curved Magnet.
From Verif.Spec Require Import Frames Magnets.
From Verif.Proofs Require Import FrameMaps Magnet MagnetBack.
Import ListNotations.
Local Open Scope R_scope.

(** Moving s and zeta by the same amount commutes with the bodies of the magnets. *)
Definition shift (d : R) (p : part) : part := add_zeta d (add_s d p).

Definition shifts (f : part -> part) : Prop := forall d p, f (shift d p) = shift d (f p).

Ltac flat := cbv [shift add_zeta add_s add_px add_py add_x add_y set_x set_y set_px set_py set_zeta set_s
  p_x p_px p_y p_py p_zeta p_s p_delta p_ptau p_rpp p_rvv p_chi p_beta0 p_ax p_ay p_spin_x p_spin_y p_spin_z].
Ltac sh := intros d p; destruct p; flat; f_equal; ring.

Lemma sh_expanded l : shifts (drift_expanded l).
Proof. intros d p. destruct p. cbv [drift_expanded]. flat. f_equal; ring. Qed.
Lemma sh_exact l : shifts (drift_exact l).
Proof. intros d p. destruct p. cbv [drift_exact]. flat. f_equal; ring. Qed.
Lemma sh_six d l z py y px x p : add_s l (add_zeta z (set_py py (set_y y (set_px px (set_x x (shift d p))))))
  = shift d (add_s l (add_zeta z (set_py py (set_y y (set_px px (set_x x p)))))).
Proof. destruct p. flat. f_equal; ring. Qed.
Lemma sh_five d l z y px x p : add_s l (add_zeta z (set_y y (set_px px (set_x x (shift d p)))))
  = shift d (add_s l (add_zeta z (set_y y (set_px px (set_x x p))))).
Proof. destruct p. flat. f_equal; ring. Qed.
Lemma sh_add d l z y px x p : add_s l (add_zeta z (set_y y (set_px px (add_x x (shift d p)))))
  = shift d (add_s l (add_zeta z (set_y y (set_px px (add_x x p))))).
Proof. destruct p. flat. f_equal; ring. Qed.
Ltac see d p :=
  change (p_x (shift d p)) with (p_x p); change (p_y (shift d p)) with (p_y p);
  change (p_px (shift d p)) with (p_px p); change (p_py (shift d p)) with (p_py p);
  change (p_rvv (shift d p)) with (p_rvv p); change (p_delta (shift d p)) with (p_delta p);
  change (p_chi (shift d p)) with (p_chi p).
Lemma sh_polar l h : shifts (polar_drift l h).
Proof. intros d p. unfold polar_drift. see d p. cbv zeta. apply sh_five. Qed.
Lemma sh_combined l a b h : shifts (combined_dipole_quad l a b h).
Proof. intros d p. unfold combined_dipole_quad. see d p. cbv zeta. apply sh_six. Qed.
Lemma sh_curved l k h : shifts (curved_exact_bend l k h).
Proof.
  intros d p. unfold curved_exact_bend. see d p. destruct (tiny _); [apply sh_polar|]. cbv zeta. apply sh_add.
Qed.
Lemma sh_straight l k : shifts (straight_exact_bend l k).
Proof.
  intros d p. unfold straight_exact_bend. see d p. destruct (tiny _); [apply sh_exact|]. cbv zeta. apply sh_five.
Qed.
Lemma sh_solenoid l k a b : shifts (solenoid l k a b).
Proof.
  intros d p. unfold solenoid. destruct (IS_ZERO (k / 2)); [rewrite sh_exact; reflexivity|]. destruct (IS_ZERO l); [reflexivity|].
  see d p. cbv zeta. rewrite sh_six. reflexivity.
Qed.
Lemma sh_px a k l : shifts (px_kick a k l).
Proof. intros d p. reflexivity. Qed.
Lemma sh_nested l k h c z : shifts (nested l k h c z).
Proof.
  induction c as [|[a b] c IH]; intros d p; cbn [nested]; [apply sh_polar|]. now rewrite sh_polar, sh_px, IH.
Qed.
Lemma sh_drift g l : shifts (magnet_drift g l).
Proof.
  intros d p. unfold magnet_drift. cbv zeta. generalize nested4 nested6 nested4_last d0. intros n4 n6 z4 z6.
  repeat match goal with |- context [if ?b then _ else _] => destruct b end;
  match goal with
  | |- drift_expanded _ _ = _ => apply sh_expanded
  | |- drift_exact _ _ = _ => apply sh_exact
  | |- polar_drift _ _ _ = _ => apply sh_polar
  | |- combined_dipole_quad _ _ _ _ _ = _ => apply sh_combined
  | |- curved_exact_bend _ _ _ _ = _ => apply sh_curved
  | |- straight_exact_bend _ _ _ = _ => apply sh_straight
  | |- solenoid _ _ _ _ _ = _ => apply sh_solenoid
  | |- nested _ _ _ _ _ _ = _ => apply sh_nested
  | |- _ => reflexivity
  end.
Qed.
Lemma sh_simple m a b : shifts (kick_simple m a b).
Proof. intros d p. unfold kick_simple. change (p_x (shift d p)) with (p_x p). change (p_y (shift d p)) with (p_y p).
  change (p_chi (shift d p)) with (p_chi p). destruct (kick_coordinates _ _ _ _ _ _). reflexivity. Qed.
Lemma sh_kick k w : shifts (magnet_kick k w).
Proof.
  intros d p. unfold magnet_kick. cbv zeta. change (p_x (shift d p)) with (p_x p). change (p_y (shift d p)) with (p_y p).
  change (p_chi (shift d p)) with (p_chi p). rewrite sh_simple. set (p1 := kick_simple _ _ _ p).
  assert (E : match kp_rel k with None => shift d p1 | Some m => kick_simple m (kp_factor k * kp_ref k) w (shift d p1) end
    = shift d (match kp_rel k with None => p1 | Some m => kick_simple m (kp_factor k * kp_ref k) w p1 end)).
  { destruct (kp_rel k); [apply sh_simple|reflexivity]. }
  rewrite E. set (p2 := match kp_rel k with None => p1 | Some m => _ end). rewrite sh_simple. set (p3 := kick_simple _ _ _ p2).
  change (p_delta (shift d p3)) with (p_delta p3). change (p_rvv (shift d p3)) with (p_rvv p3).
  generalize (p_delta p3) (p_rvv p3). intros. destruct p3. flat. f_equal. ring.
Qed.
Lemma sh_magnet back w g : shifts (track_magnet back w g).
Proof.
  intros d p. unfold track_magnet. cbv zeta.
  destruct (config _ _ _ _ _) as [[[[? ?] ?] ?] [[[[[? ?] ?] ?] ?] ?]]. rewrite !body_run.
  match goal with |- run _ _ ?l _ = _ => generalize l end. intros l. revert p. induction l as [|o l IH]; intros p; [reflexivity|].
  unfold run in *. cbn [fold_left]. rewrite <- IH. f_equal. destruct o; [apply sh_drift|apply sh_kick].
Qed.
