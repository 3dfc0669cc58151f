From Coq Require Import Reals ZArith Lra Lia List Bool.
From Verif.Model Require Import Maps Curved Survey.
From Verif.Spec Require Import Frames Poses Aligned Survey.
From Verif.Proofs Require Import Frames FrameMaps Misalign Curved Aligned Bends Survey.
Import ListNotations.
Local Open Scope R_scope.

Lemma turned_from sp M p q : proper M -> sees sp M (V3 0 0 0) p q -> sees_from sp (turned M) p q.
Proof.
  intros _ H. refine (sees_cast _ _ _ _ _ _ _ H _ _); cbn [turned rotn orig].
  - now rewrite transp_transp.
  - symmetry. apply app_0.
Qed.
Lemma shifted_from sp dx dy p : physical p -> sees_from sp (shifted dx dy) p (xyshift dx dy p).
Proof.
  intros Hp. refine (sees_cast _ _ _ _ _ _ _ (xyshift_sees sp dx dy p Hp) _ _); cbn [shifted rotn orig].
  - symmetry. apply transp_ident.
  - now rewrite transp_ident, app_ident.
Qed.
Lemma straight_from sp l p : physical p -> sees_from sp (straight l) p (ahead (- l) (drift_exact l p)).
Proof.
  intros Hp. refine (sees_cast _ _ _ _ _ _ _ (drift_shift_sees sp l p Hp) _ _); cbn [straight rotn orig].
  - symmetry. apply transp_ident.
  - now rewrite transp_ident, app_ident.
Qed.
Lemma atan2_unit s c : s * s + c * c = 1 -> sin (atan2 s c) = s /\ cos (atan2 s c) = c.
Proof.
  intros H. assert (c <> 0 \/ s <> 0) as N.
  { destruct (Req_dec c 0) as [->|]; [right; nra|now left]. }
  destruct (atan2_spec s c N) as (Hr & Hc & Hs).
  assert (E : sqrt (c * c + s * s) = 1) by (apply sqrt_square_pos; lra).
  rewrite Hc, Hs, E. split; field.
Qed.

Lemma physical_ahead a p : physical p -> physical (ahead a p).
Proof. intros H; exact H. Qed.
Lemma ahead_ahead a b p : ahead a (ahead b p) = ahead (a + b) p.
Proof. unfold ahead, add_s, set_s, add_zeta, set_zeta. pcbn. f_equal; ring. Qed.
Lemma ahead_none p : ahead 0 p = p.
Proof. unfold ahead, add_s, set_s, add_zeta, set_zeta. pcbn. rewrite <- (part_eta p) at 18. f_equal; ring. Qed.

Lemma forward_turned M p : forward (transp (rotn (turned M))) p = forward M p.
Proof. cbn [turned rotn]. now rewrite transp_transp. Qed.

Lemma forward_all_last rx ry rs l : forall M p, physical p -> forward M p ->
  forward_all rx ry rs l M p -> forward (mmul (turns rx ry rs l) M) p.
Proof.
  induction l as [|a l IH]; intros M p Hp H F; cbn [turns forward_all] in *.
  - now rewrite mmul_id_l.
  - destruct F as [F1 F2]. rewrite <- mmul_assoc. now apply IH.
Qed.

Lemma tracked_from sp e p : physical p -> free_ok sp e p ->
  sees_from sp (exit_of (surveyed e)) p (ahead (- free_length e) (tracked sp e p))
  /\ physical (tracked sp e p).
Proof.
  intros Hp Hok. destruct e as [l|l h f|s c|s c|s c|rx ry rs a b c|dx dy|dx dy];
    cbn [surveyed exit_of tracked free_length free_ok] in *.
  - rewrite plain_0. pose proof (straight_from sp l p Hp) as H. split; [exact H|].
    change (physical (ahead (- l) (drift_exact l p))). refine (from_physical _ _ _ _ H _ Hp).
    cbn [straight rotn]. rewrite transp_ident. now apply forward_ident.
  - destruct Hok as (Hl & Hh & Hc & F & Hs).
    assert (Hz : is0 (h * l) = false).
    { unfold is0. destruct (Req_EM_T (h * l) 0) as [E|]; [|reflexivity]. exfalso.
      apply Rmult_integral in E. tauto. }
    rewrite Hz.
    assert (Eb : bend_end l (h * l) f = pmul (tilt f) (pmul (arc (h * l) h) (tilt (- f)))).
    { unfold bend_end, arc. rewrite tilt_neg. do 3 f_equal.
      apply vec_eq; cbn [v_x v_y v_z]; field; auto. }
    rewrite Eb.
    pose proof (tilt_from sp f p Hp) as [T1 P1].
    set (p1 := S_ROTATE sp f p) in *.
    assert (F1 : forward (transp (rotn (arc (h * l) h))) p1).
    { apply (from_forward sp (tilt f) _ p p1 T1). cbn [pmul rotn tilt arc].
      rewrite transp_mmul, transp_transp. cbv [transp m_x m_y m_z v_x v_y v_z].
      replace (M3 _ _ _) with (Rot_y (- sin (h * l)) (cos (h * l))); [exact F|].
      unfold Rot_y. now rewrite Ropp_involutive. }
    assert (Hs1 : sp = true -> spin p1 = V3 0 0 0) by exact (from_spin0 _ _ _ _ Hs T1).
    pose proof (polar_from sp l h p1 P1 Hh Hc F1 Hs1) as T2.
    pose proof (from_physical _ _ _ _ T2 F1 P1) as P2.
    set (p2 := polar_drift l h p1) in *.
    assert (P2' : physical p2) by exact P2.
    pose proof (tilt_from sp (- f) p2 P2') as [T3 P3].
    split; [|exact P3].
    apply (from_trans _ _ _ _ _ _ (rigid_tilt f) T1).
    apply (from_trans _ _ _ _ _ _ (rigid_arc _ _) T2).
    now apply ahead_from.
  - destruct Hok as (Hu & Hc & F). destruct (atan2_unit s c Hu) as [-> ->].
    rewrite Ropp_0, ahead_none. assert (H : sees sp (Rot_x s c) (V3 0 0 0) p (XRotation_track sp false s c (s / c) p))
      by (apply xrotation_sees; auto).
    split; [apply turned_from; [now apply proper_Rot_x|exact H]|]. exact (sees_physical _ _ _ _ _ H F Hp).
  - destruct Hok as (Hu & Hc & F). destruct (atan2_unit s c Hu) as [-> ->].
    rewrite Ropp_0, ahead_none. assert (H : sees sp (Rot_y s c) (V3 0 0 0) p (YRotation_track sp false s c (s / c) p))
      by (apply yrotation_sees; auto).
    split; [apply turned_from; [now apply proper_Rot_y|exact H]|]. exact (sees_physical _ _ _ _ _ H F Hp).
  - destruct (atan2_unit s c Hok) as [-> ->].
    rewrite Ropp_0, ahead_none. assert (H : sees sp (Rot_s s c) (V3 0 0 0) p (SRotation_track sp false s c p))
      by (apply srotation_sees; auto).
    split; [apply turned_from; [now apply proper_Rot_s|exact H]|].
    exact (sees_physical _ _ _ _ _ H (forward_s _ _ _ Hp) Hp).
  - destruct Hok as (Hx & Hy & F). rewrite Ropp_0, ahead_none.
    pose proof (rotation_sees sp rx ry rs a b c p Hp Hx Hy F) as H.
    split; [apply turned_from; [apply proper_turns|exact H]|].
    refine (sees_physical _ _ _ _ _ H _ Hp).
    rewrite <- (mmul_id_r (turns _ _ _ _)). apply forward_all_last; [exact Hp|now apply forward_ident|exact F].
  - rewrite Ropp_0, ahead_none. pose proof (shifted_from sp dx dy p Hp) as H. split; [exact H|].
    refine (from_physical _ _ _ _ H _ Hp). cbn [shifted rotn]. rewrite transp_ident. now apply forward_ident.
  - rewrite Ropp_0, ahead_none. pose proof (shifted_from sp dx dy p Hp) as H. split; [exact H|].
    refine (from_physical _ _ _ _ H _ Hp). cbn [shifted rotn]. rewrite transp_ident. now apply forward_ident.
Qed.

Lemma line_from sp els : forall p, physical p -> line_ok sp els p ->
  sees_from sp (end_of (map surveyed els)) p (ahead (- free_total els) (tracked_line sp els p))
  /\ physical (tracked_line sp els p).
Proof.
  induction els as [|e els IH]; intros p Hp Hok; cbn [line_ok tracked_line map free_total fold_right] in *.
  - rewrite Ropp_0, ahead_none. split; [apply refl_from|exact Hp].
  - destruct Hok as [He Hok]. destruct (tracked_from sp e p Hp He) as [H1 P1].
    destruct (IH _ P1 Hok) as [H2 P2]. split; [|exact P2].
    unfold end_of. cbn [fold_left]. rewrite pmul_id_l.
    change (fold_left _ (map surveyed els) (exit_of (surveyed e))) with
      (prod false (exit_of (surveyed e)) (map surveyed els)).
    rewrite prod_mul. apply (from_trans _ _ _ _ _ _ (rigid_exit _) H1).
    rewrite prod_end. fold (free_total els).
    replace (- (free_length e + free_total els)) with (- free_length e + - free_total els) by ring.
    rewrite <- ahead_ahead. now apply ahead_from.
Qed.

Theorem track_survey sp els p X0 Y0 Z0 th ph ps i fs f g :
  physical p -> line_ok sp els p ->
  get_survey (map surveyed els) X0 Y0 Z0 th ph ps i false = Some fs ->
  nth_error fs 0 = Some f -> nth_error fs (length els) = Some g ->
  sees_from sp (pmul (pinv (place f)) (place g)) p
    (add_s (- free_total els) (add_zeta (- free_total els) (tracked_line sp els p))).
Proof.
  intros Hp Hok H Hf Hg. rewrite <- relative_place.
  rewrite (relative_end _ _ _ _ _ _ _ _ _ 0 (length els) _ _ H (Nat.le_0_l _) Hf Hg).
  cbn [skipn]. rewrite Nat.sub_0_r, <- (map_length surveyed), firstn_all.
  exact (proj1 (line_from sp els p Hp Hok)).
Qed.
