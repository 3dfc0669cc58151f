From Coq Require Import Reals ZArith Lra Psatz List Bool.
From Verif.Model Require Import Maps.
From Verif.Spec Require Import Frames.
From Verif.Proofs Require Import Frames FrameMaps.
Import ListNotations.
Local Open Scope R_scope.

(** * The Rotation element *)

Lemma Rot_x_0 : Rot_x (sin 0) (cos 0) = ident.
Proof. rewrite sin_0, cos_0. mring. Qed.
Lemma Rot_y_0 : Rot_y (sin 0) (cos 0) = ident.
Proof. rewrite sin_0, cos_0. mring. Qed.
Lemma Rot_s_0 : Rot_s (sin 0) (cos 0) = ident.
Proof. rewrite sin_0, cos_0. mring. Qed.

Lemma rotate_about_sees sp rx ry rs p a : physical p -> cos rx <> 0 -> cos ry <> 0 ->
  forward (turn rx ry rs a) p -> sees sp (turn rx ry rs a) v0 p (rotate_about sp rx ry rs p a).
Proof.
  intros Hp Cx Cy Hf. destruct a; cbn [turn rotate_about] in *.
  - destruct (is0 rx) eqn:E.
    + apply is0_true in E. subst rx. rewrite Rot_x_0. apply sees_refl.
    + apply xrotation_sees; auto. apply sc1.
  - destruct (is0 ry) eqn:E.
    + apply is0_true in E. subst ry. rewrite Rot_y_0. apply sees_refl.
    + apply yrotation_sees; auto. apply sc1.
  - destruct (is0 rs) eqn:E.
    + apply is0_true in E. subst rs. rewrite Rot_s_0. apply sees_refl.
    + apply srotation_sees; auto. apply sc1.
Qed.

Lemma forward_all_sees sp rx ry rs l M N e p q : sees sp M e p q ->
  (forward_all rx ry rs l N q <-> forward_all rx ry rs l (mmul N M) p).
Proof.
  intros H. revert N. induction l as [|a l IH]; intros N; cbn; [tauto|].
  rewrite mmul_assoc. rewrite (sees_forward _ _ _ _ _ _ H). rewrite <- (IH (mmul (turn rx ry rs a) N)).
  tauto.
Qed.

Lemma rotations_see sp rx ry rs l p : physical p -> cos rx <> 0 -> cos ry <> 0 ->
  forward_all rx ry rs l ident p ->
  sees sp (turns rx ry rs l) v0 p (fold_left (rotate_about sp rx ry rs) l p)
  /\ physical (fold_left (rotate_about sp rx ry rs) l p).
Proof.
  intros Hp Cx Cy. revert p Hp. induction l as [|a l IH]; intros p Hp Hf; cbn.
  - split; [apply sees_refl|exact Hp].
  - destruct Hf as [Hf Hl]. rewrite mmul_id_r in Hf.
    pose proof (rotate_about_sees sp rx ry rs p a Hp Cx Cy Hf) as H1.
    pose proof (sees_physical _ _ _ _ _ H1 Hf Hp) as Hq.
    destruct (IH _ Hq) as [H2 H3].
    { apply (forward_all_sees _ _ _ _ _ _ _ _ _ _ H1). rewrite mmul_id_l.
      rewrite mmul_id_r in Hl. exact Hl. }
    split; [|exact H3]. pose proof (sees_trans _ _ _ _ _ _ _ _ H1 H2) as H.
    now rewrite app_0, vadd_0_r in H.
Qed.

Lemma turn_neg rx ry rs a : turn (- rx) (- ry) (- rs) a = transp (turn rx ry rs a).
Proof.
  destruct a; cbn [turn]; rewrite sin_neg, cos_neg;
    [rewrite transp_Rot_x|rewrite transp_Rot_y|rewrite transp_Rot_s]; reflexivity.
Qed.
Lemma orth_turn rx ry rs a : orthogonal (turn rx ry rs a).
Proof.
  destruct a; cbn; [apply orth_Rot_x|apply orth_Rot_y|apply orth_Rot_s]; apply sc1.
Qed.

Lemma rotate_about_back sp rx ry rs p a : physical p -> cos rx <> 0 -> cos ry <> 0 ->
  forward (turn rx ry rs a) p ->
  rotate_about sp (- rx) (- ry) (- rs) (rotate_about sp rx ry rs p a) a = p.
Proof.
  intros Hp Cx Cy Hf.
  pose proof (rotate_about_sees sp rx ry rs p a Hp Cx Cy Hf) as H1.
  pose proof (sees_physical _ _ _ _ _ H1 Hf Hp) as Hq.
  assert (HM : mmul (turn (- rx) (- ry) (- rs) a) (turn rx ry rs a) = ident).
  { rewrite turn_neg. apply orth_turn. }
  assert (Hf' : forward (turn (- rx) (- ry) (- rs) a) (rotate_about sp rx ry rs p a)).
  { apply (sees_forward _ _ _ _ _ _ H1). rewrite HM. now apply forward_ident. }
  assert (Cx' : cos (- rx) <> 0) by now rewrite cos_neg.
  assert (Cy' : cos (- ry) <> 0) by now rewrite cos_neg.
  pose proof (rotate_about_sees sp (- rx) (- ry) (- rs) _ a Hq Cx' Cy' Hf') as H2.
  apply (sees_back _ _ _ _ _ _ _ _ Hp H1 H2 HM). rewrite app_0. apply vadd_0_r.
Qed.

Lemma rotations_back sp rx ry rs l p : physical p -> cos rx <> 0 -> cos ry <> 0 ->
  forward_all rx ry rs l ident p ->
  fold_left (rotate_about sp (- rx) (- ry) (- rs)) (rev l) (fold_left (rotate_about sp rx ry rs) l p) = p.
Proof.
  intros Hp Cx Cy. revert p Hp. induction l as [|a l IH]; intros p Hp Hf; cbn; [reflexivity|].
  destruct Hf as [Hf Hl]. rewrite mmul_id_r in Hf.
  pose proof (rotate_about_sees sp rx ry rs p a Hp Cx Cy Hf) as H1.
  pose proof (sees_physical _ _ _ _ _ H1 Hf Hp) as Hq.
  rewrite fold_left_app, (IH _ Hq).
  - cbn. now apply rotate_about_back.
  - apply (forward_all_sees _ _ _ _ _ _ _ _ _ _ H1). rewrite mmul_id_l.
    rewrite mmul_id_r in Hl. exact Hl.
Qed.

Lemma rotation_back sp (b : bool) rx ry rs a1 a2 a3 p : physical p -> cos rx <> 0 -> cos ry <> 0 ->
  (if b then forward_all (- rx) (- ry) (- rs) [a3; a2; a1] ident p
   else forward_all rx ry rs [a1; a2; a3] ident p) ->
  Rotation_track sp (negb b) rx ry rs a1 a2 a3 (Rotation_track sp b rx ry rs a1 a2 a3 p) = p.
Proof.
  intros Hp Cx Cy Hf. unfold Rotation_track. destruct b; cbn [negb].
  - pose proof (rotations_back sp (- rx) (- ry) (- rs) [a3; a2; a1] p Hp) as H.
    rewrite !Ropp_involutive, !cos_neg in H. cbn [rev app] in H. now apply H.
  - exact (rotations_back sp rx ry rs [a1; a2; a3] p Hp Cx Cy Hf).
Qed.

Lemma rotation_sees sp rx ry rs a1 a2 a3 p : physical p -> cos rx <> 0 -> cos ry <> 0 ->
  forward_all rx ry rs [a1; a2; a3] ident p ->
  sees sp (turns rx ry rs [a1; a2; a3]) v0 p (Rotation_track sp false rx ry rs a1 a2 a3 p).
Proof. intros. now apply rotations_see. Qed.

(** * Misalignments of straight elements *)

Lemma S_ROTATE_sees sp a p : physical p ->
  sees sp (Rot_s (sin a) (cos a)) v0 p (S_ROTATE sp a p) /\ physical (S_ROTATE sp a p).
Proof.
  intros Hp. assert (H : sees sp (Rot_s (sin a) (cos a)) v0 p (S_ROTATE sp a p)).
  { unfold S_ROTATE. destruct (is0 a) eqn:E.
    - apply is0_true in E. subst a. rewrite Rot_s_0. apply sees_refl.
    - apply srotation_sees; [exact Hp|apply sc1]. }
  split; [exact H|]. exact (sees_physical _ _ _ _ _ H (forward_s _ _ _ Hp) Hp).
Qed.
Lemma Y_ROTATE_sees sp a p : physical p -> cos a <> 0 -> forward (Rot_y (sin a) (cos a)) p ->
  sees sp (Rot_y (sin a) (cos a)) v0 p (Y_ROTATE sp a p) /\ physical (Y_ROTATE sp a p).
Proof.
  intros Hp C F. assert (H : sees sp (Rot_y (sin a) (cos a)) v0 p (Y_ROTATE sp a p)).
  { unfold Y_ROTATE. destruct (is0 a) eqn:E.
    - apply is0_true in E. subst a. rewrite Rot_y_0. apply sees_refl.
    - apply yrotation_sees; auto. apply sc1. }
  split; [exact H|]. exact (sees_physical _ _ _ _ _ H F Hp).
Qed.
Lemma X_ROTATE_sees sp a p : physical p -> cos a <> 0 -> forward (Rot_x (- sin a) (cos a)) p ->
  sees sp (Rot_x (- sin a) (cos a)) v0 p (X_ROTATE sp a p) /\ physical (X_ROTATE sp a p).
Proof.
  intros Hp C F. assert (H : sees sp (Rot_x (- sin a) (cos a)) v0 p (X_ROTATE sp a p)).
  { unfold X_ROTATE. destruct (is0 a) eqn:E.
    - apply is0_true in E. subst a. rewrite sin_0, cos_0.
      replace (Rot_x (- 0) 1) with ident by mring. apply sees_refl.
    - apply xrotation_sees; auto.
      + pose proof (sc1 a). nra.
      + unfold tan. field. exact C. }
  split; [exact H|]. exact (sees_physical _ _ _ _ _ H F Hp).
Qed.

Lemma S_SHIFT_sees' sp a p : physical p ->
  sees sp ident (V3 0 0 a) p (S_SHIFT a p) /\ physical (S_SHIFT a p).
Proof.
  intros Hp. pose proof (S_SHIFT_sees sp a p Hp) as H. split; [exact H|].
  exact (sees_physical _ _ _ _ _ H (forward_ident _ Hp) Hp).
Qed.
Lemma xyshift_sees' sp a b p : physical p ->
  sees sp ident (V3 a b 0) p (xyshift a b p) /\ physical (xyshift a b p).
Proof.
  intros Hp. pose proof (xyshift_sees sp a b p Hp) as H. split; [exact H|].
  exact (sees_physical _ _ _ _ _ H (forward_ident _ Hp) Hp).
Qed.

Lemma sees_cast sp M e M' e' p q : sees sp M e p q -> M = M' -> e = e' -> sees sp M' e' p q.
Proof. intros H -> ->. exact H. Qed.

Ltac vsimp := repeat rewrite ?app_0, ?vadd_0_r, ?vadd_0_l, ?app_ident, ?mmul_id_l, ?mmul_id_r, <- ?mmul_assoc in *.

Lemma to_misaligned_sees sp mx my ms th ph ps pf p : physical p -> can_enter th ph p ->
  sees sp (attitude th ph ps pf) (app (attitude th ph ps pf) (V3 mx my ms)) p
       (to_misaligned sp mx my ms th ph ps pf p)
  /\ physical (to_misaligned sp mx my ms th ph ps pf p).
Proof.
  intros Hp (C1 & C2 & F1 & F2). unfold to_misaligned.
  destruct (xyshift_sees' sp mx my p Hp) as [H1 P1]. set (p1 := xyshift mx my p) in *.
  destruct (S_SHIFT_sees' sp ms p1 P1) as [H2 P2]. set (p2 := S_SHIFT ms p1) in *.
  pose proof (sees_trans _ _ _ _ _ _ _ _ H1 H2) as H12. vsimp.
  assert (G1 : forward (Rot_y (sin th) (cos th)) p2).
  { apply (sees_forward _ _ _ _ _ _ H12). vsimp. exact F1. }
  destruct (Y_ROTATE_sees sp th p2 P2 C1 G1) as [H3 P3]. set (p3 := Y_ROTATE sp th p2) in *.
  pose proof (sees_trans _ _ _ _ _ _ _ _ H12 H3) as H13. vsimp.
  assert (G2 : forward (Rot_x (- sin ph) (cos ph)) p3).
  { apply (sees_forward _ _ _ _ _ _ H13). vsimp. exact F2. }
  destruct (X_ROTATE_sees sp ph p3 P3 C2 G2) as [H4 P4]. set (p4 := X_ROTATE sp ph p3) in *.
  pose proof (sees_trans _ _ _ _ _ _ _ _ H13 H4) as H14. vsimp.
  destruct (S_ROTATE_sees sp ps p4 P4) as [H5 P5]. set (p5 := S_ROTATE sp ps p4) in *.
  pose proof (sees_trans _ _ _ _ _ _ _ _ H14 H5) as H15. vsimp.
  destruct (S_ROTATE_sees sp pf p5 P5) as [H6 P6].
  pose proof (sees_trans _ _ _ _ _ _ _ _ H15 H6) as H16. vsimp.
  split; [|exact P6]. apply (sees_cast _ _ _ _ _ _ _ H16).
  - reflexivity.
  - unfold attitude. rewrite !app_mmul. do 4 f_equal. apply vec_eq; vunf; ring.
Qed.

Lemma attitude_transp th ph ps pf :
  transp (attitude th ph ps pf) =
  mmul (Rot_y (sin (- th)) (cos (- th))) (mmul (Rot_x (- sin (- ph)) (cos (- ph)))
    (mmul (Rot_s (sin (- ps)) (cos (- ps))) (Rot_s (sin (- pf)) (cos (- pf))))).
Proof.
  unfold attitude. rewrite !transp_mmul, transp_Rot_s, transp_Rot_s, transp_Rot_x, transp_Rot_y.
  rewrite !sin_neg, !cos_neg, <- !mmul_assoc. reflexivity.
Qed.

Lemma orth_attitude th ph ps pf : orthogonal (attitude th ph ps pf).
Proof.
  unfold attitude. repeat apply orth_mmul.
  - apply orth_Rot_s, sc1.
  - apply orth_Rot_s, sc1.
  - apply orth_Rot_x. pose proof (sc1 ph). nra.
  - apply orth_Rot_y, sc1.
Qed.

Lemma from_misaligned_sees sp mx my ms th ph ps pf p : physical p -> can_leave th ph ps pf p ->
  sees sp (transp (attitude th ph ps pf)) (V3 mx my ms) p
       (from_misaligned sp mx my ms (- th) (- ph) (- ps) (- pf) p)
  /\ physical (from_misaligned sp mx my ms (- th) (- ph) (- ps) (- pf) p).
Proof.
  intros Hp (C1 & C2 & F1 & F2). unfold from_misaligned. rewrite attitude_transp in *.
  destruct (S_ROTATE_sees sp (- pf) p Hp) as [H1 P1]. set (p1 := S_ROTATE sp (- pf) p) in *.
  destruct (S_ROTATE_sees sp (- ps) p1 P1) as [H2 P2]. set (p2 := S_ROTATE sp (- ps) p1) in *.
  pose proof (sees_trans _ _ _ _ _ _ _ _ H1 H2) as H12. vsimp.
  assert (C2' : cos (- ph) <> 0) by now rewrite cos_neg.
  assert (C1' : cos (- th) <> 0) by now rewrite cos_neg.
  assert (G1 : forward (Rot_x (- sin (- ph)) (cos (- ph))) p2).
  { apply (sees_forward _ _ _ _ _ _ H12). rewrite !sin_neg, !cos_neg, Ropp_involutive. exact F1. }
  destruct (X_ROTATE_sees sp (- ph) p2 P2 C2' G1) as [H3 P3]. set (p3 := X_ROTATE sp (- ph) p2) in *.
  pose proof (sees_trans _ _ _ _ _ _ _ _ H12 H3) as H13. vsimp.
  assert (G2 : forward (Rot_y (sin (- th)) (cos (- th))) p3).
  { apply (sees_forward _ _ _ _ _ _ H13). vsimp. exact F2. }
  destruct (Y_ROTATE_sees sp (- th) p3 P3 C1' G2) as [H4 P4]. set (p4 := Y_ROTATE sp (- th) p3) in *.
  pose proof (sees_trans _ _ _ _ _ _ _ _ H13 H4) as H14. vsimp.
  destruct (S_SHIFT_sees' sp ms p4 P4) as [H5 P5]. set (p5 := S_SHIFT ms p4) in *.
  pose proof (sees_trans _ _ _ _ _ _ _ _ H14 H5) as H15. vsimp.
  destruct (xyshift_sees' sp mx my p5 P5) as [H6 P6].
  pose proof (sees_trans _ _ _ _ _ _ _ _ H15 H6) as H16. vsimp.
  split; [|exact P6]. apply (sees_cast _ _ _ _ _ _ _ H16).
  - reflexivity.
  - apply vec_eq; vunf; ring.
Qed.

(** what one sees after entering can leave *)
Lemma enter_leave sp th ph ps pf e p q : physical p -> can_enter th ph p ->
  sees sp (attitude th ph ps pf) e p q -> can_leave th ph ps pf q.
Proof.
  intros Hp (C1 & C2 & F1 & F2) H. repeat split; try assumption.
  - apply (sees_forward _ _ _ _ _ _ H). 
    replace (mmul (mmul (Rot_x (sin ph) (cos ph)) (mmul (Rot_s (- sin ps) (cos ps)) (Rot_s (- sin pf) (cos pf))))
               (attitude th ph ps pf)) with (Rot_y (sin th) (cos th)); [exact F1|].
    unfold attitude. rewrite <- !mmul_assoc.
    rewrite (mmul_assoc (Rot_s (- sin pf) (cos pf))).
    rewrite <- (transp_Rot_s (sin pf)), (proj1 (orth_Rot_s _ _ (sc1 pf))), mmul_id_l.
    rewrite (mmul_assoc (Rot_s (- sin ps) (cos ps))).
    rewrite <- (transp_Rot_s (sin ps)), (proj1 (orth_Rot_s _ _ (sc1 ps))), mmul_id_l.
    rewrite mmul_assoc. replace (mmul (Rot_x (sin ph) (cos ph)) (Rot_x (- sin ph) (cos ph))) with ident.
    + now rewrite mmul_id_l.
    + symmetry. rewrite <- transp_Rot_x. apply orth_Rot_x, sc1.
  - apply (sees_forward _ _ _ _ _ _ H). rewrite (proj1 (orth_attitude th ph ps pf)).
    now apply forward_ident.
Qed.

Lemma leave_enter sp th ph ps pf e p q : physical p -> can_leave th ph ps pf p ->
  sees sp (transp (attitude th ph ps pf)) e p q -> can_enter th ph q.
Proof.
  intros Hp (C1 & C2 & F1 & F2) H. repeat split; try assumption.
  - apply (sees_forward _ _ _ _ _ _ H).
    replace (mmul (Rot_y (sin th) (cos th)) (transp (attitude th ph ps pf))) with
      (mmul (Rot_x (sin ph) (cos ph)) (mmul (Rot_s (- sin ps) (cos ps)) (Rot_s (- sin pf) (cos pf))));
      [exact F1|].
    unfold attitude. rewrite !transp_mmul, !transp_Rot_s, transp_Rot_x, Ropp_involutive.
    rewrite <- !mmul_assoc, (mmul_assoc (Rot_y _ _)).
    rewrite (proj2 (orth_Rot_y _ _ (sc1 th))), mmul_id_l. reflexivity.
  - apply (sees_forward _ _ _ _ _ _ H).
    unfold forward. replace (v_z _) with (v_z (app (attitude th ph ps pf)
       (app (transp (attitude th ph ps pf)) (momentum p)))).
    + rewrite <- app_mmul, (proj2 (orth_attitude th ph ps pf)). rewrite app_ident.
      now apply momentum_pos, Hp.
    + rewrite app_mmul. unfold attitude at 1. rewrite !app_mmul.
      set (v := app (Rot_x (- sin ph) (cos ph)) _). vunf. ring.
Qed.

Lemma to_from sp mx my ms th ph ps pf p : physical p -> can_enter th ph p ->
  from_misaligned sp (- mx) (- my) (- ms) (- th) (- ph) (- ps) (- pf)
    (to_misaligned sp mx my ms th ph ps pf p) = p.
Proof.
  intros Hp Hc. destruct (to_misaligned_sees sp mx my ms th ph ps pf p Hp Hc) as [H1 P1].
  pose proof (enter_leave _ _ _ _ _ _ _ _ Hp Hc H1) as Hl.
  destruct (from_misaligned_sees sp (- mx) (- my) (- ms) th ph ps pf _ P1 Hl) as [H2 P2].
  apply (sees_back _ _ _ _ _ _ _ _ Hp H1 H2).
  - apply orth_attitude.
  - rewrite <- app_mmul, (proj1 (orth_attitude th ph ps pf)). rewrite app_ident.
    apply vec_eq; unfold v0; vunf; ring.
Qed.

Lemma from_to sp mx my ms th ph ps pf p : physical p -> can_leave th ph ps pf p ->
  to_misaligned sp (- mx) (- my) (- ms) th ph ps pf
    (from_misaligned sp mx my ms (- th) (- ph) (- ps) (- pf) p) = p.
Proof.
  intros Hp Hc. destruct (from_misaligned_sees sp mx my ms th ph ps pf p Hp Hc) as [H1 P1].
  pose proof (leave_enter _ _ _ _ _ _ _ _ Hp Hc H1) as Hl.
  destruct (to_misaligned_sees sp (- mx) (- my) (- ms) th ph ps pf _ P1 Hl) as [H2 P2].
  apply (sees_back _ _ _ _ _ _ _ _ Hp H1 H2).
  - apply orth_attitude.
  - rewrite <- app_add. replace (vadd _ _) with v0; [apply app_0|].
    apply vec_eq; unfold v0; vunf; ring.
Qed.

Lemma entry_back sp dx dy ds th ph ps an pf p : physical p -> can_enter th ph p ->
  entry_straight sp dx dy ds th ph ps an pf true (entry_straight sp dx dy ds th ph ps an pf false p) = p.
Proof. intros. unfold entry_straight. now apply to_from. Qed.

Lemma exit_back sp dx dy ds th ph ps an L pf p : physical p -> can_leave th ph ps pf p ->
  exit_straight sp dx dy ds th ph ps an L pf true (exit_straight sp dx dy ds th ph ps an L pf false p) = p.
Proof. intros. unfold exit_straight. now apply from_to. Qed.

(** Shifting [s] and [zeta] commutes with the frames. *)
Definition ahead (a : R) (p : part) : part := add_s a (add_zeta a p).

Lemma ahead_sees sp M e a p q : sees sp M e p q -> sees sp M e (ahead a p) (ahead a q).
Proof.
  intros (l & Hm & Hp & Hz & Hs & Hr). exists l.
  split; [exact Hm|]. split; [exact Hp|]. split; [|split; [exact Hs|]].
  - unfold ahead, add_s, set_s, add_zeta, set_zeta. pcbn. rewrite Hz. ring.
  - unfold same_rest, ahead, add_s, set_s, add_zeta, set_zeta in *. pcbn.
    destruct Hr as (-> & Hr). split; [reflexivity|exact Hr].
Qed.
Lemma ahead_physical a p : physical p -> physical (ahead a p).
Proof. intros H. exact H. Qed.

(** the drift inside a misaligned frame *)
Lemma misaligned_drift sp dx dy ds th ph ps an L pf p : physical p -> can_enter th ph p ->
  exit_straight sp dx dy ds th ph ps an L pf false
    (drift_exact L (entry_straight sp dx dy ds th ph ps an pf false p))
  = drift_exact L p.
Proof.
  intros Hp Hc. unfold exit_straight, entry_straight.
  set (mx := dx - an * cos ph * sin th). set (my := dy - an * sin ph).
  set (ms := ds - an * (cos ph * cos th - 1)).
  destruct (to_misaligned_sees sp mx my ms th ph ps pf p Hp Hc) as [H1 P1].
  set (p1 := to_misaligned sp mx my ms th ph ps pf p) in *.
  destruct (drift_exact_ray sp L p1 P1) as (p2 & H2 & E2). rewrite E2. fold (ahead L p2).
  pose proof (sees_trans _ _ _ _ _ _ _ _ H1 H2) as H12. rewrite app_ident, mmul_id_l in H12.
  assert (P2 : physical p2) by exact (sees_physical _ _ _ _ _ H2 (forward_ident _ P1) P1).
  pose proof (enter_leave _ _ _ _ _ _ _ _ Hp Hc H12) as Hl.
  set (nx := (an - L) * cos ph * sin th - dx). set (ny := (an - L) * sin ph - dy).
  set (ns := (an - L) * (cos ph * cos th - 1) - ds).
  destruct (from_misaligned_sees sp nx ny ns th ph ps pf p2 P2 Hl) as [H3 P3].
  destruct (from_misaligned_sees sp nx ny ns th ph ps pf (ahead L p2) P2 Hl) as [H3' _].
  pose proof (sees_trans _ _ _ _ _ _ _ _ H12 H3) as H13.
  rewrite (proj1 (orth_attitude th ph ps pf)), app_add, <- app_mmul,
    (proj1 (orth_attitude th ph ps pf)), app_ident in H13.
  destruct (drift_exact_ray sp L p Hp) as (q & Hq & Eq). rewrite Eq. fold (ahead L q).
  transitivity (ahead L (from_misaligned sp nx ny ns (- th) (- ph) (- ps) (- pf) p2)).
  - refine (sees_unique _ _ _ _ _ _ _ H3' (ahead_sees _ _ _ L _ _ H3)).
    apply Rgt_not_eq. apply Hl.
  - f_equal. refine (sees_unique _ _ _ _ _ _ _ H13 _).
    + rewrite app_ident. apply Rgt_not_eq. now apply momentum_pos, Hp.
    + apply (sees_cast _ _ _ _ _ _ _ Hq); [reflexivity|].
      unfold attitude, nx, ny, ns, mx, my, ms.
      rewrite !transp_mmul, !app_mmul.
      replace (app (transp (Rot_s (sin pf) (cos pf))) (V3 0 0 L)) with (V3 0 0 L)
        by (apply vec_eq; vunf; ring).
      replace (app (transp (Rot_s (sin ps) (cos ps))) (V3 0 0 L)) with (V3 0 0 L)
        by (apply vec_eq; vunf; ring).
      apply vec_eq; mcbv; ring.
Qed.

(** consecutive slices of a misaligned element: leaving one and entering the next cancels *)
Lemma slices_join sp dx dy ds th ph ps an l pf p : physical p -> can_leave th ph ps pf p ->
  entry_straight sp dx dy ds th ph ps (an - l) pf false
    (exit_straight sp dx dy ds th ph ps an l pf false p) = p.
Proof.
  intros Hp Hl. unfold entry_straight, exit_straight.
  pose proof (from_to sp ((an - l) * cos ph * sin th - dx) ((an - l) * sin ph - dy)
    ((an - l) * (cos ph * cos th - 1) - ds) th ph ps pf p Hp Hl) as H.
  rewrite !Ropp_minus_distr in H. exact H.
Qed.
