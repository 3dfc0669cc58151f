From Coq Require Import Reals ZArith Lra Psatz List Bool.
From Verif.Model Require Import Maps.
From Verif.Spec Require Import Frames.
From Verif.Proofs Require Import Frames.
Import ListNotations.
Local Open Scope R_scope.

(** * Algebra of frames *)

Lemma mat_eq A B : m_x A = m_x B -> m_y A = m_y B -> m_z A = m_z B -> A = B.
Proof. destruct A, B; cbn. intros -> -> ->. reflexivity. Qed.

Ltac mdestr := repeat match goal with
  | M : mat |- _ => destruct M as [[? ? ?] [? ? ?] [? ? ?]]
  | v : vec |- _ => destruct v as [? ? ?]
  end.
Ltac mcbv := cbv [mmul transp app vadd vsub vscale dot ident Rot_x Rot_y Rot_s m_x m_y m_z v_x v_y v_z].
Ltac mring := mdestr; apply mat_eq; apply vec_eq; mcbv; ring.

Lemma mmul_assoc A B C : mmul A (mmul B C) = mmul (mmul A B) C.
Proof. mring. Qed.
Lemma mmul_id_l A : mmul ident A = A.
Proof. mring. Qed.
Lemma mmul_id_r A : mmul A ident = A.
Proof. mring. Qed.
Lemma transp_mmul A B : transp (mmul A B) = mmul (transp B) (transp A).
Proof. mring. Qed.
Lemma transp_transp A : transp (transp A) = A.
Proof. mring. Qed.
Lemma transp_ident : transp ident = ident.
Proof. reflexivity. Qed.

Definition orthogonal (M : mat) : Prop := mmul (transp M) M = ident /\ mmul M (transp M) = ident.

Lemma orth_mmul A B : orthogonal A -> orthogonal B -> orthogonal (mmul A B).
Proof.
  intros [A1 A2] [B1 B2]. split; rewrite transp_mmul.
  - rewrite mmul_assoc, <- (mmul_assoc (transp B)), A1, mmul_id_r. exact B1.
  - rewrite mmul_assoc, <- (mmul_assoc A), B2, mmul_id_r. exact A2.
Qed.
Lemma orth_transp A : orthogonal A -> orthogonal (transp A).
Proof. intros [H1 H2]. split; rewrite transp_transp; assumption. Qed.
Lemma orth_ident : orthogonal ident.
Proof. split; rewrite transp_ident; apply mmul_id_l. Qed.

Lemma transp_Rot_x s c : transp (Rot_x s c) = Rot_x (- s) c.
Proof. mring. Qed.
Lemma transp_Rot_y s c : transp (Rot_y s c) = Rot_y (- s) c.
Proof. mring. Qed.
Lemma transp_Rot_s s c : transp (Rot_s s c) = Rot_s (- s) c.
Proof. mring. Qed.

Lemma orth_Rot_x s c : s * s + c * c = 1 -> orthogonal (Rot_x s c).
Proof. intros H. split; rewrite transp_Rot_x; apply mat_eq; apply vec_eq; mcbv; lra. Qed.
Lemma orth_Rot_y s c : s * s + c * c = 1 -> orthogonal (Rot_y s c).
Proof. intros H. split; rewrite transp_Rot_y; apply mat_eq; apply vec_eq; mcbv; lra. Qed.
Lemma orth_Rot_s s c : s * s + c * c = 1 -> orthogonal (Rot_s s c).
Proof. intros H. split; rewrite transp_Rot_s; apply mat_eq; apply vec_eq; mcbv; lra. Qed.

Lemma sc1 a : sin a * sin a + cos a * cos a = 1.
Proof. pose proof (sin2_cos2 a) as H. unfold Rsqr in H. exact H. Qed.

Definition v0 : vec := V3 0 0 0.
Lemma vadd_0_r a : vadd a v0 = a.
Proof. apply vec_eq; unfold v0; vunf; ring. Qed.
Lemma vadd_0_l a : vadd v0 a = a.
Proof. apply vec_eq; unfold v0; vunf; ring. Qed.
Lemma app_0 M : app M v0 = v0.
Proof. apply vec_eq; unfold v0; vunf; ring. Qed.

Lemma sees_refl sp p : sees sp ident v0 p p.
Proof.
  exists 0. rewrite !app_ident. split; [reflexivity|]. split; [|split; [|split]].
  - apply vec_eq; unfold v0; vunf; ring.
  - unfold Rdiv. ring.
  - destruct sp; reflexivity.
  - apply same_rest_refl.
Qed.

Lemma forward_ident p : physical p -> forward ident p.
Proof. intros [_ H]. unfold forward. rewrite app_ident. now apply momentum_pos. Qed.

Lemma sees_back sp M e M' e' p q r :
  physical p -> sees sp M e p q -> sees sp M' e' q r ->
  mmul M' M = ident -> vadd (app M' e) e' = v0 -> r = p.
Proof.
  intros Hp H1 H2 HM He. pose proof (sees_trans _ _ _ _ _ _ _ _ H1 H2) as H.
  rewrite HM, He in H. apply (sees_unique sp ident v0 p r p); [|exact H|apply sees_refl].
  apply Rgt_not_eq. now apply forward_ident.
Qed.

(** * Drifts *)

Ltac pcbn := cbn [p_x p_px p_y p_py p_zeta p_s p_delta p_ptau p_rpp p_rvv p_chi p_beta0 p_ax p_ay
  p_spin_x p_spin_y p_spin_z].

Lemma drift_expanded_eq L p : drift_expanded L p =
  let dz := 1 - 1 / p_rvv p * (1 + (p_px p * p_rpp p * (p_px p * p_rpp p) + p_py p * p_rpp p * (p_py p * p_rpp p)) / 2) in
  mkPart (p_x p + p_px p * p_rpp p * L) (p_px p) (p_y p + p_py p * p_rpp p * L) (p_py p)
    (p_zeta p + L * dz) (p_s p + L) (p_delta p) (p_ptau p) (p_rpp p) (p_rvv p) (p_chi p) (p_beta0 p)
    (p_ax p) (p_ay p) (p_spin_x p) (p_spin_y p) (p_spin_z p).
Proof. reflexivity. Qed.
Lemma drift_exact_eq L p : drift_exact L p =
  let w := 1 / sqrt ((1 + p_delta p) * (1 + p_delta p) - p_px p * p_px p - p_py p * p_py p) in
  mkPart (p_x p + p_px p * w * L) (p_px p) (p_y p + p_py p * w * L) (p_py p)
    (p_zeta p + (1 - 1 / p_rvv p * (1 + p_delta p) * w) * L) (p_s p + L) (p_delta p) (p_ptau p)
    (p_rpp p) (p_rvv p) (p_chi p) (p_beta0 p)
    (p_ax p) (p_ay p) (p_spin_x p) (p_spin_y p) (p_spin_z p).
Proof. reflexivity. Qed.

Lemma drift_expanded_add a b p : drift_expanded b (drift_expanded a p) = drift_expanded (a + b) p.
Proof.
  rewrite (drift_expanded_eq b), (drift_expanded_eq a), (drift_expanded_eq (a + b)). pcbn. cbv zeta.
  f_equal; ring.
Qed.
Lemma drift_exact_add a b p : drift_exact b (drift_exact a p) = drift_exact (a + b) p.
Proof.
  rewrite (drift_exact_eq b), (drift_exact_eq a), (drift_exact_eq (a + b)). pcbn. cbv zeta.
  f_equal; ring.
Qed.
Lemma part_eta p : mkPart (p_x p) (p_px p) (p_y p) (p_py p) (p_zeta p) (p_s p) (p_delta p) (p_ptau p)
  (p_rpp p) (p_rvv p) (p_chi p) (p_beta0 p) (p_ax p) (p_ay p) (p_spin_x p) (p_spin_y p) (p_spin_z p) = p.
Proof. destruct p. reflexivity. Qed.
Lemma drift_expanded_0 p : drift_expanded 0 p = p.
Proof. etransitivity; [|apply part_eta]. rewrite drift_expanded_eq. cbv zeta. f_equal; ring. Qed.
Lemma drift_exact_0 p : drift_exact 0 p = p.
Proof. etransitivity; [|apply part_eta]. rewrite drift_exact_eq. cbv zeta. f_equal; ring. Qed.

Lemma run_drift_add ue m a b p : run_drift ue m b (run_drift ue m a p) = run_drift ue m (a + b) p.
Proof.
  unfold run_drift. set (k := if ue then 2%Z else if (m =? 0)%Z then 1%Z else m).
  destruct (k =? 1)%Z; [|destruct (k =? 2)%Z].
  - apply drift_expanded_add.
  - apply drift_exact_add.
  - reflexivity.
Qed.

Lemma run_drift_0 ue m p : run_drift ue m 0 p = p.
Proof.
  unfold run_drift. set (k := if ue then 2%Z else if (m =? 0)%Z then 1%Z else m).
  destruct (k =? 1)%Z; [|destruct (k =? 2)%Z].
  - apply drift_expanded_0.
  - apply drift_exact_0.
  - reflexivity.
Qed.

Lemma drift_compose ue b m L1 L2 p :
  Drift_track ue b m L2 (Drift_track ue b m L1 p) = Drift_track ue b m (L1 + L2) p.
Proof.
  unfold Drift_track. rewrite run_drift_add. f_equal. destruct b; ring.
Qed.

Lemma drift_back ue b m L p : Drift_track ue (negb b) m L (Drift_track ue b m L p) = p.
Proof.
  unfold Drift_track. rewrite run_drift_add. rewrite <- (run_drift_0 ue m p) at 2. f_equal.
  destruct b; cbn; ring.
Qed.

Lemma drift_slices ue b m L ws p :
  fold_left (fun q w => DriftSlice_track ue b m L w q) ws p
  = Drift_track ue b m (fold_right Rplus 0 ws * L) p.
Proof.
  revert p; induction ws as [|w ws IH]; intros p; cbn [fold_left fold_right].
  - unfold Drift_track. rewrite <- (run_drift_0 ue m p) at 1. f_equal. destruct b; ring.
  - rewrite IH. unfold DriftSlice_track, Drift_track. rewrite run_drift_add. f_equal.
    destruct b; ring.
Qed.

Lemma drift_slices_whole ue b m L ws p : fold_right Rplus 0 ws = 1 ->
  fold_left (fun q w => DriftSlice_track ue b m L w q) ws p = Drift_track ue b m L p.
Proof. intros H. rewrite drift_slices, H. now rewrite Rmult_1_l. Qed.

Lemma drift_slice_back ue b m L w p :
  DriftSlice_track ue (negb b) m L w (DriftSlice_track ue b m L w p) = p.
Proof.
  unfold DriftSlice_track. rewrite run_drift_add. rewrite <- (run_drift_0 ue m p) at 2. f_equal.
  destruct b; cbn; ring.
Qed.

Lemma drift_exact_ray sp L p : physical p ->
  exists q, sees sp ident (V3 0 0 L) p q /\ drift_exact L p = add_s L (add_zeta L q).
Proof.
  intros H. exists (add_s (- L) (add_zeta (- L) (drift_exact L p))). split.
  - now apply drift_shift_sees.
  - rewrite drift_exact_eq. cbv zeta. unfold add_s, set_s, add_zeta, set_zeta. pcbn. f_equal; ring.
Qed.

Lemma drift_on_axis ue b m m' L p : kinematic p -> p_px p = 0 -> p_py p = 0 ->
  (m = 0 \/ m = 1 \/ m = 2)%Z -> (m' = 0 \/ m' = 1 \/ m' = 2)%Z ->
  Drift_track ue b m L p = Drift_track ue b m' L p.
Proof.
  intros Hk Hx Hy.
  assert (E : forall l, drift_expanded l p = drift_exact l p).
  { intros l. destruct Hk as (_ & Hd & _ & _ & _ & Hr).
    assert (S : sqrt ((1 + p_delta p) * (1 + p_delta p) - 0 * 0 - 0 * 0) = 1 + p_delta p).
    { apply sqrt_square_pos; [lra|ring]. }
    rewrite drift_expanded_eq, drift_exact_eq. cbv zeta. rewrite Hx, Hy, Hr, S.
    f_equal; try (field; lra).
    replace (1 / p_rvv p * (1 + p_delta p) * (1 / (1 + p_delta p))) with (1 / p_rvv p)
      by (unfold Rdiv; rewrite Rmult_assoc; rewrite !Rmult_1_l; rewrite Rinv_r by lra; ring).
    unfold Rdiv. ring. }
  intros H1 H2. unfold Drift_track, run_drift. destruct ue; [reflexivity|].
  destruct H1 as [->|[->| ->]], H2 as [->|[->| ->]]; cbn; congruence.
Qed.

(** * Rotations *)

Lemma if_sq (b : bool) s c : s * s + c * c = 1 ->
  (if b then - s else s) * (if b then - s else s) + c * c = 1.
Proof. destruct b; nra. Qed.

Definition signed (b : bool) (a : R) : R := if b then - a else a.

Lemma signed_negb b a : signed (negb b) a = - signed b a.
Proof. destruct b; cbn; ring. Qed.

Lemma srotation_back sp b s c p : physical p -> s * s + c * c = 1 ->
  SRotation_track sp (negb b) s c (SRotation_track sp b s c p) = p.
Proof.
  intros Hp Hsc. unfold SRotation_track. fold (signed b s). fold (signed (negb b) s).
  rewrite signed_negb. set (u := signed b s).
  assert (Hu : u * u + c * c = 1) by (unfold u, signed; destruct b; nra).
  pose proof (srotation_sees sp u c p Hp Hu) as H1.
  assert (Hq : physical (srotation sp u c p)).
  { apply (sees_physical _ _ _ _ _ H1); [|exact Hp]. destruct Hp as [Hk Hz].
    unfold forward. vunf. pose proof (sqrt_lt_R0 _ Hz). lra. }
  assert (Hu' : - u * - u + c * c = 1) by nra.
  pose proof (srotation_sees sp (- u) c _ Hq Hu') as H2.
  apply (sees_back _ _ _ _ _ _ _ _ Hp H1 H2).
  - rewrite <- transp_Rot_s. apply (orth_Rot_s _ _ Hu).
  - rewrite app_0. apply vadd_0_r.
Qed.

Lemma xrotation_back sp (b : bool) s c t p : physical p -> s * s + c * c = 1 -> c <> 0 -> t = s / c ->
  forward (Rot_x (if b then - s else s) c) p ->
  XRotation_track sp (negb b) s c t (XRotation_track sp b s c t p) = p.
Proof.
  intros Hp Hsc Hc Ht Hf. unfold XRotation_track. fold (signed b s) in *. fold (signed (negb b) s).
  fold (signed b t). fold (signed (negb b) t).
  rewrite !signed_negb. set (u := signed b s) in *. set (v := signed b t).
  assert (Hu : u * u + c * c = 1) by (unfold u, signed; destruct b; nra).
  assert (Hv : v = u / c) by (unfold v, u, signed; subst t; destruct b; field; exact Hc).
  pose proof (xrotation_sees sp u c v p Hp Hu Hc Hv Hf) as H1.
  pose proof (sees_physical _ _ _ _ _ H1 Hf Hp) as Hq.
  assert (Hu' : - u * - u + c * c = 1) by nra.
  assert (Hv' : - v = - u / c) by (rewrite Hv; field; exact Hc).
  assert (HM : mmul (Rot_x (- u) c) (Rot_x u c) = ident).
  { rewrite <- transp_Rot_x. apply (orth_Rot_x _ _ Hu). }
  assert (Hf' : forward (Rot_x (- u) c) (xrotation sp u c v p)).
  { apply (sees_forward _ _ _ _ _ _ H1). rewrite HM. now apply forward_ident. }
  pose proof (xrotation_sees sp (- u) c (- v) _ Hq Hu' Hc Hv' Hf') as H2.
  apply (sees_back _ _ _ _ _ _ _ _ Hp H1 H2 HM).
  rewrite app_0. apply vadd_0_r.
Qed.

Lemma yrotation_back sp (b : bool) s c t p : physical p -> s * s + c * c = 1 -> c <> 0 -> t = s / c ->
  forward (Rot_y (if b then - s else s) c) p ->
  YRotation_track sp (negb b) s c t (YRotation_track sp b s c t p) = p.
Proof.
  intros Hp Hsc Hc Ht Hf. unfold YRotation_track. fold (signed b s) in *. fold (signed (negb b) s).
  fold (signed b t). fold (signed (negb b) t).
  rewrite !signed_negb. set (u := signed b s) in *. set (v := signed b t).
  assert (Hu : u * u + c * c = 1) by (unfold u, signed; destruct b; nra).
  assert (Hv : v = u / c) by (unfold v, u, signed; subst t; destruct b; field; exact Hc).
  pose proof (yrotation_sees sp u c v p Hp Hu Hc Hv Hf) as H1.
  pose proof (sees_physical _ _ _ _ _ H1 Hf Hp) as Hq.
  assert (Hu' : - u * - u + c * c = 1) by nra.
  assert (Hv' : - v = - u / c) by (rewrite Hv; field; exact Hc).
  assert (HM : mmul (Rot_y (- u) c) (Rot_y u c) = ident).
  { rewrite <- transp_Rot_y. apply (orth_Rot_y _ _ Hu). }
  assert (Hf' : forward (Rot_y (- u) c) (yrotation sp u c v p)).
  { apply (sees_forward _ _ _ _ _ _ H1). rewrite HM. now apply forward_ident. }
  pose proof (yrotation_sees sp (- u) c (- v) _ Hq Hu' Hc Hv' Hf') as H2.
  apply (sees_back _ _ _ _ _ _ _ _ Hp H1 H2 HM).
  rewrite app_0. apply vadd_0_r.
Qed.

(** composition of rotations about one axis *)
Lemma Rot_x_add a b : mmul (Rot_x (sin b) (cos b)) (Rot_x (sin a) (cos a)) = Rot_x (sin (a + b)) (cos (a + b)).
Proof. rewrite sin_plus, cos_plus. mring. Qed.
Lemma Rot_y_add a b : mmul (Rot_y (sin b) (cos b)) (Rot_y (sin a) (cos a)) = Rot_y (sin (a + b)) (cos (a + b)).
Proof. rewrite sin_plus, cos_plus. mring. Qed.
Lemma Rot_s_add a b : mmul (Rot_s (sin b) (cos b)) (Rot_s (sin a) (cos a)) = Rot_s (sin (a + b)) (cos (a + b)).
Proof. rewrite sin_plus, cos_plus. mring. Qed.

Lemma forward_s s c p : physical p -> forward (Rot_s s c) p.
Proof. intros [_ Hz]. unfold forward. vunf. pose proof (sqrt_lt_R0 _ Hz). lra. Qed.

Lemma srotation_add sp a b p : physical p ->
  srotation sp (sin b) (cos b) (srotation sp (sin a) (cos a) p) = srotation sp (sin (a + b)) (cos (a + b)) p.
Proof.
  intros Hp. pose proof (srotation_sees sp _ _ p Hp (sc1 a)) as H1.
  pose proof (sees_physical _ _ _ _ _ H1 (forward_s _ _ _ Hp) Hp) as Hq.
  pose proof (srotation_sees sp _ _ _ Hq (sc1 b)) as H2.
  pose proof (sees_trans _ _ _ _ _ _ _ _ H1 H2) as H.
  rewrite Rot_s_add, app_0, vadd_0_r in H.
  refine (sees_unique _ _ _ _ _ _ _ H (srotation_sees sp _ _ p Hp (sc1 (a + b)))).
  apply Rgt_not_eq. now apply forward_s.
Qed.

Lemma xrotation_add sp a b p : physical p ->
  cos a <> 0 -> cos b <> 0 -> cos (a + b) <> 0 ->
  forward (Rot_x (sin a) (cos a)) p -> forward (Rot_x (sin (a + b)) (cos (a + b))) p ->
  xrotation sp (sin b) (cos b) (tan b) (xrotation sp (sin a) (cos a) (tan a) p)
  = xrotation sp (sin (a + b)) (cos (a + b)) (tan (a + b)) p.
Proof.
  intros Hp Ha Hb Hab Fa Fab.
  pose proof (xrotation_sees sp _ _ (tan a) p Hp (sc1 a) Ha eq_refl Fa) as H1.
  pose proof (sees_physical _ _ _ _ _ H1 Fa Hp) as Hq.
  assert (Fb : forward (Rot_x (sin b) (cos b)) (xrotation sp (sin a) (cos a) (tan a) p)).
  { apply (sees_forward _ _ _ _ _ _ H1). now rewrite Rot_x_add. }
  pose proof (xrotation_sees sp _ _ (tan b) _ Hq (sc1 b) Hb eq_refl Fb) as H2.
  pose proof (sees_trans _ _ _ _ _ _ _ _ H1 H2) as H.
  rewrite Rot_x_add, app_0, vadd_0_r in H.
  refine (sees_unique _ _ _ _ _ _ _ H (xrotation_sees sp _ _ (tan (a + b)) p Hp (sc1 (a + b)) Hab eq_refl Fab)).
  now apply Rgt_not_eq.
Qed.

Lemma yrotation_add sp a b p : physical p ->
  cos a <> 0 -> cos b <> 0 -> cos (a + b) <> 0 ->
  forward (Rot_y (sin a) (cos a)) p -> forward (Rot_y (sin (a + b)) (cos (a + b))) p ->
  yrotation sp (sin b) (cos b) (tan b) (yrotation sp (sin a) (cos a) (tan a) p)
  = yrotation sp (sin (a + b)) (cos (a + b)) (tan (a + b)) p.
Proof.
  intros Hp Ha Hb Hab Fa Fab.
  pose proof (yrotation_sees sp _ _ (tan a) p Hp (sc1 a) Ha eq_refl Fa) as H1.
  pose proof (sees_physical _ _ _ _ _ H1 Fa Hp) as Hq.
  assert (Fb : forward (Rot_y (sin b) (cos b)) (yrotation sp (sin a) (cos a) (tan a) p)).
  { apply (sees_forward _ _ _ _ _ _ H1). now rewrite Rot_y_add. }
  pose proof (yrotation_sees sp _ _ (tan b) _ Hq (sc1 b) Hb eq_refl Fb) as H2.
  pose proof (sees_trans _ _ _ _ _ _ _ _ H1 H2) as H.
  rewrite Rot_y_add, app_0, vadd_0_r in H.
  refine (sees_unique _ _ _ _ _ _ _ H (yrotation_sees sp _ _ (tan (a + b)) p Hp (sc1 (a + b)) Hab eq_refl Fab)).
  now apply Rgt_not_eq.
Qed.

(** shifts *)
Lemma xyshift_back b dx dy p : XYShift_track (negb b) dx dy (XYShift_track b dx dy p) = p.
Proof.
  destruct p. unfold XYShift_track, xyshift, add_x, add_y, set_x, set_y; cbn.
  destruct b; cbn; f_equal; ring.
Qed.
Lemma translation_back b dx dy p : Translation_track (negb b) dx dy (Translation_track b dx dy p) = p.
Proof. apply xyshift_back. Qed.
Lemma zetashift_back b d p : ZetaShift_track (negb b) d (ZetaShift_track b d p) = p.
Proof.
  destruct p. unfold ZetaShift_track, add_zeta, set_zeta; cbn. destruct b; cbn; f_equal; ring.
Qed.
