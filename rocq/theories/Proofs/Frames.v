From Coq Require Import Reals ZArith Lra Psatz List Bool.
From Verif.Model Require Import Maps.
From Verif.Spec Require Import Frames.
Import ListNotations.
Local Open Scope R_scope.

Lemma is0_true a : is0 a = true -> a = 0.
Proof. unfold is0. destruct (Req_EM_T a 0); congruence. Qed.
Lemma is0_false a : is0 a = false -> a <> 0.
Proof. unfold is0. destruct (Req_EM_T a 0); congruence. Qed.

Lemma part_eq p q :
  p_x p = p_x q -> p_px p = p_px q -> p_y p = p_y q -> p_py p = p_py q -> p_zeta p = p_zeta q ->
  p_spin_x p = p_spin_x q -> p_spin_y p = p_spin_y q -> p_spin_z p = p_spin_z q ->
  same_rest q p -> p = q.
Proof.
  destruct p, q; unfold same_rest; cbn. intros -> -> -> -> -> -> -> ->.
  intros (-> & -> & -> & -> & -> & -> & -> & -> & ->). reflexivity.
Qed.

Lemma vec_eq a b : v_x a = v_x b -> v_y a = v_y b -> v_z a = v_z b -> a = b.
Proof. destruct a, b; cbn. intros -> -> ->. reflexivity. Qed.

Ltac vunf := unfold mmul, transp, app, vadd, vsub, vscale, dot, ident, Rot_x, Rot_y, Rot_s,
  momentum, position, spin;
  cbn [v_x v_y v_z m_x m_y m_z].

Lemma app_mmul A B v : app (mmul A B) v = app A (app B v).
Proof. apply vec_eq; vunf; ring. Qed.
Lemma app_ident v : app ident v = v.
Proof. apply vec_eq; vunf; ring. Qed.
Lemma app_add M a b : app M (vadd a b) = vadd (app M a) (app M b).
Proof. apply vec_eq; vunf; ring. Qed.
Lemma app_sub M a b : app M (vsub a b) = vsub (app M a) (app M b).
Proof. apply vec_eq; vunf; ring. Qed.
Lemma app_scale M k a : app M (vscale k a) = vscale k (app M a).
Proof. apply vec_eq; vunf; ring. Qed.

Lemma sees_zeta_term p q : same_rest p q ->
  (1 + p_delta q) / p_rvv q = (1 + p_delta p) / p_rvv p.
Proof. intros H. destruct H as (_ & -> & _ & _ & -> & _). reflexivity. Qed.

Lemma same_rest_trans p q r : same_rest p q -> same_rest q r -> same_rest p r.
Proof. unfold same_rest. intuition congruence. Qed.
Lemma same_rest_refl p : same_rest p p.
Proof. unfold same_rest. intuition. Qed.

Lemma sees_trans sp M1 e1 M2 e2 p q r :
  sees sp M1 e1 p q -> sees sp M2 e2 q r ->
  sees sp (mmul M2 M1) (vadd (app M2 e1) e2) p r.
Proof.
  intros (l1 & Hm1 & Hp1 & Hz1 & Hs1 & Hr1) (l2 & Hm2 & Hp2 & Hz2 & Hs2 & Hr2).
  exists (l1 + l2). rewrite !app_mmul, <- Hm1, <- Hm2.
  split; [reflexivity|]. split; [|split; [|split]].
  - rewrite Hp2, Hp1, app_add, app_sub, app_scale, <- Hm1, <- Hm2.
    apply vec_eq; unfold vadd, vsub, vscale; cbn [v_x v_y v_z]; ring.
  - rewrite Hz2, Hz1. destruct Hr1 as (_ & -> & _ & _ & -> & _). unfold Rdiv. ring.
  - rewrite Hs2, Hs1. destruct sp; reflexivity.
  - exact (same_rest_trans _ _ _ Hr1 Hr2).
Qed.

Lemma momentum_pos p : 0 < pz2 p -> 0 < v_z (momentum p).
Proof. intros H. cbn. now apply sqrt_lt_R0. Qed.

Lemma sees_unique sp M e p q q' :
  v_z (app M (momentum p)) <> 0 -> sees sp M e p q -> sees sp M e p q' -> q = q'.
Proof.
  intros Hz (l & Hm & Hp & Hze & Hs & Hr) (l' & Hm' & Hp' & Hze' & Hs' & Hr').
  assert (El : l = l').
  { assert (A := f_equal v_z Hp). assert (B := f_equal v_z Hp').
    set (P := app M (momentum p)) in *. set (X := app M (position p)) in *.
    unfold vadd, vsub, vscale in A, B. cbn [v_z position] in A, B.
    assert ((l - l') * v_z P = 0) as E by lra.
    apply Rmult_integral in E. destruct E; [lra|contradiction]. }
  subst l'.
  rewrite <- Hm' in Hm. rewrite <- Hp' in Hp. rewrite <- Hs' in Hs.
  unfold momentum, position, spin in *.
  assert (A1 := f_equal v_x Hm). assert (A2 := f_equal v_y Hm).
  assert (B1 := f_equal v_x Hp). assert (B2 := f_equal v_y Hp).
  assert (C1 := f_equal v_x Hs). assert (C2 := f_equal v_y Hs). assert (C3 := f_equal v_z Hs).
  cbn in *.
  apply part_eq; try assumption; [congruence|].
  unfold same_rest in *. intuition congruence.
Qed.

(** [kinematic] and [physical] along the maps *)
Lemma same_rest_kinematic p q : same_rest p q -> kinematic p -> kinematic q.
Proof.
  unfold kinematic. intros (_ & -> & -> & -> & -> & _ & -> & _). auto.
Qed.

Lemma sees_physical sp M e p q : sees sp M e p q -> forward M p -> physical p -> physical q.
Proof.
  intros (l & Hm & _ & _ & _ & Hr) Hf [Hk _]. split; [exact (same_rest_kinematic _ _ Hr Hk)|].
  unfold forward in Hf. rewrite <- Hm in Hf. cbn in Hf.
  destruct (Rlt_dec 0 (pz2 q)) as [H|H]; [exact H|]. rewrite (sqrt_neg_0 (pz2 q)) in Hf; lra.
Qed.

Lemma sees_forward sp M1 e1 M2 p q : sees sp M1 e1 p q ->
  (forward M2 q <-> forward (mmul M2 M1) p).
Proof.
  intros (l & Hm & _). unfold forward. rewrite app_mmul, Hm. reflexivity.
Qed.

Lemma sqrt_square_pos a b : 0 < b -> a = b * b -> sqrt a = b.
Proof. intros Hb ->. rewrite sqrt_square; lra. Qed.

(** * The elementary frames *)

Lemma xyshift_sees sp dx dy p : physical p -> sees sp ident (V3 dx dy 0) p (xyshift dx dy p).
Proof.
  intros _. exists 0. rewrite !app_ident. split; [reflexivity|]. split; [|split; [|split]].
  - apply vec_eq; cbn; ring.
  - cbn. unfold Rdiv. ring.
  - destruct sp; reflexivity.
  - unfold same_rest; cbn; repeat split.
Qed.

Lemma kin_pz p : kinematic p ->
  1 + 2 * (get_pzeta p * p_beta0 p) / p_beta0 p + get_pzeta p * p_beta0 p * (get_pzeta p * p_beta0 p)
  - p_px p * p_px p - p_py p * p_py p = pz2 p.
Proof.
  intros (Hb & _ & H & _). unfold pz2, get_pzeta. rewrite H.
  replace (p_ptau p / p_beta0 p * p_beta0 p) with (p_ptau p) by (field; lra). reflexivity.
Qed.

Lemma kin_rvv p : kinematic p -> (1 + p_delta p) / p_rvv p = 1 + p_beta0 p * p_ptau p.
Proof.
  intros (Hb & Hd & _ & Hp & -> & _). field. split; lra.
Qed.

Lemma drift_shift_sees sp ds p : physical p ->
  sees sp ident (V3 0 0 ds) p (add_s (- ds) (add_zeta (- ds) (drift_exact ds p))).
Proof.
  intros [Hk Hp]. set (w := sqrt (pz2 p)).
  assert (Hw : 0 < w) by now apply sqrt_lt_R0.
  exists (ds / w). rewrite !app_ident.
  assert (E : p_rvv p <> 0).
  { destruct Hk as (Hb & Hd & _ & Hq & -> & _).
    apply Rgt_not_eq. now apply Rdiv_lt_0_compat. }
  split; [reflexivity|]. split; [|split; [|split]].
  - apply vec_eq; cbn; fold (pz2 p); fold w; field; lra.
  - cbn. fold (pz2 p). fold w. field. split; lra.
  - destruct sp; reflexivity.
  - unfold same_rest; cbn. repeat split; try reflexivity. ring.
Qed.

Lemma S_SHIFT_sees sp ds p : physical p -> sees sp ident (V3 0 0 ds) p (S_SHIFT ds p).
Proof.
  intros Hp. unfold S_SHIFT. destruct (is0 ds) eqn:E.
  - apply is0_true in E. subst ds. exists 0. rewrite !app_ident.
    split; [reflexivity|]. split; [|split; [|split]].
    + apply vec_eq; cbn; ring.
    + unfold Rdiv. ring.
    + destruct sp; reflexivity.
    + apply same_rest_refl.
  - now apply drift_shift_sees.
Qed.

Lemma srotation_sees sp s c p : physical p -> s * s + c * c = 1 ->
  sees sp (Rot_s s c) (V3 0 0 0) p (srotation sp s c p).
Proof.
  intros [Hk Hp] Hsc. exists 0.
  assert (Hm : pz2 (srotation sp s c p) = pz2 p).
  { unfold srotation, pz2. destruct (sp && _); cbn;
    replace ((c * p_px p + s * p_py p) * (c * p_px p + s * p_py p)) with
      (c * c * (p_px p * p_px p) + 2 * c * s * p_px p * p_py p + s * s * (p_py p * p_py p)) by ring;
    replace (c * c) with (1 - s * s) by lra; replace (s * s) with (1 - c * c) by lra; nra. }
  split; [|split; [|split; [|split]]].
  - unfold momentum. rewrite Hm. apply vec_eq; unfold srotation; destruct (sp && _); cbn;
      unfold dot; cbn; ring.
  - apply vec_eq; unfold srotation; destruct (sp && _); cbn; unfold dot; cbn; ring.
  - unfold srotation; destruct (sp && _); cbn; unfold Rdiv; ring.
  - unfold srotation, spin. destruct sp; cbn [andb].
    + destruct (is0 (p_spin_x p)) eqn:E1, (is0 (p_spin_y p)) eqn:E2; cbn;
        try apply is0_true in E1; try apply is0_true in E2; rewrite ?E1, ?E2;
        apply vec_eq; cbn; unfold dot; cbn; ring.
    + reflexivity.
  - unfold srotation; destruct (sp && _); unfold same_rest; cbn; repeat split.
Qed.

Lemma xrotation_sees sp s c t p : physical p -> s * s + c * c = 1 -> c <> 0 -> t = s / c ->
  forward (Rot_x s c) p -> sees sp (Rot_x s c) (V3 0 0 0) p (xrotation sp s c t p).
Proof.
  intros [Hk Hp] Hsc Hc Ht Hf. set (w := sqrt (pz2 p)).
  assert (Hw : 0 < w) by now apply sqrt_lt_R0.
  assert (Hw2 : w * w = pz2 p) by (apply sqrt_sqrt; lra).
  unfold forward, app, dot in Hf. cbn in Hf. fold w in Hf.
  set (D := c * w - s * p_py p).
  assert (HD : 0 < D) by (unfold D; lra). clear Hf.
  assert (Hm : sqrt (pz2 (xrotation sp s c t p)) = D).
  { apply sqrt_square_pos; [exact HD|].
    unfold xrotation. rewrite (kin_pz p Hk). fold w. unfold pz2.
    assert (Hd : (1 + p_delta p) * (1 + p_delta p) = w * w + p_px p * p_px p + p_py p * p_py p)
      by (unfold pz2 in Hw2; lra).
    destruct (sp && _); cbn; rewrite Hd; unfold D;
      assert (Hcc : c * c = 1 - s * s) by lra;
      replace ((c * w - s * p_py p) * (c * w - s * p_py p)) with
       (c * c * (w * w) - 2 * c * s * w * p_py p + s * s * (p_py p * p_py p)) by ring;
      replace ((c * p_py p + s * w) * (c * p_py p + s * w)) with
       (c * c * (p_py p * p_py p) + 2 * c * s * w * p_py p + s * s * (w * w)) by ring;
      rewrite Hcc; ring. }
  assert (HD' : c * w - s * p_py p <> 0) by (unfold D in HD; lra).
  assert (Hptt : 1 - s / c * p_py p / w = D / (c * w)) by (unfold D; field; split; lra).
  exists (s * p_y p / D).
  split; [|split; [|split; [|split]]].
  - unfold momentum. rewrite Hm. unfold xrotation. rewrite (kin_pz p Hk). fold w.
    apply vec_eq; destruct (sp && _); cbn; unfold dot; cbn; fold w; unfold D; ring.
  - unfold xrotation. rewrite (kin_pz p Hk). fold w. subst t. rewrite Hptt.
    assert (HcD : c * (D / (c * w)) <> 0).
    { replace (c * (D / (c * w))) with (D / w) by (field; split; lra).
      apply Rgt_not_eq. now apply Rdiv_lt_0_compat. }
    assert (Hy : p_y p / (c * (D / (c * w))) = c * p_y p + s * p_y p / D * (c * p_py p + s * w)).
    { replace (p_y p / (c * (D / (c * w)))) with (p_y p * w / D) by (field; repeat split; lra).
      apply Rmult_eq_reg_r with D; [|lra].
      replace (p_y p * w / D * D) with (p_y p * w) by (field; lra).
      replace ((c * p_y p + s * p_y p / D * (c * p_py p + s * w)) * D) with
        (c * p_y p * D + s * p_y p * (c * p_py p + s * w)) by (field; lra).
      unfold D. replace (p_y p * w) with ((s * s + c * c) * p_y p * w) by (rewrite Hsc; ring). ring. }
    apply vec_eq; destruct (sp && _); cbn; unfold dot; cbn; fold w;
      try (rewrite Hy; ring); try (field; repeat split; try lra).
    all: unfold D; try (field; exact HD').
  - unfold xrotation. rewrite (kin_pz p Hk). fold w. subst t. rewrite Hptt.
    replace (s * p_y p / D * (1 + p_delta p) / p_rvv p) with
      (s * p_y p / D * ((1 + p_delta p) / p_rvv p)) by (unfold Rdiv; ring).
    rewrite (kin_rvv p Hk).
    assert (Hb : p_beta0 p <> 0) by (destruct Hk; lra).
    replace (get_pzeta p * p_beta0 p) with (p_ptau p) by (unfold get_pzeta; field; exact Hb).
    destruct (sp && _); cbn; field; repeat split; lra.
  - unfold xrotation, spin. destruct sp; cbn [andb].
    + destruct (is0 (p_spin_y p)) eqn:E1, (is0 (p_spin_z p)) eqn:E2; cbn;
        try apply is0_true in E1; try apply is0_true in E2; rewrite ?E1, ?E2;
        apply vec_eq; cbn; unfold dot; cbn; rewrite ?E1, ?E2; ring.
    + reflexivity.
  - unfold xrotation; destruct (sp && _); unfold same_rest; cbn; repeat split.
Qed.

Lemma yrotation_sees sp s c t p : physical p -> s * s + c * c = 1 -> c <> 0 -> t = s / c ->
  forward (Rot_y s c) p -> sees sp (Rot_y s c) (V3 0 0 0) p (yrotation sp s c t p).
Proof.
  intros [Hk Hp] Hsc Hc Ht Hf. set (w := sqrt (pz2 p)).
  assert (Hw : 0 < w) by now apply sqrt_lt_R0.
  assert (Hw2 : w * w = pz2 p) by (apply sqrt_sqrt; lra).
  unfold forward, app, dot in Hf. cbn in Hf. fold w in Hf.
  set (D := c * w + s * p_px p).
  assert (HD : 0 < D) by (unfold D; lra). clear Hf.
  assert (Hm : sqrt (pz2 (yrotation sp s c t p)) = D).
  { apply sqrt_square_pos; [exact HD|].
    unfold yrotation. rewrite (kin_pz p Hk). fold w. unfold pz2.
    assert (Hd : (1 + p_delta p) * (1 + p_delta p) = w * w + p_px p * p_px p + p_py p * p_py p)
      by (unfold pz2 in Hw2; lra).
    destruct (sp && _); cbn; rewrite Hd; unfold D;
      assert (Hcc : c * c = 1 - s * s) by lra;
      replace ((c * w + s * p_px p) * (c * w + s * p_px p)) with
       (c * c * (w * w) + 2 * c * s * w * p_px p + s * s * (p_px p * p_px p)) by ring;
      replace ((c * p_px p - s * w) * (c * p_px p - s * w)) with
       (c * c * (p_px p * p_px p) - 2 * c * s * w * p_px p + s * s * (w * w)) by ring;
      rewrite Hcc; ring. }
  assert (HD' : c * w + s * p_px p <> 0) by (unfold D in HD; lra).
  assert (Hptt : 1 + s / c * p_px p / w = D / (c * w)) by (unfold D; field; split; lra).
  exists (- (s * p_x p / D)).
  split; [|split; [|split; [|split]]].
  - unfold momentum. rewrite Hm. unfold yrotation. rewrite (kin_pz p Hk). fold w.
    apply vec_eq; destruct (sp && _); cbn; unfold dot; cbn; fold w; unfold D; ring.
  - unfold yrotation. rewrite (kin_pz p Hk). fold w. subst t. rewrite Hptt.
    assert (HcD : c * (D / (c * w)) <> 0).
    { replace (c * (D / (c * w))) with (D / w) by (field; split; lra).
      apply Rgt_not_eq. now apply Rdiv_lt_0_compat. }
    assert (Hx : p_x p / (c * (D / (c * w))) = c * p_x p - s * p_x p / D * (c * p_px p - s * w)).
    { replace (p_x p / (c * (D / (c * w)))) with (p_x p * w / D) by (field; repeat split; lra).
      apply Rmult_eq_reg_r with D; [|lra].
      replace (p_x p * w / D * D) with (p_x p * w) by (field; lra).
      replace ((c * p_x p - s * p_x p / D * (c * p_px p - s * w)) * D) with
        (c * p_x p * D - s * p_x p * (c * p_px p - s * w)) by (field; lra).
      unfold D. replace (p_x p * w) with ((s * s + c * c) * p_x p * w) by (rewrite Hsc; ring). ring. }
    apply vec_eq; destruct (sp && _); cbn; unfold dot; cbn; fold w;
      try (rewrite Hx; ring); try (field; repeat split; try lra).
    all: unfold D; try (field; exact HD').
  - unfold yrotation. rewrite (kin_pz p Hk). fold w. subst t. rewrite Hptt.
    replace (- (s * p_x p / D) * (1 + p_delta p) / p_rvv p) with
      (- (s * p_x p / D) * ((1 + p_delta p) / p_rvv p)) by (unfold Rdiv; ring).
    rewrite (kin_rvv p Hk).
    assert (Hb : p_beta0 p <> 0) by (destruct Hk; lra).
    replace (get_pzeta p * p_beta0 p) with (p_ptau p) by (unfold get_pzeta; field; exact Hb).
    destruct (sp && _); cbn; field; repeat split; lra.
  - unfold yrotation, spin. destruct sp; cbn [andb].
    + destruct (is0 (p_spin_x p)) eqn:E1, (is0 (p_spin_z p)) eqn:E2; cbn;
        try apply is0_true in E1; try apply is0_true in E2; rewrite ?E1, ?E2;
        apply vec_eq; cbn; unfold dot; cbn; rewrite ?E1, ?E2; ring.
    + reflexivity.
  - unfold yrotation; destruct (sp && _); unfold same_rest; cbn; repeat split.
Qed.
