From Coq Require Import Reals ZArith Lra Psatz List Bool.
From Verif.Model Require Import Maps Curved.
From Verif.Spec Require Import Frames Poses.
From Verif.Proofs Require Import Frames FrameMaps Misalign.
Local Open Scope R_scope.

(** * atan2 *)
Lemma atan2_spec y x : x <> 0 \/ y <> 0 ->
  let r := sqrt (x * x + y * y) in
  0 < r /\ cos (atan2 y x) = x / r /\ sin (atan2 y x) = y / r.
Proof.
  intros H r.
  assert (Hr : 0 < x * x + y * y) by (destruct H; nra).
  assert (Hr' : 0 < r) by now apply sqrt_lt_R0.
  split; [exact Hr'|].
  assert (K : forall a, x <> 0 -> a = Rabs x -> sqrt (1 + (y / x)²) = r / a).
  { intros a Hx ->. assert (0 < Rabs x) by now apply Rabs_pos_lt.
    apply sqrt_square_pos; [now apply Rdiv_lt_0_compat|].
    replace (r / Rabs x * (r / Rabs x)) with ((r * r) / (Rabs x * Rabs x)) by (field; lra).
    rewrite <- Rabs_mult, (Rabs_right (x * x)) by nra.
    unfold r. rewrite sqrt_sqrt by lra. unfold Rsqr. field. exact Hx. }
  unfold atan2. destruct (Rlt_dec 0 x) as [Hx|Hx].
  - rewrite cos_atan, sin_atan. rewrite (K x) by (try lra; symmetry; apply Rabs_right; lra).
    split; field; lra.
  - destruct (Rlt_dec x 0) as [Hx'|Hx'].
    + assert (E : sqrt (1 + (y / x)²) = r / - x) by (apply K; [lra|symmetry; apply Rabs_left; lra]).
      assert (C : cos (atan (y / x)) = - x / r) by (rewrite cos_atan, E; field; lra).
      assert (S : sin (atan (y / x)) = - y / r) by (rewrite sin_atan, E; field; lra).
      destruct (Rle_dec 0 y).
      * rewrite neg_cos, neg_sin, C, S. split; field; lra.
      * replace (atan (y / x) - PI) with (- (PI - atan (y / x))) by ring.
        rewrite cos_neg, sin_neg, Rtrigo_facts.cos_pi_minus, Rtrigo_facts.sin_pi_minus, C, S.
        split; field; lra.
    + assert (x = 0) by lra. subst x.
      destruct (Rlt_dec 0 y).
      * rewrite cos_PI2, sin_PI2. replace r with y; [split; field; lra|].
        symmetry. apply sqrt_square_pos; [lra|ring].
      * destruct (Rlt_dec y 0); [|exfalso; destruct H; lra].
        rewrite cos_neg, sin_neg, cos_PI2, sin_PI2. replace r with (- y); [split; field; lra|].
        symmetry. apply sqrt_square_pos; [lra|ring].
Qed.

(** * Proper rotations *)
Definition det (M : mat) : R :=
  let a := m_x M in let b := m_y M in let c := m_z M in
  v_x a * (v_y b * v_z c - v_z b * v_y c) - v_y a * (v_x b * v_z c - v_z b * v_x c)
  + v_z a * (v_x b * v_y c - v_y b * v_x c).
Definition adj (M : mat) : mat :=
  let a := m_x M in let b := m_y M in let c := m_z M in
  M3 (V3 (v_y b * v_z c - v_z b * v_y c) (v_z a * v_y c - v_y a * v_z c) (v_y a * v_z b - v_z a * v_y b))
     (V3 (v_z b * v_x c - v_x b * v_z c) (v_x a * v_z c - v_z a * v_x c) (v_z a * v_x b - v_x a * v_z b))
     (V3 (v_x b * v_y c - v_y b * v_x c) (v_y a * v_x c - v_x a * v_y c) (v_x a * v_y b - v_y a * v_x b)).
Definition proper (M : mat) : Prop := orthogonal M /\ det M = 1.

Lemma det_mmul A B : det (mmul A B) = det A * det B.
Proof. mdestr. cbv [det]; mcbv. ring. Qed.
Lemma det_transp A : det (transp A) = det A.
Proof. mdestr. cbv [det]; mcbv. ring. Qed.
Lemma adj_mmul A : det A = 1 -> mmul (adj A) A = ident.
Proof.
  intros H. mdestr. unfold det in H. cbn in H.
  apply mat_eq; apply vec_eq; cbv [adj]; mcbv; try ring; rewrite <- H; ring.
Qed.
Lemma proper_adj A : proper A -> adj A = transp A.
Proof.
  intros [[_ H2] Hd]. transitivity (mmul (mmul (adj A) A) (transp A)).
  - rewrite <- mmul_assoc, H2. now rewrite mmul_id_r.
  - rewrite (adj_mmul A Hd). apply mmul_id_l.
Qed.
Lemma proper_mmul A B : proper A -> proper B -> proper (mmul A B).
Proof.
  intros [O1 D1] [O2 D2]. split; [now apply orth_mmul|]. rewrite det_mmul, D1, D2. ring.
Qed.
Lemma proper_transp A : proper A -> proper (transp A).
Proof. intros [O D]. split; [now apply orth_transp|]. now rewrite det_transp. Qed.
Lemma proper_Rot_x s c : s * s + c * c = 1 -> proper (Rot_x s c).
Proof. intros H. split; [now apply orth_Rot_x|]. cbv [det]; mcbv. lra. Qed.
Lemma proper_Rot_y s c : s * s + c * c = 1 -> proper (Rot_y s c).
Proof. intros H. split; [now apply orth_Rot_y|]. cbv [det]; mcbv. lra. Qed.
Lemma proper_Rot_s s c : s * s + c * c = 1 -> proper (Rot_s s c).
Proof. intros H. split; [now apply orth_Rot_s|]. cbv [det]; mcbv. lra. Qed.
Lemma proper_attitude th ph ps pf : proper (attitude th ph ps pf).
Proof.
  unfold attitude. repeat apply proper_mmul.
  - apply proper_Rot_s, sc1.
  - apply proper_Rot_s, sc1.
  - apply proper_Rot_x. pose proof (sc1 ph). nra.
  - apply proper_Rot_y, sc1.
Qed.

(** the angles extracted from a rotation give the rotation *)
Lemma extract_gen R00 R01 R02 R10 R11 R12 R20 R21 R22 :
  let M := M3 (V3 R00 R01 R02) (V3 R10 R11 R12) (V3 R20 R21 R22) in
  proper M -> R22 <> 0 \/ R02 <> 0 ->
  let th := atan2 R02 R22 in
  let ph := atan2 R12 (sqrt (R10 * R10 + R11 * R11)) in
  let ps := atan2 R10 R11 in
  transp M = attitude th ph ps 0
  /\ exists r, 0 < r /\ r * r = R02 * R02 + R22 * R22 /\ cos ph = r /\ sin ph = R12
      /\ sin th = R02 / r /\ cos th = R22 / r.
Proof.
  intros M HM H22 th ph ps.
  pose proof (proper_adj M HM) as HA. destruct HM as [[O1 O2] _].
  set (r := sqrt (R22 * R22 + R02 * R02)).
  destruct (atan2_spec R02 R22 H22) as (Hr & Ct & St). fold r in Hr, Ct, St. fold th in Ct, St.
  assert (Hr2 : r * r = R02 * R02 + R22 * R22) by (unfold r; rewrite sqrt_sqrt; nra).
  assert (C2 : R02 * R02 + R12 * R12 + R22 * R22 = 1).
  { assert (A := f_equal (fun m => v_z (m_z m)) O1). unfold M in A. revert A. mcbv. intros A. lra. }
  assert (W1 : R10 * R10 + R11 * R11 + R12 * R12 = 1).
  { assert (A := f_equal (fun m => v_y (m_y m)) O2). unfold M in A. revert A. mcbv. intros A. lra. }
  assert (Hs : sqrt (R10 * R10 + R11 * R11) = r) by (apply sqrt_square_pos; lra).
  assert (Hph : cos ph = r /\ sin ph = R12).
  { unfold ph. rewrite Hs. destruct (atan2_spec R12 r) as (Hq & Cq & Sq); [left; lra|].
    assert (E : sqrt (r * r + R12 * R12) = 1) by (apply sqrt_square_pos; lra).
    rewrite Cq, Sq, E. split; field. }
  destruct Hph as [Cp Sp].
  assert (H11 : R11 <> 0 \/ R10 <> 0).
  { destruct (Req_dec R11 0) as [Z1|]; [right|left; assumption]. intros Z2.
    rewrite Z1, Z2 in W1. assert (0 < r * r) by now apply Rmult_lt_0_compat. lra. }
  destruct (atan2_spec R10 R11 H11) as (Hq & Cs & Ss). fold ps in Cs, Ss.
  replace (sqrt (R11 * R11 + R10 * R10)) with r in *
    by (rewrite <- Hs; f_equal; ring). clear Hq.
  split.
  2:{ exists r. repeat split; assumption. }
  (* cofactors *)
  assert (Q := fun f : mat -> R => f_equal f HA). unfold M in Q.
  assert (K00 := Q (fun m => v_x (m_x m))). assert (K01 := Q (fun m => v_y (m_x m))).
  assert (K02 := Q (fun m => v_z (m_x m))). assert (K10 := Q (fun m => v_x (m_y m))).
  assert (K11 := Q (fun m => v_y (m_y m))). assert (K12 := Q (fun m => v_z (m_y m))).
  assert (K20 := Q (fun m => v_x (m_z m))). assert (K21 := Q (fun m => v_y (m_z m))).
  assert (K22 := Q (fun m => v_z (m_z m))). clear Q.
  cbv [adj transp m_x m_y m_z v_x v_y v_z] in K00, K01, K02, K10, K11, K12, K20, K21, K22.
  assert (D02 : R00 * R02 + R10 * R12 + R20 * R22 = 0).
  { assert (A := f_equal (fun m => v_x (m_z m)) O1). unfold M in A. revert A. mcbv. intros A. lra. }
  assert (D12 : R01 * R02 + R11 * R12 + R21 * R22 = 0).
  { assert (A := f_equal (fun m => v_y (m_z m)) O1). unfold M in A. revert A. mcbv. intros A. lra. }
  assert (Hrr : r * r <> 0) by nra.
  assert (Dv : forall a b, a * (r * r) = b -> a = b / (r * r)).
  { intros a b <-. field. lra. }
  unfold attitude, M. rewrite sin_0, cos_0, Cp, Sp, Ct, St, Cs, Ss.
  clear O1 O2 HA Cp Sp Ct St Cs Ss H11. clear th ph ps.
  apply mat_eq; apply vec_eq; mcbv.
  - transitivity ((R11 * R22 - R10 * R12 * R02) / (r * r)); [|field; lra]. apply Dv. rewrite Hr2.
    pose proof (f_equal (Rmult R22) K11). pose proof (f_equal (Rmult R02) D02). lra.
  - field. lra.
  - transitivity ((- R11 * R02 - R10 * R12 * R22) / (r * r)); [|field; lra]. apply Dv. rewrite Hr2.
    pose proof (f_equal (Rmult R02) K11). pose proof (f_equal (Rmult R22) D02). lra.
  - transitivity ((- R10 * R22 - R11 * R12 * R02) / (r * r)); [|field; lra]. apply Dv. rewrite Hr2.
    pose proof (f_equal (Rmult R22) K01). pose proof (f_equal (Rmult R02) D12). lra.
  - field. lra.
  - transitivity ((R10 * R02 - R11 * R12 * R22) / (r * r)); [|field; lra]. apply Dv. rewrite Hr2.
    pose proof (f_equal (Rmult R02) K01). pose proof (f_equal (Rmult R22) D12). lra.
  - field. lra.
  - ring.
  - field. lra.
Qed.

Lemma extract R00 R01 R02 R10 R11 R12 R20 R21 R22 :
  let M := M3 (V3 R00 R01 R02) (V3 R10 R11 R12) (V3 R20 R21 R22) in
  proper M -> R22 <> 0 ->
  let th := atan2 R02 R22 in
  let ph := atan2 R12 (sqrt (R10 * R10 + R11 * R11)) in
  let ps := atan2 R10 R11 in
  transp M = attitude th ph ps 0
  /\ exists r, 0 < r /\ r * r = R02 * R02 + R22 * R22 /\ cos ph = r /\ sin ph = R12
      /\ sin th = R02 / r /\ cos th = R22 / r.
Proof. intros M HM H. exact (extract_gen _ _ _ _ _ _ _ _ _ HM (or_introl H)). Qed.

(** * Poses *)
Definition pose_of (m : aff) : pose :=
  Pose (M3 (V3 (m00 m) (m01 m) (m02 m)) (V3 (m10 m) (m11 m) (m12 m)) (V3 (m20 m) (m21 m) (m22 m)))
       (V3 (m03 m) (m13 m) (m23 m)).
Definition rigid (A : pose) : Prop := proper (rotn A).

Ltac pcbv := cbv [pmul pinv pid pose_of rotn orig vscale vadd vsub
  m00 m01 m02 m03 m10 m11 m12 m13 m20 m21 m22 m23]; mcbv.

Lemma pose_eq A B : rotn A = rotn B -> orig A = orig B -> A = B.
Proof. destruct A, B. cbn. now intros -> ->. Qed.

Lemma pose_mul a b : pose_of (matrix_multiply_4x4 a b) = pmul (pose_of a) (pose_of b).
Proof.
  destruct a, b. apply pose_eq; [apply mat_eq|]; apply vec_eq; cbv [matrix_multiply_4x4]; pcbv; ring.
Qed.
Lemma pose_inv a : pose_of (matrix_rigid_affine_inverse a) = pinv (pose_of a).
Proof.
  destruct a. apply pose_eq; [apply mat_eq|]; apply vec_eq; cbv [matrix_rigid_affine_inverse]; pcbv; ring.
Qed.
Lemma pose_mis dx dy ds th ph ps : pose_of (misalignment_matrix dx dy ds th ph ps) = misplaced dx dy ds th ph ps.
Proof.
  unfold misplaced, attitude. rewrite sin_0, cos_0.
  apply pose_eq; [apply mat_eq|]; apply vec_eq; cbv [misalignment_matrix]; pcbv; ring.
Qed.
Lemma pose_arc a h f : h <> 0 -> pose_of (arc_matrix a h f) = tilted_arc a h f.
Proof.
  intros Hh. assert (C : cos f * cos f = 1 - sin f * sin f) by (pose proof (sc1 f); lra).
  apply pose_eq; [apply mat_eq|]; apply vec_eq;
    cbv [arc_matrix tilted_arc tilt arc]; pcbv; try (field; exact Hh).
  - transitivity (cos a * (cos f * cos f) + (1 - cos f * cos f)); [ring|]. rewrite C at 2. ring.
  - transitivity (cos a * (sin f * sin f) + (1 - sin f * sin f)); [ring|]. rewrite <- C. ring.
Qed.

Lemma pmul_assoc A B C : pmul A (pmul B C) = pmul (pmul A B) C.
Proof.
  destruct A as [MA eA], B as [MB eB], C as [MC eC].
  apply pose_eq; cbn [pmul rotn orig]; [apply mmul_assoc|].
  rewrite app_add, app_mmul. destruct (app MA (app MB eC)) as [u1 u2 u3], (app MA eB) as [w1 w2 w3], eA as [k1 k2 k3].
  apply vec_eq; cbv [vadd v_x v_y v_z]; ring.
Qed.
Lemma pmul_id_l A : pmul pid A = A.
Proof.
  destruct A as [M e]. apply pose_eq; cbn [pmul pid rotn orig]; [apply mmul_id_l|].
  now rewrite app_ident, vadd_0_r.
Qed.
Lemma pmul_id_r A : pmul A pid = A.
Proof.
  destruct A as [M e]. apply pose_eq; cbn [pmul pid rotn orig]; [apply mmul_id_r|].
  now rewrite app_0, vadd_0_l.
Qed.
Lemma pinv_l A : rigid A -> pmul (pinv A) A = pid.
Proof.
  intros [[O1 O2] _]. apply pose_eq; cbn [pmul pinv pid rotn orig]; [exact O1|].
  destruct (app (transp (rotn A)) (orig A)) as [u1 u2 u3]. apply vec_eq; cbv [vadd vscale v_x v_y v_z]; ring.
Qed.
Lemma pinv_r A : rigid A -> pmul A (pinv A) = pid.
Proof.
  intros [[O1 O2] _]. apply pose_eq; cbn [pmul pinv pid rotn orig]; [exact O2|].
  rewrite app_scale, <- app_mmul, O2, app_ident.
  destruct (orig A) as [u1 u2 u3]. apply vec_eq; cbv [vadd vscale v_x v_y v_z]; ring.
Qed.
Lemma rigid_mul A B : rigid A -> rigid B -> rigid (pmul A B).
Proof. apply proper_mmul. Qed.
Lemma rigid_inv A : rigid A -> rigid (pinv A).
Proof. apply proper_transp. Qed.
Lemma rigid_arc a h : rigid (arc a h).
Proof.
  unfold rigid, arc; cbn [rotn].
  replace (M3 _ _ _) with (Rot_y (sin a) (cos a)) by reflexivity. apply proper_Rot_y, sc1.
Qed.
Lemma rigid_tilt f : rigid (tilt f).
Proof. apply proper_transp, proper_Rot_s, sc1. Qed.
Lemma rigid_tarc a h f : rigid (tilted_arc a h f).
Proof. apply rigid_mul; [apply rigid_tilt|apply rigid_mul; [apply rigid_arc|apply rigid_inv, rigid_tilt]]. Qed.
Lemma rigid_mis dx dy ds th ph ps : rigid (misplaced dx dy ds th ph ps).
Proof. apply proper_transp, proper_attitude. Qed.
Lemma rigid_entry A B : rigid A -> rigid B -> rigid (moved_entry A B).
Proof. intros. unfold moved_entry. repeat apply rigid_mul; auto. now apply rigid_inv. Qed.

Lemma pmul_cancel A B : rigid A -> pmul (pinv A) (pmul A B) = B.
Proof. intros. now rewrite pmul_assoc, pinv_l, pmul_id_l. Qed.
Lemma pmul_cancel' A B : rigid A -> pmul A (pmul (pinv A) B) = B.
Proof. intros. now rewrite pmul_assoc, pinv_r, pmul_id_l. Qed.

Lemma pinv_unique A B : rigid A -> pmul A B = pid -> B = pinv A.
Proof. intros H E. rewrite <- (pmul_cancel A B H), E. apply pmul_id_r. Qed.
Lemma pinv_mul A B : rigid A -> rigid B -> pinv (pmul A B) = pmul (pinv B) (pinv A).
Proof.
  intros HA HB. symmetry. apply pinv_unique; [now apply rigid_mul|].
  rewrite <- pmul_assoc, (pmul_assoc B), (pinv_r B HB), pmul_id_l. now apply pinv_r.
Qed.
Lemma pinv_pinv A : rigid A -> pinv (pinv A) = A.
Proof. intros H. symmetry. apply pinv_unique; [now apply rigid_inv|now apply pinv_l]. Qed.

Lemma arc_add a b h : h <> 0 -> pmul (arc a h) (arc b h) = arc (a + b) h.
Proof.
  intros Hh. unfold arc. rewrite sin_plus, cos_plus.
  apply pose_eq; [apply mat_eq|]; apply vec_eq; pcbv; try (field; exact Hh).
Qed.
Lemma arc_0 h : h <> 0 -> arc 0 h = pid.
Proof.
  intros Hh. unfold arc. rewrite sin_0, cos_0.
  apply pose_eq; [apply mat_eq|]; apply vec_eq; pcbv; try (field; exact Hh).
Qed.
Lemma tarc_add a b h f : h <> 0 -> pmul (tilted_arc a h f) (tilted_arc b h f) = tilted_arc (a + b) h f.
Proof.
  intros Hh. unfold tilted_arc. rewrite <- !pmul_assoc. rewrite pmul_cancel by apply rigid_tilt.
  rewrite (pmul_assoc (arc a h)), arc_add by exact Hh. reflexivity.
Qed.
Lemma tarc_0 h f : h <> 0 -> tilted_arc 0 h f = pid.
Proof.
  intros. unfold tilted_arc. rewrite arc_0 by assumption. rewrite pmul_id_l.
  apply pinv_r, rigid_tilt.
Qed.
Lemma tarc_neg a h f : h <> 0 -> pinv (tilted_arc a h f) = tilted_arc (- a) h f.
Proof.
  intros. symmetry. apply pinv_unique; [apply rigid_tarc|]. rewrite tarc_add by assumption.
  replace (a + - a) with 0 by ring. now apply tarc_0.
Qed.
Lemma tilt_neg f : pinv (tilt f) = tilt (- f).
Proof.
  unfold tilt. rewrite sin_neg, cos_neg.
  apply pose_eq; [apply mat_eq|]; apply vec_eq; pcbv; ring.
Qed.

Lemma from_trans sp A B p q r : rigid A -> sees_from sp A p q -> sees_from sp B q r ->
  sees_from sp (pmul A B) p r.
Proof.
  intros [[O1 O2] _] H1 H2. pose proof (sees_trans _ _ _ _ _ _ _ _ H1 H2) as H.
  unfold sees_from. refine (sees_cast _ _ _ _ _ _ _ H _ _); cbn [pmul rotn orig].
  - symmetry. apply transp_mmul.
  - rewrite transp_mmul, app_mmul, (app_add (transp (rotn A))), <- (app_mmul (transp (rotn A))), O1, app_ident.
    rewrite app_add.
    destruct (app (transp (rotn B)) (orig B)) as [u1 u2 u3],
      (app (transp (rotn B)) (app (transp (rotn A)) (orig A))) as [w1 w2 w3].
    apply vec_eq; cbv [vadd v_x v_y v_z]; ring.
Qed.
Lemma from_unique sp A p q r : forward (transp (rotn A)) p ->
  sees_from sp A p q -> sees_from sp A p r -> q = r.
Proof. intros F H1 H2. refine (sees_unique _ _ _ _ _ _ _ H1 H2). unfold forward in F. lra. Qed.
Lemma from_physical sp A p q : sees_from sp A p q -> forward (transp (rotn A)) p -> physical p -> physical q.
Proof. apply sees_physical. Qed.
(** moving forward in a frame does not depend on the frame the particle is given in *)
Lemma from_forward sp A B p q : sees_from sp A p q ->
  (forward (transp (rotn (pmul A B))) p <-> forward (transp (rotn B)) q).
Proof.
  intros H. cbn [pmul rotn]. rewrite transp_mmul. unfold forward.
  destruct H as (l & Hm & _). rewrite Hm, app_mmul. reflexivity.
Qed.
Lemma from_reachable sp A B p q : sees_from sp A p q -> rigid A -> 
  (reachable B q <-> let z := m_z (transp (rotn B)) in
     v_z z <> 0 /\ 0 < dot (V3 (v_x z) 0 (v_z z)) (app (transp (rotn A)) (momentum p))
     /\ forward (transp (rotn (pmul A B))) p).
Proof.
  intros H _. unfold reachable. rewrite (from_forward sp A B p q H).
  destruct H as (l & Hm & _). rewrite <- Hm. cbv zeta.
  split; intros (H1 & H2 & H3); (split; [exact H1|split; [|exact H3]]);
    revert H2; cbv [dot momentum v_x v_y v_z]; intros; lra.
Qed.

(** * The entry and the exit *)
Lemma extract_pose m : rigid (pose_of m) -> m22 m <> 0 ->
  transp (rotn (pose_of m)) = attitude (rot_theta m) (rot_phi m) (rot_psi m) 0
  /\ exists r, 0 < r /\ cos (rot_phi m) = r /\ sin (rot_theta m) = m02 m / r /\ cos (rot_theta m) = m22 m / r.
Proof.
  intros Hr H. destruct m as [a b c d e f g i j k l n]. cbn [m22] in H.
  destruct (extract a b c e f g j k l Hr H) as (E & r & Hr0 & _ & Cp & _ & St & Ct).
  split; [exact E|]. exists r. repeat split; assumption.
Qed.

Lemma attitude_0 th ph ps pf : attitude th ph ps pf = mmul (Rot_s (sin pf) (cos pf)) (attitude th ph ps 0).
Proof.
  unfold attitude. rewrite sin_0, cos_0. replace (Rot_s 0 1) with ident; [now rewrite mmul_id_l|].
  apply mat_eq; apply vec_eq; mcbv; ring.
Qed.

Lemma can_enter_pose m p : rigid (pose_of m) -> reachable (pose_of m) p ->
  can_enter (rot_theta m) (rot_phi m) p.
Proof.
  intros Hm (Hz & Hy & Hx). destruct (extract_pose m Hm Hz) as (E & r & Hr & Cp & St & Ct).
  unfold can_enter.
  cbn [pose_of rotn transp m_x m_y m_z v_x v_y v_z] in Hz, Hy.
  split; [|split; [|split]].
  - rewrite Ct. intros Q. apply Hz. apply (f_equal (Rmult r)) in Q. field_simplify in Q; lra.
  - rewrite Cp. lra.
  - rewrite Ct, St. unfold forward. cbv [Rot_y app dot momentum m_z v_x v_y v_z].
    replace (m02 m / r * p_px p + 0 * p_py p + m22 m / r * sqrt (pz2 p))
      with ((m02 m * p_px p + m22 m * sqrt (pz2 p)) / r) by (field; lra).
    now apply Rdiv_lt_0_compat.
  - rewrite E in Hx. revert Hx. unfold forward, attitude. cbv [Rot_s].
    cbv [app dot momentum mmul transp m_x m_y m_z v_x v_y v_z]. intros Hx. lra.
Qed.

Lemma to_mis_pose sp m pf p : rigid (pose_of m) -> physical p -> reachable (pose_of m) p ->
  let q := to_misaligned sp (m03 m) (m13 m) (m23 m) (rot_theta m) (rot_phi m) (rot_psi m) pf p in
  sees_from sp (pmul (pose_of m) (tilt pf)) p q /\ physical q.
Proof.
  intros Hm Hp Hr q. pose proof (can_enter_pose m p Hm Hr) as Hc.
  destruct (to_misaligned_sees sp (m03 m) (m13 m) (m23 m) (rot_theta m) (rot_phi m) (rot_psi m) pf p Hp Hc)
    as [H1 H2]. fold q in H1, H2.
  split; [|exact H2]. destruct Hr as (Hz & _ & _).
  destruct (extract_pose m Hm Hz) as (E & _).
  unfold sees_from. rewrite attitude_0, <- E in H1.
  refine (sees_cast _ _ _ _ _ _ _ H1 _ _); cbn [pmul tilt rotn orig].
  - now rewrite transp_mmul, transp_transp.
  - rewrite transp_mmul, transp_transp, app_0, vadd_0_l. reflexivity.
Qed.

Lemma tilt_from sp f p : physical p ->
  sees_from sp (tilt f) p (S_ROTATE sp f p) /\ physical (S_ROTATE sp f p).
Proof.
  intros Hp. destruct (S_ROTATE_sees sp f p Hp) as [H1 H2]. split; [|exact H2].
  unfold sees_from, tilt; cbn [rotn orig]. rewrite transp_transp, app_0. exact H1.
Qed.

Section Bend.
Variables (sp : bool) (dx dy ds th ph ps an L ang h pf : R).
Definition bend : Prop := L <> 0 /\ ang <> 0.
Definition entry_pose := moved_entry (tilted_arc (an * (ang / L)) (ang / L) pf) (misplaced dx dy ds th ph ps).
Definition exit_pose := moved_entry (tilted_arc ((an - L) * (ang / L)) (ang / L) pf) (pinv (misplaced dx dy ds th ph ps)).

Hypothesis Hb : bend.

Lemma bend_h : ang / L <> 0.
Proof.
  destruct Hb as [H1 H2]. intros Q. apply H2.
  replace ang with (ang / L * L) by (field; exact H1). rewrite Q. ring.
Qed.
Lemma bend_test : is0 ang && (negb (is0 L) || is0 h) = false.
Proof.
  destruct Hb as [H1 H2]. destruct (is0 ang) eqn:E; [apply is0_true in E; contradiction|reflexivity].
Qed.
Lemma bend_curv : curvature L ang h = ang / L.
Proof.
  destruct Hb as [H1 H2]. unfold curvature.
  destruct (is0 L) eqn:E; [apply is0_true in E; contradiction|reflexivity].
Qed.

Lemma entry_matrix : pose_of (misaligned_entry dx dy ds th ph ps an L ang h pf) = entry_pose.
Proof.
  unfold misaligned_entry, entry_pose, moved_entry. rewrite bend_curv.
  rewrite !pose_mul, pose_inv, pose_mis, pose_arc by apply bend_h.
  now rewrite pmul_assoc.
Qed.
Lemma exit_matrix : pose_of (realign dx dy ds th ph ps an L ang h pf) = exit_pose.
Proof.
  unfold realign, exit_pose, moved_entry. rewrite bend_curv.
  rewrite !pose_mul, !pose_inv, pose_mis, pose_arc by apply bend_h.
  rewrite !tarc_neg by apply bend_h.
  replace (- (ang - ang / L * an)) with ((an - L) * (ang / L)) by (field; apply Hb).
  replace (- ((an - L) * (ang / L))) with (ang - ang / L * an) by (field; apply Hb).
  now rewrite pmul_assoc.
Qed.
Lemma rigid_entry_pose : rigid entry_pose.
Proof. apply rigid_entry; [apply rigid_tarc|apply rigid_mis]. Qed.
Lemma rigid_exit_pose : rigid exit_pose.
Proof. apply rigid_entry; [apply rigid_tarc|apply rigid_inv, rigid_mis]. Qed.

Lemma entry_curved_from p : physical p -> reachable entry_pose p ->
  let q := entry_curved sp dx dy ds th ph ps an L ang h pf false p in
  sees_from sp (pmul entry_pose (tilt pf)) p q /\ physical q.
Proof.
  intros Hp Hr q. unfold q, entry_curved. rewrite bend_test.
  rewrite <- entry_matrix in *. apply to_mis_pose; try assumption.
  rewrite entry_matrix. apply rigid_entry_pose.
Qed.
Lemma exit_curved_from p : physical p -> reachable exit_pose (S_ROTATE sp (- pf) p) ->
  let q := exit_curved sp dx dy ds th ph ps an L ang h pf false p in
  sees_from sp (pmul (tilt (- pf)) exit_pose) p q /\ physical q.
Proof.
  intros Hp Hr q. destruct (tilt_from sp (- pf) p Hp) as [H1 P1].
  assert (R : rigid (pose_of (realign dx dy ds th ph ps an L ang h pf)))
    by (rewrite exit_matrix; apply rigid_exit_pose).
  rewrite <- exit_matrix in Hr.
  destruct (to_mis_pose sp _ 0 _ R P1 Hr) as [H2 P2]. rewrite exit_matrix in H2.
  assert (E : q = to_misaligned sp (m03 (realign dx dy ds th ph ps an L ang h pf)) (m13 (realign dx dy ds th ph ps an L ang h pf))
    (m23 (realign dx dy ds th ph ps an L ang h pf)) (rot_theta (realign dx dy ds th ph ps an L ang h pf))
    (rot_phi (realign dx dy ds th ph ps an L ang h pf)) (rot_psi (realign dx dy ds th ph ps an L ang h pf)) 0 (S_ROTATE sp (- pf) p)).
  { unfold q, exit_curved. rewrite bend_test. cbv zeta. unfold to_misaligned.
    unfold S_ROTATE at 3. unfold is0 at 1. destruct (Req_EM_T 0 0) as [_|n]; [reflexivity|now elim n]. }
  rewrite <- E in H2, P2. split; [|exact P2].
  pose proof (from_trans _ _ _ _ _ _ (rigid_tilt (- pf)) H1 H2) as H.
  replace (pmul exit_pose (tilt 0)) with exit_pose in H; [exact H|].
  symmetry. etransitivity; [|apply pmul_id_r]. f_equal. unfold tilt. rewrite sin_0, cos_0.
  apply pose_eq; [apply mat_eq|]; apply vec_eq; pcbv; ring.
Qed.
End Bend.
