From Coq Require Import Reals ZArith Lra Psatz List Bool.
From Verif.Model Require Import Maps Curved.
From Verif.Spec Require Import Frames Aligned Poses.
From Verif.Proofs Require Import Frames FrameMaps Misalign Curved.
Import ListNotations.
Local Open Scope R_scope.

Lemma refl_from sp p : sees_from sp pid p p.
Proof. unfold sees_from, pid; cbn [rotn orig]. rewrite transp_ident, app_ident. apply sees_refl. Qed.

Lemma forward_id p : physical p -> forward (transp (rotn pid)) p.
Proof. cbn. intros. rewrite transp_ident. now apply forward_ident. Qed.

Lemma from_id_eq sp A p q : sees_from sp A p q -> A = pid -> physical p -> q = p.
Proof.
  intros H -> Hp. exact (from_unique _ _ _ _ _ (forward_id p Hp) H (refl_from sp p)).
Qed.

Lemma tilt_back sp f p : physical p -> S_ROTATE sp f (S_ROTATE sp (- f) p) = p.
Proof.
  intros Hp. destruct (tilt_from sp (- f) p Hp) as [H1 P1]. destruct (tilt_from sp f _ P1) as [H2 P2].
  refine (from_id_eq _ _ _ _ (from_trans _ _ _ _ _ _ (rigid_tilt (- f)) H1 H2) _ Hp).
  rewrite <- tilt_neg. apply pinv_l, rigid_tilt.
Qed.

Section One.
Variables (sp : bool) (a : align) (an L h : R).
Hypothesis HL : L <> 0.
Hypothesis Hh : h <> 0.
Notation ent := (entry_curved sp (al_x a) (al_y a) (al_s a) (al_theta a) (al_phi a) (al_psi a) an L (h * L) h (al_tilt a)).
Notation exi := (exit_curved sp (al_x a) (al_y a) (al_s a) (al_theta a) (al_phi a) (al_psi a) an L (h * L) h (al_tilt a)).

Lemma hL : bend L (h * L).
Proof. split; [exact HL|]. intros Q. apply Rmult_integral in Q. tauto. Qed.
Lemma hLL : h * L / L = h.
Proof. field. exact HL. Qed.

Lemma bend_entry_from p : enterable_bend a an h p ->
  enters_bend sp a an h p (ent false p) /\ physical (ent false p).
Proof.
  intros [Hp Hr]. unfold enters_bend.
  pose proof (entry_curved_from sp (al_x a) (al_y a) (al_s a) (al_theta a) (al_phi a) (al_psi a) an L (h * L) h
    (al_tilt a) hL p Hp) as H. unfold entry_pose in H. rewrite hLL in H. exact (H Hr).
Qed.
Lemma bend_exit_from p : leavable_bend sp a an L h p ->
  leaves_bend sp a an L h p (exi false p) /\ physical (exi false p).
Proof.
  intros [Hp Hr]. unfold leaves_bend.
  pose proof (exit_curved_from sp (al_x a) (al_y a) (al_s a) (al_theta a) (al_phi a) (al_psi a) an L (h * L) h
    (al_tilt a) hL p Hp) as H. unfold exit_pose in H. rewrite hLL in H.
  apply H. apply Hr. now apply tilt_from.
Qed.

Lemma bend_entry_back p : enterable_bend a an h p -> ent true (ent false p) = p.
Proof.
  intros [Hp Hr]. unfold entry_curved. rewrite (bend_test _ _ _ hL). cbv zeta.
  set (m := misaligned_entry _ _ _ _ _ _ _ _ _ _ _).
  assert (E : pose_of m = bend_entry a an h).
  { unfold m. rewrite (entry_matrix _ _ _ _ _ _ _ _ _ _ _ hL). unfold entry_pose. now rewrite hLL. }
  apply to_from; [exact Hp|]. apply can_enter_pose; rewrite E; [|exact Hr].
  apply rigid_entry; [apply rigid_tarc|apply rigid_mis].
Qed.
Lemma bend_exit_back p : leavable_bend sp a an L h p -> exi true (exi false p) = p.
Proof.
  intros [Hp Hr]. specialize (Hr _ (proj1 (tilt_from sp (- al_tilt a) p Hp))).
  pose proof (proj2 (tilt_from sp (- al_tilt a) p Hp)) as P1.
  unfold exit_curved. rewrite (bend_test _ _ _ hL). cbv zeta.
  set (m := realign _ _ _ _ _ _ _ _ _ _ _).
  assert (E : pose_of m = bend_exit a an L h).
  { unfold m. rewrite (exit_matrix _ _ _ _ _ _ _ _ _ _ _ hL). unfold exit_pose. now rewrite hLL. }
  set (q := S_ROTATE sp (- al_tilt a) p) in *.
  assert (Hc : can_enter (rot_theta m) (rot_phi m) q).
  { apply can_enter_pose; rewrite E; [|exact Hr].
    apply rigid_entry; [apply rigid_tarc|apply rigid_inv, rigid_mis]. }
  pose proof (to_from sp (m03 m) (m13 m) (m23 m) (rot_theta m) (rot_phi m) (rot_psi m) 0 q P1 Hc) as H.
  unfold from_misaligned, to_misaligned in H. rewrite Ropp_0 in H.
  assert (Z : forall r, S_ROTATE sp 0 r = r).
  { intros r. unfold S_ROTATE, is0. destruct (Req_EM_T 0 0) as [_|n]; [reflexivity|now elim n]. }
  rewrite !Z in H. rewrite H. unfold q. now apply tilt_back.
Qed.

Lemma exit_entry an' L' p : an' = an - L -> L' <> 0 ->
  leavable_bend sp a an L h p ->
  (forall r, leaves_bend sp a an L h p r -> reachable (bend_entry a an' h) r) ->
  entry_curved sp (al_x a) (al_y a) (al_s a) (al_theta a) (al_phi a) (al_psi a) an' L' (h * L') h (al_tilt a) false
    (exi false p) = p.
Proof.
  intros -> HL' Hl Hr. destruct (bend_exit_from p Hl) as [H1 P1].
  specialize (Hr _ H1). set (r := exi false p) in *.
  pose proof (entry_curved_from sp (al_x a) (al_y a) (al_s a) (al_theta a) (al_phi a) (al_psi a) (an - L) L' (h * L') h
    (al_tilt a)) as H2.
  assert (Hb : bend L' (h * L')) by (split; [exact HL'|intros Q; apply Rmult_integral in Q; tauto]).
  assert (Eh : h * L' / L' = h) by (field; exact HL').
  destruct (H2 Hb r P1) as [H3 P3].
  { unfold entry_pose. rewrite Eh. exact Hr. }
  unfold entry_pose in H3. rewrite Eh in H3.
  unfold leaves_bend in H1.
  assert (RT : rigid (pmul (tilt (- al_tilt a)) (bend_exit a an L h))).
  { apply rigid_mul; [apply rigid_tilt|]. apply rigid_entry; [apply rigid_tarc|apply rigid_inv, rigid_mis]. }
  refine (from_id_eq _ _ _ _ (from_trans _ _ _ _ _ _ RT H1 H3) _ (proj1 Hl)).
  unfold bend_exit, moved_entry. rewrite <- !pmul_assoc.
  rewrite pmul_cancel by apply rigid_tarc. rewrite pmul_cancel by apply rigid_mis.
  rewrite pmul_cancel' by apply rigid_tarc. rewrite <- tilt_neg. apply pinv_l, rigid_tilt.
Qed.
End One.

(** * The polar drift *)
Lemma polar_drift_eq L h p : polar_drift L h p =
  let c := cos (h * L) in let s := sin (h * L) in let w := sin (1 / 2 * h * L) in
  let px := p_px p in let pz := sqrt ((p_delta p + 1) * (p_delta p + 1) - p_px p * p_px p - p_py p * p_py p) in
  let r := 1 / h in
  mkPart ((p_x p + r * (2 * w * w + s * (px * (1 / pz)))) * (1 / (c - s * (px * (1 / pz)))))
    (c * px + s * pz) (p_y p + (p_x p + r) * s * (1 / pz) * (1 / (c - s * (px * (1 / pz)))) * p_py p) (p_py p)
    (p_zeta p + (L - (p_delta p + 1) * (p_x p + r) * s / c / pz / (1 - px * s / c / pz) / p_rvv p)) (p_s p + L)
    (p_delta p) (p_ptau p) (p_rpp p) (p_rvv p) (p_chi p) (p_beta0 p)
    (p_ax p) (p_ay p) (p_spin_x p) (p_spin_y p) (p_spin_z p).
Proof. reflexivity. Qed.

Lemma polar_from sp L h p : physical p -> h <> 0 -> cos (h * L) <> 0 ->
  forward (transp (rotn (arc (h * L) h))) p -> (sp = true -> spin p = V3 0 0 0) ->
  sees_from sp (arc (h * L) h) p (ahead (- L) (polar_drift L h p)).
Proof.
  intros [Hk Hz] Hh Hc Hf Hs. pose proof (kin_rvv p Hk) as Hrv.
  destruct Hk as (_ & _ & _ & Hb & Hrvv & _).
  assert (Hrv0 : p_rvv p <> 0).
  { rewrite Hrvv. intros Q. unfold Rdiv in Q. apply Rmult_integral in Q.
    destruct Q as [Q|Q]; [unfold pz2 in Hz; rewrite Q in Hz; nra|].
    revert Q. apply Rinv_neq_0_compat. lra. }
  set (pz := sqrt (pz2 p)). assert (Hpz : 0 < pz) by now apply sqrt_lt_R0.
  assert (Epz : sqrt ((p_delta p + 1) * (p_delta p + 1) - p_px p * p_px p - p_py p * p_py p) = pz).
  { unfold pz, pz2. f_equal. ring. }
  assert (Epz2 : pz * pz = pz2 p) by (apply sqrt_sqrt; lra).
  pose proof (sc1 (h * L)) as SC. set (c := cos (h * L)) in *. set (s := sin (h * L)) in *.
  assert (F : 0 < c * pz - s * p_px p).
  { revert Hf. unfold forward, arc, momentum. fold c s pz. cbv [rotn transp app dot m_x m_y m_z v_x v_y v_z].
    intros; lra. }
  assert (W : 2 * sin (1 / 2 * h * L) * sin (1 / 2 * h * L) = 1 - c).
  { unfold c. replace (cos (h * L)) with (cos (2 * (1 / 2 * h * L))) by (f_equal; lra). rewrite cos_2a_sin. ring. }
  rewrite polar_drift_eq. cbv zeta. fold c s. rewrite Epz, W.
  unfold ahead, add_s, set_s, add_zeta, set_zeta. pcbn.
  exists (s * (p_x p + 1 / h) / (c * pz - s * p_px p)).
  split; [|split; [|split; [|split]]].
  - unfold momentum, pz2. pcbn. fold (pz2 p). fold pz. fold (arc (h * L) h).
    cbv [arc]. fold c s. cbv [rotn transp app dot m_x m_y m_z v_x v_y v_z].
    f_equal; [ring|ring|]. transitivity (c * pz - s * p_px p); [|ring].
    apply sqrt_square_pos; [exact F|].
    transitivity ((s * s + c * c) * (pz * pz) + (s * s + c * c) * (p_px p * p_px p)
                   - (c * p_px p + s * pz) * (c * p_px p + s * pz)); [|ring].
    rewrite SC, Epz2. unfold pz2. ring.
  - unfold position, momentum. pcbn. fold pz.
    assert (N1 : c - s * (p_px p * (1 / pz)) <> 0).
    { intros Q. apply (f_equal (Rmult pz)) in Q. field_simplify in Q; lra. }
    apply vec_eq; cbv [arc]; fold c s;
      cbv [rotn orig transp app dot vadd vsub vscale m_x m_y m_z v_x v_y v_z].
    + apply (Rmult_eq_reg_r (c * pz - s * p_px p)); [|lra].
      transitivity (p_x p * pz + 1 / h * ((1 - c) * pz + s * p_px p)).
      * field. repeat split; try lra. 
      * transitivity ((s * s + c * c) * p_x p * pz
          + 1 / h * ((s * s + c * c) * pz - c * pz + s * p_px p
            + (s * s + c * c - 1) * (s * p_px p - c * pz))).
        { rewrite SC. field. exact Hh. }
        field. split; [exact Hh|lra].
    + field. repeat split; try lra. 
    + apply (Rmult_eq_reg_r (c * pz - s * p_px p)); [|lra]. field. split; [exact Hh|lra].
  - pcbn. field. repeat split; try lra; try assumption.
  - unfold spin in *. pcbn. destruct sp; [|reflexivity]. specialize (Hs eq_refl).
    injection Hs as -> -> ->. apply vec_eq; cbv [arc rotn transp app dot m_x m_y m_z v_x v_y v_z]; ring.
  - unfold same_rest. pcbn. repeat split; ring.
Qed.

Lemma ahead_0 a p : ahead (- a) (ahead a p) = p.
Proof.
  unfold ahead, add_s, set_s, add_zeta, set_zeta. pcbn. rewrite <- (part_eta p) at 18. f_equal; ring.
Qed.
Lemma ahead_0' a p : ahead a (ahead (- a) p) = p.
Proof.
  unfold ahead, add_s, set_s, add_zeta, set_zeta. pcbn. rewrite <- (part_eta p) at 18. f_equal; ring.
Qed.
Lemma ahead_from sp A a p q : sees_from sp A p q -> sees_from sp A (ahead a p) (ahead a q).
Proof. apply ahead_sees. Qed.

Lemma from_spin0 sp A p q : (sp = true -> spin p = V3 0 0 0) -> sees_from sp A p q ->
  (sp = true -> spin q = V3 0 0 0).
Proof.
  intros H (l & _ & _ & _ & Hs & _) ->. rewrite Hs, (H eq_refl). apply app_0.
Qed.

Lemma tilt_forward f p : physical p -> forward (transp (rotn (tilt f))) p.
Proof. intros Hp. unfold tilt; cbn [rotn]. rewrite transp_transp. now apply forward_s. Qed.

Lemma reachable_ahead A a p : reachable A (ahead a p) <-> reachable A p.
Proof. reflexivity. Qed.

(** A bend without field, displaced, is the bend in place. *)
Lemma bend_no_field sp a an L h p : L <> 0 -> h <> 0 -> cos (h * L) <> 0 ->
  (sp = true -> spin p = V3 0 0 0) ->
  enterable_bend a an h p ->
  forward (transp (rotn (tilted_arc (h * L) h (al_tilt a)))) p ->
  (forall q, enters_bend sp a an h p q -> forward (transp (rotn (arc (h * L) h))) q) ->
  (forall r, sees_from sp (pmul (bend_entry a an h) (tilted_arc (h * L) h (al_tilt a))) p r ->
     reachable (bend_exit a an L h) r) ->
  exit_curved sp (al_x a) (al_y a) (al_s a) (al_theta a) (al_phi a) (al_psi a) an L (h * L) h (al_tilt a) false
    (polar_drift L h
      (entry_curved sp (al_x a) (al_y a) (al_s a) (al_theta a) (al_phi a) (al_psi a) an L (h * L) h (al_tilt a) false p))
  = S_ROTATE sp (- al_tilt a) (polar_drift L h (S_ROTATE sp (al_tilt a) p)).
Proof.
  intros HL Hh Hc Hs He Hf1 Hf2 Hx.
  set (f := al_tilt a) in *. pose proof He as [Hp _].
  destruct (bend_entry_from sp a an L h HL Hh p He) as [E1 P1].
  fold f in E1, P1 |- *. set (q := entry_curved _ _ _ _ _ _ _ _ _ _ _ _ _ _) in *.
  pose proof (polar_from sp L h q P1 Hh Hc (Hf2 _ E1) (from_spin0 _ _ _ _ Hs E1)) as E2.
  pose proof (from_physical _ _ _ _ E2 (Hf2 _ E1) P1) as P2.
  (* at the exit, without the advance in s *)
  set (u := ahead (- L) (polar_drift L h q)) in *.
  assert (R0 : rigid (bend_entry a an h)) by (apply rigid_entry; [apply rigid_tarc|apply rigid_mis]).
  assert (R1 : rigid (pmul (bend_entry a an h) (tilt f))) by (apply rigid_mul; [exact R0|apply rigid_tilt]).
  pose proof (from_trans _ _ _ _ _ _ R1 E1 E2) as E12.
  assert (Hl : leavable_bend sp a an L h u).
  { split; [exact P2|]. intros r Hr. apply Hx.
    pose proof (from_trans _ _ _ _ _ _ (rigid_mul _ _ R1 (rigid_arc (h * L) h)) E12 Hr) as K.
    fold f in K. rewrite <- tilt_neg in K. unfold tilted_arc. rewrite !pmul_assoc in *. exact K. }
  destruct (bend_exit_from sp a an L h HL Hh u Hl) as [E3 P3].
  (* the exit does not depend on s *)
  assert (Ecomm : exit_curved sp (al_x a) (al_y a) (al_s a) (al_theta a) (al_phi a) (al_psi a) an L (h * L) h f false
     (polar_drift L h q) = ahead L
     (exit_curved sp (al_x a) (al_y a) (al_s a) (al_theta a) (al_phi a) (al_psi a) an L (h * L) h f false u)).
  { assert (Hl' : leavable_bend sp a an L h (polar_drift L h q)).
    { split; [exact (ahead_physical L u P2)|]. intros r Hr.
      apply (ahead_from _ _ (- L)) in Hr. apply (proj1 (reachable_ahead _ (- L) r)), (proj2 Hl), Hr. }
    destruct (bend_exit_from sp a an L h HL Hh _ Hl') as [E4 _].
    apply (from_unique sp (pmul (tilt (- f)) (bend_exit a an L h)) (polar_drift L h q)).
    - apply (from_forward sp _ (bend_exit a an L h) _ _ (proj1 (tilt_from sp (- f) _ (proj1 Hl')))).
      exact (proj2 (proj2 (proj2 Hl' _ (proj1 (tilt_from sp (- f) _ (proj1 Hl')))))).
    - exact E4.
    - rewrite <- (ahead_0' L (polar_drift L h q)) at 1. apply ahead_from. exact E3. }
  rewrite Ecomm.
  (* the bend in place *)
  destruct (tilt_from sp f p Hp) as [T1 Q1]. set (v := S_ROTATE sp f p) in *.
  assert (Fv : forward (transp (rotn (arc (h * L) h))) v).
  { apply (from_forward sp (tilt f) (arc (h * L) h) p v T1). revert Hf1. unfold tilted_arc, forward.
    cbn [pmul rotn pinv tilt]. rewrite !transp_mmul, !transp_transp.
    cbv [Rot_s]. cbv [app dot momentum mmul transp m_x m_y m_z v_x v_y v_z]. intros; lra. }
  pose proof (polar_from sp L h v Q1 Hh Hc Fv (from_spin0 _ _ _ _ Hs T1)) as T2.
  pose proof (from_physical _ _ _ _ T2 Fv Q1) as Q2.
  set (w := ahead (- L) (polar_drift L h v)) in *.
  destruct (tilt_from sp (- f) w Q2) as [T3 Q3].
  assert (Tc : S_ROTATE sp (- f) (polar_drift L h v) = ahead L (S_ROTATE sp (- f) w)).
  { destruct (tilt_from sp (- f) (polar_drift L h v) (ahead_physical L w Q2)) as [T4 _].
    apply (from_unique sp (tilt (- f)) (polar_drift L h v)).
    - apply tilt_forward. exact (ahead_physical L w Q2).
    - exact T4.
    - rewrite <- (ahead_0' L (polar_drift L h v)) at 1. apply ahead_from. exact T3. }
  rewrite Tc. f_equal.
  apply (from_unique sp (tilted_arc (h * L) h f) p); [exact Hf1| |].
  - pose proof (from_trans _ _ _ _ _ _ (rigid_mul _ _ R1 (rigid_arc (h * L) h)) E12 E3) as K.
    refine (eq_ind _ (fun A => sees_from sp A p _) K _ _).
    fold f. unfold bend_entry, bend_exit, moved_entry. fold f.
    rewrite <- !pmul_assoc.
    rewrite (pmul_assoc (arc (h * L) h)), (pmul_assoc (tilt f)).
    rewrite <- tilt_neg. fold (tilted_arc (h * L) h f).
    rewrite !tarc_neg by exact Hh. rewrite (pmul_assoc (tilted_arc (h * L) h f)), tarc_add by exact Hh.
    rewrite (pmul_assoc (tilted_arc (- (an * h)) h f)), tarc_add by exact Hh.
    replace (- (an * h) + (h * L + (an - L) * h)) with 0 by ring.
    rewrite tarc_0, pmul_id_l by exact Hh. rewrite pmul_cancel' by apply rigid_mis.
    rewrite tarc_add by exact Hh. f_equal. ring.
  - pose proof (from_trans _ _ _ _ _ _ (rigid_mul _ _ (rigid_tilt f) (rigid_arc (h * L) h))
      (from_trans _ _ _ _ _ _ (rigid_tilt f) T1 T2) T3) as K.
    unfold tilted_arc. rewrite tilt_neg, pmul_assoc. exact K.
Qed.

(** * The wrapper *)
Lemma curved_inactive sp a an L h p : rot_shift_active a = false -> enterable_bend a an h p ->
  L <> 0 -> h <> 0 ->
  entry_curved sp (al_x a) (al_y a) (al_s a) (al_theta a) (al_phi a) (al_psi a) an L (h * L) h (al_tilt a) false p = p.
Proof.
  intros Hi He HL Hh. destruct (bend_entry_from sp a an L h HL Hh p He) as [E P].
  refine (from_id_eq _ _ _ _ E _ (proj1 He)). clear E P He. revert Hi.
  unfold rot_shift_active. rewrite !orb_false_iff, !negb_false_iff.
  intros ((((((H1 & H2) & H3) & H4) & H5) & H6) & H7).
  apply is0_true in H1, H2, H3, H4, H5, H6, H7.
  assert (M : misplaced (al_x a) (al_y a) (al_s a) (al_theta a) (al_phi a) (al_psi a) = pid).
  { rewrite H1, H2, H3, H4, H5, H7. unfold misplaced, attitude. rewrite sin_0, cos_0.
    apply pose_eq; [apply mat_eq|]; apply vec_eq; pcbv; ring. }
  assert (T : tilt (al_tilt a) = pid).
  { rewrite H6. unfold tilt. rewrite sin_0, cos_0.
    apply pose_eq; [apply mat_eq|]; apply vec_eq; pcbv; ring. }
  unfold bend_entry, moved_entry. rewrite M, T, pmul_id_r, pmul_id_l. apply pinv_r, rigid_tarc.
Qed.

Lemma curved_back sp a off L h body p : L <> 0 -> h <> 0 ->
  enterable_bend a (al_anchor a - off) h p ->
  (forall q, enters_bend sp a (al_anchor a - off) h p q ->
     leavable_bend sp a (al_anchor a - off) L h (body false q) /\ body true (body false q) = q) ->
  track_aligned_curved sp a off L (h * L) h true body (track_aligned_curved sp a off L (h * L) h false body p) = p.
Proof.
  intros HL Hh He Hb. destruct (bend_entry_from sp a (al_anchor a - off) L h HL Hh p He) as [Hs _].
  destruct (Hb _ Hs) as [Hl B]. unfold track_aligned_curved. destruct (rot_shift_active a) eqn:E.
  - rewrite (bend_exit_back sp a _ L h HL Hh _ Hl). rewrite B. now apply bend_entry_back.
  - rewrite curved_inactive in B by assumption. exact B.
Qed.

Lemma curved_pieces_inactive sp a h off pieces p : rot_shift_active a = false ->
  track_bend_pieces sp a h off pieces p = bodies pieces p.
Proof.
  intros E. revert off p; induction pieces as [|[l b] t IH]; intros off p; cbn; [reflexivity|].
  rewrite IH. unfold track_aligned_curved. now rewrite E.
Qed.

Lemma exit_curved_len sp a an L an' L' h p : an - L = an' - L' -> L <> 0 -> L' <> 0 -> h <> 0 ->
  exit_curved sp (al_x a) (al_y a) (al_s a) (al_theta a) (al_phi a) (al_psi a) an L (h * L) h (al_tilt a) false p
  = exit_curved sp (al_x a) (al_y a) (al_s a) (al_theta a) (al_phi a) (al_psi a) an' L' (h * L') h (al_tilt a) false p.
Proof.
  intros H HL HL' Hh. unfold exit_curved.
  rewrite (bend_test _ _ _ (hL L h HL Hh)), (bend_test _ _ _ (hL L' h HL' Hh)).
  assert (E : realign (al_x a) (al_y a) (al_s a) (al_theta a) (al_phi a) (al_psi a) an L (h * L) h (al_tilt a)
    = realign (al_x a) (al_y a) (al_s a) (al_theta a) (al_phi a) (al_psi a) an' L' (h * L') h (al_tilt a)).
  { unfold realign. rewrite (bend_curv _ _ _ (hL L h HL Hh)), (bend_curv _ _ _ (hL L' h HL' Hh)).
    rewrite (hLL L h HL), (hLL L' h HL').
    replace (h * L - h * an) with (h * L' - h * an'); [reflexivity|].
    transitivity (- h * (an' - L')); [ring|]. rewrite <- H. ring. }
  now rewrite E.
Qed.

Lemma curved_pieces_active sp a h t : rot_shift_active a = true -> h <> 0 ->
  Forall (fun x => 0 < fst x) t -> forall off l0 q, 0 < l0 ->
  leavable_bend sp a (al_anchor a - off) l0 h q ->
  (forall r, leaves_bend sp a (al_anchor a - off) l0 h q r ->
     reachable (bend_entry a (al_anchor a - (off + l0)) h) r) ->
  bend_joints sp a h (off + l0) t q ->
  track_bend_pieces sp a h (off + l0) t
    (exit_curved sp (al_x a) (al_y a) (al_s a) (al_theta a) (al_phi a) (al_psi a)
       (al_anchor a - off) l0 (h * l0) h (al_tilt a) false q)
  = exit_curved sp (al_x a) (al_y a) (al_s a) (al_theta a) (al_phi a) (al_psi a)
       (al_anchor a - off) (l0 + total_length t) (h * (l0 + total_length t)) h (al_tilt a) false (bodies t q).
Proof.
  intros E Hh. induction t as [|[l b] t IH]; intros Hpos off l0 q Hl0 Hl Hr Hj.
  - cbn. now rewrite Rplus_0_r.
  - cbn [track_bend_pieces bodies total_length]. destruct Hj as (Hl1 & Hlv & Hre & Hj').
    inversion Hpos as [|x y Hx Hy]; subst. cbn in Hx.
    unfold track_aligned_curved at 1. rewrite E.
    rewrite (exit_entry sp a (al_anchor a - off) l0 h) by (try assumption; lra).
    rewrite (IH Hy (off + l0) l (b false q)) by assumption.
    assert (0 <= total_length t).
    { clear - Hy. induction t as [|[k b] t IH]; cbn; [lra|]. inversion Hy; subst. cbn in *.
      specialize (IH H2). lra. }
    apply exit_curved_len; lra.
Qed.

Lemma curved_pieces sp a h pieces p : pieces <> [] -> h <> 0 -> Forall (fun x => 0 < fst x) pieces ->
  enterable_bend a (al_anchor a) h p ->
  (forall q, enters_bend sp a (al_anchor a) h p q -> bend_joints sp a h 0 pieces q) ->
  track_bend_pieces sp a h 0 pieces p
  = track_aligned_curved sp a 0 (total_length pieces) (h * total_length pieces) h false
      (fun _ => bodies pieces) p.
Proof.
  intros Hn Hh Hpos He Hb. unfold track_aligned_curved at 1. destruct (rot_shift_active a) eqn:E.
  - destruct pieces as [|[l b] t]; [congruence|]. inversion Hpos as [|x y Hx Hy]; subst. cbn in Hx.
    assert (Ht : 0 <= total_length t).
    { clear - Hy. induction t as [|[k b] t IH]; cbn; [lra|]. inversion Hy; subst. cbn in *.
      specialize (IH H2). lra. }
    assert (Hl : l <> 0) by lra.
    destruct (bend_entry_from sp a (al_anchor a) l h Hl Hh p He) as [Hs _].
    destruct (Hb _ Hs) as (_ & H1 & H2 & H3). clear Hb.
    cbn [track_bend_pieces bodies total_length]. unfold track_aligned_curved. rewrite E, !Rminus_0_r in *.
    assert (Een : entry_curved sp (al_x a) (al_y a) (al_s a) (al_theta a) (al_phi a) (al_psi a) (al_anchor a)
       (l + total_length t) (h * (l + total_length t)) h (al_tilt a) false p
       = entry_curved sp (al_x a) (al_y a) (al_s a) (al_theta a) (al_phi a) (al_psi a) (al_anchor a)
       l (h * l) h (al_tilt a) false p).
    { assert (Hl' : l + total_length t <> 0) by lra. unfold entry_curved.
      rewrite (bend_test _ _ _ (hL _ h Hl Hh)), (bend_test _ _ _ (hL _ h Hl' Hh)).
      unfold misaligned_entry. rewrite (bend_curv _ _ _ (hL _ h Hl Hh)), (bend_curv _ _ _ (hL _ h Hl' Hh)).
      rewrite (hLL _ h Hl), (hLL _ h Hl'). reflexivity. }
    rewrite Een.
    pose proof (curved_pieces_active sp a h t E Hh Hy 0 l
      (b false (entry_curved sp (al_x a) (al_y a) (al_s a) (al_theta a) (al_phi a) (al_psi a) (al_anchor a)
       l (h * l) h (al_tilt a) false p)) Hx) as H. rewrite Rminus_0_r in H.
    apply H; assumption.
  - rewrite curved_pieces_inactive by exact E. reflexivity.
Qed.
