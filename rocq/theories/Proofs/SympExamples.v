From Coq Require Import Reals ZArith List Bool Lra Lia.
From Verif.Model Require Import Maps Curved Magnet Rf.
From Verif.Spec Require Import Frames Aligned Magnets Rf Symplectic.
From Verif.Proofs Require Import Frames FrameMaps Magnet MagnetKick MagnetDrift MagnetCases.
From Verif.Proofs Require MapsCases Rf RfCases Symplectic SympRf SympCases.
Import ListNotations.
Local Open Scope R_scope.

(** * The reference particle in a bend and in a cavity *)
Definition rest : part := mkPart 0 0 0 0 0 0 0 0 1 1 1 (1 / 2) 0 0 0 0 0.
Lemma rest_kin : kinematic rest.
Proof. unfold kinematic, rest, pz2. cbn. repeat split; lra. Qed.

Lemma seen_inv d k (inv : part -> Prop) l : forall p (P : Prop),
  (forall x a, inv a -> can_drift d x a /\ inv (magnet_drift d x a)) -> (forall w a, inv a -> inv (magnet_kick k w a)) ->
  inv p -> P -> snd (run (see_drift d) (watch_kick k) l (p, P)).
Proof.
  induction l as [|[x|w] l IH]; intros p P Hd Hk Hp HP; [exact HP| |];
    cbn [run fold_left step see_drift watch_kick fst snd]; unfold run in IH; apply IH; auto.
  - now apply Hd.
  - split; [exact HP|now apply Hd].
Qed.
Lemma axis_kick n b w p : on_axis p ->
  let g := bend 2 (1 / 10) (1 / 10) n 2 1 in
  on_axis (magnet_kick (if b : bool then turned (fwd_kick 1 g) else fwd_kick 1 g) w p).
Proof.
  intros Ha g.
  assert (Hb : Rabs (1 / 10) = 1 / 10) by (apply Rabs_pos_eq; lra).
  assert (T : tiny (1 / 10) = false) by (apply tiny_false; rewrite Hb; lra).
  assert (Ek : fwd_kick 1 g = mkKp (2 * 1) none None 0 (1 * 1) 0 0 0 0 0 0 0 0 (1 / 10) 0 0 0 false).
  { unfold fwd_kick. change (used_model g) with 2%Z. unfold drift_model_of. cbn [Z.eqb Pos.eqb].
    change (mg_h g) with (1 / 10). rewrite T. reflexivity. }
  rewrite Ek. rewrite kick_eq. destruct Ha as (A & B & C & D & E & F).
  unfold on_axis, kicked. pcbn. repeat split; try assumption.
  - unfold FX, kc, kick_coordinates, mainm, htot, k0m, k1m, relx, none.
    destruct b;
    cbn [turned kp_length kp_factor kp_hxl kp_mult kp_rel kp_ref kp_k0 kp_k1 kp_k2 kp_k3 kp_k0s kp_k1s kp_rot
        kp_k2s kp_k3s kp_h kp_k0h kp_k1h mu_order mu_inv mu_knl mu_ksl nth kick_loop fst snd Nat.leb];
    rewrite A, B; ring.
  - unfold FY, kc, kick_coordinates, mainm, htot, k0m, k1m, rely, none.
    destruct b;
    cbn [turned kp_length kp_factor kp_hxl kp_mult kp_rel kp_ref kp_k0 kp_k1 kp_k2 kp_k3 kp_k0s kp_k1s kp_rot
        kp_k2s kp_k3s kp_h kp_k0h kp_k1h mu_order mu_inv mu_knl mu_ksl nth kick_loop fst snd Nat.leb];
    rewrite A, D; ring.
Qed.
Lemma rest_goes b n : goes_through b 1 (bend 2 (1 / 10) (1 / 10) n 2 1) rest.
Proof.
  set (g := bend 2 (1 / 10) (1 / 10) n 2 1).
  unfold goes_through. rewrite body_run. apply (seen_inv _ _ on_axis).
  - intros x a Ha.
    assert (Hb : Rabs (1 / 10) = 1 / 10) by (apply Rabs_pos_eq; lra).
    assert (T : tiny (1 / 10) = false) by (apply tiny_false; rewrite Hb; lra).
    assert (Ed : fwd_drift g = mkDp 4 (1 / 10) 0 0 (1 / 10) 0 0).
    { unfold fwd_drift. change (used_model g) with 2%Z. unfold drift_model_of. cbn [Z.eqb Pos.eqb].
      change (mg_h g) with (1 / 10). rewrite T. reflexivity. }
    rewrite Ed. unfold can_drift, magnet_drift. cbn [dp_model dp_k0 dp_k1 dp_ks dp_h dp_x0 dp_y0 Z.eqb Pos.eqb].
    assert (Hc : p_chi a = 1) by apply Ha.
    destruct (axis_bend (1 / 10) x a ltac:(lra) Ha ltac:(rewrite Hb; lra)) as [X Y].
    split.
    + intros _. right. rewrite Hc, Rmult_1_r, Hb. split; [lra|exact X].
    + destruct (is0 x); [exact Ha|exact Y].
  - intros w a Ha. now apply (axis_kick n b w a).
  - repeat split.
  - exact I.
Qed.

Lemma gap_run l a (P : Prop) : Forall (fun o => match o with D _ => True | K w => 0 <= w end) l ->
  RfCases.fast a -> P ->
  snd (run (see_rf_drift 0) (watch_rf_kick false (fwd_rf RfCases.plain 1 (cavity_el (RfCases.gap 2 3)))) l (a, P)).
Proof.
  revert a P. induction l as [|[x|w] l IH]; intros a P H Ha HP; [exact HP| |];
    inversion H; subst; cbn [run fold_left step see_rf_drift watch_rf_kick fst snd]; unfold run in IH.
  - apply IH; [assumption|now apply RfCases.fast_drift|]. split; [exact HP|]. intros _. exact I.
  - apply IH; [assumption|now apply RfCases.fast_kick|]. split; [exact HP|].
    now apply RfCases.fast_moving, RfCases.fast_kick.
Qed.
Lemma gap_goes : goes_through_rf RfCases.plain false 1 (cavity_el (RfCases.gap 2 3)) (RfCases.of_charge 1).
Proof.
  unfold goes_through_rf. rewrite body_run.
  assert (N : rf_used_kicks (cavity_el (RfCases.gap 2 3)) 1 = 3%Z).
  { unfold rf_used_kicks. destruct (Req_EM_T 1 1); [reflexivity|congruence]. }
  rewrite N. apply gap_run; [|unfold RfCases.fast; cbn; repeat split; lra|exact I].
  assert (H : 0 <= 1 / 3) by lra.
  cbn. repeat (apply Forall_cons; [first [exact I|exact H]|]). apply Forall_nil.
Qed.

(** With the option to preserve angles the momenta are scaled with the energy. *)
Lemma push_ky w a : p_chi (r_part a) = 1 -> Rf.ky (weighted w (RfCases.push_k false)) a = 0.
Proof.
  intros H. rewrite Rf.ky_w. unfold Rf.ky. rewrite H. rewrite Rf.mult_sum_eq.
  cbn [RfCases.push_k rk_mult rm_order seq map sum fold_right fst snd rk_factor rk_tvoltage].
  unfold Rf.ty, Rf.cN, Rf.cS, re, im. cbn [re_im fst snd rm_pn rm_phase_n rm_knl rm_ksl nth].
  unfold Rdiv. ring.
Qed.
Lemma scaled_out u v t q b : b = (let p2 := Rf.retimed t (Rf.kicked u v q) in Rf.scaled (p_rpp q / p_rpp p2) p2) ->
  p_x b = p_x q /\ p_px b = (p_px q + u) * (p_rpp q / (1 / Rf.irpp (p_beta0 q) t)) /\ p_y b = p_y q /\
  p_py b = (p_py q + v) * (p_rpp q / (1 / Rf.irpp (p_beta0 q) t)) /\ p_zeta b = p_zeta q /\ p_ptau b = t /\
  p_beta0 b = p_beta0 q.
Proof. intros ->. repeat split. Qed.
Lemma pushed px x :
  let s := Rf.irpp (1 / 2) 1 in
  let b := r_part (RFMultipole_track RfCases.keeping false RfCases.pushing (SympCases.on_ring 1 x px 0)) in
  p_x b = x /\ p_px b = (px - 1) * s /\ p_y b = 0 /\ p_py b = 0 /\ p_zeta b = 0 /\ p_ptau b = 1 /\ p_beta0 b = 1 / 2.
Proof.
  cbv zeta. rewrite RfCases.push_track. set (a := SympCases.on_ring 1 x px 0).
  set (k := weighted (1 / 1) (RfCases.push_k false)).
  assert (Ht : Rf.kt k a = 1) by (unfold k; rewrite RfCases.push_kt by reflexivity; field).
  assert (Hx : Rf.kx k a = - 1) by (unfold k; rewrite RfCases.push_kx by reflexivity; field).
  assert (Hy : Rf.ky k a = 0) by (unfold k; rewrite push_ky by reflexivity; reflexivity).
  assert (Hs : 1 < Rf.irpp (1 / 2) 1).
  { unfold Rf.irpp. rewrite <- sqrt_1 at 1. apply sqrt_lt_1; lra. }
  assert (E : r_part (rf_kick true k a) = let p2 := Rf.retimed (0 + 1) (Rf.kicked (- 1) 0 (r_part a)) in
                 Rf.scaled (p_rpp (r_part a) / p_rpp p2) p2).
  { rewrite Rf.rf_kick_eq. unfold on_part. cbn [r_part]. unfold Rf.kick_result. rewrite Ht, Hx, Hy. reflexivity. }
  rewrite Rplus_0_l in E. set (b := r_part (rf_kick true k a)) in *. clearbody b. clear Ht Hx Hy.
  destruct (scaled_out (- 1) 0 1 (r_part a) b E) as (E1 & E2 & E3 & E4 & E5 & E6 & E7). clear E.
  rewrite E1, E2, E3, E4, E5, E6, E7. clear E1 E2 E3 E4 E5 E6 E7.
  cbn [a SympCases.on_ring r_part SympCases.probe p_x p_px p_y p_py p_zeta p_rpp p_beta0].
  refine (conj eq_refl (conj _ (conj eq_refl (conj _ (conj eq_refl (conj eq_refl eq_refl)))))).
  - field. lra.
  - field. lra.
Qed.
Lemma preserve_not : exists o c a,
  o_preserve o = true /\ o_kill o = false /\ rfm_order c = 0%nat /\ kinematic (r_part a) /\ r_q0 a = 1 /\
  r_p0c a <> 0 /\ r_cr a <> 0 /\ p_chi (r_part a) <> 0 /\ moving (r_part (RFMultipole_track o false c a)) /\
  ~ symplectic (fun p => r_part (RFMultipole_track o false c (beside a p))) (r_part a).
Proof.
  exists RfCases.keeping, RfCases.pushing, (SympCases.on_ring 1 1 0 0).
  assert (Hs : 1 < Rf.irpp (1 / 2) 1).
  { unfold Rf.irpp. rewrite <- sqrt_1 at 1. apply sqrt_lt_1; lra. }
  refine (conj eq_refl (conj eq_refl (conj eq_refl (conj (SympCases.probe_kin 1 0 0) (conj eq_refl _))))).
  refine (conj _ (conj _ (conj _ (conj _ _)))); try (cbn; lra).
  - destruct (pushed 0 1) as (_ & _ & _ & _ & _ & E & B). unfold moving. rewrite E, B. lra.
  - apply (SympCases.not_symp _ (SympCases.probe 1 0 0) _ SympCases.e_x (mkVel 1 0 0 0 0 0) _ SympCases.e_px
      (mkVel 0 (Rf.irpp (1 / 2) 1) 0 0 0 0)
      (proj1 SympCases.fam_x) (proj2 SympCases.fam_x)) with (2 := proj1 SympCases.fam_px) (3 := proj2 SympCases.fam_px).
    + pose proof (fun t => pushed 0 (1 + t)) as H.
      refine (conj _ (conj _ (conj _ (conj _ (conj _ _))))); cbn [v_x v_px v_y v_py v_zeta v_ptau].
      * SympCases.comp (fun t => 1 + t); [apply H|apply SympCases.D_shift].
      * SympCases.comp (fun t : R => (0 - 1) * Rf.irpp (1 / 2) 1); [apply H|apply Symplectic.D_const].
      * SympCases.comp (fun t : R => 0); [apply H|apply Symplectic.D_const].
      * SympCases.comp (fun t : R => 0); [apply H|apply Symplectic.D_const].
      * SympCases.comp (fun t : R => 0); [apply H|apply Symplectic.D_const].
      * SympCases.comp (fun t : R => 1); [apply H|apply Symplectic.D_const].
    + pose proof (fun t => pushed t 1) as H.
      refine (conj _ (conj _ (conj _ (conj _ (conj _ _))))); cbn [v_x v_px v_y v_py v_zeta v_ptau].
      * SympCases.comp (fun t : R => 1); [apply H|apply Symplectic.D_const].
      * SympCases.comp (fun t : R => (t - 1) * Rf.irpp (1 / 2) 1); [apply H|].
        eapply Symplectic.D_conv; [apply Symplectic.D_mult; [apply Symplectic.D_minus;
          [apply SympCases.D_id|apply Symplectic.D_const]|apply Symplectic.D_const]|].
        cbv beta; ring.
      * SympCases.comp (fun t : R => 0); [apply H|apply Symplectic.D_const].
      * SympCases.comp (fun t : R => 0); [apply H|apply Symplectic.D_const].
      * SympCases.comp (fun t : R => 0); [apply H|apply Symplectic.D_const].
      * SympCases.comp (fun t : R => 1); [apply H|apply Symplectic.D_const].
    + unfold form, SympCases.e_x, SympCases.e_px. cbn [v_x v_px v_y v_py v_zeta v_ptau SympCases.probe p_beta0]. lra.
Qed.

Lemma push_symp k b p : symplectic (MapsCases.push k b) p.
Proof.
  apply (Symplectic.symp_keeps _ p (fun u => u)).
  - intros q. repeat split; reflexivity.
  - reflexivity.
  - intros c u F (M1 & M2 & M3 & M4 & M5 & M6). unfold MapsCases.push. refine (conj M1 (conj M2 (conj M3 (conj _ M5)))).
    apply (derivable_pt_lim_ext (fun t => p_py (c t) + (if b then - k else k))); [reflexivity|].
    eapply Symplectic.D_conv; [apply Symplectic.D_plus; [exact M4|apply Symplectic.D_const]|]. ring.
  - reflexivity.
Qed.
Lemma push_case : enterable MapsCases.al1 MapsCases.p1 /\ rot_shift_active MapsCases.al1 = true /\
  (forall q, enters true MapsCases.al1 (al_anchor MapsCases.al1 - 0) MapsCases.p1 q ->
     leavable MapsCases.al1 (MapsCases.push (1/10) false q) /\ symplectic (MapsCases.push (1/10) false) q).
Proof.
  refine (conj MapsCases.p1_enterable (conj MapsCases.al1_active _)).
  intros q H. split; [exact (proj1 (MapsCases.p1_push q H))|apply push_symp].
Qed.
