From Coq Require Import Reals ZArith Lra Lia List Bool Factorial.
From Verif.Model Require Import Maps Curved Magnet Rf.
From Verif.Spec Require Import Frames Magnets Rf.
From Verif.Proofs Require Import Frames FrameMaps Magnet MagnetDrift MagnetBack MagnetSum Rf.
Import ListNotations.
Local Open Scope R_scope.

(** A particle at the reference momentum, one millimetre (here: one unit) off in x *)
Definition probe : part := mkPart 1 0 0 0 0 0 0 0 1 1 1 (1 / 2) 0 0 0 0 0.
Definition of_charge (q0 : R) : rp := mkRp probe 1 q0 1 1 1 1.
Definition plain : rfopt := mkOpt false false false.

Lemma probe_ok q0 : energy_ok (r_part (of_charge q0)).
Proof. unfold energy_ok, moving. cbn. repeat split; lra. Qed.

(** A static gap *)
Definition gap (L : R) (n : Z) : cavity := mkCav L 1 0 0 90 0 0 0 0 n 0 0.
Lemma static_seen phi ab z a : seen 0 ab phi z a = phi.
Proof. unfold seen, Rdiv. destruct (Z.eqb ab 1); ring. Qed.
Lemma freq_0 f a : freq f 0 a = f.
Proof. unfold freq. destruct (Req_EM_T 0 0); [reflexivity|congruence]. Qed.
Lemma sin_right : sin (90 * PI / 180) = 1.
Proof. replace (90 * PI / 180) with (PI / 2) by field. apply sin_PI2. Qed.

Lemma gap_kE w a : kE (weighted w (fwd_rf plain 1 (cavity_el (gap 2 3)))) a = charge a * w.
Proof.
  rewrite kE_w, straight_kE by (split; [reflexivity|cbn; ring]).
  cbn [fwd_rf plain o_no_synrad cavity_el gap rk_voltage rk_frequency rk_harmonic rk_absolute_time rk_lag rk_phase
       rf_voltage rf_frequency rf_harmonic rf_lag rf_phase rf_lag_taper rf_phase_taper cv_voltage cv_frequency cv_harmonic
       cv_lag cv_phase cv_lag_taper cv_phase_taper rf_absolute_time cv_absolute_time].
  rewrite freq_0, static_seen. replace (DEG2RAD * (90 + 0) + (0 + 0)) with (90 * PI / 180) by (unfold DEG2RAD; field).
  rewrite sin_right. ring.
Qed.
Definition fast (a : rp) : Prop :=
  r_p0c a = 1 /\ r_q0 a = 1 /\ r_cr a = 1 /\ p_chi (r_part a) = 1 /\ p_beta0 (r_part a) = 1 / 2 /\ 0 <= p_ptau (r_part a).
Lemma fast_moving a : fast a -> moving (r_part a).
Proof. intros (_ & _ & _ & _ & B & T). unfold moving. rewrite B. repeat split; [lra|lra|]. nra. Qed.
Lemma fast_kick w a : 0 <= w -> fast a ->
  fast (rf_kick false (weighted w (fwd_rf plain 1 (cavity_el (gap 2 3)))) a).
Proof.
  intros Hw (A & B & C & D & E & F). set (k := weighted _ _).
  destruct (kick_fixed false k a) as (F1&F2&F3&F4&F5&F6&F7&F8).
  unfold fast. rewrite F1, F2, F3, F4, F5. refine (conj A (conj B (conj C (conj D (conj E _))))).
  rewrite kick_ptau by reflexivity. unfold kt, k. rewrite gap_kE. unfold charge. rewrite A, B, C, D, Rabs_R1.
  replace (1 * 1 * w / 1 / (1 / 1)) with w by field. lra.
Qed.
Lemma fast_drift l a : fast a -> fast (rf_drift 0 l a).
Proof.
  intros (A & B & C & D & E & F). destruct (drift_energy 0 l a) as (E1&E2&E3&E4&E5&E6); [right; now left|].
  unfold fast. rewrite E2, E5, E6. now repeat split.
Qed.
Lemma fast_run l a (P : Prop) : Forall (fun o => match o with D _ => True | K w => 0 <= w end) l -> fast a -> P ->
  snd (run (watch_rf_drift 0) (watch_rf_kick false (fwd_rf plain 1 (cavity_el (gap 2 3)))) l (a, P)).
Proof.
  revert a P. induction l as [|[x|w] l IH]; intros a P H Ha HP; [exact HP| |];
    inversion H; subst; cbn [run fold_left step watch_rf_drift watch_rf_kick fst snd]; unfold run in IH.
  - apply IH; [assumption|now apply fast_drift|exact HP].
  - apply IH; [assumption|now apply fast_kick|]. split; [exact HP|]. now apply fast_moving, fast_kick.
Qed.
Lemma gap_passes : passes_rf plain 1 (cavity_el (gap 2 3)) (of_charge 1).
Proof.
  unfold passes_rf. rewrite body_run.
  assert (N : rf_used_kicks (cavity_el (gap 2 3)) 1 = 3%Z).
  { unfold rf_used_kicks. destruct (Req_EM_T 1 1); [reflexivity|congruence]. }
  rewrite N. apply fast_run; [|unfold fast; cbn; repeat split; lra|exact I].
  assert (H : 0 <= 1 / 3) by lra.
  cbn. repeat (apply Forall_cons; [first [exact I|exact H]|]). apply Forall_nil.
Qed.

Lemma gap_case :
  energy_ok (r_part (of_charge 1)) /\ rf_model_known (rf_used_model (cavity_el (gap 2 3))) /\
  passes_rf plain 1 (cavity_el (gap 2 3)) (of_charge 1) /\
  energy (Cavity_track plain false (gap 2 3) (of_charge 1)) = energy (of_charge 1) + 1.
Proof.
  refine (conj (probe_ok 1) (conj (or_intror (or_intror (or_introl eq_refl))) (conj gap_passes _))).
  change (Cavity_track plain false (gap 2 3) (of_charge 1)) with (ThickSliceCavity_track plain false 1 (gap 2 3) (of_charge 1)).
  destruct (cavity_energy plain 1 (gap 2 3) (of_charge 1)) as [S ->];
    try (left; reflexivity); try reflexivity; try (cbn; lra); try (cbn; lia).
  set (l := crossed _ _ _ _) in *.
  assert (E : map (fun wz => fst wz * sin (cavity_phase plain (gap 2 3) (snd wz) (of_charge 1))) l = map fst l).
  { apply map_ext. intros [w z]. unfold cavity_phase. cbn [fst snd gap cv_frequency cv_harmonic cv_lag cv_phase
      cv_lag_taper cv_phase_taper]. rewrite freq_0, static_seen. unfold setting. cbn [plain o_no_synrad].
    replace ((90 + 0) * PI / 180 + 0 + 0) with (90 * PI / 180) by field. rewrite sin_right. ring. }
  rewrite E, S. unfold charge. cbn [of_charge r_q0 r_cr gap cv_voltage]. rewrite Rabs_R1. ring.
Qed.

(** RFMultipole and absolute_time *)
Definition timed : rfm := mkRfm 0 (1 / 4) 0 0 0 [1] [0] [0] [0] [0] [0] 1.
Lemma timed_px : p_px (r_part (RFMultipole_track plain false timed (of_charge 1))) = - 1.
Proof.
  destruct (thin_rfm plain timed (of_charge 1) eq_refl eq_refl (probe_ok 1)) as (_ & _ & _ & _ & E & _);
    try (cbn; lra).
  rewrite E. cbn [of_charge r_part probe timed rfm_order seq map sum fold_right p_px p_chi p_x p_y rfm_knl rfm_ksl nth].
  unfold re, im. cbn [re_im fst snd fact INR].
  unfold comp_n, phase_of, seen. cbn [of_charge r_part probe timed rfm_pn rfm_phase_n rfm_frequency p_zeta p_beta0 nth Z.eqb].
  replace (0 + (0 * PI / 180 + 0) - 2 * PI * (1 / 4) * (0 / (1 / 2)) / 299792458) with 0 by field.
  rewrite cos_0. field.
Qed.
Lemma timed_wrong : exists o c a,
  o_preserve o = false /\ o_kill o = false /\ energy_ok (r_part a) /\ rfm_absolute_time c = 1%Z /\ rfm_order c = 0%nat /\
  p_px (r_part (RFMultipole_track o false c a)) <>
  p_px (r_part a) - p_chi (r_part a) * nth 0 (rfm_knl c) 0 *
    cos (seen (rfm_frequency c) (rfm_absolute_time c) (nth 0 (rfm_phase_n c) 0) (p_zeta (r_part a)) a).
Proof.
  exists plain, timed, (of_charge 1). refine (conj eq_refl (conj eq_refl (conj (probe_ok 1) (conj eq_refl (conj eq_refl _))))).
  rewrite timed_px. unfold seen.
  cbn [of_charge r_part probe timed rfm_phase_n rfm_frequency p_zeta p_beta0 nth Z.eqb Pos.eqb p_px p_chi rfm_knl
       rfm_absolute_time r_turn r_tsim].
  replace (2 * PI * 1 * (1 / 4) * 1 + 0 - 2 * PI * (1 / 4) * (0 / (1 / 2)) / 299792458) with (PI / 2) by field.
  rewrite cos_PI2. lra.
Qed.

(** Crab cavities: the tapering and the charge *)
Definition crab0 (phase taper : R) : crab := mkCrab 0 1 0 0 phase 0 taper 0 1 0 0.
Lemma crab0_px phase taper q0 :
  p_px (r_part (CrabCavity_track plain false (crab0 phase taper) (of_charge q0))) = sin phase.
Proof.
  destruct (thin_crab plain (crab0 phase taper) (of_charge q0) eq_refl eq_refl (probe_ok q0) eq_refl
    (or_introl eq_refl) (or_introl eq_refl)) as (_ & _ & _ & _ & E & _); try (cbn; lra); try (cbn; lia).
  rewrite E. cbn [of_charge r_part probe crab0 p_px p_chi cb_voltage r_p0c cb_frequency cb_absolute_time cb_lag cb_phase].
  rewrite static_seen. replace (0 * PI / 180 + phase) with phase by field. field.
Qed.
Lemma crab_taper_wrong : exists o c a,
  o_preserve o = false /\ o_kill o = false /\ o_no_synrad o = false /\ energy_ok (r_part a) /\ cb_length c = 0 /\
  p_px (r_part (CrabCavity_track o false c a)) <>
  p_px (r_part a) + p_chi (r_part a) * cb_voltage c / r_p0c a *
    sin (seen (cb_frequency c) (cb_absolute_time c)
           (setting o (cb_lag c) (cb_phase c) (cb_lag_taper c) (cb_phase_taper c)) (p_zeta (r_part a)) a).
Proof.
  exists plain, (crab0 0 (PI / 2)), (of_charge 1).
  refine (conj eq_refl (conj eq_refl (conj eq_refl (conj (probe_ok 1) (conj eq_refl _))))).
  rewrite crab0_px, sin_0.
  cbn [of_charge r_part probe crab0 p_px p_chi cb_voltage r_p0c cb_frequency cb_absolute_time cb_lag cb_phase cb_lag_taper cb_phase_taper].
  rewrite static_seen. unfold setting. cbn [plain o_no_synrad].
  replace ((0 + 0) * PI / 180 + 0 + PI / 2) with (PI / 2) by field. rewrite sin_PI2. lra.
Qed.
Lemma crab_charge_wrong : exists o c a,
  o_preserve o = false /\ o_kill o = false /\ energy_ok (r_part a) /\ cb_length c = 0 /\
  p_px (r_part (CrabCavity_track o false c a)) <>
  p_px (r_part a) + charge a * cb_voltage c / (r_p0c a * (r_cr a / p_chi (r_part a))) *
    sin (seen (cb_frequency c) (cb_absolute_time c) (cb_lag c * PI / 180 + cb_phase c) (p_zeta (r_part a)) a).
Proof.
  exists plain, (crab0 (PI / 2) 0), (of_charge 2).
  refine (conj eq_refl (conj eq_refl (conj (probe_ok 2) (conj eq_refl _)))).
  rewrite crab0_px, sin_PI2. unfold charge.
  cbn [of_charge r_part probe crab0 p_px p_chi cb_voltage r_p0c cb_frequency cb_absolute_time cb_lag cb_phase r_q0 r_cr].
  rewrite static_seen. replace (0 * PI / 180 + PI / 2) with (PI / 2) by field. rewrite sin_PI2.
  rewrite Rabs_pos_eq by lra. lra.
Qed.

(** Deflecting elements with XTRACK_CAVITY_PRESERVE_ANGLE *)
Definition keeping : rfopt := mkOpt true false false.
Definition pushing : rfm := mkRfm 1 0 90 0 0 [1] [0] [0] [0] [0] [0] 0.
Lemma one_kick {A} (drift kick : R -> A -> A) L a :
  body drift kick false 3 1 L a
  = drift (1 / 2 * (1 / 1) * L) (kick (1 / 1) (drift (1 / 2 * (1 / 1) * L) a)).
Proof. reflexivity. Qed.
Definition push_k (b : bool) : rfkick :=
  mkRk (if b then - 1 * 1 else 1 * 1) 0 0 (90 + 0) (0 + 0) (if b then - 0 * 1 else 0 * 1) 0 0 0
   (if b then - (1) * 1 else 1 * 1)
   (mkRm (Some 0%nat) [1] [0] [0] [0] [0] [0]) false.
Lemma push_track b a : RFMultipole_track keeping b pushing a = rf_kick true (weighted (1 / 1) (push_k b)) a.
Proof.
  unfold RFMultipole_track, track_rf, rf_body. cbv zeta.
  set (e := mkRf _ _ _ _ _ _ _ _ _ _ _ _ _ _ _ _ _ _).
  assert (N : rf_used_kicks e 1 = 1%Z).
  { unfold rf_used_kicks. destruct (Req_EM_T 1 1); [reflexivity|congruence]. }
  rewrite N. change (drift_model_of (rf_used_model e) 0) with (-1)%Z. change (rf_used_integrator e) with 3%Z.
  rewrite one_kick.
  assert (D : forall x c, rf_drift (-1) x c = c) by (intros x c; now destruct c). rewrite !D.
  destruct b; reflexivity.
Qed.
Lemma push_kx b w a : p_chi (r_part a) = 1 -> kx (weighted w (push_k b)) a = (if b then 1 else - 1) * w.
Proof.
  intros H. rewrite kx_w. unfold kx. rewrite H. rewrite mult_sum_eq.
  cbn [push_k rk_mult rm_order seq map sum fold_right fst snd rk_factor rk_tvoltage].
  unfold tx, cN, re, im. cbn [re_im fst snd rm_pn rm_phase_n rm_knl rm_ksl nth fact INR].
  unfold phase0, dphase, used_frequency. cbn [push_k rk_absolute_time rk_harmonic rk_frequency Z.eqb].
  rewrite is0_zero.
  replace (0 + DEG2RAD * 0 + 0 - 2 * PI / C_LIGHT * 0 * (p_zeta (r_part a) / p_beta0 (r_part a))) with 0 by ring.
  rewrite cos_0. destruct b; unfold Rdiv; rewrite Rinv_1; ring.
Qed.
Lemma push_kt b w a : p_chi (r_part a) = 1 -> r_p0c a = 1 -> r_q0 a = 1 -> r_cr a = 1 ->
  kt (weighted w (push_k b)) a = (if b then - 1 else 1) * w.
Proof.
  intros H H1 H2 H3. rewrite kt_w. unfold kt, kE, charge, used_frequency. rewrite H, H1, H2, H3, Rabs_R1.
  cbn [push_k rk_voltage rk_lag rk_phase rk_harmonic rk_frequency rk_tvoltage]. rewrite is0_zero.
  unfold phase0, dphase, used_frequency. cbn [push_k rk_absolute_time rk_harmonic rk_frequency Z.eqb].
  rewrite is0_zero.
  replace (0 + DEG2RAD * (90 + 0) + (0 + 0) - 2 * PI / C_LIGHT * 0 * (p_zeta (r_part a) / p_beta0 (r_part a)))
    with (90 * PI / 180) by (unfold DEG2RAD, Rdiv; ring).
  rewrite sin_right. destruct b; unfold Rdiv; rewrite ?Rinv_1, ?Rmult_1_l, ?Rinv_1; ring.
Qed.
Lemma px_true k a : rk_kill k = false ->
  p_px (r_part (rf_kick true k a)) = (p_px (r_part a) + kx k a)
    * (p_rpp (r_part a) / (1 / irpp (p_beta0 (r_part a)) (p_ptau (r_part a) + kt k a))).
Proof.
  intros H. rewrite rf_kick_eq. cbn [on_part r_part]. unfold kick_result. rewrite H. reflexivity.
Qed.
Lemma rpp_true k a : rk_kill k = false ->
  p_rpp (r_part (rf_kick true k a)) = 1 / irpp (p_beta0 (r_part a)) (p_ptau (r_part a) + kt k a).
Proof.
  intros H. rewrite rf_kick_eq. cbn [on_part r_part]. unfold kick_result. rewrite H. reflexivity.
Qed.
Lemma preserve_wrong : exists o e a,
  o_preserve o = true /\ rf_model_known (rf_used_model e) /\ energy_ok (r_part a) /\ passes_rf o 1 e a /\
  track_rf o true 1 e (track_rf o false 1 e a) <> a.
Proof.
  set (e := mkRf 0 1 0 0 90 0 0 0 0 0 (mkRm (Some 0%nat) [1] [0] [0] [0] [0] [0]) 1 (-1) 0 0 0 0 0).
  exists keeping, e, (of_charge 1).
  assert (F : forall b a, track_rf keeping b 1 e a = rf_kick true (weighted (1 / 1) (push_k b)) a).
  { intros b a. exact (push_track b a). }
  set (a := of_charge 1). set (b := rf_kick true (weighted (1 / 1) (push_k false)) a).
  set (s := irpp (1 / 2) 1).
  assert (Hs : 1 < s).
  { unfold s, irpp. rewrite <- sqrt_1 at 1. apply sqrt_lt_1; lra. }
  assert (T : p_ptau (r_part b) = 1).
  { unfold b. rewrite kick_ptau by reflexivity. rewrite push_kt by reflexivity. cbn [a of_charge r_part probe p_ptau]. field. }
  assert (X : p_px (r_part b) = - s /\ p_rpp (r_part b) = 1 / s).
  { unfold b. rewrite px_true, rpp_true by reflexivity.
    rewrite (push_kx false), (push_kt false) by reflexivity.
    change (p_px (r_part a)) with 0. change (p_rpp (r_part a)) with 1. change (p_ptau (r_part a)) with 0.
    change (p_beta0 (r_part a)) with (1 / 2).
    replace (0 + 1 * (1 / 1)) with 1 by field. fold s. split; [field; lra|reflexivity]. }
  destruct (kick_fixed true (weighted (1 / 1) (push_k false)) a) as (F1&F2&F3&F4&F5&F6&F7&F8). fold b in F1, F2, F3, F4, F5.
  refine (conj eq_refl (conj (or_introl eq_refl) (conj (probe_ok 1) (conj _ _)))).
  - unfold passes_rf.
    assert (N : rf_used_kicks e 1 = 1%Z).
    { unfold rf_used_kicks. destruct (Req_EM_T 1 1); [reflexivity|congruence]. }
    rewrite N. change (drift_model_of (rf_used_model e) 0) with (-1)%Z. change (rf_used_integrator e) with 3%Z.
    rewrite one_kick. unfold watch_rf_drift, watch_rf_kick. cbn [fst snd].
    assert (D : forall x c, rf_drift (-1) x c = c) by (intros x c; now destruct c). rewrite !D.
    split; [exact I|].
    change (rf_kick (o_preserve keeping) (weighted (1 / 1) (fwd_rf keeping 1 e)) a) with b.
    unfold moving. rewrite T, F1. cbn [a of_charge r_part probe p_beta0]. lra.
  - rewrite !F. fold b. intros E. apply (f_equal (fun c => p_px (r_part c))) in E. revert E.
    cbv beta. rewrite px_true by reflexivity.
    rewrite (push_kx true), (push_kt true) by (rewrite ?F2, ?F3, ?F4, ?F5; reflexivity).
    destruct X as [-> ->]. rewrite T, F1. change (p_px (r_part a)) with 0.
    change (p_beta0 (r_part a)) with (1 / 2).
    replace (1 + -1 * (1 / 1)) with 0 by field.
    assert (I0 : irpp (1 / 2) 0 = 1).
    { unfold irpp. replace (0 * 0 + 2 * 0 / (1 / 2) + 1) with 1 by field. apply sqrt_1. }
    rewrite I0. intros E. assert (E2 : (- s + 1 * (1 / 1)) * (1 / s / (1 / 1)) = (1 - s) / s) by (field; lra).
    rewrite E2 in E. apply (f_equal (Rmult s)) in E. replace (s * ((1 - s) / s)) with (1 - s) in E by (field; lra).
    lra.
Qed.
