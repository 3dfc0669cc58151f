From Coq Require Import Reals ZArith List Bool Lra Lia Factorial.
From Verif.Model Require Import Maps Curved Magnet Rf.
From Verif.Spec Require Import Frames Magnets Rf Symplectic.
From Verif.Proofs Require Import Magnet.
From Verif.Proofs Require Rf.
From Verif.Proofs Require Import Symplectic SympBend SympBody SympRf.
Import ListNotations.
Local Open Scope R_scope.

Lemma moves_unique c u v : moves c u -> moves c v -> u = v.
Proof.
  intros (A1 & A2 & A3 & A4 & A5 & A6) (B1 & B2 & B3 & B4 & B5 & B6). destruct u as [u1 u2 u3 u4 u5 u6], v as [w1 w2 w3 w4 w5 w6].
  cbn [v_x v_px v_y v_py v_zeta v_ptau] in *.
  f_equal; eapply uniqueness_limite; eassumption.
Qed.
Lemma not_symp f p c u U d v V : family c p -> moves c u -> moves (fun t => f (c t)) U ->
  family d p -> moves d v -> moves (fun t => f (d t)) V ->
  form (p_beta0 p) U V <> form (p_beta0 p) u v -> ~ symplectic f p.
Proof.
  intros F1 M1 N1 F2 M2 N2 H [_ [J [HJ E]]]. apply H.
  destruct (HJ _ _ F1 M1) as [_ X1]. destruct (HJ _ _ F2 M2) as [_ X2].
  rewrite (moves_unique _ _ _ N1 X1), (moves_unique _ _ _ N2 X2). apply E.
Qed.

(** A particle at the reference momentum, one unit off in x *)
Definition probe (x px zeta : R) : part := mkPart x px 0 0 zeta 0 0 0 1 1 1 (1 / 2) 0 0 0 0 0.
Definition on_ring (q0 x px zeta : R) : rp := mkRp (probe x px zeta) 1 q0 1 1 1 1.
Lemma probe_kin x px z : kinematic (probe x px z).
Proof. unfold kinematic. cbn. repeat split; lra. Qed.
Lemma probe_ok x px z : energy_ok (probe x px z).
Proof. apply ok_kin, probe_kin. Qed.
Definition e_x := mkVel 1 0 0 0 0 0.
Definition e_px := mkVel 0 1 0 0 0 0.
Definition e_zeta := mkVel 0 0 0 0 1 0.
Lemma D_id : derivable_pt_lim (fun t : R => t) 0 1. Proof. apply derivable_pt_lim_id. Qed.
Lemma D_shift a : derivable_pt_lim (fun t : R => a + t) 0 1.
Proof.
  eapply D_conv; [apply D_plus; [apply D_const|apply D_id]|]. ring.
Qed.
Lemma fam_x : family (fun t => probe (1 + t) 0 0) (probe 1 0 0) /\ moves (fun t => probe (1 + t) 0 0) e_x.
Proof.
  split; [split; [now rewrite Rplus_0_r|]|].
  - exists 1. split; [lra|]. intros t _. split; [apply probe_kin|split; reflexivity].
  - repeat split; cbn [probe e_x v_x v_px v_y v_py v_zeta v_ptau p_x p_px p_y p_py p_zeta p_ptau];
      first [apply D_const|apply D_shift].
Qed.
Lemma fam_px : family (fun t => probe 1 t 0) (probe 1 0 0) /\ moves (fun t => probe 1 t 0) e_px.
Proof.
  split; [split; [reflexivity|]|].
  - exists 1. split; [lra|]. intros t _. split; [apply probe_kin|split; reflexivity].
  - repeat split; cbn [probe e_px v_x v_px v_y v_py v_zeta v_ptau p_x p_px p_y p_py p_zeta p_ptau];
      first [apply D_const|apply D_id].
Qed.
Lemma fam_zeta : family (fun t => probe 1 0 t) (probe 1 0 0) /\ moves (fun t => probe 1 0 t) e_zeta.
Proof.
  split; [split; [reflexivity|]|].
  - exists 1. split; [lra|]. intros t _. split; [apply probe_kin|split; reflexivity].
  - repeat split; cbn [probe e_zeta v_x v_px v_y v_py v_zeta v_ptau p_x p_px p_y p_py p_zeta p_ptau];
      first [apply D_const|apply D_id].
Qed.

(** One radian per metre *)
Definition F1 : R := 299792458 / (2 * PI).
Lemma F1_seen phi z q0 x px : seen F1 0 phi z (on_ring q0 x px z) = phi - 2 * z.
Proof.
  unfold seen, F1, on_ring, probe. cbn [r_part p_beta0 Z.eqb]. pose proof PI_RGT_0. field. lra.
Qed.
Lemma energy_probe q0 b : r_p0c b = 1 -> r_cr b = 1 -> p_chi (r_part b) = 1 -> p_beta0 (r_part b) = 1 / 2 ->
  r_q0 b = q0 -> energy b = 2 + p_ptau (r_part b).
Proof. intros H1 H2 H3 H4 _. unfold energy. rewrite H1, H2, H3, H4. field. Qed.

(** * An RF quadrupole *)
Definition opt0 : rfopt := mkOpt false false false.
Definition rfquad : rfm := mkRfm 0 F1 0 0 1 [0; 1 / 10] [0; 0] [0; 0] [0; 0] [0; PI / 2] [0; 0] 0.

Lemma kick_rest o c q : forall a, let b := RFMultipole_track o false c (beside a q) in
  o_preserve o = false -> o_kill o = false -> energy_ok q ->
  r_p0c b = r_p0c a /\ r_cr b = r_cr a /\ r_q0 b = r_q0 a /\ p_chi (r_part b) = p_chi q /\
  p_beta0 (r_part b) = p_beta0 q.
Proof.
  intros a b Ho Hk Hok. unfold b, RFMultipole_track.
  set (e := mkRf _ _ _ _ _ _ _ _ _ _ _ _ _ _ _ _ _ _).
  assert (Hm : rf_model_known (rf_used_model e)) by (left; reflexivity).
  assert (Hi : rf_integrator_known (rf_used_integrator e)) by (right; right; reflexivity).
  assert (Hn : (0 <= rf_kicks e)%Z) by (cbn; lia).
  rewrite (Rf.rf_thin o 1 e (beside a q) Ho Hok Hm Hi Hn Rlt_0_1 (or_introl eq_refl)).
  rewrite Rf.rf_kick_eq. unfold Rf.kick_result. destruct (rk_kill _); repeat split.
Qed.

Lemma rfquad_out q0 x px z :
  let b := r_part (RFMultipole_track opt0 false rfquad (on_ring q0 x px z)) in
  p_x b = x /\ p_px b = px - 1 / 10 * sin (2 * z) * x /\ p_y b = 0 /\ p_py b = 0 /\ p_zeta b = z /\
  p_ptau b = - (Rabs q0 * (1 / 10) * cos (2 * z) * (x * x)) /\ p_beta0 b = 1 / 2.
Proof.
  pose proof (Rf.thin_rfm opt0 rfquad (on_ring q0 x px z) eq_refl eq_refl (probe_ok x px z)) as H.
  cbv zeta in H |- *.
  assert (N1 : r_p0c (on_ring q0 x px z) <> 0) by (cbn; lra).
  assert (N2 : p_chi (r_part (on_ring q0 x px z)) <> 0) by (cbn; lra).
  assert (N3 : r_cr (on_ring q0 x px z) <> 0) by (cbn; lra).
  destruct (H N1 N2 N3) as (E1 & E2 & E3 & _ & E4 & E5 & E6). clear H N1 N2 N3.
  destruct (kick_rest opt0 rfquad (probe x px z) (on_ring q0 x px z) eq_refl eq_refl (probe_ok x px z))
    as (K1 & K2 & K3 & K4 & K5).
  change (beside (on_ring q0 x px z) (probe x px z)) with (on_ring q0 x px z) in *.
  rewrite (energy_probe q0 _ K1 K2 K4 K5 K3), (energy_probe q0 (on_ring q0 x px z)) in E6 by reflexivity.
  set (b := RFMultipole_track opt0 false rfquad (on_ring q0 x px z)) in *. clearbody b.
  unfold charge, comp_n, comp_s, phase_of in *.
  change (p_zeta (r_part (on_ring q0 x px z))) with z in *.
  change (p_x (r_part (on_ring q0 x px z))) with x in *. change (p_y (r_part (on_ring q0 x px z))) with 0 in *.
  change (rfm_frequency rfquad) with F1 in *.
  rewrite E1, E2, E3, K5.
  cbn [rfquad rfm_order seq map sum fold_right rfm_knl rfm_ksl nth rfm_pn rfm_ps rfm_phase_n rfm_phase_s rfm_voltage
       on_ring r_part probe p_px p_py p_chi p_ptau r_q0 r_cr r_p0c] in E4, E5, E6.
  fold (probe x px z) in E4, E5, E6. fold (on_ring q0 x px z) in E4, E5, E6.
  repeat rewrite F1_seen in E4. repeat rewrite F1_seen in E5. repeat rewrite F1_seen in E6.
  unfold re, im in E4, E5, E6. cbn [re_im fst snd fact INR Nat.mul Nat.add] in E4, E5, E6.
  assert (S1 : cos (0 * PI / 180 + PI / 2 - 2 * z) = sin (2 * z)).
  { rewrite <- (cos_shift (2 * z)). f_equal. field. }
  assert (S2 : sin (0 * PI / 180 + PI / 2 - 2 * z) = cos (2 * z)).
  { rewrite <- (sin_shift (2 * z)). f_equal. field. }
  rewrite S1 in E4, E5. rewrite S2 in E6.
  refine (conj eq_refl (conj _ (conj eq_refl (conj _ (conj eq_refl (conj _ eq_refl)))))).
  - rewrite E4. field.
  - rewrite E5. field.
  - apply (Rplus_eq_reg_l 2). rewrite E6. unfold F1. pose proof PI_RGT_0. field. lra.
Qed.

Lemma D_sin2 : derivable_pt_lim (fun t => sin (2 * t)) 0 2.
Proof.
  eapply D_conv; [apply D_sin; apply D_mult; [apply D_const|apply D_id]|].
  cbv beta. cbv beta; rewrite Rmult_0_r, cos_0. ring.
Qed.
Lemma D_cos2 : derivable_pt_lim (fun t => cos (2 * t)) 0 0.
Proof.
  eapply D_conv; [apply D_cos; apply D_mult; [apply D_const|apply D_id]|].
  cbv beta. cbv beta; rewrite Rmult_0_r, sin_0. ring.
Qed.
Ltac comp f := apply (derivable_pt_lim_ext f); [intros t; symmetry|].

Lemma one_moving p t : p_beta0 p = 1 / 2 -> p_ptau p = t -> - (1 / 5) <= t <= 0 -> moving p.
Proof. intros E F H. unfold moving. rewrite E, F. repeat split; nra. Qed.

Lemma rfquad_wrong : exists o c a,
  o_preserve o = false /\ o_kill o = false /\ rfm_order c = 1%nat /\ kinematic (r_part a) /\ Rabs (r_q0 a) = 1 /\
  r_p0c a <> 0 /\ r_cr a <> 0 /\ p_chi (r_part a) <> 0 /\ moving (r_part (RFMultipole_track o false c a)) /\
  ~ symplectic (fun p => r_part (RFMultipole_track o false c (beside a p))) (r_part a).
Proof.
  exists opt0, rfquad, (on_ring 1 1 0 0).
  refine (conj eq_refl (conj eq_refl (conj eq_refl (conj (probe_kin 1 0 0) (conj Rabs_R1 _))))).
  refine (conj _ (conj _ (conj _ (conj _ _)))); try (cbn; lra).
  - destruct (rfquad_out 1 1 0 0) as (_ & _ & _ & _ & _ & E & B).
    apply (one_moving _ _ B E). rewrite Rmult_0_r, cos_0, Rabs_R1. lra.
  - apply (not_symp _ (probe 1 0 0) _ e_x (mkVel 1 0 0 0 0 (- (2 / 10))) _ e_zeta (mkVel 0 (- (2 / 10)) 0 0 1 0)
      (proj1 fam_x) (proj2 fam_x)) with (2 := proj1 fam_zeta) (3 := proj2 fam_zeta).
    + pose proof (fun t => rfquad_out 1 (1 + t) 0 0) as H.
      refine (conj _ (conj _ (conj _ (conj _ (conj _ _))))); cbn [v_x v_px v_y v_py v_zeta v_ptau].
      * comp (fun t => 1 + t); [apply H|apply D_shift].
      * comp (fun t : R => 0 - 1 / 10 * sin (2 * 0) * (1 + t)); [apply H|].
        eapply D_conv; [apply D_minus; [apply D_const|apply D_mult; [apply D_const|apply D_shift]]|].
        cbv beta; rewrite Rmult_0_r, sin_0. ring.
      * comp (fun t : R => 0); [apply H|apply D_const].
      * comp (fun t : R => 0); [apply H|apply D_const].
      * comp (fun t : R => 0); [apply H|apply D_const].
      * comp (fun t : R => - (Rabs 1 * (1 / 10) * cos (2 * 0) * ((1 + t) * (1 + t)))); [apply H|].
        eapply D_conv; [apply D_opp; apply D_mult; [apply D_const|apply D_mult; apply D_shift]|].
        cbv beta; rewrite Rmult_0_r, cos_0, Rabs_R1. field.
    + pose proof (fun t => rfquad_out 1 1 0 t) as H.
      refine (conj _ (conj _ (conj _ (conj _ (conj _ _))))); cbn [v_x v_px v_y v_py v_zeta v_ptau].
      * comp (fun t : R => 1); [apply H|apply D_const].
      * comp (fun t : R => 0 - 1 / 10 * sin (2 * t) * 1); [apply H|].
        eapply D_conv; [apply D_minus; [apply D_const|apply D_mult; [apply D_mult; [apply D_const|apply D_sin2]|apply D_const]]|].
        cbv beta; field.
      * comp (fun t : R => 0); [apply H|apply D_const].
      * comp (fun t : R => 0); [apply H|apply D_const].
      * comp (fun t : R => t); [apply H|apply D_id].
      * comp (fun t : R => - (Rabs 1 * (1 / 10) * cos (2 * t) * (1 * 1))); [apply H|].
        eapply D_conv; [apply D_opp; apply D_mult; [apply D_mult; [apply D_const|apply D_cos2]|apply D_const]|].
        cbv beta; ring.
    + unfold form, e_x, e_zeta. cbn [v_x v_px v_y v_py v_zeta v_ptau probe p_beta0]. lra.
Qed.

(** * A crab cavity and a reference charge of two *)
Definition crab1 : crab := mkCrab 0 (1 / 10) F1 0 0 0 0 0 1 0 0.
Lemma crab_rest o c a : let b := CrabCavity_track o false c a in
  o_preserve o = false -> energy_ok (r_part a) -> cb_length c = 0 -> cb_model c = 0%Z -> cb_integrator c = 0%Z ->
  cb_kicks c = 1%Z ->
  r_p0c b = r_p0c a /\ r_cr b = r_cr a /\ r_q0 b = r_q0 a /\ p_chi (r_part b) = p_chi (r_part a) /\
  p_beta0 (r_part b) = p_beta0 (r_part a).
Proof.
  intros b Ho Hok HL H1 H2 H3. unfold b, CrabCavity_track.
  set (e := mkRf _ _ _ _ _ _ _ _ _ _ _ _ _ _ _ _ _ _).
  assert (Hm : rf_model_known (rf_used_model e)).
  { unfold rf_used_model. cbn [e rf_model rf_default_model]. rewrite H1. right; right; left; reflexivity. }
  assert (Hi : rf_integrator_known (rf_used_integrator e)).
  { unfold rf_used_integrator, rf_used_model. cbn [e rf_model rf_default_model rf_integrator rf_default_integrator].
    rewrite H1, H2. right; right; reflexivity. }
  assert (Hn : (0 <= rf_kicks e)%Z) by (cbn; rewrite H3; lia).
  rewrite (Rf.rf_thin o 1 e a Ho Hok Hm Hi Hn Rlt_0_1 (or_introl HL)).
  rewrite Rf.rf_kick_eq. unfold Rf.kick_result. destruct (rk_kill _); repeat split.
Qed.
Lemma crab1_out q0 x px z :
  let b := r_part (CrabCavity_track opt0 false crab1 (on_ring q0 x px z)) in
  p_x b = x /\ p_px b = px - 1 / 10 * sin (2 * z) /\ p_y b = 0 /\ p_py b = 0 /\ p_zeta b = z /\
  p_ptau b = - (Rabs q0 * (1 / 10) * cos (2 * z) * x) /\ p_beta0 b = 1 / 2.
Proof.
  pose proof (Rf.thin_crab opt0 crab1 (on_ring q0 x px z) eq_refl eq_refl (probe_ok x px z) eq_refl
    (or_introl eq_refl) (or_introl eq_refl)) as H.
  cbv zeta in H |- *.
  assert (N0 : (0 <= cb_kicks crab1)%Z) by (cbn; lia).
  assert (N1 : r_p0c (on_ring q0 x px z) <> 0) by (cbn; lra).
  assert (N2 : p_chi (r_part (on_ring q0 x px z)) <> 0) by (cbn; lra).
  assert (N3 : r_cr (on_ring q0 x px z) <> 0) by (cbn; lra).
  destruct (H N0 N1 N2 N3) as (E1 & E2 & E3 & E4 & E5 & E6). clear H N0 N1 N2 N3.
  destruct (crab_rest opt0 crab1 (on_ring q0 x px z) eq_refl (probe_ok x px z) eq_refl eq_refl eq_refl eq_refl)
    as (K1 & K2 & K3 & K4 & K5).
  rewrite (energy_probe q0 _ K1 K2 K4 K5 K3), (energy_probe q0 (on_ring q0 x px z)) in E6 by reflexivity.
  set (b := CrabCavity_track opt0 false crab1 (on_ring q0 x px z)) in *. clearbody b.
  unfold charge in *.
  change (p_zeta (r_part (on_ring q0 x px z))) with z in *.
  change (p_x (r_part (on_ring q0 x px z))) with x in *.
  change (cb_frequency crab1) with F1 in *. change (cb_absolute_time crab1) with 0%Z in *.
  rewrite F1_seen in E5, E6.
  rewrite E1, E2, E3, E4, K5.
  change (cb_lag crab1) with 0 in *. change (cb_phase crab1) with 0 in *. change (cb_voltage crab1) with (1 / 10) in *.
  replace (0 * PI / 180 + 0 - 2 * z) with (- (2 * z)) in E5, E6 by field.
  rewrite sin_neg in E5. rewrite cos_neg in E6.
  cbn [on_ring r_part probe p_px p_py p_y p_chi p_ptau r_q0 r_cr r_p0c p_beta0] in *.
  refine (conj eq_refl (conj _ (conj eq_refl (conj eq_refl (conj eq_refl (conj _ eq_refl)))))).
  - rewrite E5. field.
  - apply (Rplus_eq_reg_l 2). rewrite E6. unfold F1. pose proof PI_RGT_0. field. lra.
Qed.
Lemma crab_wrong : exists o c a,
  o_preserve o = false /\ o_kill o = false /\ cb_length c = 0 /\ kinematic (r_part a) /\ r_q0 a = 2 /\
  r_p0c a <> 0 /\ r_cr a <> 0 /\ p_chi (r_part a) <> 0 /\ moving (r_part (CrabCavity_track o false c a)) /\
  ~ symplectic (fun p => r_part (CrabCavity_track o false c (beside a p))) (r_part a).
Proof.
  exists opt0, crab1, (on_ring 2 1 0 0).
  refine (conj eq_refl (conj eq_refl (conj eq_refl (conj (probe_kin 1 0 0) (conj eq_refl _))))).
  assert (A2 : Rabs 2 = 2) by (apply Rabs_pos_eq; lra).
  refine (conj _ (conj _ (conj _ (conj _ _)))); try (cbn; lra).
  - destruct (crab1_out 2 1 0 0) as (_ & _ & _ & _ & _ & E & B).
    apply (one_moving _ _ B E). rewrite Rmult_0_r, cos_0, A2. lra.
  - apply (not_symp _ (probe 1 0 0) _ e_x (mkVel 1 0 0 0 0 (- (2 / 10))) _ e_zeta (mkVel 0 (- (2 / 10)) 0 0 1 0)
      (proj1 fam_x) (proj2 fam_x)) with (2 := proj1 fam_zeta) (3 := proj2 fam_zeta).
    + pose proof (fun t => crab1_out 2 (1 + t) 0 0) as H.
      refine (conj _ (conj _ (conj _ (conj _ (conj _ _))))); cbn [v_x v_px v_y v_py v_zeta v_ptau].
      * comp (fun t => 1 + t); [apply H|apply D_shift].
      * comp (fun t : R => 0 - 1 / 10 * sin (2 * 0)); [apply H|apply D_const].
      * comp (fun t : R => 0); [apply H|apply D_const].
      * comp (fun t : R => 0); [apply H|apply D_const].
      * comp (fun t : R => 0); [apply H|apply D_const].
      * comp (fun t : R => - (Rabs 2 * (1 / 10) * cos (2 * 0) * (1 + t))); [apply H|].
        eapply D_conv; [apply D_opp; apply D_mult; [apply D_const|apply D_shift]|].
        cbv beta; rewrite Rmult_0_r, cos_0, A2. field.
    + pose proof (fun t => crab1_out 2 1 0 t) as H.
      refine (conj _ (conj _ (conj _ (conj _ (conj _ _))))); cbn [v_x v_px v_y v_py v_zeta v_ptau].
      * comp (fun t : R => 1); [apply H|apply D_const].
      * comp (fun t : R => 0 - 1 / 10 * sin (2 * t)); [apply H|].
        eapply D_conv; [apply D_minus; [apply D_const|apply D_mult; [apply D_const|apply D_sin2]]|].
        cbv beta; field.
      * comp (fun t : R => 0); [apply H|apply D_const].
      * comp (fun t : R => 0); [apply H|apply D_const].
      * comp (fun t : R => t); [apply H|apply D_id].
      * comp (fun t : R => - (Rabs 2 * (1 / 10) * cos (2 * t) * 1)); [apply H|].
        eapply D_conv; [apply D_opp; apply D_mult; [apply D_mult; [apply D_const|apply D_cos2]|apply D_const]|].
        cbv beta; ring.
    + unfold form, e_x, e_zeta. cbn [v_x v_px v_y v_py v_zeta v_ptau probe p_beta0]. lra.
Qed.
