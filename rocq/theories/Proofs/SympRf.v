From Coq Require Import Reals ZArith List Bool Lra Lia Factorial.
From Verif.Model Require Import Maps Curved Magnet Rf.
From Verif.Spec Require Import Frames Magnets Rf Symplectic.
From Verif.Proofs Require Import Frames FrameMaps Magnet MagnetBack.
From Verif.Proofs Require Rf.
From Verif.Proofs Require Import Symplectic SympMagnet SympBend SympBody.
Import ListNotations.
Local Open Scope R_scope.

Lemma ok_kin p : energy_ok p <-> kinematic p.
Proof.
  unfold energy_ok, moving, kinematic. split.
  - intros ((H1 & H2 & H3) & H4 & H5 & H6 & H7). repeat split; try assumption. rewrite H5. ring.
  - intros (H1 & H2 & H3 & H4 & H5 & H6). repeat split; try assumption.
    + assert (0 < (1 + p_delta p) * (1 + p_delta p)) by now apply Rmult_lt_0_compat. lra.
    + rewrite H3. ring.
Qed.

(** A kick which changes the energy *)
Section Kick.
Variables (X Y T : part -> R) (p : part) (Xz Yz Tz : R).
Let f (q : part) : part := Rf.retimed (p_ptau q + T q) (Rf.kicked (X q) (Y q) q).
Hypothesis DX : forall c u, family c p -> moves c u -> D (fun t => X (c t)) (Xz * v_zeta u).
Hypothesis DY : forall c u, family c p -> moves c u -> D (fun t => Y (c t)) (Yz * v_zeta u).
Hypothesis DT : forall c u, family c p -> moves c u ->
  D (fun t => T (c t)) (Tz * v_zeta u + p_beta0 p * Xz * v_x u + p_beta0 p * Yz * v_y u).
Hypothesis K : kinematic p.
Hypothesis M : moving (f p).

Lemma symp_energy_kick : symplectic f p.
Proof.
  destruct (kin_pos p K) as (Hb & _).
  split; [reflexivity|].
  exists (fun u => mkVel (v_x u) (v_px u + Xz * v_zeta u) (v_y u) (v_py u + Yz * v_zeta u) (v_zeta u)
    (v_ptau u + (Tz * v_zeta u + p_beta0 p * Xz * v_x u + p_beta0 p * Yz * v_y u))).
  split.
  - intros c u Hc Hu. pose proof (DX c u Hc Hu) as HX. pose proof (DY c u Hc Hu) as HY.
    pose proof (DT c u Hc Hu) as HT. pose proof (fam_beta0 c p Hc) as HB. pose proof (fam_0 c p Hc) as H0.
    pose proof Hu as (U1 & U2 & U3 & U4 & U5 & U6).
    pose proof (D_plus _ _ _ _ U6 HT) as HN.
    destruct M as (M1 & M2 & M3). unfold f, Rf.retimed, Rf.kicked in M2, M3.
    cbn [p_beta0 p_ptau add_px add_py set_px set_py] in M2, M3.
    split.
    + split; [now rewrite H0|].
      assert (N2 : near (fun t => 0 < 1 + p_beta0 (c t) * (p_ptau (c t) + T (c t)))).
      { eapply D_pos; [apply D_plus; [apply D_const|apply D_mult; [exact HB|exact HN]]|]. now rewrite H0. }
      assert (N3 : near (fun t => 0 < (p_ptau (c t) + T (c t)) * (p_ptau (c t) + T (c t))
                   + 2 * (p_ptau (c t) + T (c t)) / p_beta0 (c t) + 1)).
      { eapply D_pos; [apply D_plus; [apply D_plus; [apply D_mult; exact HN|]|apply D_const]|].
        - apply D_div; [apply D_mult; [apply D_const|exact HN]|exact HB|rewrite H0; lra].
        - now rewrite H0. }
      pose proof (near_and _ _ (near_and _ _ N2 N3) (fam_near c p Hc)) as [d [Hd H]].
      exists d. split; [exact Hd|]. intros t Ht. destruct (H t Ht) as [[A2 A3] (A4 & A5 & A6)].
      split; [|split; [exact A5|exact A6]].
      apply ok_kin. apply Rf.retimed_ok.
      destruct A4 as (A4 & _). exact (conj A4 (conj A2 A3)).
    + refine (conj U1 (conj _ (conj U3 (conj _ (conj U5 _))))).
      * exact (D_plus _ _ _ _ U2 HX).
      * exact (D_plus _ _ _ _ U4 HY).
      * exact HN.
  - intros u v. unfold form. cbn [v_x v_px v_y v_py v_zeta v_ptau]. field. lra.
Qed.
End Kick.

(** * The kick of an RF element *)
Section RfKick.
Variables (k : rfkick) (a : rp) (p : part).
Let b := beside a p.
Let kap := 2 * PI / C_LIGHT * used_frequency k b.
Let m := rk_mult k.
Let M := match rm_order m with Some _ => rk_factor k * nth 0 (rm_knl m) 0 | None => 0 end.
Let N := match rm_order m with Some _ => rk_factor k * nth 0 (rm_ksl m) 0 | None => 0 end.
Let V := rk_tvoltage k / r_p0c a.
Let fn := phase0 k b + DEG2RAD * nth 0 (rm_pn m) 0 + nth 0 (rm_phase_n m) 0.
Let fs := phase0 k b + DEG2RAD * nth 0 (rm_ps m) 0 + nth 0 (rm_phase_s m) 0.
Let ft := phase0 k b + DEG2RAD * (rk_tlag k + 90) + rk_tphase k.
Let fv := phase0 k b + DEG2RAD * rk_lag k + rk_phase k.
Let ang f z := f - kap * (z / p_beta0 p).
Let chi := p_chi p.
Let EX z := - chi * (M * cos (ang fn z) + cos (ang ft z) * V).
Let EY z := chi * (N * cos (ang fs z)).
Let ET x y z := (Rabs (r_q0 a) * r_cr a * rk_voltage k * sin (ang fv z)
  - Rabs (r_q0 a) * r_cr a * (kap * r_p0c a
      * (M * (sin (ang fn z) * x) - N * (sin (ang fs z) * y) + sin (ang ft z) * (V * x)))) / r_p0c a / (r_cr a / chi).

Hypothesis O : rm_order m = None \/ rm_order m = Some O.

Lemma freq_beside q : p_beta0 q = p_beta0 p -> used_frequency k (beside a q) = used_frequency k b.
Proof. intros E. unfold used_frequency, b, beside. cbn [r_line r_part]. now rewrite E. Qed.
Lemma phase_beside q : p_beta0 q = p_beta0 p -> phase0 k (beside a q) = phase0 k b.
Proof. intros E. unfold phase0. rewrite (freq_beside q E). reflexivity. Qed.
Lemma dphase_beside q : p_beta0 q = p_beta0 p -> Rf.dphase k (beside a q) = kap * (p_zeta q / p_beta0 p).
Proof. intros E. unfold Rf.dphase. rewrite (freq_beside q E). unfold kap. cbn [beside r_part]. now rewrite E. Qed.

Lemma sum_beside q : p_beta0 q = p_beta0 p -> Rf.mult_sum k (beside a q) =
  (M * cos (ang fn (p_zeta q)), N * cos (ang fs (p_zeta q)),
   M * (sin (ang fn (p_zeta q)) * p_x q) - N * (sin (ang fs (p_zeta q)) * p_y q)).
Proof.
  intros E. rewrite Rf.mult_sum_eq. unfold M, N, m in *. destruct O as [->| ->].
  - f_equal; [f_equal|]; ring.
  - cbv zeta. cbn [seq map]. unfold sum. cbn [fold_right].
    rewrite (phase_beside q E), (dphase_beside q E).
    unfold Rf.tx, Rf.ty, Rf.tt, Rf.cN, Rf.cS, Rf.sN, Rf.sS. cbn [fact INR].
    change (re 0 (p_x (r_part (beside a q))) (p_y (r_part (beside a q)))) with 1.
    change (im 0 (p_x (r_part (beside a q))) (p_y (r_part (beside a q)))) with 0.
    change (re 1 (p_x (r_part (beside a q))) (p_y (r_part (beside a q)))) with (1 * p_x q - 0 * p_y q).
    change (im 1 (p_x (r_part (beside a q))) (p_y (r_part (beside a q)))) with (1 * p_y q + 0 * p_x q).
    fold fn fs. fold (ang fn (p_zeta q)) (ang fs (p_zeta q)). f_equal; [f_equal|]; field.
Qed.
Lemma kx_beside q : p_beta0 q = p_beta0 p -> p_chi q = chi -> Rf.kx k (beside a q) = EX (p_zeta q).
Proof.
  intros E F. unfold Rf.kx, Rf.tr_phase. rewrite (sum_beside q E), (phase_beside q E), (dphase_beside q E).
  cbn [fst snd beside r_part r_p0c]. rewrite F. fold ft. fold (ang ft (p_zeta q)). reflexivity.
Qed.
Lemma ky_beside q : p_beta0 q = p_beta0 p -> p_chi q = chi -> Rf.ky k (beside a q) = EY (p_zeta q).
Proof.
  intros E F. unfold Rf.ky. rewrite (sum_beside q E). cbn [fst snd beside r_part]. rewrite F. reflexivity.
Qed.
Lemma kt_beside q : p_beta0 q = p_beta0 p -> p_chi q = chi ->
  Rf.kt k (beside a q) = ET (p_x q) (p_y q) (p_zeta q).
Proof.
  intros E F. unfold Rf.kt, Rf.kE, Rf.tr_phase, charge.
  rewrite (sum_beside q E), (phase_beside q E), (dphase_beside q E), (freq_beside q E).
  cbn [fst snd beside r_part r_p0c r_q0 r_cr]. rewrite F. fold ft fv. fold (ang ft (p_zeta q)) (ang fv (p_zeta q)).
  unfold ET, kap. fold V. f_equal. f_equal. ring.
Qed.

Let co := kap / p_beta0 p.
Let Xz := - chi * (M * (sin (ang fn (p_zeta p)) * co) + sin (ang ft (p_zeta p)) * co * V).
Let Yz := chi * (N * (sin (ang fs (p_zeta p)) * co)).

Lemma D_ang c u f : family c p -> moves c u -> D (fun t => ang f (p_zeta (c t))) (- co * v_zeta u).
Proof.
  intros Hc (_ & _ & _ & _ & U & _). pose proof (kin_pos p (fam_kin c p Hc)) as (Hb & _).
  eapply D_conv; [apply D_minus; [apply D_const|apply D_mult; [apply D_const|apply D_div; [exact U|apply D_const|]]]|];
    [lra|]. unfold co. field. lra.
Qed.
Lemma D_cosang c u f : family c p -> moves c u ->
  D (fun t => cos (ang f (p_zeta (c t)))) (sin (ang f (p_zeta p)) * co * v_zeta u).
Proof.
  intros Hc Hu. eapply D_conv; [apply D_cos; exact (D_ang c u f Hc Hu)|]. cbv beta. rewrite (fam_0 c p Hc). ring.
Qed.
Lemma D_sinang c u f : family c p -> moves c u ->
  D (fun t => sin (ang f (p_zeta (c t)))) (- cos (ang f (p_zeta p)) * co * v_zeta u).
Proof.
  intros Hc Hu. eapply D_conv; [apply D_sin; exact (D_ang c u f Hc Hu)|]. cbv beta. rewrite (fam_0 c p Hc). ring.
Qed.

Hypothesis Q : Rabs (r_q0 a) = 1 \/ (M = 0 /\ N = 0 /\ V = 0).
Hypotheses (P0 : r_p0c a <> 0) (C0 : r_cr a <> 0) (H0 : chi <> 0).

Lemma symp_moved : rk_kill k = false -> kinematic p -> moving (r_part (rf_kick false k b)) ->
  symplectic (fun q => r_part (rf_kick false k (beside a q))) p.
Proof.
  intros HK K Hm. destruct (kin_pos p K) as (Hb & _).
  assert (EQ : forall q, r_part (rf_kick false k (beside a q)) =
    Rf.retimed (p_ptau q + Rf.kt k (beside a q)) (Rf.kicked (Rf.kx k (beside a q)) (Rf.ky k (beside a q)) q)).
  { intros q. rewrite Rf.rf_kick_eq. unfold Rf.kick_result. rewrite HK. reflexivity. }
  apply (symp_ext (fun q => Rf.retimed (p_ptau q + Rf.kt k (beside a q))
    (Rf.kicked (Rf.kx k (beside a q)) (Rf.ky k (beside a q)) q))).
  { intros q. symmetry. apply EQ. }
  assert (NE : forall c, family c p -> near (fun t => p_beta0 (c t) = p_beta0 p /\ p_chi (c t) = chi)).
  { intros c Hc. apply (near_weak _ _) with (2 := fam_near c p Hc). intros t (_ & H1 & H2). now split. }
  set (x0 := p_x p). set (y0 := p_y p). set (z0 := p_zeta p).
  set (w := Rabs (r_q0 a)).
  refine (symp_energy_kick _ _ _ p Xz Yz
    ((w * r_cr a * rk_voltage k * (- cos (ang fv z0) * co)
      - w * r_cr a * (kap * r_p0c a * (M * (- cos (ang fn z0) * co * x0) - N * (- cos (ang fs z0) * co * y0)
        + - cos (ang ft z0) * co * (V * x0)))) / r_p0c a / (r_cr a / chi)) _ _ _ K _).
  - intros c u Hc Hu. apply (D_near (fun t => EX (p_zeta (c t)))).
    { apply (near_weak _ _) with (2 := NE c Hc). intros t [H1 H2]. symmetry. now apply kx_beside. }
    eapply D_conv.
    { apply D_mult; [apply D_const|]. apply D_plus.
      - apply D_mult; [apply D_const|apply (D_cosang c u fn Hc Hu)].
      - apply D_mult; [apply (D_cosang c u ft Hc Hu)|apply D_const]. }
    unfold Xz. ring.
  - intros c u Hc Hu. apply (D_near (fun t => EY (p_zeta (c t)))).
    { apply (near_weak _ _) with (2 := NE c Hc). intros t [H1 H2]. symmetry. now apply ky_beside. }
    eapply D_conv.
    { apply D_mult; [apply D_const|]. apply D_mult; [apply D_const|apply (D_cosang c u fs Hc Hu)]. }
    unfold Yz. ring.
  - intros c u Hc Hu. apply (D_near (fun t => ET (p_x (c t)) (p_y (c t)) (p_zeta (c t)))).
    { apply (near_weak _ _) with (2 := NE c Hc). intros t [H1 H2]. symmetry. now apply kt_beside. }
    pose proof Hu as (U1 & U2 & U3 & U4 & U5 & U6).
    unfold ET. eapply D_conv.
    { apply D_div; [apply D_div; [|apply D_const|exact P0]|apply D_const|].
      - apply D_minus.
        + apply D_mult; [apply D_const|apply (D_sinang c u fv Hc Hu)].
        + apply D_mult; [apply D_const|apply D_mult; [apply D_const|]].
          apply D_plus; [apply D_minus|].
          * apply D_mult; [apply D_const|apply D_mult; [apply (D_sinang c u fn Hc Hu)|exact U1]].
          * apply D_mult; [apply D_const|apply D_mult; [apply (D_sinang c u fs Hc Hu)|exact U3]].
          * apply D_mult; [apply (D_sinang c u ft Hc Hu)|apply D_mult; [apply D_const|exact U1]].
      - unfold Rdiv. apply Rmult_integral_contrapositive. split; [exact C0|now apply Rinv_neq_0_compat]. }
    cbv beta. rewrite !(fam_0 c p Hc). fold x0 y0 z0 w. unfold Xz, Yz. fold z0.
    destruct Q as [HQ|(Q1 & Q2 & Q3)].
    + fold w in HQ. rewrite HQ. unfold co. field. repeat split; try assumption; lra.
    + rewrite Q1, Q2, Q3. unfold co. field. repeat split; try assumption; lra.
  - rewrite <- EQ. exact Hm.
Qed.
End RfKick.

(** * The body *)
Definition plain (k : rfkick) (a : rp) : Prop :=
  (rm_order (rk_mult k) = None /\ rk_tvoltage k = 0) \/
  (Rabs (r_q0 a) = 1 /\ rk_kill k = false /\ (rm_order (rk_mult k) = None \/ rm_order (rk_mult k) = Some O)).

Lemma symp_rf_kick k a p : plain k a -> r_p0c a <> 0 -> r_cr a <> 0 -> p_chi p <> 0 -> kinematic p ->
  moving (r_part (rf_kick false k (beside a p))) ->
  symplectic (fun q => r_part (rf_kick false k (beside a q))) p.
Proof.
  intros H P0 C0 H0 K Hm. destruct (rk_kill k) eqn:HK.
  - destruct H as [[H1 H2]|[_ [H _]]]; [|congruence].
    apply (symp_ext (fun q => q)); [|apply symp_id]. intros q. rewrite Rf.rf_kick_eq.
    unfold Rf.kick_result. rewrite HK. cbv zeta.
    destruct (Rf.straight_k k (beside a q) (conj H1 H2)) as [-> ->]. symmetry. apply Rf.kicked_0.
  - apply symp_moved; try assumption.
    + destruct H as [[H1 _]|[_ [_ H]]]; [now left|exact H].
    + destruct H as [[H1 H2]|[H _]]; [right|left; exact H]. rewrite H1, H2. unfold Rdiv. rewrite Rmult_0_l. auto.
Qed.

Lemma beside_kick k a p : rf_kick false k (beside a p) = beside a (r_part (rf_kick false k (beside a p))).
Proof. rewrite Rf.rf_kick_eq. reflexivity. Qed.
Lemma kick_chi k a p : p_chi (r_part (rf_kick false k (beside a p))) = p_chi p.
Proof. rewrite Rf.rf_kick_eq. unfold Rf.kick_result. cbv zeta. cbn [on_part r_part]. destruct (rk_kill k); reflexivity. Qed.
Lemma plain_w w k a : plain k a -> plain (weighted w k) a.
Proof.
  intros [[H1 H2]|H]; [left|right; exact H]. split; [exact H1|]. cbn [weighted rk_tvoltage]. rewrite H2. ring.
Qed.

Lemma seen_keeps dm k l : forall a P, snd (run (see_rf_drift dm) (watch_rf_kick false k) l (a, P)) -> P.
Proof.
  induction l as [|o l IH]; intros a P H; [exact H|].
  destruct o as [x|w]; cbn in H; apply IH in H; exact (proj1 H).
Qed.

Section Body.
Variables (dm : Z) (k : rfkick) (a : rp).
Hypotheses (Hdm : Rf.rf_dm dm) (Hk : plain k a) (P0 : r_p0c a <> 0) (C0 : r_cr a <> 0).
Let go := run (rf_drift dm) (fun w => rf_kick false (weighted w k)).
Lemma symp_rf_run l : forall p P, kinematic p -> p_chi p <> 0 ->
  snd (run (see_rf_drift dm) (watch_rf_kick false k) l (beside a p, P)) ->
  symplectic (fun q => r_part (go l (beside a q))) p.
Proof.
  induction l as [|o l IH]; intros p P K Hc H; [apply symp_id|].
  destruct o as [x|w].
  - change (snd (run (see_rf_drift dm) (watch_rf_kick false k) l
      (beside a (magnet_drift (mkDp dm 0 0 0 0 0 0) x p), P /\ can_drift (mkDp dm 0 0 0 0 0 0) x p))) in H.
    pose proof (seen_keeps _ _ _ _ _ H) as [_ Hf].
    pose proof (symp_drift _ x p K Hf) as S1.
    assert (Hc' : p_chi (magnet_drift (mkDp dm 0 0 0 0 0 0) x p) <> 0).
    { destruct (Rf.drift_energy dm x (beside a p) Hdm) as (_ & _ & _ & _ & _ & E). cbn in E. now rewrite E. }
    exact (symp_comp _ _ p S1 (IH _ _ (symp_kin _ _ K S1) Hc' H)).
  - change (snd (run (see_rf_drift dm) (watch_rf_kick false k) l
      (rf_kick false (weighted w k) (beside a p),
       P /\ moving (r_part (rf_kick false (weighted w k) (beside a p)))))) in H.
    pose proof (seen_keeps _ _ _ _ _ H) as [_ Hm].
    pose proof (symp_rf_kick (weighted w k) a p (plain_w w k a Hk) P0 C0 Hc K Hm) as S1.
    rewrite beside_kick in H.
    assert (Hc' : p_chi (r_part (rf_kick false (weighted w k) (beside a p))) <> 0) by now rewrite kick_chi.
    pose proof (symp_comp _ _ p S1 (IH _ _ (symp_kin _ _ K S1) Hc' H)) as S2.
    refine (symp_ext _ _ p _ S2). intros q. cbv beta. rewrite <- beside_kick. reflexivity.
Qed.
End Body.

Lemma symp_rf o back w e a :
  rf_model_known (rf_used_model e) -> o_preserve o = false -> kinematic (r_part a) ->
  (rm_order (rf_mult e) = None /\ rf_tvoltage e = 0) \/
  (Rabs (r_q0 a) = 1 /\ o_kill o = false /\ (rm_order (rf_mult e) = None \/ rm_order (rf_mult e) = Some O)) ->
  r_p0c a <> 0 -> r_cr a <> 0 -> p_chi (r_part a) <> 0 ->
  goes_through_rf o back w e a ->
  symplectic (fun p => r_part (track_rf o back w e (beside a p))) (r_part a).
Proof.
  intros Hmod Hpr K Hs P0 C0 H0 H. pose proof (Rf.known_dm _ Hmod) as Hdm.
  assert (Hpl : plain (fwd_rf o w e) a).
  { destruct Hs as [[H1 H2]|Hs]; [left|right; exact Hs]. split; [exact H1|]. cbn. rewrite H2. ring. }
  assert (E : beside a (r_part a) = a) by now destruct a.
  unfold goes_through_rf in H. rewrite Hpr, body_run, <- E in H.
  unfold track_rf, rf_body. cbv zeta. rewrite Hpr. destruct back.
  - rewrite Rf.bwd_params.
    refine (symp_ext _ _ _ _ (symp_rf_run _ _ a Hdm (plain_w (- (1)) _ a Hpl) P0 C0 _ _ _ K H0 H)).
    intros q. cbv beta. rewrite body_run. do 3 f_equal. ring.
  - refine (symp_ext _ _ _ _ (symp_rf_run _ _ a Hdm Hpl P0 C0 _ _ _ K H0 H)).
    intros q. cbv beta. rewrite body_run. reflexivity.
Qed.
