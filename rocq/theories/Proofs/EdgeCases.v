From Coq Require Import Reals ZArith List Bool Lra Lia.
From Verif.Model Require Import Maps Curved Magnet Edges.
From Verif.Spec Require Import Frames Magnets Symplectic Edges.
From Verif.Proofs Require Import FrameMaps Magnet MagnetBack MagnetCases SympDipole SympDipoleMap SympEdge EdgePaths EdgeBack Symplectic SympMagnet SympBend.
From Verif.Proofs Require SympExamples.
Import ListNotations.
Local Open Scope R_scope.
Ltac pcbn := cbn [add_zeta add_s add_px add_py add_x add_y set_x set_y set_px set_py set_zeta set_s set_spin set_ax set_ay
  p_x p_px p_y p_py p_zeta p_s p_delta p_ptau p_rpp p_rvv p_chi p_beta0 p_ax p_ay p_spin_x p_spin_y p_spin_z].

(** * Full edges are lost when backtracking *)
Lemma full_none sp ptc e ex kn ks m rel ref ksol x0 y0 l p : ed_model e = 1%Z \/ ed_model e = 2%Z ->
  magnet_edge sp ptc true e ex kn ks m rel ref ksol x0 y0 l p = None.
Proof. intros [H|H]; unfold magnet_edge; cbv zeta; rewrite H; reflexivity. Qed.
Lemma edged_lost sp ptc w m p : full (first_edge m) \/ full (last_edge m) -> track_edged sp ptc true w m p = None.
Proof.
  intros H. rewrite edged_shape. cbv zeta. destruct H as [[A M]|[A M]].
  - match goal with |- match ?a with _ => _ end = _ => destruct a; [|reflexivity] end.
    rewrite A. now rewrite full_none.
  - rewrite A. now rewrite full_none.
Qed.
Lemma elements_lost sp ptc side k e1 fd hgap fint is_exit kn ks order p :
  DipoleEdge_track sp ptc true 1 side k e1 fd hgap fint p = None /\
  MultipoleEdge_track true is_exit kn ks order p = None.
Proof.
  split; [reflexivity|]. unfold MultipoleEdge_track, mult_fringe.
  assert (E : Z.eqb (Z.of_nat order) (-1) = false) by (apply Z.eqb_neq; lia). now rewrite E.
Qed.
Lemma linear_element_back sp ptc ptc' side k e1 fd hgap fint p :
  exists q, DipoleEdge_track sp ptc false 0 side k e1 fd hgap fint p = Some q /\
            DipoleEdge_track sp ptc' true 0 side k e1 fd hgap fint q = Some p.
Proof.
  unfold DipoleEdge_track. cbn [Z.eqb]. destruct (linear_coefficients k e1 fd hgap fint) as [a b].
  eexists. split; [reflexivity|]. f_equal. rewrite <- (linear_back a b p) at 2. f_equal; ring.
Qed.

(** * The middle plane *)
Definition mid (c : R) (p : part) : Prop :=
  kinematic p /\ p_x p = 0 /\ p_y p = 0 /\ p_py p = 0 /\ p_delta p = 0 /\ p_ptau p = 0 /\ p_chi p = 1 /\ p_px p = c.
Lemma mid_pz2 c p : mid c p -> pz2 p = 1 - c * c.
Proof. intros (_ & _ & _ & H & D & _ & _ & C). unfold pz2. rewrite H, D, C. ring. Qed.
Ltac kin K := destruct K as (? & ? & ? & ? & ? & ?); unfold kinematic; pcbn; auto 8.

Lemma mid_turn sp f c p : mid c p ->
  mid (cos f * c + sin f * sqrt (1 - c * c)) (yrotation sp (- sin f) (cos f) (- tan f) p).
Proof.
  intros (K & X & Y & PY & D & T & C & PX).
  assert (E : p_px (yrotation sp (- sin f) (cos f) (- tan f) p) = cos f * c + sin f * sqrt (1 - c * c)).
  { unfold yrotation, get_pzeta. rewrite PX, PY, T. cbv zeta.
    destruct (sp && _); pcbn.
    - replace (1 + 2 * (0 / p_beta0 p * p_beta0 p) / p_beta0 p + 0 / p_beta0 p * p_beta0 p * (0 / p_beta0 p * p_beta0 p) - c * c - 0 * 0) with (1 - c * c) by (unfold Rdiv; ring). ring.
    - replace (1 + 2 * (0 / p_beta0 p * p_beta0 p) / p_beta0 p + 0 / p_beta0 p * p_beta0 p * (0 / p_beta0 p * p_beta0 p) - c * c - 0 * 0) with (1 - c * c) by (unfold Rdiv; ring). ring. }
  unfold mid. rewrite E. clear E.
  unfold yrotation. cbv zeta. rewrite X, Y, PY.
  destruct (sp && _); pcbn; refine (conj _ (conj _ (conj _ (conj _ (conj _ (conj _ (conj _ eq_refl)))))));
    try assumption; try (unfold Rdiv; ring); kin K.
Qed.
Lemma mid_turn_ok f c p : mid c p -> 0 < 1 - c * c -> cos f <> 0 -> sqrt (1 - c * c) * cos f - c * sin f <> 0 ->
  turn_ok (sin f) (cos f) p.
Proof.
  intros M H Hc Ht. pose proof (mid_pz2 c p M) as E. destruct M as (K & _ & _ & _ & _ & _ & _ & PX).
  unfold turn_ok, physical. rewrite E, PX. auto.
Qed.

Lemma mid_fringe hgap k c p : mid c p -> mid c (dipole_fringe 0 hgap k p).
Proof.
  intros M. unfold dipole_fringe. destruct (small k); [exact M|]. destruct M as (K & X & Y & PY & D & T & C & PX). cbv zeta.
  match goal with |- context [2 * p_y p / ?a] => replace (2 * p_y p / a) with 0 by (rewrite Y; unfold Rdiv; ring) end.
  unfold mid. pcbn. rewrite X, PY. refine (conj _ (conj _ (conj eq_refl (conj _ (conj D (conj T (conj C PX))))))).
  - kin K.
  - ring.
  - ring.
Qed.
Lemma mid_fringe_ok hgap k c p : mid c p -> 0 < 1 - c * c -> dipole_fringe_ok 0 hgap k p.
Proof.
  intros M H. pose proof (mid_pz2 c p M) as E. destruct M as (K & X & Y & PY & D & T & C & PX).
  assert (P : physical p) by (split; [exact K|now rewrite E]).
  split; [exact P|]. intros Hk.
  assert (A : cos (fringe_angle (k * p_chi p) (hgap * 0) (p_beta0 p) (p_px p) (p_py p) (p_ptau p)) <> 0).
  { unfold fringe_angle. cbv zeta. match goal with |- cos (atan ?a - ?b) <> 0 => replace (atan a - b) with (atan a) by (unfold Rdiv; ring); generalize a end.
    intros a. destruct (atan_bound a) as [B1 B2]. pose proof (cos_gt_0 (atan a)). apply Rgt_not_eq, H0; lra. }
  split; [exact A|].
  destruct (kin_pos p K) as (Hb & _).
  rewrite (spec_angle 0 hgap k (p_beta0 p) (p_chi p)) in A.
  assert (HS : 0 < dS (p_beta0 p) (p_px p) (p_py p) (p_ptau p)).
  { rewrite (kin_dS _ p K eq_refl). apply P. }
  destruct (jet_dF (p_beta0 p) (k * p_chi p) (k * p_chi p * (hgap * 0) * 2) (p_px p) (p_py p) (p_ptau p) ltac:(lra) HS A) as [J _].
  destruct (has3_partials _ _ _ _ _ _ _ J) as (_ & D2 & _).
  eexists. split.
  - eapply derivable_pt_lim_ext; [|exact D2]. intros z. symmetry. apply (spec_potential 0 hgap k).
  - rewrite Y. lra.
Qed.

Definition flat (s : fringe) : Prop :=
  fr_rx s = 0 /\ fr_ix s = 0 /\ fr_fx s = 0 /\ fr_fxx s = 0 /\ fr_fxy s = 0 /\ fr_fy s = 0 /\ fr_fyx s = 0 /\ fr_fyy s = 0.
Lemma flat_step d c kn ks ii s : flat s -> flat (fringe_step d c 0 0 kn ks ii s).
Proof.
  intros (A & B & C & D & E & F & G & H). unfold flat, fringe_step. cbv zeta.
  cbn [fr_rx fr_ix fr_fx fr_fxx fr_fxy fr_fy fr_fyx fr_fyy]. rewrite A, B, C, D, E, F, G, H.
  repeat split; ring.
Qed.
Lemma flat_loop d c kn ks n : forall ii s, flat s -> flat (fringe_loop d c 0 0 kn ks n ii s).
Proof. induction n as [|n IH]; intros ii s H; [exact H|]. cbn [fringe_loop]. apply IH. now apply flat_step. Qed.
Lemma flat_sums kn ks ko knl ksl klo l ex c : (0 <= Z.max ko klo)%Z -> flat (fringe_sums kn ks ko knl ksl klo l ex 1 c 0 0).
Proof.
  intros H. unfold fringe_sums. replace (Z.to_nat (Z.max ko klo + 1)) with (S (Z.to_nat (Z.max ko klo))) by lia.
  cbn [fringe_loop]. apply flat_loop. unfold flat, fringe_step, fringe_strength. cbv zeta.
  cbn [fr_rx fr_ix fr_fx fr_fxx fr_fxy fr_fy fr_fyx fr_fyy fr_inv Nat.leb Nat.ltb Nat.eqb]. repeat split; ring.
Qed.
Lemma mid_mult kn ks knl ksl klo l ex c p : mid c p ->
  mid c (total (mult_fringe false kn ks 3 knl ksl klo l ex 1) p) /\ mult_fringe_ok kn ks 3 knl ksl klo l ex 1 p.
Proof.
  intros (K & X & Y & PY & D & T & C & PX).
  assert (F : flat (fringe_sums kn ks 3 knl ksl klo l ex 1 (p_chi p) (p_x p) (p_y p))) by (rewrite X, Y; apply flat_sums; lia).
  destruct F as (_ & _ & F1 & F2 & F3 & F4 & F5 & F6). split.
  - unfold total, mult_fringe. cbn [Z.eqb Pos.eqb andb]. cbv zeta.
    fold (fringe_sums kn ks 3 knl ksl klo l ex 1 (p_chi p) (p_x p) (p_y p)).
    rewrite F1, F2, F3, F4, F5, F6, PY, PX. unfold mid. pcbn.
    refine (conj _ (conj _ (conj _ (conj _ (conj D (conj T (conj C _))))))).
    + kin K.
    + rewrite X. ring.
    + rewrite Y. ring.
    + unfold Rdiv. ring_simplify. reflexivity.
    + field.
  - split; [exact K|]. cbv zeta. rewrite F2, F3, F5, F6. lra.
Qed.
Lemma mid_quad t k c p : mid c p -> mid c (quad_wedge t k p).
Proof.
  intros (K & X & Y & PY & D & T & C & PX). unfold quad_wedge, mid. cbv zeta. pcbn. rewrite X, Y, PY, PX.
  refine (conj _ (conj eq_refl (conj eq_refl (conj _ (conj D (conj T (conj C _))))))).
  - kin K.
  - ring.
  - unfold Rdiv. ring.
Qed.
Lemma mid_wedge sp f c p : mid c p ->
  let u := c * cos f - sqrt (1 - c * c) * sin f in
  0 < 1 - c * c -> 0 < 1 - u * u -> cos f <> 0 -> 0 < sqrt (1 - c * c) * cos f + c * sin f ->
  mid u (wedge sp (- f) (1 / 10) p) /\ wedge_ok (- f) (1 / 10) p.
Proof.
  intros M u H1 H2 Hc Ht. pose proof (mid_pz2 c p M) as E. destruct M as (K & X & Y & PY & D & T & C & PX).
  assert (B : Rabs (1 / 10 * p_chi p) = 1 / 10) by (rewrite C; rewrite Rabs_pos_eq; lra).
  assert (S : small (1 / 10 * p_chi p) = false).
  { unfold small. destruct (Rlt_dec _ _) as [L|]; [|reflexivity]. rewrite B in L. lra. }
  assert (W : wedge_px (1 / 10 * p_chi p) (- f) p = u).
  { unfold wedge_px, u. rewrite E, PX, X, cos_neg, sin_neg. ring. }
  assert (Tz : turned_pz (- f) p = sqrt (1 - c * c) * cos f + c * sin f).
  { unfold turned_pz. rewrite E, PX, cos_neg, sin_neg. ring. }
  assert (W2 : wedge_pz2 (1 / 10 * p_chi p) (- f) p = 1 - u * u).
  { unfold wedge_pz2. rewrite W, PY, D. ring. }
  split.
  - unfold wedge. rewrite S. cbv zeta.
    assert (M : forall q, mid u (add_zeta q (set_px (p_px p * cos (- f) + (sqrt ((p_delta p + 1) * (p_delta p + 1) - p_px p * p_px p - p_py p * p_py p) - 1 / 10 * p_chi p * p_x p) * sin (- f)) (add_y (p_py p) (set_x 0 p))))).
    { intros q. unfold mid. pcbn. refine (conj _ (conj eq_refl (conj _ (conj PY (conj D (conj T (conj C _))))))).
      - kin K.
      - rewrite Y, PY. ring.
      - rewrite <- W. unfold wedge_px, pz2. rewrite (Rplus_comm (p_delta p) 1). reflexivity. }
    match goal with |- context [set_px ?a (add_y ?b (set_x ?c p))] =>
      assert (Eb : b = p_py p) by (rewrite PY; unfold Rdiv; ring); assert (Ec : c = 0) by (rewrite X; unfold Rdiv; ring);
      rewrite Eb, Ec end.
    destruct (sp && _); [|apply M].
    match goal with |- context [add_zeta ?z _] => specialize (M z) end.
    revert M. generalize (add_zeta (- ((p_delta p + 1) * (- f + (asin (1 / sqrt ((p_delta p + 1) * (p_delta p + 1) - p_py p * p_py p) * p_px p) - asin (1 / sqrt ((p_delta p + 1) * (p_delta p + 1) - p_py p * p_py p) * (p_px p * cos (- f) + (sqrt ((p_delta p + 1) * (p_delta p + 1) - p_px p * p_px p - p_py p * p_py p) - 1 / 10 * p_chi p * p_x p) * sin (- f))))) / (1 / 10 * p_chi p)) / p_rvv p)
          (set_px (p_px p * cos (- f) + (sqrt ((p_delta p + 1) * (p_delta p + 1) - p_px p * p_px p - p_py p * p_py p) - 1 / 10 * p_chi p * p_x p) * sin (- f)) (add_y (p_py p) (set_x 0 p)))).
    intros q M. exact M.
  - split; [exact K|]. split; [rewrite E; exact H1|]. split.
    + rewrite B. intros L. lra.
    + intros _. rewrite W2, Tz. split; [exact H2|]. pose proof (sqrt_lt_R0 _ H2). lra.
Qed.

Definition full_edge : edge := mkEdge true 1 (1 / 2) 0 0 (1 / 50).
Definition full_bend : edged :=
  mkEdged (mkMag 2 none None 0 1 2 3 1 2 (1 / 10) 0 (1 / 10) (1 / 5) 0 0 0 0 0 0 0 0 0) false full_edge full_edge (-1) false 0 0 0.
Lemma full_fits sp : fits (edged_steps sp 1 full_bend) SympExamples.rest.
Proof.
  assert (F : first_edge full_bend = full_edge) by reflexivity. assert (L : last_edge full_bend = full_edge) by reflexivity.
  assert (Hc : 0 < cos (1 / 2)) by (apply cos_gt_0; pose proof PI2_1; lra).
  pose proof (sin2_cos2 (1 / 2)) as SC. unfold Rsqr in SC. set (s := sin (1 / 2)) in *. set (c := cos (1 / 2)) in *.
  assert (Q : sqrt (1 - s * s) = c). { replace (1 - s * s) with (c * c) by lra. apply sqrt_square. lra. }
  assert (Q' : sqrt (1 - - s * - s) = c). { replace (1 - - s * - s) with (c * c) by lra. apply sqrt_square. lra. }
  assert (P : 0 < 1 - s * s) by (replace (1 - s * s) with (c * c) by lra; now apply Rmult_lt_0_compat).
  assert (P' : 0 < 1 - - s * - s) by lra.
  unfold edged_steps, first_steps, body_steps, last_steps, edge_part. rewrite F, L. cbv zeta.
  cbn [ed_active full_edge straight rb_model full_bend Z.eqb eg_body List.app].
  unfold edge_steps. cbn [ed_angle ed_model ed_fint ed_hgap full_edge Z.eqb Pos.eqb andb].
  destruct (Rlt_dec (/ 1000000000) (Rabs (1 / 2))) as [_|N]; [|exfalso; apply N; rewrite Rabs_pos_eq; lra].
  fold s c.
  set (kn := kn_of (eg_mag full_bend)). set (ks := ks_of (eg_mag full_bend)).
  change (nth 0 kn 0) with (1 / 10). change (nth 1 kn 0) with (1 / 5).
  set (k0 := edge_k0 kn (mg_mult (eg_mag full_bend)) (mg_rel (eg_mag full_bend)) (mg_ref (eg_mag full_bend)) (mg_length (inner full_bend))).
  generalize k0. clear k0. intros k0. generalize kn ks. clear kn ks. intros kn ks.
  generalize (mg_length (inner full_bend)) (mu_knl (mg_mult (eg_mag full_bend))) (mu_ksl (mg_mult (eg_mag full_bend)))
     (Z.of_nat (mu_order (mg_mult (eg_mag full_bend)))). intros l knl ksl o.
  assert (M0 : mid 0 (store false (mg_ks (eg_mag full_bend)) (mg_x0 (eg_mag full_bend)) (mg_y0 (eg_mag full_bend)) SympExamples.rest)).
  { unfold mid, store. split; [|repeat split]. unfold kinematic, SympExamples.rest. pcbn. repeat split; lra. }
  cbn [List.app fits anywhere].
  split; [exact I|]. revert M0. generalize (store false (mg_ks (eg_mag full_bend)) (mg_x0 (eg_mag full_bend)) (mg_y0 (eg_mag full_bend)) SympExamples.rest).
  intros p0 M0.
  split. { apply (mid_turn_ok (1 / 2) 0 p0 M0); fold s c; try lra. rewrite Rmult_0_l, Rminus_0_r, sqrt_1. lra. }
  pose proof (mid_turn sp (1 / 2) 0 p0 M0) as M1. fold s c in M1.
  replace (c * 0 + s * sqrt (1 - 0 * 0)) with s in M1 by (rewrite Rmult_0_l, Rminus_0_r, sqrt_1; ring).
  revert M1. generalize (yrotation sp (- s) c (- tan (1 / 2)) p0). clear p0 M0. intros p1 M1.
  split. { now apply (mid_fringe_ok _ _ s). }
  apply (mid_fringe (1 / 50) k0) in M1. revert M1. generalize (dipole_fringe 0 (1 / 50) k0 p1). clear p1. intros p2 M2.
  destruct (mid_mult kn ks knl ksl o l false s p2 M2) as [M3 O3]. split; [exact O3|].
  revert M3. generalize (total (mult_fringe false kn ks 3 knl ksl o l false 1) p2). clear p2 M2 O3. intros p3 M3.
  split; [exact I|]. apply (mid_quad (- (1 / 2)) (1 / 5)) in M3. revert M3. generalize (quad_wedge (- (1 / 2)) (1 / 5) p3). clear p3. intros p4 M4.
  destruct (mid_wedge sp (1 / 2) s p4 M4) as [M5 O5]; fold s c; rewrite ?Q; try lra.
  split; [exact O5|]. fold s c in M5. rewrite Q in M5. replace (s * c - c * s) with 0 in M5 by ring.
  revert M5. generalize (wedge sp (- (1 / 2)) (1 / 10) p4). clear p4 M4 O5. intros p5 M5.
  split; [exact I|].
  assert (M6 : mid 0 (store true (mg_ks (eg_mag full_bend)) (mg_x0 (eg_mag full_bend)) (mg_y0 (eg_mag full_bend)) p5)).
  { destruct M5 as (K & X & Y & PY & D & T & C & PX). unfold store, mid. pcbn.
    refine (conj _ (conj X (conj Y (conj PY (conj D (conj T (conj C PX))))))). kin K. }
  revert M6. generalize (store true (mg_ks (eg_mag full_bend)) (mg_x0 (eg_mag full_bend)) (mg_y0 (eg_mag full_bend)) p5). clear p5 M5. intros p6 M6.
  destruct (mid_wedge sp (1 / 2) 0 p6 M6) as [M7 O7]; fold s c; rewrite ?Rmult_0_l, ?Rminus_0_r, ?sqrt_1; try lra.
  split; [exact O7|]. fold s c in M7. rewrite !Rmult_0_l, Rminus_0_r, sqrt_1 in M7. replace (0 - 1 * s) with (- s) in M7 by ring.
  revert M7. generalize (wedge sp (- (1 / 2)) (1 / 10) p6). clear p6 M6 O7. intros p7 M7.
  split; [exact I|]. apply (mid_quad (- (1 / 2)) (1 / 5)) in M7. revert M7. generalize (quad_wedge (- (1 / 2)) (1 / 5) p7). clear p7. intros p8 M8.
  destruct (mid_mult kn ks knl ksl o l true (- s) p8 M8) as [M9 O9]. split; [exact O9|].
  revert M9. generalize (total (mult_fringe false kn ks 3 knl ksl o l true 1) p8). clear p8 M8 O9. intros p9 M9.
  split. { now apply (mid_fringe_ok _ _ (- s)). }
  apply (mid_fringe (1 / 50) (- k0)) in M9. revert M9. generalize (dipole_fringe 0 (1 / 50) (- k0) p9). clear p9. intros q M.
  split; [|exact I]. apply (mid_turn_ok (1 / 2) (- s) q M); fold s c; try lra. rewrite Q'. lra.
Qed.

(** * Linear edges and backtracking *)
Lemma drift_potential d l p : dp_model d <> 6%Z -> p_ax (magnet_drift d l p) = p_ax p /\ p_ay (magnet_drift d l p) = p_ay p.
Proof.
  intros H6. unfold magnet_drift. cbv zeta. generalize nested4 nested6 nested4_last d0. intros n4 n6 z4 z6.
  assert (N : forall a b c e q, p_ax (nested a b c e q p) = p_ax p /\ p_ay (nested a b c e q p) = p_ay p).
  { intros a b c e q. revert p. induction e as [|[u v] e IH]; intros p; cbn [nested]; [split; reflexivity|].
    destruct (IH (px_kick v b a (polar_drift (u * a) c p))) as [X Y]. rewrite X, Y. split; reflexivity. }
  destruct (Z.eqb_spec (dp_model d) 6); [contradiction|].
  repeat match goal with |- context [if Z.eqb ?a ?b then _ else _] => destruct (Z.eqb a b) | |- context [if is0 ?a then _ else _] => destruct (is0 a) end; auto.
  - unfold curved_exact_bend. cbv zeta. destruct (tiny _); split; reflexivity.
  - unfold straight_exact_bend. cbv zeta. destruct (tiny _); split; reflexivity.
Qed.
Lemma simple_potential m a b p : p_ax (kick_simple m a b p) = p_ax p /\ p_ay (kick_simple m a b p) = p_ay p.
Proof. unfold kick_simple. destruct (kick_coordinates _ _ _ _ _ _). split; reflexivity. Qed.
Lemma kick_potential k w p : p_ax (magnet_kick k w p) = p_ax p /\ p_ay (magnet_kick k w p) = p_ay p.
Proof.
  unfold magnet_kick. cbv zeta. set (p1 := kick_simple _ _ _ p). set (p2 := match kp_rel k with None => p1 | _ => _ end).
  match goal with |- p_ax (add_zeta ?a (add_py ?b (add_px ?c ?q))) = _ /\ _ => 
    change (p_ax q = p_ax p /\ p_ay q = p_ay p) end.
  assert (E : p_ax p2 = p_ax p1 /\ p_ay p2 = p_ay p1) by (unfold p2; destruct (kp_rel k); [apply simple_potential|auto]).
  destruct (simple_potential (kp_mult k) (kp_factor k) w p) as [A B].
  match goal with |- p_ax (kick_simple ?m ?a ?b p2) = _ /\ _ => destruct (simple_potential m a b p2) as [C D] end.
  destruct E as [E F]. rewrite C, D, E, F. split; assumption.
Qed.
Lemma body_potential back w g p : drift_model_of (used_model g) (mg_h g) <> 6%Z -> no_potential p -> no_potential (track_magnet back w g p).
Proof.
  intros H6. unfold track_magnet. cbv zeta.
  destruct (config _ _ _ _ _) as [[[[? ?] ?] ?] [[[[[? ?] ?] ?] ?] ?]]. rewrite body_run.
  match goal with |- context [run _ _ ?l _] => generalize l end. intros l. revert p. induction l as [|o l IH]; intros p H; [exact H|].
  unfold run in *. cbn [fold_left]. apply IH. destruct H as [A B]. unfold no_potential. destruct o as [x|x]; cbn [Magnet.step].
  - destruct (drift_potential (mkDp (drift_model_of (used_model g) (mg_h g)) r r0 r2 r1 (mg_x0 g) (mg_y0 g)) x p H6) as [X Y]. rewrite X, Y. auto.
  - match goal with |- p_ax (magnet_kick ?k x p) = _ /\ _ => destruct (kick_potential k x p) as [X Y] end. rewrite X, Y. auto.
Qed.

Definition linear_edge : edge := mkEdge true 0 (1 / 5) 0 (1 / 2) (1 / 50).
Definition linear_bend : edged :=
  mkEdged (mkMag 2 none None 0 3 5 3 1 2 (1 / 10) 0 (1 / 10) (1 / 5) 0 0 0 0 0 0 0 0 0) true linear_edge linear_edge 1 false 0 0 0.
Lemma linear_returns sp p : no_potential p -> returns sp 1 linear_bend p.
Proof.
  intros H. assert (D : drift_model_of (used_model (inner linear_bend)) (mg_h (inner linear_bend)) = 1%Z) by reflexivity.
  unfold returns. cbv zeta. refine (conj H (conj _ (conj _ (conj _ _)))).
  - intros _. apply easy_passes. rewrite D. exact I.
  - unfold body_steps. cbn [eg_body linear_bend through straight rb_model Z.eqb Pos.eqb andb].
    apply body_potential; [rewrite D; discriminate|].
    destruct (edge_part_plain sp linear_bend (first_edge linear_bend) false p eq_refl H) as [A _]; [discriminate|discriminate|].
    exact A.
  - discriminate.
  - discriminate.
Qed.
Lemma linear_plain : plain (first_edge linear_bend).
Proof. intros _. split; discriminate. Qed.
