From Coq Require Import Reals ZArith List Bool Lra Lia.
From Verif.Model Require Import Maps Curved Magnet.
From Verif.Spec Require Import Frames Magnets Symplectic.
From Verif.Proofs Require Import Symplectic SympMagnet.
Import ListNotations.
Local Open Scope R_scope.

(** * Motion in a uniform field *)
Definition m2 (p : part) : R := gP p * gP p - p_py p * p_py p.
Definition theta (p : part) (u : vel) : R := wE p / p_beta0 p * v_ptau u - p_py p * v_py u.
Definition root (p : part) (n : R) : R := gP p * gP p - n * n - p_py p * p_py p.
Definition droot (p : part) (n dn : R) (u : vel) : R := (theta p u - n * dn) / sqrt (root p n).
Definition dangle (p : part) (n dn : R) (u : vel) : R :=
  dn / sqrt (root p n) - n * theta p u / (sqrt (root p n) * m2 p).

Lemma fam_root c p u n dn : family c p -> moves c u -> D n dn -> 0 < root p (n 0) ->
  D (fun t => sqrt ((p_delta (c t) + 1) * (p_delta (c t) + 1) - n t * n t - p_py (c t) * p_py (c t)))
    (droot p (n 0) dn u).
Proof.
  intros F M Hn H. pose proof (fam_delta c p u F M) as Hd. destruct (kin_pos p (fam_kin c p F)) as (Hb & Hg & Hw & _).
  destruct M as (Mx & Mpx & My & Mpy & Mz & Mt). pose proof (fam_0 c p F) as E0.
  pose proof (sqrt_lt_R0 _ H) as Hz.
  assert (R0 : (p_delta p + 1) * (p_delta p + 1) - n 0 * n 0 - p_py p * p_py p = root p (n 0)) by (unfold root, gP; ring).
  eapply D_conv; [dv|]; rewrite ?E0, R0; [exact H|]. unfold droot, theta. unfold gP in *. field. lra.
Qed.
Lemma m2_pos p n : 0 < root p n -> 0 < m2 p.
Proof. unfold root, m2. intros H. pose proof (Rle_0_sqr n) as X. unfold Rsqr in X. lra. Qed.
Lemma D_asin f a : D f a -> -1 < f 0 < 1 -> D (fun t => asin (f t)) (/ sqrt (1 - f 0 * f 0) * a).
Proof.
  intros Hf H. apply (D_comp f asin); [exact Hf|].
  destruct (derivable_pt_asin (f 0) H) as [l Hl] eqn:E.
  pose proof (derive_pt_asin (f 0) H) as X. rewrite E in X. cbn in X. subst l. unfold Rsqr in Hl.
  eapply derivable_pt_lim_ext; [reflexivity|]. replace (/ sqrt (1 - f 0 * f 0)) with (1 / sqrt (1 - f 0 * f 0)) by (unfold Rdiv; ring).
  exact Hl.
Qed.
Lemma fam_asin c p u n dn : family c p -> moves c u -> D n dn -> 0 < root p (n 0) ->
  D (fun t => asin (1 / sqrt ((p_delta (c t) + 1) * (p_delta (c t) + 1) - p_py (c t) * p_py (c t)) * n t))
    (dangle p (n 0) dn u).
Proof.
  intros F M Hn H. pose proof (fam_delta c p u F M) as Hd. destruct (kin_pos p (fam_kin c p F)) as (Hb & Hg & Hw & _).
  destruct M as (Mx & Mpx & My & Mpy & Mz & Mt). pose proof (fam_0 c p F) as E0.
  pose proof (m2_pos p _ H) as Hm. pose proof (sqrt_lt_R0 _ Hm) as Hs. pose proof (sqrt_lt_R0 _ H) as Hz.
  assert (R0 : (p_delta p + 1) * (p_delta p + 1) - p_py p * p_py p = m2 p) by (unfold m2, gP; ring).
  pose proof (sqrt_sqrt _ (Rlt_le _ _ Hm)) as Sm. pose proof (sqrt_sqrt _ (Rlt_le _ _ H)) as Sz.
  assert (Er : root p (n 0) = m2 p - n 0 * n 0) by (unfold root, m2; ring).
  set (m := sqrt (m2 p)) in *. symmetry in Sm.
  assert (B : -1 < 1 / m * n 0 < 1).
  { apply and_comm, Rabs_def2. rewrite <- Rabs_R1 at 2. apply Rsqr_lt_abs_0. unfold Rsqr.
    apply (Rmult_lt_reg_r (m * m)); [now apply Rmult_lt_0_compat|].
    replace (1 / m * n 0 * (1 / m * n 0) * (m * m)) with (n 0 * n 0) by (field; lra). lra. }
  assert (Z : sqrt (1 - 1 / m * n 0 * (1 / m * n 0)) = sqrt (root p (n 0)) / m).
  { unfold m. rewrite <- sqrt_div by lra. fold m. f_equal. rewrite Er, Sm. field. lra. }
  eapply D_conv.
  - eapply D_asin.
    + dv; rewrite E0, R0; [exact Hm|fold m; lra].
    + rewrite E0, R0. exact B.
  - rewrite !E0, !R0. fold m. rewrite Z. unfold dangle, theta, gP in *. rewrite Sm. field. repeat split; lra.
Qed.

Definition chi_near c p (F : family c p) : near (fun t => p_chi (c t) = p_chi p) :=
  near_weak _ _ (fun t H => proj2 (proj2 H)) (fam_near c p F).

(** One canonical transformation for both bends: [C] is the momentum of the centre of the circle *)
Definition J_bend (s c b : R) (n0 n1 : R) (ang : R) (p : part) (u : vel) : vel :=
  let dC := droot p n0 (v_px u) u - b * v_x u in
  let dn1 := c * v_px u + s * dC in
  let dI := (dangle p n0 (v_px u) u - dangle p n1 dn1 u) / b in
  mkVel ((droot p n1 dn1 u - (c * dC - s * v_px u)) / b) dn1
    (v_y u + v_py u * ang + p_py p * dI) (v_py u)
    (v_zeta u - (p_beta0 p * v_ptau u * ang + wE p * dI)) (v_ptau u).
Lemma form_bend s c b n0 n1 ang p u v : c * c + s * s = 1 -> b <> 0 -> p_beta0 p <> 0 ->
  0 < root p n0 -> 0 < root p n1 ->
  form (p_beta0 p) (J_bend s c b n0 n1 ang p u) (J_bend s c b n0 n1 ang p v) = form (p_beta0 p) u v.
Proof.
  intros E Hb Hb0 H0 H1. assert (E' : c * c = 1 - s * s) by lra. pose proof (m2_pos p _ H0) as Hm.
  apply sqrt_lt_R0 in H0, H1.
  unfold form, J_bend, dangle, droot, theta. cbn [v_x v_px v_y v_py v_zeta v_ptau].
  generalize dependent (sqrt (root p n0)). intros z0 H0. generalize dependent (sqrt (root p n1)). intros z1 H1.
  generalize dependent (m2 p). intros m Hm. generalize dependent (p_beta0 p). intros b0 Hb0. generalize (wE p). intros w.
  field_simplify_eq [E']; [ring [E']|lra].
Qed.

Lemma symp_straight_bend L k0 p : physical p -> ~ Rabs (k0 * p_chi p) < / 100000000 ->
  0 < root p (p_px p - k0 * p_chi p * L) -> symplectic (straight_exact_bend L k0) p.
Proof.
  intros [K Hp] Hk H1. destruct (kin_pos p K) as (Hb & Hg & Hw & _). pose proof (kin_irvv p K) as Ev.
  set (b := k0 * p_chi p) in *.
  assert (Hb0 : b <> 0). { intros N. apply Hk. rewrite N, Rabs_R0. lra. }
  assert (T : tiny b = false). { unfold tiny. destruct (Rlt_dec _ _); [contradiction|reflexivity]. }
  assert (H0 : 0 < root p (p_px p)). { unfold pz2 in Hp. exact Hp. }
  set (al := fun q n => asin (1 / sqrt ((p_delta q + 1) * (p_delta q + 1) - p_py q * p_py q) * n)).
  set (rt := fun q n => sqrt ((p_delta q + 1) * (p_delta q + 1) - n * n - p_py q * p_py q)).
  set (g := fun q : part => add_s L (add_zeta (L - (p_delta q + 1) / b * (al q (p_px q) - al q (p_px q - b * L)) * (1 / p_rvv q))
      (set_y (p_y q + p_py q / b * (al q (p_px q) - al q (p_px q - b * L)))
        (set_px (p_px q - b * L) (set_x (p_x q + (rt q (p_px q - b * L) - rt q (p_px q)) / b) q))))).
  apply (symp_near_chi _ g).
  { intros q Hq. unfold straight_exact_bend. rewrite Hq. fold b. rewrite T. unfold g, al, rt. unfold Rdiv. rewrite !Rmult_1_l. reflexivity. }
  apply (symp_keeps _ p (J_bend 0 1 b (p_px p) (p_px p - b * L) ((al p (p_px p) - al p (p_px p - b * L)) / b) p)).
  - intros q. repeat split; reflexivity.
  - reflexivity.
  - intros cu u F M. pose proof (fam_irvv cu p u F M) as Hv. pose proof (fam_delta cu p u F M) as Hd.
    pose proof (fam_0 cu p F) as E0.
    assert (Mn : D (fun t => p_px (cu t) - b * L) (v_px u)).
    { destruct M as (_ & Mpx & _). eapply D_conv; [dv|]. ring. }
    pose proof (fam_root cu p u _ _ F M Mn) as R1. pose proof (fam_asin cu p u _ _ F M Mn) as A1.
    assert (Mp : D (fun t => p_px (cu t)) (v_px u)) by apply M.
    pose proof (fam_root cu p u _ _ F M Mp) as R0. pose proof (fam_asin cu p u _ _ F M Mp) as A0.
    cbv beta in R0, R1, A0, A1. rewrite E0 in R0, R1, A0, A1.
    specialize (R0 H0). specialize (R1 H1). specialize (A0 H0). specialize (A1 H1).
    destruct M as (Mx & Mpx & My & Mpy & Mz & Mt).
    change (D (fun t => al (cu t) (p_px (cu t))) (dangle p (p_px p) (v_px u) u)) in A0.
    change (D (fun t => al (cu t) (p_px (cu t) - b * L)) (dangle p (p_px p - b * L) (v_px u) u)) in A1.
    change (D (fun t => rt (cu t) (p_px (cu t))) (droot p (p_px p) (v_px u) u)) in R0.
    change (D (fun t => rt (cu t) (p_px (cu t) - b * L)) (droot p (p_px p - b * L) (v_px u) u)) in R1.
    clearbody al rt. unfold g, J_bend. cbn [v_x v_px v_y v_py v_zeta add_s add_zeta set_s set_x set_y set_px set_zeta p_x p_px p_y p_py p_zeta].
    replace (1 * v_px u + 0 * (droot p (p_px p) (v_px u) u - b * v_x u)) with (v_px u) by ring.
    repeat split; (eapply D_conv; [dv|]); rewrite ?E0, ?Ev; try assumption; try lra; unfold gP, wE in *; field; lra.
  - intros u v. apply form_bend; try lra; assumption.
Qed.

Lemma angle_algebra z0 z1 n0 n1 m th d0 d1 : z0 <> 0 -> z1 <> 0 -> m <> 0 ->
  z0 * z0 = m - n0 * n0 -> z1 * z1 = m - n1 * n1 ->
  let N := n0 * (z1 - z0) - z0 * (n1 - n0) in let A := z0 * z1 + n0 * n1 in
  let dz0 := (th - n0 * d0) / z0 in let dz1 := (th - n1 * d1) / z1 in
  let dN := d0 * (z1 - z0) + n0 * (dz1 - dz0) - (dz0 * (n1 - n0) + z0 * (d1 - d0)) in
  let dA := dz0 * z1 + z0 * dz1 + (d0 * n1 + n0 * d1) in
  A <> 0 ->
  / (1 + (N / A) ^ 2) * ((dN * A - dA * N) / (A * A)) = d0 / z0 - n0 * th / (z0 * m) - (d1 / z1 - n1 * th / (z1 * m)).
Proof.
  intros H0 H1 Hm E0 E1. cbv zeta. set (A := z0 * z1 + n0 * n1). intros HA.
  set (N := n0 * (z1 - z0) - z0 * (n1 - n0)).
  assert (S : N * N + A * A = m * m).
  { unfold N, A. replace m with (z0 * z0 + n0 * n0) at 1 by lra. replace m with (z1 * z1 + n1 * n1) by lra. ring. }
  replace (1 + (N / A) ^ 2) with (m * m / (A * A)).
  2:{ rewrite <- S. field. exact HA. }
  replace (/ (m * m / (A * A)) * (((d0 * (z1 - z0) + n0 * ((th - n1 * d1) / z1 - (th - n0 * d0) / z0) -
      ((th - n0 * d0) / z0 * (n1 - n0) + z0 * (d1 - d0))) * A -
     ((th - n0 * d0) / z0 * z1 + z0 * ((th - n1 * d1) / z1) + (d0 * n1 + n0 * d1)) * N) / (A * A)))
  with (((d0 * (z1 - z0) + n0 * ((th - n1 * d1) / z1 - (th - n0 * d0) / z0) -
      ((th - n0 * d0) / z0 * (n1 - n0) + z0 * (d1 - d0))) * A -
     ((th - n0 * d0) / z0 * z1 + z0 * ((th - n1 * d1) / z1) + (d0 * n1 + n0 * d1)) * N) / (m * m)) by (field; auto).
  unfold N, A. field_simplify_eq [E0 E1]; [ring [E0 E1]|auto].
Qed.

Lemma fam_const p : kinematic p -> family (fun _ => p) p /\ moves (fun _ => p) (mkVel 0 0 0 0 0 0).
Proof.
  intros K. split; [split; [reflexivity|]|].
  - exists 1. split; [lra|]. auto.
  - repeat split; apply D_const.
Qed.
Lemma symp_near f g p : kinematic p ->
  (forall c u, family c p -> moves c u -> near (fun t => g (c t) = f (c t))) -> symplectic g p -> symplectic f p.
Proof.
  intros K E [B [J [H F]]].
  assert (E0 : g p = f p).
  { destruct (fam_const p K) as [Fc Mc]. exact (near_0 _ (E _ _ Fc Mc)). }
  split; [now rewrite <- E0|]. exists J. split; [|exact F].
  intros c u Hc Hu. destruct (H c u Hc Hu) as [[H0 [d [Hd H1]]] H2].
  pose proof (E c u Hc Hu) as N.
  split; [split|].
  - now rewrite (fam_0 c p Hc).
  - destruct (near_and _ _ N (ex_intro _ d (conj Hd H1))) as [e [He HH]]. exists e. split; [exact He|]. intros t Ht.
    destruct (HH t Ht) as [X Y]. rewrite <- X, <- E0. exact Y.
  - unfold moves in *.
    assert (X : forall k : part -> R, forall l, D (fun t => k (g (c t))) l -> D (fun t => k (f (c t))) l).
    { intros k l. apply D_near. apply (near_weak _ _) with (2 := N). intros t Et. now rewrite Et. }
    repeat match goal with H : _ /\ _ |- _ => destruct H end. repeat split; now apply X.
Qed.

Lemma symp_curved_bend L k0 h p : kinematic p -> ~ Rabs (k0 * p_chi p) < / 100000000 ->
  bend_ok (k0 * p_chi p) h L p -> symplectic (curved_exact_bend L k0 h) p.
Proof.
  intros K Hk (Hh & Hp & H1 & HA). destruct (kin_pos p K) as (Hb & Hg & Hw & _). pose proof (kin_irvv p K) as Ev.
  set (b := k0 * p_chi p) in *.
  assert (Hb0 : b <> 0). { intros N. apply Hk. rewrite N, Rabs_R0. lra. }
  assert (T : tiny b = false). { unfold tiny. destruct (Rlt_dec _ _); [contradiction|reflexivity]. }
  set (s := sin (h * L)) in *. set (c := cos (h * L)) in *.
  assert (E : c * c + s * s = 1) by (pose proof (sin2_cos2 (h * L)) as X; unfold Rsqr in X; fold s c in X; lra).
  assert (E2 : sin (h * L / 2) * sin (h * L / 2) = (1 - c) / 2).
  { unfold c. replace (h * L) with (2 * (h * L / 2)) at 3 by field. rewrite cos_2a_sin. field. }
  set (rt := fun q n => sqrt ((p_delta q + 1) * (p_delta q + 1) - n * n - p_py q * p_py q)).
  set (C := fun q => rt q (p_px q) - b * (1 / h + p_x q)).
  set (n1 := fun q => p_px q * c + C q * s).
  set (NA := fun q => p_px q * (rt q (n1 q) - rt q (p_px q)) - rt q (p_px q) * (n1 q - p_px q)).
  set (DA := fun q => rt q (p_px q) * rt q (n1 q) + p_px q * n1 q).
  set (I := fun q => (h * L + atan (NA q / DA q)) / b).
  set (g := fun q : part => add_s L (add_zeta (L - (p_delta q + 1) * I q * (1 / p_rvv q))
      (set_y (p_y q + p_py q * I q)
        (set_px (n1 q) (set_x ((rt q (n1 q) - (c * C q - s * p_px q)) / b - 1 / h) q))))).
  assert (Z0 : sqrt (pz2 p) = rt p (p_px p)).
  { unfold rt, pz2. f_equal. ring. }
  assert (N1 : bend_px b h L p = n1 p).
  { unfold bend_px, n1, C. rewrite Z0. fold s c. ring. }
  assert (Z1 : sqrt (bend_pz2 b h L p) = rt p (n1 p)).
  { unfold rt, bend_pz2. rewrite N1. f_equal. ring. }
  assert (R0 : 0 < root p (p_px p)) by exact Hp.
  assert (R1 : 0 < root p (n1 p)). { unfold bend_pz2 in H1. rewrite N1 in H1. exact H1. }
  assert (A0 : 0 < DA p). { unfold DA. rewrite <- Z0, <- Z1, <- N1. exact HA. }
  assert (rt_root : forall n, rt p n = sqrt (root p n)). { intros n. unfold rt, root, gP. f_equal. ring. }
  assert (NR0 : rt p (p_px p) <> 0). { rewrite rt_root. apply Rgt_not_eq, sqrt_lt_R0, R0. }
  assert (NR1 : rt p (n1 p) <> 0). { rewrite rt_root. apply Rgt_not_eq, sqrt_lt_R0, R1. }
  set (J := J_bend s c b (p_px p) (n1 p) (I p) p).
  (* derivatives along a family *)
  assert (Ds : forall cu u, family cu p -> moves cu u ->
    D (fun t => rt (cu t) (p_px (cu t))) (droot p (p_px p) (v_px u) u) /\
    D (fun t => C (cu t)) (droot p (p_px p) (v_px u) u - b * v_x u) /\
    D (fun t => n1 (cu t)) (v_px (J u)) /\
    D (fun t => rt (cu t) (n1 (cu t))) (droot p (n1 p) (v_px (J u)) u) /\
    D (fun t => I (cu t)) ((dangle p (p_px p) (v_px u) u - dangle p (n1 p) (v_px (J u)) u) / b)).
  { intros cu u F M. pose proof (fam_0 cu p F) as E0.
    assert (Mp : D (fun t => p_px (cu t)) (v_px u)) by apply M.
    assert (Mx : D (fun t => p_x (cu t)) (v_x u)) by apply M.
    pose proof (fam_root cu p u _ _ F M Mp) as X0. cbv beta in X0. rewrite E0 in X0. specialize (X0 R0).
    change (D (fun t => rt (cu t) (p_px (cu t))) (droot p (p_px p) (v_px u) u)) in X0.
    assert (XC : D (fun t => C (cu t)) (droot p (p_px p) (v_px u) u - b * v_x u)).
    { unfold C. eapply D_conv; [dv|]. ring. }
    assert (Xn : D (fun t => n1 (cu t)) (v_px (J u))).
    { unfold n1. eapply D_conv; [dv|]. unfold J, J_bend. cbn [v_px]. ring. }
    pose proof (fam_root cu p u _ _ F M Xn) as X1. cbv beta in X1. rewrite E0 in X1. specialize (X1 R1).
    change (D (fun t => rt (cu t) (n1 (cu t))) (droot p (n1 p) (v_px (J u)) u)) in X1.
    refine (conj X0 (conj XC (conj Xn (conj X1 _)))).
    pose proof (m2_pos p _ R0) as Hm.
    assert (XA : D (fun t => atan (NA (cu t) / DA (cu t))) (dangle p (p_px p) (v_px u) u - dangle p (n1 p) (v_px (J u)) u)).
    { eapply D_conv.
      - apply (D_comp (fun t => NA (cu t) / DA (cu t)) atan); [|apply derivable_pt_lim_atan].
        unfold NA, DA. dv. fold (DA (cu 0)). rewrite E0. lra.
      - cbv beta. rewrite !E0. fold (DA p) (NA p). unfold dangle, droot. rewrite <- !rt_root.
        pose proof (sqrt_sqrt _ (Rlt_le _ _ R0)) as S0. pose proof (sqrt_sqrt _ (Rlt_le _ _ R1)) as S1.
        rewrite <- rt_root in S0, S1.
        refine (angle_algebra (rt p (p_px p)) (rt p (n1 p)) (p_px p) (n1 p) (m2 p) (theta p u) (v_px u) (v_px (J u)) NR0 NR1 _ _ _ _).
        + lra.
        + rewrite S0. unfold root, m2. ring.
        + rewrite S1. unfold root, m2. ring.
        + fold (DA p). lra. }
    unfold I. eapply D_conv; [dv; exact Hb0|]. cbv beta. field. exact Hb0. }
  assert (NE : forall cu u, family cu p -> moves cu u -> near (fun t => g (cu t) = curved_exact_bend L k0 h (cu t))).
  { intros cu u F M. pose proof (fam_0 cu p F) as E0. destruct (Ds cu u F M) as (X0 & XC & Xn & X1 & _).
    assert (Mp : D (fun t => p_px (cu t)) (v_px u)) by apply M.
    assert (P1 : near (fun t => 0 < rt (cu t) (p_px (cu t)))).
    { eapply D_pos; [exact X0|]. rewrite E0, rt_root. apply sqrt_lt_R0, R0. }
    assert (P2 : near (fun t => 0 < rt (cu t) (n1 (cu t)))).
    { eapply D_pos; [exact X1|]. rewrite E0, rt_root. apply sqrt_lt_R0, R1. }
    assert (P3 : near (fun t => 0 < DA (cu t))).
    { unfold DA. eapply D_pos; [dv|]. cbv beta. rewrite E0. exact A0. }
    assert (NN := near_and _ _ P1 (near_and _ _ P2 (near_and _ _ P3 (chi_near cu p F)))).
    apply (near_weak _ _) with (2 := NN). intros t (Q1 & Q2 & Q3 & Q4). generalize dependent (cu t). intros q Q1 Q2 Q3 Q4.
    unfold curved_exact_bend. rewrite Q4. fold b. rewrite T. cbv zeta. fold s c.
    change (sqrt ((p_delta q + 1) * (p_delta q + 1) - p_px q * p_px q - p_py q * p_py q)) with (rt q (p_px q)).
    fold (C q). fold (n1 q).
    change (sqrt ((p_delta q + 1) * (p_delta q + 1) - n1 q * n1 q - p_py q * p_py q)) with (rt q (n1 q)).
    assert (Ro : forall n, 0 < rt q n -> rt q n * rt q n = (p_delta q + 1) * (p_delta q + 1) - n * n - p_py q * p_py q).
    { intros n Hn. unfold rt in *. apply sqrt_sqrt. destruct (Rle_dec 0 ((p_delta q + 1) * (p_delta q + 1) - n * n - p_py q * p_py q)) as [h0|h0]; [exact h0|].
      rewrite sqrt_neg_0 in Hn by lra. lra. }
    assert (Dz : (p_px q - n1 q) * (p_px q + n1 q) / (rt q (p_px q) + rt q (n1 q)) = rt q (n1 q) - rt q (p_px q)).
    { apply (Rmult_eq_reg_r (rt q (p_px q) + rt q (n1 q))); [|lra].
      replace ((p_px q - n1 q) * (p_px q + n1 q) / (rt q (p_px q) + rt q (n1 q)) * (rt q (p_px q) + rt q (n1 q)))
        with ((p_px q - n1 q) * (p_px q + n1 q)) by (field; lra).
      pose proof (Ro _ Q1). pose proof (Ro _ Q2). nra. }
    rewrite Dz.
    assert (Dp : - 2 * p_px q * (sin (h * L / 2) * sin (h * L / 2)) + C q * s = n1 q - p_px q).
    { rewrite E2. unfold n1. field. }
    rewrite Dp. fold (NA q) (DA q).
    assert (At : atan2 (NA q) (DA q) = atan (NA q / DA q)).
    { unfold atan2. destruct (Rlt_dec 0 (DA q)); [reflexivity|contradiction]. }
    rewrite At. fold (I q). unfold g. f_equal. f_equal; [unfold Rdiv; ring|]. f_equal. f_equal. unfold add_x. f_equal.
    rewrite E2. unfold C. field. auto. }
  assert (Sg : symplectic g p).
  { apply (symp_keeps _ p J).
    - intros q. repeat split; reflexivity.
    - reflexivity.
    - intros cu u F M. pose proof (fam_irvv cu p u F M) as Hv. pose proof (fam_delta cu p u F M) as Hd.
      pose proof (fam_0 cu p F) as E0. destruct (Ds cu u F M) as (X0 & XC & Xn & X1 & XI).
      destruct M as (Mx & Mpx & My & Mpy & Mz & Mt). unfold J in *. clearbody rt C n1 I.
      unfold g. cbn [v_x v_px v_y v_py v_zeta add_s add_zeta set_s set_x set_y set_px set_zeta p_x p_px p_y p_py p_zeta] in *.
      unfold J_bend in *. cbn [v_px v_x v_y v_py v_zeta] in *.
      repeat split; (eapply D_conv; [dv; try assumption|]); rewrite ?E0, ?Ev; try assumption; unfold gP, wE in *; field; lra.
    - intros u v. apply form_bend; try lra; assumption. }
  exact (symp_near _ g p K NE Sg).
Qed.
