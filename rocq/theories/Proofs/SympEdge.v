From Coq Require Import Reals ZArith List Bool Lra Lia.
From Verif.Model Require Import Maps Curved Magnet Edges.
From Verif.Spec Require Import Frames Magnets Symplectic Edges.
From Verif.Proofs Require Import Symplectic SympMagnet SympBend.
Import ListNotations.
Local Open Scope R_scope.

Definition agree (a b : part) : Prop :=
  p_x a = p_x b /\ p_px a = p_px b /\ p_y a = p_y b /\ p_py a = p_py b /\ p_zeta a = p_zeta b.
Lemma symp_agree f g p : keeps f ->
  (forall c u, family c p -> moves c u -> near (fun t => agree (g (c t)) (f (c t)))) ->
  keeps g -> symplectic g p -> symplectic f p.
Proof.
  intros Kf E Kg [B [J [H F]]]. split; [apply Kf|]. exists J. split; [|exact F].
  intros c u Hc Hu. destruct (H c u Hc Hu) as [_ H2]. split; [now apply keeps_family|].
  pose proof (E c u Hc Hu) as N.
  assert (X : forall k : part -> R, (forall a b, agree a b -> k a = k b) -> forall l, D (fun t => k (g (c t))) l -> D (fun t => k (f (c t))) l).
  { intros k Hk l. apply D_near. apply (near_weak _ _) with (2 := N). intros t Et. now apply Hk. }
  destruct H2 as (H1 & H2 & H3 & H4 & H5 & H6). unfold moves.
  refine (conj _ (conj _ (conj _ (conj _ (conj _ _))))); try (eapply X; [|eassumption]; unfold agree; intros; tauto).
  apply (derivable_pt_lim_ext (fun t => p_ptau (g (c t)))); [|exact H6].
  intros t. destruct (Kf (c t)) as (-> & _). apply Kg.
Qed.

Lemma near_true (P : R -> Prop) : (forall t, P t) -> near P.
Proof. intros H. exists 1. split; [lra|auto]. Qed.

(** * Kicks which depend on the position *)
Lemma symp_edge_linear a b p : symplectic (edge_linear a b) p.
Proof.
  apply (symp_keeps _ p (fun u => mkVel (v_x u) (v_px u + p_chi p * a * v_x u) (v_y u) (v_py u + p_chi p * b * v_y u) (v_zeta u) (v_ptau u))).
  - intros q. repeat split; reflexivity.
  - reflexivity.
  - intros cu u F M. pose proof (fam_chi cu p F) as HC. pose proof (fam_0 cu p F) as E0. destruct M as (Mx & Mpx & My & Mpy & Mz & Mt).
    unfold edge_linear. cbn [v_x v_px v_y v_py v_zeta add_px add_py set_px set_py p_x p_px p_y p_py p_zeta p_chi].
    repeat split; (eapply D_conv; [dv|]); cbv beta; rewrite ?E0; ring.
  - intros u v. unfold form. cbn [v_x v_px v_y v_py v_zeta v_ptau]. ring.
Qed.
Lemma symp_quad_wedge th k1 p : symplectic (quad_wedge th k1) p.
Proof.
  set (b := k1 * p_chi p).
  apply (symp_keeps _ p (fun u => mkVel (v_x u) (v_px u - 2 * b * th * p_x p * v_x u + b * th * p_y p * v_y u) (v_y u)
     (v_py u + b * th * (p_y p * v_x u + p_x p * v_y u)) (v_zeta u) (v_ptau u))).
  - intros q. repeat split; reflexivity.
  - reflexivity.
  - intros cu u F M. pose proof (fam_chi cu p F) as HC. pose proof (fam_0 cu p F) as E0. destruct M as (Mx & Mpx & My & Mpy & Mz & Mt).
    unfold quad_wedge. cbn [v_x v_px v_y v_py v_zeta set_px set_py p_x p_px p_y p_py p_zeta p_chi].
    repeat split; (eapply D_conv; [dv; lra|]); cbv beta; rewrite ?E0; unfold b; field.
  - intros u v. unfold form. cbn [v_x v_px v_y v_py v_zeta v_ptau]. ring.
Qed.

(** * Wedges *)
Lemma keeps_wedge sp th k0 : keeps (wedge sp th k0).
Proof.
  intros q. unfold wedge. destruct (small _); [apply keeps_yrot|]. cbv zeta. destruct (sp && _); repeat split; reflexivity.
Qed.
Lemma wedge_algebra x px z n1 s c b z1 : c * c + s * s = 1 -> b <> 0 -> z1 + (z * c - px * s) <> 0 ->
  n1 = px * c + (z - b * x) * s -> z1 * z1 = z * z + px * px - n1 * n1 ->
  x * c + (x * px * (2 * s * c) + s * s * (2 * x * z - b * (x * x))) / (z1 + z * c - px * s)
  = (z1 - (c * (z - b * x) - s * px)) / b.
Proof.
  intros E Hb HE -> Z1. assert (HE' : z1 + z * c - px * s <> 0) by (intros N; apply HE; rewrite <- N; ring).
  apply (Rmult_eq_reg_r b); [|exact Hb].
  replace ((z1 - (c * (z - b * x) - s * px)) / b * b) with (z1 - (c * (z - b * x) - s * px)) by (field; exact Hb).
  apply (Rmult_eq_reg_r (z1 + z * c - px * s)); [|exact HE'].
  replace ((x * c + (x * px * (2 * s * c) + s * s * (2 * x * z - b * (x * x))) / (z1 + z * c - px * s)) * b * (z1 + z * c - px * s))
   with (b * (x * c * (z1 + z * c - px * s) + (x * px * (2 * s * c) + s * s * (2 * x * z - b * (x * x))))) by (field; exact HE').
  assert (E' : c * c = 1 - s * s) by lra. ring [Z1 E'].
Qed.
Lemma small_false b : small b = false -> / 1000000000 <= Rabs b /\ b <> 0.
Proof.
  unfold small. destruct (Rlt_dec _ _) as [H|H]; [discriminate|]. intros _. split; [lra|].
  intros ->. rewrite Rabs_R0 in H. lra.
Qed.
Lemma small_true b : small b = true -> Rabs b < / 1000000000.
Proof. unfold small. destruct (Rlt_dec _ _) as [H|H]; [auto|discriminate]. Qed.
Lemma symp_wedge sp th k0 p : wedge_ok th k0 p -> symplectic (wedge sp th k0) p.
Proof.
  intros (K & Hp & Hsm & Hbg). destruct (kin_pos p K) as (Hb & Hg & Hw & _). pose proof (kin_irvv p K) as Ev.
  set (b := k0 * p_chi p) in *.
  destruct (small b) eqn:T.
  { destruct (Hsm (small_true _ T)) as [Hc Ht].
    apply (symp_near_chi _ (yrotation sp (- sin th) (cos th) (- tan th))).
    - intros q Hq. unfold wedge. rewrite Hq. fold b. now rewrite T.
    - apply symp_yrot.
      + split; assumption.
      + pose proof (sin2_cos2 th) as X. unfold Rsqr in X. lra.
      + exact Hc.
      + unfold tan. field. exact Hc.
      + intros N. apply Ht. unfold turned_pz. lra. }
  destruct (small_false _ T) as [Hk Hb0]. destruct (Hbg Hk) as [H1 HE]. clear Hsm Hbg.
  set (s := sin th) in *. set (c := cos th) in *.
  assert (E : c * c + s * s = 1) by (pose proof (sin2_cos2 th) as X; unfold Rsqr in X; fold s c in X; lra).
  set (al := fun q n => asin (1 / sqrt ((p_delta q + 1) * (p_delta q + 1) - p_py q * p_py q) * n)).
  set (rt := fun q n => sqrt ((p_delta q + 1) * (p_delta q + 1) - n * n - p_py q * p_py q)).
  set (C := fun q => rt q (p_px q) - b * p_x q).
  set (n1 := fun q => p_px q * c + C q * s).
  set (I := fun q => (th + (al q (p_px q) - al q (n1 q))) / b).
  set (g := fun q : part => add_zeta (- ((p_delta q + 1) * I q * (1 / p_rvv q)))
      (set_px (n1 q) (set_y (p_y q + p_py q * I q)
        (set_x ((rt q (n1 q) - (c * C q - s * p_px q)) / b) q)))).
  assert (Z0 : sqrt (pz2 p) = rt p (p_px p)).
  { unfold rt, pz2. f_equal. ring. }
  assert (N1 : wedge_px b th p = n1 p).
  { unfold wedge_px, n1, C. rewrite Z0. reflexivity. }
  assert (Z1 : sqrt (wedge_pz2 b th p) = rt p (n1 p)).
  { unfold rt, wedge_pz2. rewrite N1. f_equal. ring. }
  assert (R0 : 0 < root p (p_px p)) by exact Hp.
  assert (R1 : 0 < root p (n1 p)). { unfold wedge_pz2 in H1. rewrite N1 in H1. exact H1. }
  assert (rt_root : forall n, rt p n = sqrt (root p n)). { intros n. unfold rt, root, gP. f_equal. ring. }
  rewrite Z1 in HE. unfold turned_pz in HE. rewrite Z0 in HE. fold s c in HE.
  set (J := J_bend s c b (p_px p) (n1 p) (I p) p).
  assert (Ds : forall cu u, family cu p -> moves cu u ->
    D (fun t => rt (cu t) (p_px (cu t))) (droot p (p_px p) (v_px u) u) /\
    D (fun t => C (cu t)) (droot p (p_px p) (v_px u) u - b * v_x u) /\
    D (fun t => n1 (cu t)) (v_px (J u)) /\
    D (fun t => rt (cu t) (n1 (cu t))) (droot p (n1 p) (v_px (J u)) u) /\
    D (fun t => I (cu t)) ((dangle p (p_px p) (v_px u) u - dangle p (n1 p) (v_px (J u)) u) / b)).
  { intros cu u F M. pose proof (fam_0 cu p F) as E0.
    assert (Mp : D (fun t => p_px (cu t)) (v_px u)) by apply M.
    assert (Mx : D (fun t => p_x (cu t)) (v_x u)) by apply M.
    pose proof (fam_root cu p u _ _ F M Mp) as X0. cbv beta in X0. rewrite E0 in X0. specialize (X0 R0).
    change (D (fun t => rt (cu t) (p_px (cu t))) (droot p (p_px p) (v_px u) u)) in X0.
    assert (XC : D (fun t => C (cu t)) (droot p (p_px p) (v_px u) u - b * v_x u)).
    { unfold C. eapply D_conv; [dv|]. ring. }
    assert (Xn : D (fun t => n1 (cu t)) (v_px (J u))).
    { unfold n1. eapply D_conv; [dv|]. unfold J, J_bend. cbn [v_px]. ring. }
    pose proof (fam_root cu p u _ _ F M Xn) as X1. cbv beta in X1. rewrite E0 in X1. specialize (X1 R1).
    change (D (fun t => rt (cu t) (n1 (cu t))) (droot p (n1 p) (v_px (J u)) u)) in X1.
    refine (conj X0 (conj XC (conj Xn (conj X1 _)))).
    pose proof (fam_asin cu p u _ _ F M Mp) as A0. cbv beta in A0. rewrite E0 in A0. specialize (A0 R0).
    pose proof (fam_asin cu p u _ _ F M Xn) as A1. cbv beta in A1. rewrite E0 in A1. specialize (A1 R1).
    change (D (fun t => al (cu t) (p_px (cu t))) (dangle p (p_px p) (v_px u) u)) in A0.
    change (D (fun t => al (cu t) (n1 (cu t))) (dangle p (n1 p) (v_px (J u)) u)) in A1.
    unfold I. eapply D_conv; [dv; exact Hb0|]. cbv beta. field. exact Hb0. }
  apply (symp_agree _ g).
  - apply keeps_wedge.
  - intros cu u F M. pose proof (fam_0 cu p F) as E0. destruct (Ds cu u F M) as (X0 & XC & Xn & X1 & _).
    assert (Mp : D (fun t => p_px (cu t)) (v_px u)) by apply M.
    assert (P1 : near (fun t => 0 < rt (cu t) (p_px (cu t)))).
    { eapply D_pos; [exact X0|]. rewrite E0, rt_root. apply sqrt_lt_R0, R0. }
    assert (P2 : near (fun t => 0 < rt (cu t) (n1 (cu t)))).
    { eapply D_pos; [exact X1|]. rewrite E0, rt_root. apply sqrt_lt_R0, R1. }
    assert (P3 : near (fun t => 0 < (rt (cu t) (n1 (cu t)) + (rt (cu t) (p_px (cu t)) * c - p_px (cu t) * s)) *
                                    (rt (cu t) (n1 (cu t)) + (rt (cu t) (p_px (cu t)) * c - p_px (cu t) * s)))).
    { eapply D_pos; [dv|]. cbv beta. rewrite E0. apply (Rsqr_pos_lt _ HE). }
    assert (NN := near_and _ _ P1 (near_and _ _ P2 (near_and _ _ P3 (chi_near cu p F)))).
    apply (near_weak _ _) with (2 := NN). intros t (Q1 & Q2 & Q3 & Q4). generalize dependent (cu t). intros q Q1 Q2 Q3 Q4.
    assert (Ro : forall n, 0 < rt q n -> rt q n * rt q n = (p_delta q + 1) * (p_delta q + 1) - n * n - p_py q * p_py q).
    { intros n Hn. unfold rt in *. apply sqrt_sqrt. destruct (Rle_dec 0 ((p_delta q + 1) * (p_delta q + 1) - n * n - p_py q * p_py q)) as [h0|h0]; [exact h0|].
      rewrite sqrt_neg_0 in Hn by lra. lra. }
    assert (HX := wedge_algebra (p_x q) (p_px q) (rt q (p_px q)) (n1 q) s c b (rt q (n1 q)) E Hb0).
    unfold wedge. rewrite Q4. fold b. rewrite T. cbv zeta. fold s c.
    change (sqrt ((p_delta q + 1) * (p_delta q + 1) - p_px q * p_px q - p_py q * p_py q)) with (rt q (p_px q)).
    fold (C q). fold (n1 q).
    change (sqrt ((p_delta q + 1) * (p_delta q + 1) - n1 q * n1 q - p_py q * p_py q)) with (rt q (n1 q)).
    fold (al q (p_px q)) (al q (n1 q)). rewrite sin_2a. fold s c.
    assert (NE : rt q (n1 q) + (rt q (p_px q) * c - p_px q * s) <> 0). { intros N. rewrite N in Q3. lra. }
    rewrite HX; [|exact NE|reflexivity|rewrite (Ro _ Q1), (Ro _ Q2); ring].
    destruct (sp && _); unfold agree, g, I; cbn [set_spin add_zeta add_y set_s set_x set_y set_px set_zeta p_x p_px p_y p_py p_zeta];
      repeat split; unfold C, Rdiv; ring.
  - intros q. repeat split; reflexivity.
  - apply (symp_keeps _ p J).
    + intros q. repeat split; reflexivity.
    + reflexivity.
    + intros cu u F M. pose proof (fam_irvv cu p u F M) as Hv. pose proof (fam_delta cu p u F M) as Hd.
      pose proof (fam_0 cu p F) as E0. destruct (Ds cu u F M) as (X0 & XC & Xn & X1 & XI).
      destruct M as (Mx & Mpx & My & Mpy & Mz & Mt). unfold J in *. clearbody rt C n1 I.
      unfold g. cbn [v_x v_px v_y v_py v_zeta add_s add_zeta set_s set_x set_y set_px set_zeta p_x p_px p_y p_py p_zeta] in *.
      unfold J_bend in *. cbn [v_px v_x v_y v_py v_zeta] in *.
      repeat split; (eapply D_conv; [dv; try assumption|]); rewrite ?E0, ?Ev; try assumption; unfold gP, wE in *; field; lra.
    + intros u v. apply form_bend; try lra; assumption.
Qed.
