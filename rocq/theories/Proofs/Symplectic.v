From Coq Require Import Reals ZArith List Bool Lra Lia.
From Verif.Model Require Import Maps Curved Magnet Rf.
From Verif.Spec Require Import Frames Magnets Symplectic.
Import ListNotations.
Local Open Scope R_scope.

(** * Derivatives at zero *)
Notation D f l := (derivable_pt_lim f 0 l).
Definition near (P : R -> Prop) : Prop := exists d, 0 < d /\ forall t, Rabs t < d -> P t.

Lemma near_and P Q : near P -> near Q -> near (fun t => P t /\ Q t).
Proof.
  intros [d [Hd HP]] [e [He HQ]]. exists (Rmin d e). split; [now apply Rmin_pos|].
  intros t Ht. split; [apply HP|apply HQ]; eapply Rlt_le_trans; eauto using Rmin_l, Rmin_r.
Qed.
Lemma near_weak (P Q : R -> Prop) : (forall t, P t -> Q t) -> near P -> near Q.
Proof. intros H [d [Hd HP]]. exists d. split; auto. Qed.
Lemma near_0 P : near P -> P 0.
Proof. intros [d [Hd HP]]. apply HP. now rewrite Rabs_R0. Qed.

Lemma D_conv f l l' : D f l -> l = l' -> D f l'.
Proof. now intros H <-. Qed.
Lemma D_near f g l : near (fun t => f t = g t) -> D f l -> D g l.
Proof.
  intros [d [Hd H]] Hf. apply (derivable_pt_lim_locally_ext f g 0 (- d) d l); [lra| |exact Hf].
  intros z Hz. apply H. apply Rabs_def1; lra.
Qed.
Lemma D_const (k : R) : D (fun _ => k) 0.
Proof. apply derivable_pt_lim_const. Qed.
Lemma D_plus f g a b : D f a -> D g b -> D (fun t => f t + g t) (a + b).
Proof. apply derivable_pt_lim_plus. Qed.
Lemma D_minus f g a b : D f a -> D g b -> D (fun t => f t - g t) (a - b).
Proof. apply derivable_pt_lim_minus. Qed.
Lemma D_opp f a : D f a -> D (fun t => - f t) (- a).
Proof. apply derivable_pt_lim_opp. Qed.
Lemma D_mult f g a b : D f a -> D g b -> D (fun t => f t * g t) (a * g 0 + f 0 * b).
Proof. apply derivable_pt_lim_mult. Qed.
Lemma D_comp f g a b : D f a -> derivable_pt_lim g (f 0) b -> D (fun t => g (f t)) (b * a).
Proof. intros Hf Hg. exact (derivable_pt_lim_comp f g 0 a b Hf Hg). Qed.
Lemma D_div f g a b : D f a -> D g b -> g 0 <> 0 ->
  D (fun t => f t / g t) ((a * g 0 - b * f 0) / (g 0 * g 0)).
Proof. intros Hf Hg H. exact (derivable_pt_lim_div f g 0 a b Hf Hg H). Qed.
Lemma D_sqrt f a : D f a -> 0 < f 0 -> D (fun t => sqrt (f t)) (a / (2 * sqrt (f 0))).
Proof.
  intros Hf H. eapply D_conv; [apply (D_comp f sqrt _ _ Hf (derivable_pt_lim_sqrt _ H))|].
  field. apply Rgt_not_eq, sqrt_lt_R0, H.
Qed.
Lemma D_sin f a : D f a -> D (fun t => sin (f t)) (cos (f 0) * a).
Proof. intros Hf. exact (D_comp f sin _ _ Hf (derivable_pt_lim_sin _)). Qed.
Lemma D_cos f a : D f a -> D (fun t => cos (f t)) (- sin (f 0) * a).
Proof. intros Hf. exact (D_comp f cos _ _ Hf (derivable_pt_lim_cos _)). Qed.
Lemma D_pos f a : D f a -> 0 < f 0 -> near (fun t => 0 < f t).
Proof.
  intros Hf H.
  assert (C : continuity_pt f 0).
  { apply derivable_continuous_pt. exists a. exact Hf. }
  destruct (C (f 0) H) as [d [Hd HC]]. exists d. split; [exact Hd|]. intros t Ht.
  destruct (Req_dec t 0) as [->|Ne]; [exact H|].
  specialize (HC t). unfold dist in HC. cbn in HC. unfold R_dist in HC.
  assert (E : Rabs (f t - f 0) < f 0).
  { apply HC. split; [split; [exact I|now apply not_eq_sym]|now rewrite Rminus_0_r]. }
  apply Rabs_def2 in E. lra.
Qed.

(** Differentiation of an expression *)
Ltac dv := lazymatch goal with
  | |- derivable_pt_lim _ _ _ =>
    first [ eassumption
          | apply D_const
          | simple eapply D_plus; dv
          | simple eapply D_minus; dv
          | simple eapply D_opp; dv
          | simple eapply D_mult; dv
          | simple eapply D_sin; dv
          | simple eapply D_cos; dv
          | simple eapply D_sqrt; [dv|]
          | simple eapply D_div; [dv|dv|] ]
  | _ => idtac
  end.

(** * Families *)
Lemma fam_0 c p : family c p -> c 0 = p.
Proof. now intros [H _]. Qed.
Lemma fam_near c p : family c p ->
  near (fun t => kinematic (c t) /\ p_beta0 (c t) = p_beta0 p /\ p_chi (c t) = p_chi p).
Proof. now intros [_ H]. Qed.
Lemma fam_kin c p : family c p -> kinematic p.
Proof. intros H. destruct (near_0 _ (fam_near c p H)) as [K _]. now rewrite (fam_0 c p H) in K. Qed.

(** The derivatives of the energy variables *)
Definition wE (p : part) : R := 1 + p_beta0 p * p_ptau p.
Definition gP (p : part) : R := 1 + p_delta p.
Lemma kin_pos p : kinematic p -> 0 < p_beta0 p /\ 0 < gP p /\ 0 < wE p /\
  gP p * gP p = 1 + 2 * p_ptau p / p_beta0 p + p_ptau p * p_ptau p.
Proof. unfold kinematic, gP, wE. tauto. Qed.
Lemma kin_sqrt p : kinematic p -> 1 + p_delta p = sqrt (1 + 2 * p_ptau p / p_beta0 p + p_ptau p * p_ptau p).
Proof.
  intros [_ [H [E _]]]. rewrite <- E. symmetry. apply sqrt_square. lra.
Qed.

Lemma fam_delta c p u : family c p -> moves c u ->
  D (fun t => p_delta (c t)) (wE p / (p_beta0 p * gP p) * v_ptau u).
Proof.
  intros F M. destruct M as (_ & _ & _ & _ & _ & Hp).
  destruct (kin_pos p (fam_kin c p F)) as (Hb & Hg & Hw & E).
  eapply (D_near (fun t => sqrt (1 + 2 * p_ptau (c t) / p_beta0 p + p_ptau (c t) * p_ptau (c t)) - 1)).
  - apply (near_weak _ _) with (2 := fam_near c p F). intros t [K [B _]].
    rewrite <- B, <- kin_sqrt by exact K. ring.
  - eapply D_conv; [dv|]; rewrite ?(fam_0 c p F); try lra.
    + rewrite <- E. now apply Rmult_lt_0_compat.
    + rewrite <- E, sqrt_square by lra. unfold wE. field. lra.
Qed.
Lemma fam_rpp c p u : family c p -> moves c u ->
  D (fun t => p_rpp (c t)) (- (wE p / (p_beta0 p * gP p) * v_ptau u) / (gP p * gP p)).
Proof.
  intros F M. pose proof (fam_delta c p u F M) as Hd.
  destruct (kin_pos p (fam_kin c p F)) as (Hb & Hg & Hw & E).
  eapply (D_near (fun t => 1 / (1 + p_delta (c t)))).
  - apply (near_weak _ _) with (2 := fam_near c p F). intros t [K _]. unfold kinematic in K. symmetry. tauto.
  - unfold gP in *. eapply D_conv; [dv|]; rewrite ?(fam_0 c p F); [lra|]. field. lra.
Qed.
Lemma fam_irvv c p u : family c p -> moves c u ->
  D (fun t => 1 / p_rvv (c t))
    ((p_beta0 p / gP p - wE p * wE p / (p_beta0 p * (gP p * gP p * gP p))) * v_ptau u).
Proof.
  intros F M. pose proof (fam_delta c p u F M) as Hd. destruct M as (_ & _ & _ & _ & _ & Hp).
  destruct (kin_pos p (fam_kin c p F)) as (Hb & Hg & Hw & E).
  eapply (D_near (fun t => (1 + p_beta0 p * p_ptau (c t)) / (1 + p_delta (c t)))).
  - apply (near_weak _ _) with (2 := fam_near c p F). intros t [K [B _]]. unfold kinematic in K.
    destruct K as (_ & H1 & _ & H2 & -> & _). rewrite B in *. field. lra.
  - unfold gP, wE in *. eapply D_conv; [dv|]; rewrite ?(fam_0 c p F); [lra|]. field. lra.
Qed.
Lemma kin_irvv p : kinematic p -> 1 / p_rvv p = wE p / gP p.
Proof. intros (H0 & H1 & _ & H2 & -> & _). unfold wE, gP. field. lra. Qed.
Lemma kin_rpp p : kinematic p -> p_rpp p = 1 / gP p.
Proof. intros (_ & _ & _ & _ & _ & ->). reflexivity. Qed.

(** * Composition *)
Lemma symp_comp f g p : symplectic f p -> symplectic g (f p) -> symplectic (fun q => g (f q)) p.
Proof.
  intros [B1 [J1 [H1 F1]]] [B2 [J2 [H2 F2]]]. split; [congruence|]. exists (fun u => J2 (J1 u)). split.
  - intros c u Hc Hu. destruct (H1 c u Hc Hu) as [Hc' Hu']. exact (H2 _ _ Hc' Hu').
  - intros u v. rewrite <- B1, F2, B1. apply F1.
Qed.
Lemma symp_id p : symplectic (fun q => q) p.
Proof. split; [reflexivity|]. exists (fun u => u). split; auto. Qed.
Lemma symp_ext f g p : (forall q, f q = g q) -> symplectic f p -> symplectic g p.
Proof.
  intros E [B [J [H F]]]. split; [now rewrite <- E|]. exists J. split; [|exact F].
  intros c u Hc Hu. destruct (H c u Hc Hu) as [[H0 H1] H2]. split; [split|].
  - rewrite <- !E. exact H0.
  - destruct H1 as [d [Hd H1]]. exists d. split; [exact Hd|]. intros t Ht. rewrite <- !E. auto.
  - unfold moves in *.
    assert (X : forall k : part -> R, forall l, D (fun t => k (f (c t))) l -> D (fun t => k (g (c t))) l).
    { intros k l. apply derivable_pt_lim_ext. intros z. now rewrite E. }
    repeat match goal with H : _ /\ _ |- _ => destruct H end. repeat split; now apply X.
Qed.
Lemma symp_line l : forall p,
  Forall (fun e : (part -> part) * (part -> Prop) => forall p, snd e p -> symplectic (fst e) p) l ->
  fits l p -> symplectic (through l) p.
Proof.
  induction l as [|[f ok] l IH]; intros p Hl H; [apply symp_id|].
  inversion_clear Hl as [|? ? H1 H2]. cbn in H1, H. destruct H as [H H'].
  exact (symp_comp f (through l) p (H1 p H) (IH (f p) H2 H')).
Qed.

(** * Maps which leave the energy variables and the reference alone *)
Definition keeps (f : part -> part) : Prop := forall p,
  p_ptau (f p) = p_ptau p /\ p_delta (f p) = p_delta p /\ p_rpp (f p) = p_rpp p /\ p_rvv (f p) = p_rvv p /\
  p_beta0 (f p) = p_beta0 p /\ p_chi (f p) = p_chi p.

Lemma keeps_family f c p : keeps f -> family c p -> family (fun t => f (c t)) (f p).
Proof.
  intros K [H0 [d [Hd H]]]. split; [now rewrite H0|]. exists d. split; [exact Hd|]. intros t Ht.
  destruct (H t Ht) as [Hk [Hb Hc]].
  destruct (K (c t)) as (E1 & E2 & E3 & E4 & E5 & E6), (K p) as (_ & _ & _ & _ & F5 & F6).
  rewrite E5, E6, F5, F6. unfold kinematic in *. rewrite E1, E2, E3, E4, E5. tauto.
Qed.

Lemma symp_keeps f p (J : vel -> vel) : keeps f ->
  (forall u, v_ptau (J u) = v_ptau u) ->
  (forall c u, family c p -> moves c u ->
     D (fun t => p_x (f (c t))) (v_x (J u)) /\ D (fun t => p_px (f (c t))) (v_px (J u)) /\
     D (fun t => p_y (f (c t))) (v_y (J u)) /\ D (fun t => p_py (f (c t))) (v_py (J u)) /\
     D (fun t => p_zeta (f (c t))) (v_zeta (J u))) ->
  (forall u v, form (p_beta0 p) (J u) (J v) = form (p_beta0 p) u v) -> symplectic f p.
Proof.
  intros K HJ H F. split; [apply K|]. exists J. split; [|exact F]. intros c u Hc Hu.
  split; [now apply keeps_family|]. destruct (H c u Hc Hu) as (H1 & H2 & H3 & H4 & H5).
  refine (conj H1 (conj H2 (conj H3 (conj H4 (conj H5 _))))). rewrite HJ.
  apply (derivable_pt_lim_ext (fun t => p_ptau (c t))).
  - intros z. symmetry. apply K.
  - apply Hu.
Qed.

(** * Drifts *)
Definition dg (p : part) (u : vel) : R := wE p / (p_beta0 p * gP p) * v_ptau u.
Definition dv (p : part) (u : vel) : R :=
  (p_beta0 p / gP p - wE p * wE p / (p_beta0 p * (gP p * gP p * gP p))) * v_ptau u.
Definition dslope (p : part) (q dq : R) (u : vel) : R := dq / gP p - q * dg p u / (gP p * gP p).
Definition J_expanded (L : R) (p : part) (u : vel) : vel :=
  let g := gP p in let px := p_px p in let py := p_py p in
  let dxp := dslope p px (v_px u) u in let dyp := dslope p py (v_py u) u in
  mkVel (v_x u + dxp * L) (v_px u) (v_y u + dyp * L) (v_py u)
     (v_zeta u - L * (dv p u * (1 + (px * px + py * py) / (g * g) / 2)
                      + wE p / g * (px / g * dxp + py / g * dyp)))
     (v_ptau u).
Lemma symp_drift_expanded L p : kinematic p -> symplectic (drift_expanded L) p.
Proof.
  intros K. destruct (kin_pos p K) as (Hb & Hg & Hw & _). pose proof (kin_rpp p K) as Er. pose proof (kin_irvv p K) as Ev.
  apply (symp_keeps _ p (J_expanded L p)).
  - intros q. repeat split; reflexivity.
  - reflexivity.
  - intros c u F M. pose proof (fam_rpp c p u F M) as Hr. pose proof (fam_irvv c p u F M) as Hv.
    destruct M as (Mx & Mpx & My & Mpy & Mz & Mt). pose proof (fam_0 c p F) as E0.
    cbn [drift_expanded add_x add_y add_zeta add_s set_x set_y set_zeta set_s p_x p_px p_y p_py p_zeta p_rpp p_rvv
      v_x v_px v_y v_py v_zeta J_expanded].
    repeat split; (eapply D_conv; [dv|]); rewrite ?E0, ?Er, ?Ev; unfold dslope, dg, dv. all: try lra; field; lra.
  - intros u v. unfold form, J_expanded, dslope, dg, dv. cbn [v_x v_px v_y v_py v_zeta v_ptau]. field. lra.
Qed.

(** The longitudinal momentum *)
Definition dpz (p : part) (u : vel) : R :=
  (wE p / p_beta0 p * v_ptau u - p_px p * v_px u - p_py p * v_py u) / sqrt (pz2 p).
Lemma fam_pz c p u : family c p -> moves c u -> 0 < pz2 p ->
  D (fun t => sqrt ((1 + p_delta (c t)) * (1 + p_delta (c t)) - p_px (c t) * p_px (c t) - p_py (c t) * p_py (c t)))
    (dpz p u).
Proof.
  intros F M H. pose proof (fam_delta c p u F M) as Hd. destruct (kin_pos p (fam_kin c p F)) as (Hb & Hg & Hw & _).
  destruct M as (Mx & Mpx & My & Mpy & Mz & Mt). pose proof (fam_0 c p F) as E0.
  pose proof (sqrt_lt_R0 _ H) as Hz.
  eapply D_conv; [dv|]; rewrite ?E0; [exact H|]. fold (pz2 p). unfold dpz. unfold gP in *. field. lra.
Qed.

Definition J_exact (L : R) (p : part) (u : vel) : vel :=
  let z := sqrt (pz2 p) in let g := gP p in let px := p_px p in let py := p_py p in
  mkVel (v_x u + (v_px u / z - px * dpz p u / (z * z)) * L) (v_px u)
        (v_y u + (v_py u / z - py * dpz p u / (z * z)) * L) (v_py u)
        (v_zeta u - L * (p_beta0 p * v_ptau u / z - wE p * dpz p u / (z * z)))
        (v_ptau u).
Lemma symp_drift_exact L p : physical p -> symplectic (drift_exact L) p.
Proof.
  intros [K Hp]. destruct (kin_pos p K) as (Hb & Hg & Hw & _). pose proof (kin_irvv p K) as Ev.
  pose proof (sqrt_lt_R0 _ Hp) as Hz.
  apply (symp_keeps _ p (J_exact L p)).
  - intros q. repeat split; reflexivity.
  - reflexivity.
  - intros c u F M. pose proof (fam_delta c p u F M) as Hd. pose proof (fam_irvv c p u F M) as Hv.
    pose proof (fam_pz c p u F M Hp) as HP.
    destruct M as (Mx & Mpx & My & Mpy & Mz & Mt). pose proof (fam_0 c p F) as E0.
    cbn [drift_exact add_x add_y add_zeta add_s set_x set_y set_zeta set_s p_x p_px p_y p_py p_zeta p_delta p_rvv
      v_x v_px v_y v_py v_zeta J_exact].
    repeat split; (eapply D_conv; [dv|]); rewrite ?E0, ?Ev; fold (pz2 p); try lra;
      unfold gP in *; field; lra.
  - intros u v. unfold form, J_exact, dpz. cbn [v_x v_px v_y v_py v_zeta v_ptau]. field. lra.
Qed.

(** * Rotations and shifts *)
Lemma fam_beta0 c p : family c p -> D (fun t => p_beta0 (c t)) 0.
Proof.
  intros F. apply (D_near (fun _ => p_beta0 p)); [|apply D_const].
  apply (near_weak _ _) with (2 := fam_near c p F). intros t [_ [B _]]. now symmetry.
Qed.
Lemma fam_chi c p : family c p -> D (fun t => p_chi (c t)) 0.
Proof.
  intros F. apply (D_near (fun _ => p_chi p)); [|apply D_const].
  apply (near_weak _ _) with (2 := fam_near c p F). intros t [_ [_ B]]. now symmetry.
Qed.
Definition pz_rot (p : part) : R :=
  sqrt (1 + 2 * (get_pzeta p * p_beta0 p) / p_beta0 p + get_pzeta p * p_beta0 p * (get_pzeta p * p_beta0 p)
        - p_px p * p_px p - p_py p * p_py p).
Lemma kin_pzeta p : kinematic p -> get_pzeta p * p_beta0 p = p_ptau p.
Proof. intros (H & _). unfold get_pzeta. field. lra. Qed.
Lemma kin_pz_rot p : kinematic p -> pz_rot p = sqrt (pz2 p).
Proof.
  intros K. unfold pz_rot, pz2. rewrite (kin_pzeta p K). unfold kinematic in K. f_equal.
  destruct K as (_ & _ & E & _). rewrite E. reflexivity.
Qed.
Lemma fam_pz_rot c p u : family c p -> moves c u -> 0 < pz2 p -> D (fun t => pz_rot (c t)) (dpz p u).
Proof.
  intros F M H. eapply D_near; [|apply (fam_pz c p u F M H)].
  apply (near_weak _ _) with (2 := fam_near c p F). intros t [K _]. symmetry. now apply kin_pz_rot.
Qed.
Lemma fam_pt c p u : family c p -> moves c u -> D (fun t => get_pzeta (c t) * p_beta0 (c t)) (v_ptau u).
Proof.
  intros F M. destruct M as (_ & _ & _ & _ & _ & Mt). eapply D_near; [|exact Mt].
  apply (near_weak _ _) with (2 := fam_near c p F). intros t [K _]. symmetry. now apply kin_pzeta.
Qed.

Definition J_yrot (s c : R) (p : part) (u : vel) : vel :=
  let z := sqrt (pz2 p) in let Dn := c * z + s * p_px p in
  let dD := c * dpz p u + s * v_px u in
  mkVel ((v_x u * z + p_x p * dpz p u) / Dn - p_x p * z * dD / (Dn * Dn))
        (c * v_px u - s * dpz p u)
        (v_y u - s * ((v_x u * p_py p + p_x p * v_py u) / Dn - p_x p * p_py p * dD / (Dn * Dn)))
        (v_py u)
        (v_zeta u + s * ((v_x u * wE p + p_x p * (p_beta0 p * v_ptau u)) / Dn - p_x p * wE p * dD / (Dn * Dn)))
        (v_ptau u).
Lemma form_yrot s c p u v : c * c + s * s = 1 -> p_beta0 p <> 0 -> sqrt (pz2 p) <> 0 ->
  c * sqrt (pz2 p) + s * p_px p <> 0 ->
  form (p_beta0 p) (J_yrot s c p u) (J_yrot s c p v) = form (p_beta0 p) u v.
Proof.
  intros E Hb Hz HD. assert (E' : c * c = 1 - s * s) by lra.
  unfold form, J_yrot, dpz. cbn [v_x v_px v_y v_py v_zeta v_ptau]. generalize (wE p); intros w.
  generalize dependent (sqrt (pz2 p)). intros z Hz HD.
  field_simplify_eq [E']; [ring [E']|auto].
Qed.
Lemma keeps_yrot sp s c t : keeps (yrotation sp s c t).
Proof.
  intros q. unfold yrotation. destruct (sp && _); repeat split; reflexivity.
Qed.
Lemma symp_yrot sp s c t p : physical p -> s * s + c * c = 1 -> c <> 0 -> t = s / c ->
  c * sqrt (pz2 p) + s * p_px p <> 0 -> symplectic (yrotation sp s c t) p.
Proof.
  intros [K Hp] E Hc -> HD. destruct (kin_pos p K) as (Hb & Hg & Hw & _). pose proof (sqrt_lt_R0 _ Hp) as Hz.
  apply (symp_keeps _ p (J_yrot s c p)).
  - apply keeps_yrot.
  - reflexivity.
  - intros cu u F M. pose proof (fam_pz_rot cu p u F M Hp) as HP. pose proof (fam_pt cu p u F M) as Ht.
    pose proof (fam_beta0 cu p F) as HB.
    destruct M as (Mx & Mpx & My & Mpy & Mz & Mt). pose proof (fam_0 cu p F) as E0.
    assert (X : forall q, yrotation sp s c (s / c) q =
       let q' := yrotation sp s c (s / c) q in
       mkPart (p_x q / (c * (1 + s / c * p_px q / pz_rot q))) (c * p_px q - s * pz_rot q)
         (p_y q - s / c * p_x q * p_py q / (pz_rot q * (1 + s / c * p_px q / pz_rot q))) (p_py q)
         ((p_zeta q / p_beta0 q + s / c * p_x q * (1 / p_beta0 q + get_pzeta q * p_beta0 q)
             / (pz_rot q * (1 + s / c * p_px q / pz_rot q))) * p_beta0 q)
         (p_s q') (p_delta q') (p_ptau q') (p_rpp q') (p_rvv q') (p_chi q') (p_beta0 q') (p_ax q') (p_ay q')
         (p_spin_x q') (p_spin_y q') (p_spin_z q')).
    { intros q. unfold yrotation. destruct (sp && _); reflexivity. }
    assert (Y : forall (k : part -> R) l,
      D (fun t => k (let q := cu t in let q' := yrotation sp s c (s / c) q in
       mkPart (p_x q / (c * (1 + s / c * p_px q / pz_rot q))) (c * p_px q - s * pz_rot q)
         (p_y q - s / c * p_x q * p_py q / (pz_rot q * (1 + s / c * p_px q / pz_rot q))) (p_py q)
         ((p_zeta q / p_beta0 q + s / c * p_x q * (1 / p_beta0 q + get_pzeta q * p_beta0 q)
             / (pz_rot q * (1 + s / c * p_px q / pz_rot q))) * p_beta0 q)
         (p_s q') (p_delta q') (p_ptau q') (p_rpp q') (p_rvv q') (p_chi q') (p_beta0 q') (p_ax q') (p_ay q')
         (p_spin_x q') (p_spin_y q') (p_spin_z q'))) l -> D (fun t => k (yrotation sp s c (s / c) (cu t))) l).
    { intros k l. apply derivable_pt_lim_ext. intros z. cbv zeta. now rewrite <- X. }
    clear X.
    assert (N1 : sqrt (pz2 p) <> 0) by lra.
    assert (N2 : c * (1 + s / c * p_px p / sqrt (pz2 p)) <> 0).
    { intros N. apply HD. replace (c * sqrt (pz2 p) + s * p_px p) with
        (sqrt (pz2 p) * (c * (1 + s / c * p_px p / sqrt (pz2 p)))) by (field; auto). rewrite N. ring. }
    assert (N3 : sqrt (pz2 p) * (1 + s / c * p_px p / sqrt (pz2 p)) <> 0).
    { intros N. apply N2. apply Rmult_integral in N as [N|N]; [lra|rewrite N; ring]. }
    unfold J_yrot. cbn [v_x v_px v_y v_py v_zeta].
    repeat split; apply Y; cbv zeta; cbn [p_x p_px p_y p_py p_zeta];
    (eapply D_conv; [dv|]); rewrite ?E0, ?(kin_pz_rot p K), ?(kin_pzeta p K); try assumption; try lra;
    unfold wE; field; repeat split; try lra; auto;
    try (intros N; apply HD; rewrite <- N; ring).
  - intros u v. apply form_yrot; try lra.
Qed.

Definition J_xrot (s c : R) (p : part) (u : vel) : vel :=
  let z := sqrt (pz2 p) in let Dn := c * z - s * p_py p in
  let dD := c * dpz p u - s * v_py u in
  mkVel (v_x u + s * ((v_y u * p_px p + p_y p * v_px u) / Dn - p_y p * p_px p * dD / (Dn * Dn)))
        (v_px u)
        ((v_y u * z + p_y p * dpz p u) / Dn - p_y p * z * dD / (Dn * Dn))
        (c * v_py u + s * dpz p u)
        (v_zeta u - s * ((v_y u * wE p + p_y p * (p_beta0 p * v_ptau u)) / Dn - p_y p * wE p * dD / (Dn * Dn)))
        (v_ptau u).
Lemma form_xrot s c p u v : c * c + s * s = 1 -> p_beta0 p <> 0 -> sqrt (pz2 p) <> 0 ->
  c * sqrt (pz2 p) - s * p_py p <> 0 ->
  form (p_beta0 p) (J_xrot s c p u) (J_xrot s c p v) = form (p_beta0 p) u v.
Proof.
  intros E Hb Hz HD. assert (E' : c * c = 1 - s * s) by lra.
  unfold form, J_xrot, dpz. cbn [v_x v_px v_y v_py v_zeta v_ptau]. generalize (wE p); intros w.
  generalize dependent (sqrt (pz2 p)). intros z Hz HD.
  field_simplify_eq [E']; [ring [E']|auto].
Qed.
Lemma keeps_xrot sp s c t : keeps (xrotation sp s c t).
Proof.
  intros q. unfold xrotation. destruct (sp && _); repeat split; reflexivity.
Qed.
(** Derivatives of a map through its coordinates *)
Lemma D_coords (f g : part -> part) (cu : R -> part) :
  (forall q, p_x (f q) = p_x (g q) /\ p_px (f q) = p_px (g q) /\ p_y (f q) = p_y (g q) /\
             p_py (f q) = p_py (g q) /\ p_zeta (f q) = p_zeta (g q)) ->
  forall a b d e z,
  D (fun t => p_x (g (cu t))) a /\ D (fun t => p_px (g (cu t))) b /\ D (fun t => p_y (g (cu t))) d /\
  D (fun t => p_py (g (cu t))) e /\ D (fun t => p_zeta (g (cu t))) z ->
  D (fun t => p_x (f (cu t))) a /\ D (fun t => p_px (f (cu t))) b /\ D (fun t => p_y (f (cu t))) d /\
  D (fun t => p_py (f (cu t))) e /\ D (fun t => p_zeta (f (cu t))) z.
Proof.
  intros H a b d e z (H1 & H2 & H3 & H4 & H5).
  repeat split; (eapply derivable_pt_lim_ext; [|eassumption]); intros t; symmetry; apply H.
Qed.
Definition xrot_coords (s c : R) (q : part) : part :=
  set_zeta ((p_zeta q / p_beta0 q - s / c * p_y q * (1 / p_beta0 q + get_pzeta q * p_beta0 q)
             / (pz_rot q * (1 - s / c * p_py q / pz_rot q))) * p_beta0 q)
   (set_y (p_y q / (c * (1 - s / c * p_py q / pz_rot q)))
    (set_py (c * p_py q + s * pz_rot q)
      (set_x (p_x q + s / c * p_y q * p_px q / (pz_rot q * (1 - s / c * p_py q / pz_rot q))) q))).
Lemma symp_xrot sp s c t p : physical p -> s * s + c * c = 1 -> c <> 0 -> t = s / c ->
  c * sqrt (pz2 p) - s * p_py p <> 0 -> symplectic (xrotation sp s c t) p.
Proof.
  intros [K Hp] E Hc -> HD. destruct (kin_pos p K) as (Hb & Hg & Hw & _). pose proof (sqrt_lt_R0 _ Hp) as Hz.
  apply (symp_keeps _ p (J_xrot s c p)).
  - apply keeps_xrot.
  - reflexivity.
  - intros cu u F M. pose proof (fam_pz_rot cu p u F M Hp) as HP. pose proof (fam_pt cu p u F M) as Ht.
    pose proof (fam_beta0 cu p F) as HB.
    destruct M as (Mx & Mpx & My & Mpy & Mz & Mt). pose proof (fam_0 cu p F) as E0.
    assert (N1 : sqrt (pz2 p) <> 0) by lra.
    assert (N2 : c * (1 - s / c * p_py p / sqrt (pz2 p)) <> 0).
    { intros N. apply HD. replace (c * sqrt (pz2 p) - s * p_py p) with
        (sqrt (pz2 p) * (c * (1 - s / c * p_py p / sqrt (pz2 p)))) by (field; auto). rewrite N. ring. }
    assert (N3 : sqrt (pz2 p) * (1 - s / c * p_py p / sqrt (pz2 p)) <> 0).
    { intros N. apply N2. apply Rmult_integral in N as [N|N]; [lra|rewrite N; ring]. }
    apply (D_coords _ (xrot_coords s c)).
    { intros q. unfold xrotation, xrot_coords. destruct (sp && _); repeat split; reflexivity. }
    unfold J_xrot, xrot_coords. cbn [v_x v_px v_y v_py v_zeta set_x set_y set_py set_zeta p_x p_px p_y p_py p_zeta].
    repeat split;
    (eapply D_conv; [dv|]); rewrite ?E0, ?(kin_pz_rot p K), ?(kin_pzeta p K); try assumption; try lra;
    unfold wE; field; repeat split; try lra; auto;
    try (intros N; apply HD; rewrite <- N; ring).
  - intros u v. apply form_xrot; try lra.
Qed.

Lemma symp_srot sp s c p : s * s + c * c = 1 -> symplectic (srotation sp s c) p.
Proof.
  intros E. assert (E' : c * c = 1 - s * s) by lra.
  apply (symp_keeps _ p (fun u => mkVel (c * v_x u + s * v_y u) (c * v_px u + s * v_py u)
     (- s * v_x u + c * v_y u) (- s * v_px u + c * v_py u) (v_zeta u) (v_ptau u))).
  - intros q. unfold srotation. destruct (sp && _); repeat split; reflexivity.
  - reflexivity.
  - intros cu u F M. destruct M as (Mx & Mpx & My & Mpy & Mz & Mt).
    apply (D_coords _ (fun q => set_py (- s * p_px q + c * p_py q) (set_px (c * p_px q + s * p_py q)
       (set_y (- s * p_x q + c * p_y q) (set_x (c * p_x q + s * p_y q) q))))).
    { intros q. unfold srotation. destruct (sp && _); repeat split; reflexivity. }
    cbn [v_x v_px v_y v_py v_zeta set_x set_y set_px set_py p_x p_px p_y p_py p_zeta].
    repeat split; (eapply D_conv; [dv|]); ring.
  - intros u v. unfold form. cbn [v_x v_px v_y v_py v_zeta v_ptau]. ring [E'].
Qed.

(** Shifts: anything which adds constants *)
Lemma symp_shift f p a b : keeps f ->
  (forall q, p_x (f q) = p_x q + a /\ p_px (f q) = p_px q /\ p_y (f q) = p_y q + b /\ p_py (f q) = p_py q) ->
  (exists d, forall q, p_zeta (f q) = p_zeta q + d) -> symplectic f p.
Proof.
  intros K H [d Hd]. apply (symp_keeps _ p (fun u => mkVel (v_x u) (v_px u) (v_y u) (v_py u) (v_zeta u) (v_ptau u))).
  - exact K.
  - reflexivity.
  - intros cu u F M. destruct M as (Mx & Mpx & My & Mpy & Mz & Mt).
    apply (D_coords _ (fun q => add_zeta d (add_y b (add_x a q)))).
    { intros q. destruct (H q) as (-> & -> & -> & ->). rewrite Hd. repeat split; reflexivity. }
    cbn [v_x v_px v_y v_py v_zeta add_x add_y add_zeta set_x set_y set_zeta p_x p_px p_y p_py p_zeta].
    repeat split; (eapply D_conv; [dv|]); ring.
  - intros u v. reflexivity.
Qed.
Lemma symp_xyshift dx dy p : symplectic (xyshift dx dy) p.
Proof.
  apply (symp_shift _ p (- dx) (- dy)).
  - intros q. repeat split; reflexivity.
  - intros q. repeat split; reflexivity.
  - exists 0. intros q. cbn. ring.
Qed.
Lemma symp_zeta d p : symplectic (add_zeta d) p.
Proof.
  apply (symp_shift _ p 0 0).
  - intros q. repeat split; reflexivity.
  - intros q. repeat split; cbn; ring.
  - exists d. reflexivity.
Qed.
Lemma symp_s d p : symplectic (add_s d) p.
Proof.
  apply (symp_shift _ p 0 0).
  - intros q. repeat split; reflexivity.
  - intros q. repeat split; cbn; ring.
  - exists 0. intros q. cbn. ring.
Qed.
Lemma symp_px_kick k k0 L p : symplectic (px_kick k k0 L) p.
Proof.
  apply (symp_keeps _ p (fun u => mkVel (v_x u) (v_px u) (v_y u) (v_py u) (v_zeta u) (v_ptau u))).
  - intros q. repeat split; reflexivity.
  - reflexivity.
  - intros cu u F M. pose proof (fam_chi cu p F) as HC. destruct M as (Mx & Mpx & My & Mpy & Mz & Mt).
    cbn [v_x v_px v_y v_py v_zeta px_kick set_px p_x p_px p_y p_py p_zeta].
    repeat split; try assumption. eapply D_conv; [dv|]. ring.
  - reflexivity.
Qed.

(** Motion along an arc: a rotation of the frame about its centre *)
Definition J_polar (s c r : R) (p : part) (u : vel) : vel := J_yrot (- s) c (add_x r p) u.
Lemma symp_polar L h p : kinematic p -> arc_ok h L p -> symplectic (polar_drift L h) p.
Proof.
  intros K (Hh & Hp & Hc & HD). destruct (kin_pos p K) as (Hb & Hg & Hw & _). pose proof (sqrt_lt_R0 _ Hp) as Hz.
  pose proof (kin_irvv p K) as Ev.
  set (s := sin (h * L)) in *. set (c := cos (h * L)) in *.
  assert (E : c * c + s * s = 1) by (pose proof (sin2_cos2 (h * L)) as X; unfold Rsqr in X; fold s c in X; lra).
  assert (E2 : sin (1 / 2 * h * L) * sin (1 / 2 * h * L) = (1 - c) / 2).
  { unfold c. replace (h * L) with (2 * (1 / 2 * h * L)) by field. rewrite cos_2a_sin. field. }
  apply (symp_keeps _ p (J_polar s c (/ h) p)).
  - intros q. repeat split; reflexivity.
  - reflexivity.
  - intros cu u F M. pose proof (fam_pz cu p u F M Hp) as HP. pose proof (fam_irvv cu p u F M) as Hv.
    pose proof (fam_delta cu p u F M) as Hd.
    destruct M as (Mx & Mpx & My & Mpy & Mz & Mt). pose proof (fam_0 cu p F) as E0.
    assert (N1 : sqrt (pz2 p) <> 0) by lra.
    assert (N2 : c - s * (p_px p * (1 / sqrt (pz2 p))) <> 0).
    { intros N. assert (X : c * sqrt (pz2 p) - s * p_px p = sqrt (pz2 p) * (c - s * (p_px p * (1 / sqrt (pz2 p)))))
        by (field; auto). rewrite N in X. lra. }
    assert (N3 : 1 - p_px p * s / c / sqrt (pz2 p) <> 0).
    { intros N. assert (X : c * sqrt (pz2 p) - s * p_px p = c * sqrt (pz2 p) * (1 - p_px p * s / c / sqrt (pz2 p)))
        by (field; auto). rewrite N in X. lra. }
    assert (N4 : c * sqrt (pz2 p) - s * p_px p <> 0) by lra.
    apply (D_coords _ (fun q =>
      let pz := sqrt ((1 + p_delta q) * (1 + p_delta q) - p_px q * p_px q - p_py q * p_py q) in
      set_zeta (p_zeta q + (L - (1 + p_delta q) * (p_x q + 1 / h) * s / c / pz
                                 / (1 - p_px q * s / c / pz) * (1 / p_rvv q)))
       (set_y (p_y q + (p_x q + 1 / h) * s * (1 / pz) * (1 / (c - s * (p_px q * (1 / pz)))) * p_py q)
        (set_px (c * p_px q + s * pz)
         (set_x ((p_x q + 1 / h * (1 - c + s * (p_px q * (1 / pz))))
                 * (1 / (c - s * (p_px q * (1 / pz))))) q))))).
    { intros q. unfold polar_drift. fold s c. rewrite !(Rplus_comm (p_delta q) 1).
      repeat split; try reflexivity.
      - cbn. fold s c. do 4 f_equal. rewrite Rmult_assoc, E2. field.
      - cbn. unfold Rdiv. ring. }
    unfold J_polar, J_yrot. cbv zeta.
    change (pz2 (add_x (/ h) p)) with (pz2 p). change (wE (add_x (/ h) p)) with (wE p).
    change (dpz (add_x (/ h) p) u) with (dpz p u). change (p_beta0 (add_x (/ h) p)) with (p_beta0 p).
    cbn [v_x v_px v_y v_py v_zeta add_x set_x set_y set_px set_py set_zeta p_x p_px p_y p_py p_zeta].
    repeat split; (eapply D_conv; [dv|]); rewrite ?E0, ?Ev; fold (pz2 p); try assumption; try lra;
      unfold wE, gP in *;
      field; repeat split; try lra; auto;
      try (intros N; apply N4; rewrite <- N; ring).
  - intros u v. unfold J_polar. change (p_beta0 p) with (p_beta0 (add_x (/ h) p)).
    apply form_yrot.
    + lra.
    + change (p_beta0 p <> 0). lra.
    + change (sqrt (pz2 p) <> 0). lra.
    + change (c * sqrt (pz2 p) + - s * p_px p <> 0). lra.
Qed.
