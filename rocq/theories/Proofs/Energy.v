(** Energy variables. *)
From Coq Require Import Reals Lra Lia Psatz Bool List.
From Verif.Model Require Import Energy.
From Verif.Spec Require Import Energy.
Local Open Scope R_scope.

Lemma sq_inj a b : 0 <= a -> 0 <= b -> a * a = b * b -> a = b.
Proof. intros Ha Hb H. apply Rsqr_inj; auto. Qed.

Lemma sqrt_is a b : 0 <= b -> a = b * b -> sqrt a = b.
Proof. intros Hb ->. apply sqrt_square; auto. Qed.

Lemma refs_at_unique E0 E1 p : refs_at E0 p -> refs_at E1 p -> E0 = E1.
Proof.
  intros (_ & _ & H0 & E & _) (_ & _ & H1 & E' & _).
  apply sq_inj; lra.
Qed.

Lemma refs_at_energy0 E0 p : refs_at E0 p -> py_get_energy0 p = E0.
Proof.
  intros (_ & _ & H0 & E & _). unfold py_get_energy0. apply sqrt_is; lra.
Qed.

(** The variables given by the reduced momentum and energy. *)
Definition reduced (E0 Pr Er : R) (p : ep) : Prop :=
  refs_at E0 p /\ 0 < Pr /\ 0 < Er
  /\ Er * Er = Pr * Pr + e_mass0 p * e_mass0 p
  /\ e_delta p = Pr / e_p0c p - 1
  /\ e_ptau p = (Er - E0) / e_p0c p
  /\ e_rpp p = e_p0c p / Pr
  /\ e_rvv p = Pr / Er / e_beta0 p.

Lemma refs_pos E0 p : refs_at E0 p -> 0 < e_beta0 p /\ 0 < e_gamma0 p /\ e_beta0 p < 1.
Proof.
  intros (Hm & Hp & HE & E & Hb & Hg). rewrite Hb, Hg.
  assert (e_p0c p < E0) by nra.
  repeat split.
  - apply Rdiv_lt_0_compat; lra.
  - apply Rdiv_lt_0_compat; lra.
  - apply Rmult_lt_reg_r with E0; [lra|]. unfold Rdiv. rewrite Rmult_assoc, Rinv_l; lra.
Qed.

Lemma describes_reduced r P E p :
  describes r P E p <->
  exists E0, 0 < r /\ e_chi p <> 0 /\ e_cr p = r * e_chi p /\ reduced E0 (P / r) (E / r) p.
Proof.
  unfold describes, reduced. split.
  - intros (E0 & HR & Hr & Hc & Hcr & HP & HE & HEE & Hd & Ht & Hrp & Hrv).
    pose proof HR as (Hm & Hp & HE0 & HE0E & Hb & Hg).
    exists E0.
    assert (0 < P / r) by (apply Rdiv_lt_0_compat; lra).
    assert (0 < E / r) by (apply Rdiv_lt_0_compat; lra).
    assert (Hbp : 0 < e_beta0 p) by (apply (refs_pos E0 p HR)).
    repeat (split; [assumption || reflexivity | ]); repeat split; auto.
    + apply Rmult_eq_reg_l with (r * r); [|nra].
      replace (r * r * (E / r * (E / r))) with (E * E) by (field; lra).
      rewrite HEE. field. lra.
    + rewrite Hd. field. lra.
    + rewrite Hrp. field. lra.
    + rewrite Hrv. field. repeat split; try lra.
  - intros (E0 & Hr & Hc & Hcr & HR & HP & HE & HEE & Hd & Ht & Hrp & Hrv).
    pose proof HR as (Hm & Hp & HE0 & HE0E & Hb & Hg).
    assert (Hbp : 0 < e_beta0 p) by (apply (refs_pos E0 p HR)).
    assert (0 < P). { replace P with (P / r * r) by (field; lra). apply Rmult_lt_0_compat; lra. }
    assert (0 < E). { replace E with (E / r * r) by (field; lra). apply Rmult_lt_0_compat; lra. }
    exists E0. repeat (split; [assumption || reflexivity | ]); repeat split; auto.
    + replace (E * E) with (r * r * (E / r * (E / r))) by (field; lra).
      rewrite HEE. field. lra.
    + rewrite Hd. field. lra.
    + rewrite Hrp. field. lra.
    + rewrite Hrv. field. repeat split; try lra.
Qed.

(** * Setters without frozen variables *)
Lemma set_none v a p : set fz_none v a p = upd v a p.
Proof. reflexivity. Qed.
Lemma scale_none v a p : scale fz_none v a p = upd v (get v p * a) p.
Proof. reflexivity. Qed.

Ltac unset := unfold scale, set, fz_none; cbv iota.

(** [irpp] of update_ptau is the reduced momentum over p0c. *)
Lemma irpp_eq E0 Pr Er p t :
  refs_at E0 p -> 0 <= Pr -> Er * Er = Pr * Pr + e_mass0 p * e_mass0 p ->
  t = (Er - E0) / e_p0c p ->
  sqrt (t * t + 2 * t / e_beta0 p + 1) = Pr / e_p0c p.
Proof.
  intros (Hm & Hp & HE0 & HE0E & Hb & Hg) HP HE ->.
  apply sqrt_is.
  - apply Rmult_le_pos; [lra|]. left. apply Rinv_0_lt_compat. lra.
  - rewrite Hb.
    apply Rmult_eq_reg_l with (e_p0c p * e_p0c p); [|nra].
    replace (e_p0c p * e_p0c p * ((Er - E0) / e_p0c p * ((Er - E0) / e_p0c p)
      + 2 * ((Er - E0) / e_p0c p) / (e_p0c p / E0) + 1))
      with ((Er - E0) * (Er - E0) + 2 * (Er - E0) * E0 + e_p0c p * e_p0c p)
      by (field; lra).
    replace (e_p0c p * e_p0c p * (Pr / e_p0c p * (Pr / e_p0c p))) with (Pr * Pr) by (field; lra).
    nra.
Qed.

Lemma one_plus_beta_ptau E0 Er p :
  refs_at E0 p -> 1 + e_beta0 p * ((Er - E0) / e_p0c p) = Er / E0.
Proof.
  intros (Hm & Hp & HE0 & HE0E & Hb & Hg). rewrite Hb. field. lra.
Qed.

Lemma ptau_beta0_eq E0 Pr Er p d :
  refs_at E0 p -> 0 < Er -> Er * Er = Pr * Pr + e_mass0 p * e_mass0 p ->
  d = Pr / e_p0c p - 1 ->
  sqrt (d * e_beta0 p * (d * e_beta0 p) + 2 * (d * e_beta0 p) * e_beta0 p + 1) = Er / E0.
Proof.
  intros (Hm & Hp & HE0 & HE0E & Hb & Hg) HP HE ->.
  apply sqrt_is.
  - apply Rmult_le_pos; [lra|]. left. apply Rinv_0_lt_compat. lra.
  - rewrite Hb.
    apply Rmult_eq_reg_l with (E0 * E0); [|nra].
    replace (E0 * E0 * (Er / E0 * (Er / E0))) with (Er * Er) by (field; lra).
    replace (E0 * E0 * ((Pr / e_p0c p - 1) * (e_p0c p / E0) * ((Pr / e_p0c p - 1) * (e_p0c p / E0))
       + 2 * ((Pr / e_p0c p - 1) * (e_p0c p / E0)) * (e_p0c p / E0) + 1))
      with ((Pr - e_p0c p) * (Pr - e_p0c p) + 2 * (Pr - e_p0c p) * e_p0c p + E0 * E0)
      by (field; lra).
    nra.
Qed.

Lemma refs_at_ext E0 p q :
  e_mass0 q = e_mass0 p -> e_p0c q = e_p0c p -> e_gamma0 q = e_gamma0 p -> e_beta0 q = e_beta0 p ->
  refs_at E0 p -> refs_at E0 q.
Proof. unfold refs_at. intros -> -> -> ->. auto. Qed.

Lemma update_ptau_reduced E0 Pr Er p t :
  refs_at E0 p -> 0 < Pr -> 0 < Er -> Er * Er = Pr * Pr + e_mass0 p * e_mass0 p ->
  t = (Er - E0) / e_p0c p ->
  reduced E0 Pr Er (update_ptau fz_none t p).
Proof.
  intros HR HP HEr HE Ht. pose proof HR as (Hm & Hp & HE0 & HE0E & Hb & Hg).
  pose proof (refs_pos _ _ HR) as (Hbp & _ & _).
  unfold update_ptau.
  rewrite (irpp_eq E0 Pr Er p t HR (Rlt_le _ _ HP) HE Ht).
  unset. subst t. rewrite (one_plus_beta_ptau E0 Er p HR).
  unfold reduced. split.
  { apply refs_at_ext with p; auto; destruct p; reflexivity. }
  destruct p as [m q p0c g b d t rv rp chi cr x px y py z]. cbn in *.
  repeat split; try assumption; try reflexivity; subst b; field; lra.
Qed.

Lemma update_delta_reduced E0 Pr Er p d :
  refs_at E0 p -> 0 < Pr -> 0 < Er -> Er * Er = Pr * Pr + e_mass0 p * e_mass0 p ->
  d = Pr / e_p0c p - 1 ->
  reduced E0 Pr Er (update_delta fz_none d p).
Proof.
  intros HR HP HEr HE Hd. pose proof HR as (Hm & Hp & HE0 & HE0E & Hb & Hg).
  unfold update_delta.
  rewrite (ptau_beta0_eq E0 Pr Er p d HR HEr HE Hd).
  unset. subst d.
  unfold reduced. split.
  { apply refs_at_ext with p; auto; destruct p; reflexivity. }
  destruct p as [m q p0c g b d t rv rp chi cr x px y py z]. cbn in *.
  repeat split; try assumption; try reflexivity; subst b; field; lra.
Qed.

Lemma reduced_unique E0 Pr Er E0' Pr' Er' p :
  reduced E0 Pr Er p -> reduced E0' Pr' Er' p -> E0 = E0' /\ Pr = Pr' /\ Er = Er'.
Proof.
  intros (HR & HP & HE & HEE & Hd & Ht & _) (HR' & HP' & HE' & HEE' & Hd' & Ht' & _).
  pose proof (refs_at_unique _ _ _ HR HR') as <-.
  pose proof HR as (Hm & Hp & HE0 & HE0E & Hb & Hg).
  assert (Pr = Pr').
  { apply Rmult_eq_reg_r with (/ e_p0c p); [|apply Rinv_neq_0_compat; lra]. unfold Rdiv in *. lra. }
  repeat split; auto. subst Pr'. apply sq_inj; lra.
Qed.

Lemma describes_unique r P E r' P' E' p :
  describes r P E p -> describes r' P' E' p -> r = r' /\ P = P' /\ E = E'.
Proof.
  intros H H'. apply describes_reduced in H. apply describes_reduced in H'.
  destruct H as (E0 & Hr & Hc & Hcr & HH), H' as (E0' & Hr' & Hc' & Hcr' & HH').
  assert (r = r'). { apply Rmult_eq_reg_r with (e_chi p); lra. }
  subst r'. destruct (reduced_unique _ _ _ _ _ _ _ HH HH') as (_ & A & B).
  repeat split; auto.
  - apply Rmult_eq_reg_r with (/ r); [exact A | apply Rinv_neq_0_compat; lra].
  - apply Rmult_eq_reg_r with (/ r); [exact B | apply Rinv_neq_0_compat; lra].
Qed.

(** Variables not used by [reduced] do not matter. *)
Lemma reduced_ext E0 Pr Er p q :
  e_mass0 q = e_mass0 p -> e_p0c q = e_p0c p -> e_gamma0 q = e_gamma0 p -> e_beta0 q = e_beta0 p ->
  e_delta q = e_delta p -> e_ptau q = e_ptau p -> e_rpp q = e_rpp p -> e_rvv q = e_rvv p ->
  reduced E0 Pr Er p -> reduced E0 Pr Er q.
Proof.
  unfold reduced, refs_at. intros -> -> -> -> -> -> -> ->. auto.
Qed.

(** * Momentum and energy given by the variables *)
Lemma mom_of_energy m E : 0 <= m -> m < E -> exists P, 0 < P /\ E * E = P * P + m * m.
Proof.
  intros Hm HE. exists (sqrt (E * E - m * m)).
  assert (0 < E * E - m * m) by nra.
  split. { apply sqrt_lt_R0. lra. }
  rewrite sqrt_sqrt; lra.
Qed.

Lemma energy_of_mom m P : 0 < P -> exists E, 0 < E /\ E * E = P * P + m * m.
Proof.
  intros HP. exists (sqrt (P * P + m * m)).
  assert (0 < P * P + m * m) by nra.
  split. { apply sqrt_lt_R0. lra. }
  rewrite sqrt_sqrt; lra.
Qed.

Lemma with_reduced r E0 Pr Er p :
  0 < r -> e_chi p <> 0 -> e_cr p = r * e_chi p -> reduced E0 Pr Er p ->
  describes r (Pr * r) (Er * r) p.
Proof.
  intros Hr Hc Hcr H. apply describes_reduced. exists E0.
  replace (Pr * r / r) with Pr by (field; lra). replace (Er * r / r) with Er by (field; lra). auto.
Qed.

(** * C api, nothing frozen: exact effect of each operation *)
Lemma update_ptau_keeps t p :
  keeps p (update_ptau fz_none t p) /\ keeps_refs p (update_ptau fz_none t p)
  /\ e_px (update_ptau fz_none t p) = e_px p /\ e_py (update_ptau fz_none t p) = e_py p
  /\ e_zeta (update_ptau fz_none t p) = e_zeta p /\ e_ptau (update_ptau fz_none t p) = t.
Proof. destruct p. unfold keeps, keeps_refs. cbn. repeat split. Qed.

Lemma update_delta_keeps t p :
  keeps p (update_delta fz_none t p) /\ keeps_refs p (update_delta fz_none t p)
  /\ e_px (update_delta fz_none t p) = e_px p /\ e_py (update_delta fz_none t p) = e_py p
  /\ e_zeta (update_delta fz_none t p) = e_zeta p /\ e_delta (update_delta fz_none t p) = t.
Proof. destruct p. unfold keeps, keeps_refs. cbn. repeat split. Qed.

Lemma keeps_trans p q r : keeps p q -> keeps q r -> keeps p r.
Proof. unfold keeps. intuition congruence. Qed.

Lemma update_delta_ok r P E p d :
  describes r P E p -> -1 < d ->
  exists P' E', describes r P' E' (update_delta fz_none d p)
  /\ P' = (1 + d) * e_p0c p * r.
Proof.
  intros H Hd. apply describes_reduced in H. destruct H as (E0 & Hr & Hc & Hcr & HR & _).
  pose proof HR as (Hm & Hp & _).
  set (Pr := (1 + d) * e_p0c p).
  assert (HPr : 0 < Pr) by (apply Rmult_lt_0_compat; lra).
  destruct (energy_of_mom (e_mass0 p) Pr HPr) as (Er & HEr & HEE).
  pose proof (update_delta_reduced E0 Pr Er p d HR HPr HEr HEE) as A.
  assert (Ed : d = Pr / e_p0c p - 1) by (unfold Pr; field; lra).
  specialize (A Ed).
  destruct (update_delta_keeps d p) as ((K1 & K2 & K3 & K4 & _) & _).
  exists (Pr * r), (Er * r). split.
  - apply with_reduced with E0; auto. rewrite K3; auto. rewrite K3, K4. auto.
  - reflexivity.
Qed.

Lemma update_ptau_ok r P E p t E0 :
  describes r P E p -> refs_at E0 p -> r * e_mass0 p < (E0 + t * e_p0c p) * r ->
  exists P', describes r P' ((E0 + t * e_p0c p) * r) (update_ptau fz_none t p).
Proof.
  intros H HR0 Hab. apply describes_reduced in H. destruct H as (E0' & Hr & Hc & Hcr & HR & _).
  pose proof (refs_at_unique _ _ _ HR HR0) as ->.
  pose proof HR as (Hm & Hp & HE0 & _).
  set (Er := E0 + t * e_p0c p) in *.
  assert (HEr : e_mass0 p < Er). { apply Rmult_lt_reg_l with r; lra. }
  destruct (mom_of_energy (e_mass0 p) Er) as (Pr & HPr & HEE); [lra|auto|].
  assert (Et : t = (Er - E0) / e_p0c p) by (unfold Er; field; lra).
  pose proof (update_ptau_reduced E0 Pr Er p t HR HPr ltac:(lra) HEE Et) as A.
  destruct (update_ptau_keeps t p) as ((K1 & K2 & K3 & K4 & _) & _).
  exists (Pr * r). apply with_reduced with E0; auto. rewrite K3; auto. rewrite K3, K4. auto.
Qed.

Lemma describes_energy r P E p : describes r P E p ->
  forall E0, refs_at E0 p -> E = (E0 + e_ptau p * e_p0c p) * r.
Proof.
  intros (E0' & HR & Hr & Hc & Hcr & HP & HE & HEE & Hd & Ht & _) E0 HR0.
  pose proof (refs_at_unique _ _ _ HR HR0) as ->.
  pose proof HR as (Hm & Hp & _). rewrite Ht. field. lra.
Qed.

Lemma describes_momentum r P E p : describes r P E p -> P = (1 + e_delta p) * e_p0c p * r.
Proof.
  intros (E0' & HR & Hr & Hc & Hcr & HP & HE & HEE & Hd & Ht & _).
  pose proof HR as (Hm & Hp & _). rewrite Hd. field. lra.
Qed.

Lemma describes_ratio r P E p : describes r P E p -> e_cr p / e_chi p = r.
Proof. intros (E0' & HR & Hr & Hc & Hcr & _). rewrite Hcr. field. auto. Qed.

Lemma describes_rpp r P E p : describes r P E p -> e_rpp p = r * e_p0c p / P.
Proof. intros (E0' & HR & Hr & Hc & Hcr & H). tauto. Qed.

Lemma describes_refs r P E p : describes r P E p -> exists E0, refs_at E0 p.
Proof. intros (E0' & HR & _). eauto. Qed.

(** Adding to the energy. *)
Lemma add_to_energy_ok r P E p dE b :
  describes r P E p -> r * e_mass0 p < E + dE ->
  exists P', describes r P' (E + dE) (add_to_energy fz_none dE b p)
  /\ keeps p (add_to_energy fz_none dE b p) /\ keeps_refs p (add_to_energy fz_none dE b p)
  /\ e_zeta (add_to_energy fz_none dE b p) = e_zeta p
  /\ (b = true -> Px r (add_to_energy fz_none dE b p) = Px r p
               /\ Py r (add_to_energy fz_none dE b p) = Py r p)
  /\ (b = false -> Px r (add_to_energy fz_none dE b p) / P' = Px r p / P
                /\ Py r (add_to_energy fz_none dE b p) / P' = Py r p / P).
Proof.
  intros H Hab. destruct (describes_refs _ _ _ _ H) as (E0 & HR).
  pose proof HR as (Hm & Hp & HE0 & _).
  assert (Hr : 0 < r) by (destruct H as (? & ? & ? & _); auto).
  pose proof (describes_energy _ _ _ _ H E0 HR) as EE.
  unfold add_to_energy. rewrite (describes_ratio _ _ _ _ H).
  set (t := e_ptau p + dE / e_p0c p / r).
  assert (Et : (E0 + t * e_p0c p) * r = E + dE) by (rewrite EE; unfold t; field; lra).
  destruct (update_ptau_ok r P E p t E0 H HR) as (P' & HP'); [lra|].
  rewrite Et in HP'.
  pose proof (update_ptau_keeps t p) as (K & KR & Kx & Ky & Kz & Kt).
  set (p1 := update_ptau fz_none t p) in *.
  destruct b.
  { exists P'. split; [auto|]. split; [auto|]. split; [auto|]. split; [auto|]. split; [|discriminate].
    intros _. unfold Px, Py. destruct KR as (-> & _). rewrite Kx, Ky. auto. }
  set (f := e_rpp p / e_rpp p1).
  assert (Hf : f = P' / P).
  { unfold f. rewrite (describes_rpp _ _ _ _ H), (describes_rpp _ _ _ _ HP').
    destruct KR as (-> & _).
    assert (0 < P) by (destruct H as (? & ?); tauto).
    assert (0 < P') by (destruct HP' as (? & ?); tauto).
    field. repeat split; lra. }
  unset.
  set (p2 := upd Vpy (get Vpy (upd Vpx (get Vpx p1 * f) p1) * f) (upd Vpx (get Vpx p1 * f) p1)).
  assert (KK : keeps p1 p2 /\ keeps_refs p1 p2 /\ e_zeta p2 = e_zeta p1
               /\ e_px p2 = e_px p1 * f /\ e_py p2 = e_py p1 * f).
  { unfold p2. clearbody p1 f. destruct p1. unfold keeps, keeps_refs. cbn. repeat split. }
  destruct KK as (K2 & KR2 & Kz2 & Kx2 & Ky2).
  exists P'. split.
  { apply describes_reduced. apply describes_reduced in HP'.
    destruct HP' as (E0'' & A1 & A2 & A3 & A4). exists E0''.
    destruct K2 as (Q1 & Q2 & Q3 & Q4 & _). rewrite Q3, Q4. repeat (split; [assumption|]).
    apply reduced_ext with p1; auto; unfold p2; clearbody p1 f; destruct p1; reflexivity. }
  split; [eapply keeps_trans; eauto|].
  split. { unfold keeps_refs in *. intuition congruence. }
  split; [congruence|]. split; [discriminate|].
  intros _. unfold Px, Py. rewrite Kx2, Ky2, Kx, Ky, Hf.
  assert (0 < P) by (destruct H as (? & ?); tauto).
  assert (0 < P') by (destruct HP' as (? & ?); tauto).
  destruct KR2 as (-> & _). destruct KR as (-> & _).
  split; field; lra.
Qed.

(** Changing the reference momentum. *)
Lemma new_refs m (v : R) : 0 < m -> 0 < v ->
  0 < sqrt (v * v + m * m)
  /\ sqrt (v * v + m * m) * sqrt (v * v + m * m) = v * v + m * m.
Proof.
  intros Hm Hv. assert (0 < v * v + m * m) by nra.
  split; [apply sqrt_lt_R0; lra | apply sqrt_sqrt; lra].
Qed.

Lemma update_p0c_ok r P E p v :
  describes r P E p -> 0 < v ->
  let q := update_p0c fz_none v p in
  describes r P E q /\ e_p0c q = v
  /\ Px r q = Px r p /\ Py r q = Py r p /\ tau q = tau p /\ keeps p q.
Proof.
  intros H Hv q. subst q.
  pose proof (describes_momentum _ _ _ _ H) as EP.
  apply describes_reduced in H. destruct H as (E0 & Hr & Hc & Hcr & HR & HP & HE & HEE & Hd & Ht & Hrp & Hrv).
  pose proof HR as (Hm & Hp & HE0 & HE0E & Hb & Hg).
  pose proof (refs_pos _ _ HR) as (Hbp & _ & _).
  unfold update_p0c.
  destruct (new_refs (e_mass0 p) v Hm Hv) as (HN & HNN).
  set (N := sqrt (v * v + e_mass0 p * e_mass0 p)) in *.
  set (p1 := set fz_none Vbeta0 (v / N) (set fz_none Vgamma0 (N / e_mass0 p) (set fz_none Vp0c v p))).
  assert (HR1 : refs_at N p1).
  { unfold p1, refs_at. clearbody N. destruct p. cbn in *. repeat split; lra. }
  assert (Ep1 : e_p0c p1 = v) by (unfold p1; destruct p; reflexivity).
  assert (Em1 : e_mass0 p1 = e_mass0 p) by (unfold p1; destruct p; reflexivity).
  assert (Eb1 : e_beta0 p1 = v / N) by (unfold p1; destruct p; reflexivity).
  set (d := (e_p0c p * e_delta p + e_p0c p - v) / v).
  assert (Ed : d = P / r / e_p0c p1 - 1).
  { rewrite Ep1. unfold d. rewrite Hd. field. lra. }
  pose proof (update_delta_reduced N (P / r) (E / r) p1 d HR1 HP HE ltac:(rewrite Em1; lra) Ed) as A.
  pose proof (update_delta_keeps d p1) as (K & KR & Kx & Ky & Kz & Kd).
  set (p2 := update_delta fz_none d p1) in *.
  unset.
  set (f := e_p0c p / v). set (g := v / N / e_beta0 p).
  set (p4 := upd Vzeta _ _).
  assert (KK : keeps p2 p4 /\ keeps_refs p2 p4 /\ e_zeta p4 = e_zeta p2 * g
               /\ e_px p4 = e_px p2 * f /\ e_py p4 = e_py p2 * f).
  { unfold p4. clearbody p2 f g. destruct p2. unfold keeps, keeps_refs. cbn. repeat split. }
  destruct KK as (K4 & KR4 & Kz4 & Kx4 & Ky4).
  assert (K01 : keeps p p1). { unfold p1, keeps. destruct p. cbn. repeat split. }
  assert (Kp4 : keeps p p4) by (eapply keeps_trans; [|exact K4]; eapply keeps_trans; eauto).
  assert (X1 : e_px p1 = e_px p /\ e_py p1 = e_py p /\ e_zeta p1 = e_zeta p)
    by (unfold p1; destruct p; cbn; auto).
  destruct X1 as (X1 & Y1 & Z1).
  assert (P4 : e_p0c p4 = v).
  { destruct KR4 as (-> & _). destruct KR as (-> & _). auto. }
  assert (B4 : e_beta0 p4 = v / N).
  { destruct KR4 as (_ & _ & ->). destruct KR as (_ & _ & ->). auto. }
  split.
  { apply describes_reduced. exists N.
    destruct Kp4 as (Q1 & Q2 & Q3 & Q4 & _). rewrite Q3, Q4. repeat (split; [assumption|]).
    apply reduced_ext with p2; auto; unfold p4; clearbody p2 f g; destruct p2; reflexivity. }
  split; [auto|].
  unfold Px, Py, tau. rewrite Kx4, Ky4, Kz4, Kx, Ky, Kz, X1, Y1, Z1, P4, B4.
  unfold f, g. repeat split; try (field; lra); try apply Kp4.
Qed.

Lemma incr_ok r P E p (b : bool) d :
  describes r P E p -> 0 < e_p0c p + (if b then - d else d) ->
  let q := reference_energy_increase fz_none b d p in
  describes r P E q /\ e_p0c q = e_p0c p + (if b then - d else d)
  /\ Px r q = Px r p /\ Py r q = Py r p /\ tau q = tau p /\ keeps p q.
Proof. intros H Hv. apply update_p0c_ok; auto. Qed.

(** A particle with consistent variables is determined by these. *)
Lemma ep_ext r P E p q :
  describes r P E p -> describes r P E q -> keeps p q -> e_p0c q = e_p0c p ->
  Px r q = Px r p -> Py r q = Py r p -> tau q = tau p -> q = p.
Proof.
  intros H H' K K' X Y T.
  destruct H as (E0 & HR & Hr & Hc & Hcr & HP & HE & HEE & Hd & Ht & Hrp & Hrv).
  destruct H' as (E0' & HR' & Hr' & Hc' & Hcr' & HP' & HE' & HEE' & Hd' & Ht' & Hrp' & Hrv').
  destruct K as (K1 & K2 & K3 & K4 & K5 & K6).
  pose proof (refs_pos _ _ HR) as (Hbp & _ & _).
  destruct HR as (Hm & Hp & HE0 & HE0E & Hb & Hg).
  destruct HR' as (Hm' & Hp' & HE0' & HE0E' & Hb' & Hg').
  rewrite K' in *. rewrite K1 in *.
  assert (E0 = E0') as -> by (apply sq_inj; lra).
  assert (e_beta0 q = e_beta0 p) as B by congruence.
  rewrite B in *.
  assert (e_px q = e_px p).
  { unfold Px in X. rewrite K' in X. apply Rmult_eq_reg_r with (e_p0c p * r); [lra|]. nra. }
  assert (e_py q = e_py p).
  { unfold Py in Y. rewrite K' in Y. apply Rmult_eq_reg_r with (e_p0c p * r); [lra|]. nra. }
  assert (e_zeta q = e_zeta p).
  { unfold tau in T. rewrite B in T. apply Rmult_eq_reg_r with (/ e_beta0 p); [exact T|].
    apply Rinv_neq_0_compat. lra. }
  destruct p, q. cbn in *. subst. f_equal; congruence.
Qed.

(** Backtracking a reference energy increase restores the particle. *)
Lemma incr_backtrack p d :
  consistent p -> 0 < e_p0c p + d ->
  reference_energy_increase fz_none true d (reference_energy_increase fz_none false d p) = p.
Proof.
  intros (r & P & E & H) Hd.
  pose proof (incr_ok r P E p false d H Hd) as (A & A1 & A2 & A3 & A4 & A5).
  set (q := reference_energy_increase fz_none false d p) in *.
  assert (Hp : 0 < e_p0c p) by (destruct (describes_refs _ _ _ _ H) as (? & ? & ? & _); auto).
  pose proof (incr_ok r P E q true d A ltac:(cbv iota in A1 |- *; rewrite A1; lra)) as (B & B1 & B2 & B3 & B4 & B5).
  set (s := reference_energy_increase fz_none true d q) in *.
  apply ep_ext with r P E; auto.
  - eapply keeps_trans; eauto.
  - cbv iota in A1, B1. clearbody s q. lra.
  - congruence.
  - congruence.
  - congruence.
Qed.

(** Smoothed change of energy and reference energy of LineSegmentMap. *)
Lemma increments_ok r P E p dE dE0 E0 :
  describes r P E p -> refs_at E0 p -> r * e_mass0 p < E + dE -> e_mass0 p < E0 + dE0 ->
  let q := energy_and_reference_increments fz_none dE dE0 p in
  exists P', describes r P' (E + dE) q /\ refs_at (E0 + dE0) q
  /\ e_x q * Px r q = e_x p * Px r p /\ e_y q * Py r q = e_y p * Py r p.
Proof.
  intros H HR Hab H0 q. subst q. unfold energy_and_reference_increments.
  set (p1 := if Req_EM_T dE 0 then p else add_to_energy fz_none dE true p).
  assert (A : exists P', describes r P' (E + dE) p1 /\ keeps p p1 /\ keeps_refs p p1
              /\ e_px p1 = e_px p /\ e_py p1 = e_py p).
  { unfold p1. destruct (Req_EM_T dE 0) as [->|Hn].
    - exists P. rewrite Rplus_0_r. unfold keeps, keeps_refs. tauto.
    - destruct (add_to_energy_ok r P E p dE true H Hab) as (P' & A & A1 & A2 & A3 & A4 & _).
      exists P'. split; [auto|]. split; [auto|]. split; [auto|]. split.
      + unfold add_to_energy. cbv zeta iota. apply update_ptau_keeps.
      + unfold add_to_energy. set (t := e_ptau p + _). apply (update_ptau_keeps t p). }
  destruct A as (P' & A & K & KR & Kx & Ky). clearbody p1. exists P'.
  assert (HR1 : refs_at E0 p1).
  { destruct K as (K1 & _). destruct KR as (R1 & R2 & R3). apply refs_at_ext with p; auto. }
  destruct (Req_EM_T dE0 0) as [->|Hn].
  { rewrite Rplus_0_r. split; [auto|]. split; [auto|].
    unfold Px, Py. destruct K as (K1 & K2 & K3 & K4 & K5 & K6). destruct KR as (R1 & _).
    rewrite K5, K6, R1, Kx, Ky. auto. }
  assert (Em : e_mass0 p1 = e_mass0 p) by apply K.
  pose proof HR1 as (Hm & Hp & HE0 & HE0E & Hb & Hg).
  assert (Eg : e_mass0 p1 * e_gamma0 p1 + dE0 = E0 + dE0).
  { rewrite Hg. field. lra. }
  rewrite Eg. clear Eg. set (N := E0 + dE0) in *.
  assert (HN : 0 < N * N - e_mass0 p1 * e_mass0 p1) by (rewrite Em; nra).
  set (v := sqrt (N * N - e_mass0 p1 * e_mass0 p1)).
  assert (Hv : 0 < v) by (apply sqrt_lt_R0; auto).
  assert (Hvv : v * v = N * N - e_mass0 p1 * e_mass0 p1) by (apply sqrt_sqrt; lra).
  set (geo := sqrt _).
  assert (Hgeo : geo * geo = e_p0c p1 / v).
  { unfold geo. rewrite sqrt_sqrt.
    - rewrite Hb, Hg. field. repeat split; lra.
    - rewrite Hb, Hg.
      replace (e_p0c p1 / E0 * (E0 / e_mass0 p1) / (v / N) / (N / e_mass0 p1)) with (e_p0c p1 / v)
        by (field; repeat split; lra).
      left. apply Rdiv_lt_0_compat; lra. }
  pose proof (update_p0c_ok r P' (E + dE) p1 v A Hv) as (B & B1 & B2 & B3 & B4 & B5).
  set (p2 := update_p0c fz_none v p1) in *.
  unset.
  set (q := upd Vy (get Vy _ * geo) _).
  assert (KK : e_mass0 q = e_mass0 p2 /\ e_chi q = e_chi p2 /\ e_cr q = e_cr p2 /\ keeps_refs p2 q
               /\ e_x q = e_x p2 * geo /\ e_y q = e_y p2 * geo
               /\ e_px q = e_px p1 * geo /\ e_py q = e_py p1 * geo).
  { unfold q. clearbody p2 geo. destruct p2. unfold keeps_refs. cbn. repeat split. }
  destruct KK as (Q1 & Q2 & Q3 & Q4 & Q5 & Q6 & Q7 & Q8).
  destruct (describes_refs _ _ _ _ B) as (E2 & HR2).
  assert (E2 = N) as ->.
  { destruct HR2 as (_ & _ & C1 & C2 & _). apply sq_inj; [lra|lra|].
    rewrite C2, B1, Hvv. destruct B5 as (-> & _). lra. }
  split.
  { apply describes_reduced. apply describes_reduced in B.
    destruct B as (E3 & C1 & C2 & C3 & C4). exists E3. rewrite Q2, Q3.
    repeat (split; [assumption|]). apply reduced_ext with p2; auto;
      try (unfold q; clearbody p2 geo; destruct p2; reflexivity). }
  split.
  { destruct Q4 as (R1 & R2 & R3). apply refs_at_ext with p2; auto. }
  unfold Px, Py. rewrite Q5, Q6, Q7, Q8.
  destruct B5 as (_ & _ & _ & _ & -> & ->). destruct Q4 as (-> & _). rewrite B1.
  destruct K as (_ & _ & _ & _ & -> & ->). rewrite Kx, Ky. destruct KR as (<- & _).
  split.
  - replace (e_x p * geo * (e_px p * geo * v * r)) with (geo * geo * (e_x p * e_px p * v * r)) by ring.
    rewrite Hgeo. field. lra.
  - replace (e_y p * geo * (e_py p * geo * v * r)) with (geo * geo * (e_y p * e_py p * v * r)) by ring.
    rewrite Hgeo. field. lra.
Qed.

(** * Python *)
Lemma allclose_refl a : allclose a a = true.
Proof.
  unfold allclose. destruct (Rle_dec _ _) as [|Hn]; auto.
  exfalso. apply Hn. rewrite Rminus_diag_eq, Rabs_R0 by auto.
  unfold atol, rtol. pose proof (Rabs_pos a). lra.
Qed.

Lemma set_if_given v a p : set_if_consistent v (Some a) a p = Some (upd v a p).
Proof. unfold set_if_consistent, assert_consistent. rewrite allclose_refl. reflexivity. Qed.

Lemma set_if_none v a p : set_if_consistent v None a p = Some (upd v a p).
Proof. reflexivity. Qed.

(** The python setters are the C functions. *)
Lemma py_delta_same E0 d p : refs_at E0 p -> -1 < d ->
  py_set_delta d p = Some (update_delta fz_none d p).
Proof.
  intros HR Hd. pose proof HR as (Hm & Hp & HE0 & HE0E & Hb & Hg).
  pose proof (refs_pos _ _ HR) as (Hbp & _ & Hb1).
  unfold py_set_delta, update_energy_deviations. cbn [is_none andb negb].
  cbn [bind]. rewrite set_if_given. cbn [bind assert_consistent].
  rewrite set_if_none. cbn [bind]. rewrite set_if_none. cbn [bind]. rewrite set_if_none.
  f_equal. unfold update_delta. unset.
  assert (Et : sqrt (d ^ 2 + 2 * d + 1 / e_beta0 p ^ 2) - 1 / e_beta0 p
    = (sqrt (d * e_beta0 p * (d * e_beta0 p) + 2 * (d * e_beta0 p) * e_beta0 p + 1) - 1) / e_beta0 p).
  { set (b := e_beta0 p) in *.
    assert (sqrt (d * b * (d * b) + 2 * (d * b) * b + 1) = b * sqrt (d ^ 2 + 2 * d + 1 / b ^ 2)).
    { replace (d * b * (d * b) + 2 * (d * b) * b + 1) with (b * b * (d ^ 2 + 2 * d + 1 / b ^ 2))
        by (field; lra).
      rewrite sqrt_mult_alt by nra. rewrite sqrt_square by lra. reflexivity. }
    rewrite H. field. lra. }
  rewrite Et.
  set (T := _ / e_beta0 p).
  destruct p as [m q p0c g b d0 t rv rp chi cr x px y py z]. cbn [e_beta0 e_delta upd] in *.
  replace ((d * b) ^ 2) with (d * b * (d * b)) by ring. reflexivity.
Qed.

Lemma py_ptau_same E0 t p : refs_at E0 p -> e_mass0 p < E0 + t * e_p0c p ->
  py_set_ptau t p = Some (update_ptau fz_none t p).
Proof.
  intros HR Ht. pose proof HR as (Hm & Hp & HE0 & HE0E & Hb & Hg).
  unfold py_set_ptau, update_energy_deviations. cbn [is_none andb negb].
  cbn [bind]. rewrite set_if_none. cbn [bind assert_consistent].
  rewrite set_if_given. cbn [bind]. rewrite set_if_none. cbn [bind]. rewrite set_if_none.
  f_equal. unfold update_ptau. unset.
  destruct (mom_of_energy (e_mass0 p) (E0 + t * e_p0c p)) as (Pr & HPr & HEE); [lra|auto|].
  set (Er := E0 + t * e_p0c p) in *.
  assert (Et : t = (Er - E0) / e_p0c p) by (unfold Er; field; lra).
  pose proof (irpp_eq E0 Pr Er p t HR ltac:(lra) HEE Et) as EI.
  replace (t ^ 2) with (t * t) by ring. rewrite EI.
  assert (Ed : e_delta (upd Vptau t (upd Vdelta (Pr / e_p0c p - 1) p)) = Pr / e_p0c p - 1)
    by (destruct p; reflexivity).
  rewrite Ed.
  pose proof (ptau_beta0_eq E0 Pr Er p _ HR ltac:(lra) HEE eq_refl) as EP.
  set (d := Pr / e_p0c p - 1) in *.
  replace ((d * e_beta0 p) ^ 2) with (d * e_beta0 p * (d * e_beta0 p)) by ring.
  rewrite EP.
  assert (E1 : 1 + e_beta0 p * t = Er / E0).
  { rewrite Et. apply one_plus_beta_ptau. auto. }
  rewrite E1.
  replace (1 + d) with (Pr / e_p0c p) by (unfold d; ring).
  replace (1 + (Er / E0 - 1)) with (Er / E0) by ring.
  destruct p. reflexivity.
Qed.

Lemma py_p0c_same v p : 0 < v -> 0 < e_mass0 p ->
  py_set_p0c v p = Some (upd Vbeta0 (v / sqrt (v * v + e_mass0 p * e_mass0 p))
                        (upd Vgamma0 (sqrt (v * v + e_mass0 p * e_mass0 p) / e_mass0 p)
                        (upd Vp0c v p))).
Proof.
  intros Hv Hm. unfold py_set_p0c, update_refs. cbn [is_none andb compute_refs bind assert_consistent].
  rewrite set_if_given. cbn [bind]. rewrite set_if_none. cbn [bind]. rewrite set_if_none.
  replace (v ^ 2 + e_mass0 p ^ 2) with (v * v + e_mass0 p * e_mass0 p) by ring. reflexivity.
Qed.

Lemma py_p0c_and_dev_same r P E p v b : describes r P E p -> 0 < v ->
  py_update_p0c_and_energy_deviations v b p
  = Some (if b then update_p0c fz_none v p
          else upd Vpx (e_px p) (upd Vpy (e_py p) (update_p0c fz_none v p))).
Proof.
  intros H Hv. pose proof (describes_momentum _ _ _ _ H) as EP.
  assert (HP : 0 < P) by (destruct H as (? & ?); tauto).
  assert (Hr : 0 < r) by (destruct H as (? & ?); tauto).
  destruct (describes_refs _ _ _ _ H) as (E0 & HR).
  pose proof HR as (Hm & Hp & HE0 & HE0E & Hb & Hg).
  pose proof (refs_pos _ _ HR) as (Hbp & _ & Hb1).
  unfold py_update_p0c_and_energy_deviations.
  replace (v + 0 * e_p0c p) with v by ring.
  change (update_refs (Some v) None None None None None p) with (py_set_p0c v p).
  rewrite (py_p0c_same v p Hv Hm). cbn [bind].
  destruct (new_refs (e_mass0 p) v Hm Hv) as (HN & HNN).
  set (N := sqrt (v * v + e_mass0 p * e_mass0 p)) in *.
  set (p1 := upd Vbeta0 _ _).
  assert (HR1 : refs_at N p1).
  { unfold p1, refs_at. clearbody N. destruct p. cbn in *. repeat split; lra. }
  set (d := (e_delta p + 1) * e_p0c p / v - 1).
  assert (Hd : -1 < d).
  { unfold d. assert (0 < (e_delta p + 1) * e_p0c p / v); [|lra].
    apply Rdiv_lt_0_compat; auto.
    apply Rmult_lt_reg_r with r; auto. lra. }
  change (update_energy_deviations (Some d) None None None None p1) with (py_set_delta d p1).
  rewrite (py_delta_same N d p1 HR1 Hd). cbn [bind].
  unfold update_zeta. cbn [is_none andb bind assert_consistent]. rewrite set_if_given. cbn [bind].
  unfold update_p0c. fold N.
  change (set fz_none Vbeta0 (v / N) (set fz_none Vgamma0 (N / e_mass0 p) (set fz_none Vp0c v p)))
    with p1.
  replace ((e_p0c p * e_delta p + e_p0c p - v) / v) with d by (unfold d; field; lra).
  assert (Eb1 : e_beta0 (update_delta fz_none d p1) = v / N)
    by (unfold p1; destruct p; reflexivity).
  rewrite Eb1.
  assert (X : e_px (update_delta fz_none d p1) = e_px p /\ e_py (update_delta fz_none d p1) = e_py p)
    by (unfold p1; destruct p; split; reflexivity).
  destruct X as (X & Y).
  set (p2 := update_delta fz_none d p1) in *.
  unset.
  replace (e_zeta p2 * (v / N) / e_beta0 p) with (e_zeta p2 * (v / N / e_beta0 p)) by (field; lra).
  set (g := v / N / e_beta0 p).
  destruct b; f_equal.
  - clearbody p2. destruct p2. reflexivity.
  - rewrite <- X, <- Y. clearbody p2. destruct p2. reflexivity.
Qed.

Lemma describes_pxpy r P E p a b :
  describes r P E p -> describes r P E (upd Vpx a (upd Vpy b p)).
Proof.
  intros H. apply describes_reduced in H. apply describes_reduced.
  destruct H as (E3 & C1 & C2 & C3 & C4). exists E3. destruct p. exact (conj C1 (conj C2 (conj C3 C4))).
Qed.

(** * Invariant of every sequence of operations *)
Lemma run1_consistent o p q :
  consistent p -> admissible o p -> run1 fz_none o p = Some q -> consistent q.
Proof.
  intros (r & P & E & H) HA HQ.
  destruct (describes_refs _ _ _ _ H) as (E0 & HR).
  specialize (HA r P E H E0 HR).
  pose proof HR as (Hm & Hp & HE0 & HE0E & Hb & Hg).
  assert (Hr : 0 < r) by (destruct H as (? & ?); tauto).
  assert (AP : forall t, r * e_mass0 p < (E0 + t * e_p0c p) * r -> e_mass0 p < E0 + t * e_p0c p).
  { intros t Ht. apply Rmult_lt_reg_l with r; lra. }
  destruct o as [d|t|z|dE b|v|b d|dE dE0|d|t|dE|v b]; cbn [run1] in HQ; unfold above_rest in HA.
  - injection HQ as <-. destruct (update_delta_ok r P E p d H HA) as (P' & E' & A & _). unfold consistent; eauto.
  - injection HQ as <-. destruct (update_ptau_ok r P E p t E0 H HR HA) as (P' & A). unfold consistent; eauto.
  - injection HQ as <-. unfold update_pzeta.
    replace (z * e_beta0 p) with (e_beta0 p * z) in HA by ring.
    destruct (update_ptau_ok r P E p _ E0 H HR HA) as (P' & A). unfold consistent; eauto.
  - injection HQ as <-. destruct (add_to_energy_ok r P E p dE b H HA) as (P' & A & _). unfold consistent; eauto.
  - injection HQ as <-. destruct (update_p0c_ok r P E p v H HA) as (A & _). unfold consistent; eauto.
  - injection HQ as <-. destruct (incr_ok r P E p b d H HA) as (A & _). unfold consistent; eauto.
  - injection HQ as <-. destruct HA as (HA & HA0).
    destruct (increments_ok r P E p dE dE0 E0 H HR HA HA0) as (P' & A & _). unfold consistent; eauto.
  - rewrite (py_delta_same E0 d p HR HA) in HQ. injection HQ as <-.
    destruct (update_delta_ok r P E p d H HA) as (P' & E' & A & _). unfold consistent; eauto.
  - rewrite (py_ptau_same E0 t p HR) in HQ by auto. injection HQ as <-.
    destruct (update_ptau_ok r P E p t E0 H HR HA) as (P' & A). unfold consistent; eauto.
  - unfold py_add_to_energy, py_get_mass_ratio in HQ. rewrite (describes_ratio _ _ _ _ H) in HQ.
    set (t := e_ptau p + dE / e_p0c p / r) in HQ.
    assert (Et : (E0 + t * e_p0c p) * r = E + dE).
    { rewrite (describes_energy _ _ _ _ H E0 HR). unfold t. field. lra. }
    rewrite (py_ptau_same E0 t p HR) in HQ by (apply AP; lra). injection HQ as <-.
    destruct (update_ptau_ok r P E p t E0 H HR) as (P' & A); [lra|]. unfold consistent; eauto.
  - rewrite (py_p0c_and_dev_same r P E p v b H HA) in HQ. injection HQ as <-.
    destruct (update_p0c_ok r P E p v H HA) as (A & _).
    destruct b; [unfold consistent; eauto|]. exists r, P, E. apply describes_pxpy; auto.
Qed.

Lemma runs_consistent p q : runs fz_none p q -> consistent p -> consistent q.
Proof.
  induction 1 as [|p o p1 p2 HA H1 _ IH]; auto.
  intros Hp. apply IH. eapply run1_consistent; eauto.
Qed.

(** Admissible operations do not raise. *)
Lemma run1_total o p : consistent p -> admissible o p -> exists q, run1 fz_none o p = Some q.
Proof.
  intros (r & P & E & H) HA.
  destruct (describes_refs _ _ _ _ H) as (E0 & HR).
  specialize (HA r P E H E0 HR).
  pose proof HR as (Hm & Hp & HE0 & HE0E & Hb & Hg).
  assert (Hr : 0 < r) by (destruct H as (? & ?); tauto).
  assert (AP : forall t, r * e_mass0 p < (E0 + t * e_p0c p) * r -> e_mass0 p < E0 + t * e_p0c p).
  { intros t Ht. apply Rmult_lt_reg_l with r; lra. }
  destruct o as [d|t|z|dE b|v|b d|dE dE0|d|t|dE|v b]; cbn [run1]; unfold above_rest in HA;
    try (eexists; reflexivity).
  - rewrite (py_delta_same E0 d p HR HA). eauto.
  - rewrite (py_ptau_same E0 t p HR) by auto. eauto.
  - unfold py_add_to_energy, py_get_mass_ratio. rewrite (describes_ratio _ _ _ _ H).
    set (t := e_ptau p + dE / e_p0c p / r).
    assert (Et : (E0 + t * e_p0c p) * r = E + dE).
    { rewrite (describes_energy _ _ _ _ H E0 HR). unfold t. field. lra. }
    rewrite (py_ptau_same E0 t p HR) by (apply AP; lra). eauto.
  - rewrite (py_p0c_and_dev_same r P E p v b H HA). eauto.
Qed.
