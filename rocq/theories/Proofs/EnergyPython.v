(** Python setters and constructor of the energy variables. *)
From Coq Require Import Reals Lra Lia Psatz Bool List.
From Verif.Model Require Import Energy.
From Verif.Spec Require Import Energy.
From Verif.Proofs Require Import Energy.
Local Open Scope R_scope.

(** [compute_refs] yields consistent references. *)
Definition triple_ok (m : R) (t : R * R * R) : Prop :=
  let '(p0c, b, g) := t in
  0 < p0c /\ exists E, 0 < E /\ E * E = p0c * p0c + m * m /\ b = p0c / E /\ g = E / m.

Lemma refs_p0c m v : 0 < m -> 0 < v ->
  triple_ok m (v, v / sqrt (v ^ 2 + m ^ 2), sqrt (v ^ 2 + m ^ 2) / m).
Proof.
  intros Hm Hv. destruct (new_refs m v Hm Hv) as (A & B).
  replace (v ^ 2 + m ^ 2) with (v * v + m * m) by ring.
  split; auto. eexists; repeat split; eauto.
Qed.

Lemma refs_energy m e : 0 < m -> m < e ->
  triple_ok m (sqrt (e ^ 2 - m ^ 2), sqrt (e ^ 2 - m ^ 2) / e, e / m).
Proof.
  intros Hm Hv. replace (e ^ 2 - m ^ 2) with (e * e - m * m) by ring.
  assert (0 < e * e - m * m) by nra.
  split. { apply sqrt_lt_R0; auto. }
  exists e. rewrite sqrt_sqrt by lra. repeat split; lra.
Qed.

Lemma refs_gamma m g : 0 < m -> 1 < g ->
  triple_ok m (m * g * sqrt (1 - 1 / g ^ 2), sqrt (1 - 1 / g ^ 2), g).
Proof.
  intros Hm Hg.
  assert (Hpos : 0 < 1 - 1 / g ^ 2).
  { assert (1 / g ^ 2 < 1); [|lra]. apply Rmult_lt_reg_r with (g ^ 2); [nra|].
    unfold Rdiv. rewrite Rmult_assoc, Rinv_l by nra. nra. }
  assert (Hs : 0 < sqrt (1 - 1 / g ^ 2)) by (apply sqrt_lt_R0; auto).
  split. { apply Rmult_lt_0_compat; auto. nra. }
  exists (m * g). split; [nra|]. split.
  - replace (m * g * sqrt (1 - 1 / g ^ 2) * (m * g * sqrt (1 - 1 / g ^ 2)))
      with (m * g * (m * g) * (sqrt (1 - 1 / g ^ 2) * sqrt (1 - 1 / g ^ 2))) by ring.
    rewrite sqrt_sqrt by lra. field. lra.
  - split; field; lra.
Qed.

Lemma refs_beta m b : 0 < m -> 0 < b < 1 ->
  triple_ok m (m * (1 / sqrt (1 - b ^ 2)) * b, b, 1 / sqrt (1 - b ^ 2)).
Proof.
  intros Hm Hb.
  assert (Hpos : 0 < 1 - b ^ 2) by nra.
  assert (Hs : 0 < sqrt (1 - b ^ 2)) by (apply sqrt_lt_R0; auto).
  assert (Hss : sqrt (1 - b ^ 2) * sqrt (1 - b ^ 2) = 1 - b ^ 2) by (apply sqrt_sqrt; lra).
  set (s := sqrt (1 - b ^ 2)) in *. clearbody s.
  assert (0 < 1 / s) by (apply Rdiv_lt_0_compat; lra).
  split. { apply Rmult_lt_0_compat; [apply Rmult_lt_0_compat|]; lra. }
  exists (m * (1 / s)). split; [apply Rmult_lt_0_compat; lra|]. split.
  - apply Rmult_eq_reg_r with (s * s); [|nra].
    replace (m * (1 / s) * (m * (1 / s)) * (s * s)) with (m * m) by (field; lra).
    replace ((m * (1 / s) * b * (m * (1 / s) * b) + m * m) * (s * s))
      with (m * m * (b * b) + m * m * (s * s)) by (field; lra).
    rewrite Hss. ring.
  - split; field; repeat split; lra.
Qed.

Lemma triple_refs m t p :
  triple_ok m t -> e_mass0 p = m -> 0 < m ->
  let '(p0c, b, g) := t in
  e_p0c p = p0c -> e_beta0 p = b -> e_gamma0 p = g -> refs_ok p.
Proof.
  destruct t as [[p0c b] g]. intros (Hp & E & HE & HEE & Hb & Hg) Hm Hm0 H1 H2 H3.
  exists E. unfold refs_at. rewrite Hm, H1, H2, H3. repeat split; auto.
Qed.

(** One reference value given (or none): result of [update_refs]. *)
Lemma update_refs_single p0c e0 g b k r m q p :
  (given p0c + given e0 + given g + given b + given k + given r <= 1)%nat ->
  e_mass0 p = m -> e_q0 p = q -> 0 < m ->
  when p0c (fun v => 0 < v) -> when e0 (fun v => m < v) -> when g (fun v => 1 < v) ->
  when b (fun v => 0 < v < 1) -> when k (fun v => 0 < v) -> when r (fun v => 0 < v /\ q <> 0) ->
  exists p', update_refs p0c e0 g b k r p = Some p' /\ refs_ok p'
  /\ (exists a b c, p' = upd Vbeta0 a (upd Vgamma0 b (upd Vp0c c p)))
  /\ when p0c (fun v => e_p0c p' = v) /\ when e0 (fun v => py_get_energy0 p' = v)
  /\ when g (fun v => e_gamma0 p' = v) /\ when b (fun v => e_beta0 p' = v)
  /\ when k (fun v => py_get_kinetic_energy0 p' = v)
  /\ when r (fun v => e_p0c p' = v * Rabs q * clight)
  /\ (p0c = None -> e0 = None -> g = None -> b = None -> k = None -> r = None -> e_p0c p' = 1000000000).
Proof.
  intros Hone Hm Hq Hm0 D1 D2 D3 D4 D5 D6.
  assert (Fin : forall a b c, triple_ok m (c, a, b) ->
            refs_ok (upd Vbeta0 a (upd Vgamma0 b (upd Vp0c c p)))).
  { intros a' b' c' T.
    pose proof (triple_refs m (c', a', b') (upd Vbeta0 a' (upd Vgamma0 b' (upd Vp0c c' p))) T) as A.
    cbn in A. apply A; auto; destruct p; cbn in *; auto. }
  assert (Len : forall a b c E, triple_ok m (c, a, b) -> 0 < E -> b = E / m ->
            py_get_energy0 (upd Vbeta0 a (upd Vgamma0 b (upd Vp0c c p))) = E).
  { intros a' b' c' E' T HE0 Hb'. pose proof T as (T1 & E & HE & HEE & _ & Hg).
    assert (E' = E). { apply Rmult_eq_reg_r with (/ m). unfold Rdiv in *; lra. apply Rinv_neq_0_compat; lra. }
    subst E'. unfold py_get_energy0.
    replace (e_p0c (upd Vbeta0 a' (upd Vgamma0 b' (upd Vp0c c' p)))) with c' by (destruct p; reflexivity).
    replace (e_mass0 (upd Vbeta0 a' (upd Vgamma0 b' (upd Vp0c c' p)))) with m by (destruct p; auto).
    apply sqrt_is; lra. }
  unfold update_refs.
  destruct p0c as [p0c|].
  { cbn [given] in Hone. destruct e0, g, b, k, r; cbn [given] in Hone; try lia.
    cbn [is_none andb compute_refs bind assert_consistent].
    rewrite set_if_given. cbn [bind]. rewrite set_if_none. cbn [bind]. rewrite set_if_none.
    rewrite Hm. eexists. split; [reflexivity|].
    split. { apply Fin. apply refs_p0c; auto. }
    split. { eexists _, _, _; reflexivity. }
    cbn [when]. repeat split; try discriminate. destruct p; reflexivity. }
  destruct e0 as [e0|].
  { cbn [given] in Hone. destruct g, b, k, r; cbn [given] in Hone; try lia.
    cbn [is_none andb compute_refs bind]. rewrite Hm.
    replace (m * (e0 / m)) with e0 by (field; lra).
    unfold assert_consistent at 1. rewrite allclose_refl. cbn [bind].
    rewrite set_if_none. cbn [bind]. rewrite set_if_none. cbn [bind]. rewrite set_if_none.
    eexists. split; [reflexivity|]. cbn [when] in *.
    split. { apply Fin. apply refs_energy; auto. }
    split. { eexists _, _, _; reflexivity. }
    repeat split; try discriminate. apply Len; auto. apply refs_energy; auto. lra. }
  destruct g as [g|].
  { cbn [given] in Hone. destruct b, k, r; cbn [given] in Hone; try lia.
    cbn [is_none andb compute_refs bind assert_consistent]. rewrite Hm.
    rewrite set_if_none. cbn [bind]. rewrite set_if_given. cbn [bind]. rewrite set_if_none.
    eexists. split; [reflexivity|]. cbn [when] in *.
    split. { apply Fin. apply refs_gamma; auto. }
    split. { eexists _, _, _; reflexivity. }
    repeat split; try discriminate. destruct p; reflexivity. }
  destruct b as [b|].
  { cbn [given] in Hone. destruct k, r; cbn [given] in Hone; try lia.
    cbn [is_none andb compute_refs bind assert_consistent]. rewrite Hm.
    rewrite set_if_none. cbn [bind]. rewrite set_if_none. cbn [bind]. rewrite set_if_given.
    eexists. split; [reflexivity|]. cbn [when] in *.
    split. { apply Fin. apply refs_beta; auto. }
    split. { eexists _, _, _; reflexivity. }
    repeat split; try discriminate. destruct p; reflexivity. }
  destruct k as [k|].
  { cbn [given] in Hone. destruct r; cbn [given] in Hone; try lia.
    cbn [is_none andb compute_refs bind assert_consistent]. rewrite Hm.
    rewrite set_if_none. cbn [bind]. rewrite set_if_none. cbn [bind]. rewrite set_if_none.
    eexists. split; [reflexivity|]. cbn [when] in *.
    assert (T := refs_energy m (k + m) Hm0 ltac:(lra)).
    split. { apply Fin. auto. }
    split. { eexists _, _, _; reflexivity. }
    repeat split; try discriminate. unfold py_get_kinetic_energy0. erewrite Len; [|exact T| |reflexivity]; [|lra].
    replace (e_mass0 _) with m by (destruct p; auto). ring. }
  destruct r as [r|].
  { cbn [is_none andb compute_refs bind assert_consistent]. rewrite Hm.
    rewrite set_if_none. cbn [bind]. rewrite set_if_none. cbn [bind]. rewrite set_if_none.
    eexists. split; [reflexivity|]. cbn [when] in *. destruct D6 as (D6 & D7).
    assert (Hpp : 0 < r * Rabs (e_q0 p) * clight).
    { apply Rmult_lt_0_compat; [apply Rmult_lt_0_compat; auto|unfold clight; lra].
      rewrite Hq. apply Rabs_pos_lt. auto. }
    split. { apply Fin. apply refs_p0c; auto. }
    split. { eexists _, _, _; reflexivity. }
    repeat split; try discriminate. rewrite <- Hq. destruct p; reflexivity. }
  (* nothing given *)
  cbn [is_none andb]. set (v := 1000000000). assert (Hv : 0 < v) by (unfold v; lra).
  assert (Em : e_mass0 (upd Vp0c v p) = m) by (destruct p; auto).
  cbn [compute_refs bind assert_consistent]. rewrite Em.
  rewrite set_if_given. cbn [bind]. rewrite set_if_none. cbn [bind]. rewrite set_if_none.
  replace (upd Vp0c v (upd Vp0c v p)) with (upd Vp0c v p) by (destruct p; reflexivity).
  eexists. split; [reflexivity|].
  split. { apply Fin. apply refs_p0c; auto. }
  split. { eexists _, _, _; reflexivity. }
  cbn [when]. repeat split. destruct p; reflexivity.
Qed.

(** Setters of the reference. *)
Lemma setters_refs p m v :
  e_mass0 p = m -> 0 < m ->
  (0 < v -> exists q, py_set_p0c v p = Some q /\ refs_ok q /\ e_p0c q = v)
  /\ (1 < v -> exists q, py_set_gamma0 v p = Some q /\ refs_ok q /\ e_gamma0 q = v)
  /\ (0 < v < 1 -> exists q, py_set_beta0 v p = Some q /\ refs_ok q /\ e_beta0 q = v)
  /\ (m < v -> exists q, py_set_energy0 v p = Some q /\ refs_ok q /\ py_get_energy0 q = v)
  /\ (0 < v -> exists q, py_set_kinetic_energy0 v p = Some q /\ refs_ok q /\ py_get_kinetic_energy0 q = v)
  /\ (0 < v * e_q0 p -> exists q, py_set_rigidity0 v p = Some q /\ refs_ok q /\ py_get_rigidity0 q = v).
Proof.
  intros Hm Hm0.
  assert (G : forall g, 1 < g -> exists q, py_set_gamma0 g p = Some q /\ refs_ok q /\ e_gamma0 q = g
                                   /\ e_mass0 q = m).
  { intros g Hg.
    destruct (update_refs_single None None (Some g) None None None m (e_q0 p) p) as (q & A & B & C & D);
      cbn; auto.
    exists q. cbn in D. repeat split; auto; try tauto.
    destruct C as (a & b & c & ->). destruct p; auto. }
  assert (P : forall w, 0 < w -> exists q, py_set_p0c w p = Some q /\ refs_ok q /\ e_p0c q = w
                                   /\ e_q0 q = e_q0 p).
  { intros w Hw.
    destruct (update_refs_single (Some w) None None None None None m (e_q0 p) p) as (q & A & B & C & D);
      cbn; auto.
    exists q. cbn in D. repeat split; auto; try tauto.
    destruct C as (a & b & c & ->). destruct p; auto. }
  assert (GE : forall q, refs_ok q -> py_get_energy0 q = e_gamma0 q * e_mass0 q).
  { intros q (E0 & HR). rewrite (refs_at_energy0 E0 q HR). destruct HR as (A & _ & _ & _ & _ & ->).
    field. lra. }
  split; [|split; [|split; [|split; [|split]]]].
  - intros Hv. destruct (P v Hv) as (q & A & B & C & _). eauto.
  - intros Hv. destruct (G v Hv) as (q & A & B & C & _). eauto.
  - intros Hv.
    destruct (update_refs_single None None None (Some v) None None m (e_q0 p) p) as (q & A & B & C & D);
      cbn; auto.
    exists q. cbn in D. repeat split; auto; tauto.
  - intros Hv. unfold py_set_energy0. rewrite Hm.
    destruct (G (v / m)) as (q & A & B & C & D).
    { apply Rmult_lt_reg_r with m; auto. unfold Rdiv. rewrite Rmult_assoc, Rinv_l; lra. }
    exists q. repeat split; auto. rewrite GE, C, D by auto. field. lra.
  - intros Hv. unfold py_set_kinetic_energy0. rewrite Hm.
    destruct (G (v / m + 1)) as (q & A & B & C & D).
    { assert (0 < v / m) by (apply Rdiv_lt_0_compat; lra). lra. }
    exists q. repeat split; auto. unfold py_get_kinetic_energy0. rewrite GE, C, D by auto. field. lra.
  - intros Hv. unfold py_set_rigidity0.
    destruct (P (v * clight * e_q0 p)) as (q & A & B & C & D).
    { replace (v * clight * e_q0 p) with (v * e_q0 p * clight) by ring.
      apply Rmult_lt_0_compat; auto. unfold clight. lra. }
    exists q. repeat split; auto. unfold py_get_rigidity0. rewrite C, D.
    assert (e_q0 p <> 0) by (intros Z; rewrite Z in Hv; lra).
    field. split; auto. unfold clight. lra.
Qed.

(** Setters of the deviation. *)
Lemma set_delta_read p d :
  consistent p -> -1 < d ->
  exists q, py_set_delta d p = Some q /\ consistent q /\ e_delta q = d
  /\ keeps p q /\ keeps_refs p q /\ e_px q = e_px p /\ e_py q = e_py p /\ e_zeta q = e_zeta p.
Proof.
  intros (r & P & E & H) Hd. destruct (describes_refs _ _ _ _ H) as (E0 & HR).
  exists (update_delta fz_none d p). rewrite (py_delta_same E0 d p HR Hd). split; auto.
  destruct (update_delta_ok r P E p d H Hd) as (P' & E' & A & _).
  pose proof (update_delta_keeps d p) as K.
  split. { unfold consistent; eauto. } tauto.
Qed.

Lemma set_ptau_read p t E0 :
  consistent p -> refs_at E0 p -> e_mass0 p < E0 + t * e_p0c p ->
  exists q, py_set_ptau t p = Some q /\ consistent q /\ e_ptau q = t
  /\ keeps p q /\ keeps_refs p q /\ e_px q = e_px p /\ e_py q = e_py p /\ e_zeta q = e_zeta p.
Proof.
  intros (r & P & E & H) HR Hd.
  assert (Hr : 0 < r) by (destruct H as (? & ?); tauto).
  exists (update_ptau fz_none t p). rewrite (py_ptau_same E0 t p HR Hd). split; auto.
  destruct (update_ptau_ok r P E p t E0 H HR) as (P' & A); [nra|].
  pose proof (update_ptau_keeps t p) as K.
  split. { unfold consistent; eauto. } tauto.
Qed.

(** In terms of the C functions: pzeta is read back too. *)
Lemma update_pzeta_read p z E0 :
  consistent p -> refs_at E0 p -> e_mass0 p < E0 + z * e_beta0 p * e_p0c p ->
  consistent (update_pzeta fz_none z p) /\ get_pzeta (update_pzeta fz_none z p) = z.
Proof.
  intros (r & P & E & H) HR Hd.
  assert (Hr : 0 < r) by (destruct H as (? & ?); tauto).
  pose proof (refs_pos _ _ HR) as (Hb & _).
  unfold update_pzeta. replace (z * e_beta0 p) with (e_beta0 p * z) in Hd by ring.
  destruct (update_ptau_ok r P E p (e_beta0 p * z) E0 H HR) as (P' & A); [nra|].
  pose proof (update_ptau_keeps (e_beta0 p * z) p) as (_ & (_ & _ & K) & _ & _ & _ & Kt).
  split. { unfold consistent; eauto. }
  unfold get_pzeta. rewrite Kt, K. field. lra.
Qed.

(** * Constructor *)
Lemma chi_ratio a r :
  ratio a r -> exists chi cr, update_chi_charge_ratio (a_chi a) (a_charge_ratio a) (a_mass_ratio a) = Some (chi, cr)
  /\ (0 < r -> chi <> 0 /\ cr = r * chi).
Proof.
  unfold ratio, update_chi_charge_ratio.
  destruct (a_chi a) as [x|], (a_charge_ratio a) as [c|], (a_mass_ratio a) as [m|]; try tauto.
  - intros (H & H1 & ->). eauto.
  - intros (H & H1). eauto.
  - intros (H & ->). eexists _, _. split; [reflexivity|]. intros _. split; auto. ring.
  - intros (H & ->). eexists _, _. split; [reflexivity|]. intros Hm. split; [|field; lra].
    unfold Rdiv. apply Rmult_integral_contrapositive_currified; auto. apply Rinv_neq_0_compat. lra.
  - intros ->. eexists _, _. split; [reflexivity|]. intros _. split; lra.
Qed.

Lemma delta_zero_consistent E0 p :
  refs_at E0 p -> e_chi p <> 0 -> e_cr p = 1 * e_chi p ->
  py_set_delta 0 (upd Vdelta 0 p) = update_energy_deviations None None None None None p.
Proof.
  intros HR Hc Hcr. unfold py_set_delta, update_energy_deviations. cbn [is_none andb negb].
  destruct (Req_EM_T (e_cr p / e_chi p) 1) as [_|N]; [reflexivity|].
  exfalso. apply N. rewrite Hcr. field. auto.
Qed.

Lemma py_set_delta_fresh r E0 p d :
  refs_at E0 p -> 0 < r -> e_chi p <> 0 -> e_cr p = r * e_chi p -> -1 < d ->
  exists q, py_set_delta d p = Some q /\ consistent q /\ e_delta q = d /\ keeps p q /\ keeps_refs p q
  /\ e_px q = e_px p /\ e_py q = e_py p.
Proof.
  intros HR Hr Hc Hcr Hd. exists (update_delta fz_none d p).
  rewrite (py_delta_same E0 d p HR Hd). split; auto.
  pose proof HR as (Hm & Hp & _).
  set (Pr := (1 + d) * e_p0c p).
  assert (HPr : 0 < Pr) by (apply Rmult_lt_0_compat; lra).
  destruct (energy_of_mom (e_mass0 p) Pr HPr) as (Er & HEr & HEE).
  pose proof (update_delta_reduced E0 Pr Er p d HR HPr HEr HEE ltac:(unfold Pr; field; lra)) as A.
  pose proof (update_delta_keeps d p) as ((K1 & K2 & K3 & K4 & K5) & KR & Kx & Ky & Kz & Kd).
  split.
  { exists r, (Pr * r), (Er * r). apply with_reduced with E0; auto.
    - rewrite K3. auto.
    - rewrite K3, K4. auto. }
  repeat split; auto; apply KR || apply K5.
Qed.

Lemma py_set_ptau_fresh r E0 p t :
  refs_at E0 p -> 0 < r -> e_chi p <> 0 -> e_cr p = r * e_chi p -> e_mass0 p < E0 + t * e_p0c p ->
  exists q, py_set_ptau t p = Some q /\ consistent q /\ e_ptau q = t /\ keeps p q /\ keeps_refs p q
  /\ e_px q = e_px p /\ e_py q = e_py p.
Proof.
  intros HR Hr Hc Hcr Hd. exists (update_ptau fz_none t p).
  rewrite (py_ptau_same E0 t p HR Hd). split; auto.
  pose proof HR as (Hm & Hp & _).
  set (Er := E0 + t * e_p0c p) in *.
  destruct (mom_of_energy (e_mass0 p) Er) as (Pr & HPr & HEE); [lra|auto|].
  pose proof (update_ptau_reduced E0 Pr Er p t HR HPr ltac:(lra) HEE ltac:(unfold Er; field; lra)) as A.
  pose proof (update_ptau_keeps t p) as ((K1 & K2 & K3 & K4 & K5) & KR & Kx & Ky & Kz & Kd).
  split.
  { exists r, (Pr * r), (Er * r). apply with_reduced with E0; auto.
    - rewrite K3. auto.
    - rewrite K3, K4. auto. }
  repeat split; auto; apply KR || apply K5.
Qed.

Lemma pzeta_is_ptau z p : e_beta0 p <> 0 ->
  update_energy_deviations None None (Some z) None None p = py_set_ptau (z * e_beta0 p) p.
Proof.
  intros Hb. unfold py_set_ptau, update_energy_deviations. cbn [is_none andb negb bind].
  unfold assert_consistent at 1. rewrite allclose_refl. cbn [bind assert_consistent].
  rewrite !set_if_none. cbn [bind]. rewrite set_if_given, set_if_none. reflexivity.
Qed.

(** Reference energy given by the arguments, in terms of the object. *)
Lemma construct_single a r :
  single a -> good_refs a -> 0 < r -> ratio a r ->
  (a_delta a = None -> a_ptau a = None -> a_pzeta a = None -> r = 1) ->
  (forall P0, 0 < P0 -> ref_momentum a P0 -> good_deviation a P0) ->
  exists p, construct a = Some p /\ consistent p /\ py_get_mass_ratio p = r
  /\ e_mass0 p = a_mass0 a /\ e_q0 p = a_q0 a
  /\ e_x p = a_x a /\ e_px p = a_px a /\ e_y p = a_y a /\ e_py p = a_py a
  /\ ref_momentum a (e_p0c p)
  /\ (0 < a_q0 a -> refs_read a p)
  /\ when (a_delta a) (fun v => e_delta p = v)
  /\ when (a_ptau a) (fun v => e_ptau p = v)
  /\ when (a_pzeta a) (fun v => py_get_pzeta p = v)
  /\ when (a_zeta a) (fun v => e_zeta p = v)
  /\ when (a_tau a) (fun v => tau p = v).
Proof.
  intros (S1 & S2 & S3 & S4 & S5) (G0 & G1 & G2 & G3 & G4 & G5 & G6) Hr Hrat Hnone Hdev.
  unfold construct.
  destruct (chi_ratio a r Hrat) as (chi & cr & EC & HC). rewrite EC. cbn [bind fst snd].
  destruct (HC Hr) as (Hc & Hcr).
  set (p0 := mkEp _ _ _ _ _ _ _ _ _ _ _ _ _ _ _ _).
  destruct (update_refs_single _ _ _ _ _ _ (a_mass0 a) (a_q0 a) p0 S1 eq_refl eq_refl G0 G1 G2 G3 G4 G5 G6)
    as (p1 & E1 & (E0 & HR1) & (ua & ub & uc & U) & R1 & R2 & R3 & R4 & R5 & R6 & R7).
  rewrite E1. cbn [bind].
  assert (F1 : e_mass0 p1 = a_mass0 a /\ e_q0 p1 = a_q0 a /\ e_chi p1 = chi /\ e_cr p1 = cr
     /\ e_x p1 = a_x a /\ e_px p1 = a_px a /\ e_y p1 = a_y a /\ e_py p1 = a_py a)
    by (rewrite U; repeat split).
  destruct F1 as (M1 & Q1 & C1 & D1 & X1 & PX1 & Y1 & PY1). clear U E1 EC.
  assert (RR : 0 < a_q0 a -> refs_read a p1).
  { intros Hq. unfold refs_read. repeat (split; [assumption|]).
    destruct (a_rigidity0 a) as [v|]; cbn [when] in *; auto.
    unfold py_get_rigidity0. rewrite R6, Q1, Rabs_right by lra. field. unfold clight. split; lra. }
  pose proof HR1 as (HM1 & HP1 & HE0 & HE0E & HB1 & HG1).
  assert (EE0 : sqrt (e_p0c p1 * e_p0c p1 + a_mass0 a * a_mass0 a) = E0).
  { rewrite <- M1. exact (refs_at_energy0 E0 p1 HR1). }
  assert (RM : ref_momentum a (e_p0c p1)).
  { unfold ref_momentum. rewrite EE0. split; [auto|]. split.
    { destruct (a_energy0 a); cbn [when] in *; auto. rewrite (refs_at_energy0 E0 p1 HR1) in R2. auto. }
    split. { destruct (a_gamma0 a); cbn [when] in *; auto. rewrite <- R3, HG1, <- M1. field. lra. }
    split. { destruct (a_beta0 a); cbn [when] in *; auto. rewrite <- R4, HB1. field. lra. }
    split. { destruct (a_kinetic_energy0 a); cbn [when] in *; auto.
             unfold py_get_kinetic_energy0 in R5. rewrite (refs_at_energy0 E0 p1 HR1) in R5. lra. }
    split; auto. }
  destruct (Hdev (e_p0c p1) HP1 RM) as (V1 & V2 & V3). rewrite EE0 in V2, V3. rewrite <- HB1 in V3.
  pose proof (refs_pos _ _ HR1) as (Hb1 & _).
  assert (HB : forall z q, update_zeta (a_zeta a) (a_tau a) q = Some z -> True) by auto.
  (* deviations *)
  assert (DD : exists p2, update_energy_deviations (a_delta a) (a_ptau a) (a_pzeta a) (a_rpp a) (a_rvv a) p1 = Some p2
     /\ consistent p2 /\ keeps p1 p2 /\ keeps_refs p1 p2 /\ e_px p2 = e_px p1 /\ e_py p2 = e_py p1
     /\ when (a_delta a) (fun v => e_delta p2 = v)
     /\ when (a_ptau a) (fun v => e_ptau p2 = v)
     /\ when (a_pzeta a) (fun v => py_get_pzeta p2 = v)).
  { rewrite S3, S4. rewrite <- C1 in Hc. rewrite <- C1, <- D1 in Hcr.
    destruct (a_delta a) as [d|], (a_ptau a) as [t|], (a_pzeta a) as [z|];
      cbn [given] in S2; try lia; cbn [when] in *.
    - destruct (py_set_delta_fresh r E0 p1 d HR1 Hr Hc Hcr V1) as (q & A & B & C & D & E & F & G).
      exists q. change (update_energy_deviations (Some d) None None None None p1) with (py_set_delta d p1).
      tauto.
    - destruct (py_set_ptau_fresh r E0 p1 t HR1 Hr Hc Hcr) as (q & A & B & C & D & E & F & G); [lra|].
      exists q. change (update_energy_deviations None (Some t) None None None p1) with (py_set_ptau t p1).
      tauto.
    - rewrite pzeta_is_ptau by lra.
      destruct (py_set_ptau_fresh r E0 p1 (z * e_beta0 p1) HR1 Hr Hc Hcr) as (q & A & B & C & D & E & F & G); [lra|].
      exists q. rewrite A.
      assert (py_get_pzeta q = z).
      { unfold py_get_pzeta. rewrite C. destruct E as (_ & _ & ->). field. lra. }
      tauto.
    - specialize (Hnone eq_refl eq_refl eq_refl). subst r.
      rewrite <- (delta_zero_consistent E0 p1 HR1 Hc Hcr).
      assert (HR1' : refs_at E0 (upd Vdelta 0 p1)) by (apply refs_at_ext with p1; auto; destruct p1; auto).
      destruct (py_set_delta_fresh 1 E0 (upd Vdelta 0 p1) 0 HR1' Hr) as (q & A & B & C & D & E & F & G);
        try (destruct p1; cbn in *; auto; lra).
      exists q. split; [auto|]. split; [auto|].
      unfold keeps, keeps_refs in *. destruct p1; cbn in *. tauto. }
  destruct DD as (p2 & E2 & HC2 & K2 & KR2 & PX2 & PY2 & W1 & W2 & W3).
  rewrite E2. cbn [bind].
  assert (Z : forall v, consistent (upd Vzeta v p2) /\ keeps p2 (upd Vzeta v p2) /\ keeps_refs p2 (upd Vzeta v p2)
     /\ e_px (upd Vzeta v p2) = e_px p2 /\ e_py (upd Vzeta v p2) = e_py p2
     /\ e_delta (upd Vzeta v p2) = e_delta p2 /\ e_ptau (upd Vzeta v p2) = e_ptau p2
     /\ e_zeta (upd Vzeta v p2) = v).
  { intros v. unfold consistent, describes, keeps, keeps_refs in *. destruct p2. cbn in *. tauto. }
  assert (BB : e_beta0 p2 <> 0) by (destruct KR2 as (_ & _ & ->); lra).
  assert (ZZ : exists v, update_zeta (a_zeta a) (a_tau a) p2 = Some (upd Vzeta v p2)
     /\ when (a_zeta a) (fun w => v = w) /\ when (a_tau a) (fun w => v / e_beta0 p2 = w)).
  { unfold update_zeta. destruct (a_zeta a) as [z|], (a_tau a) as [t|];
      cbn [given] in S5; try lia; cbn [is_none andb bind when].
    - cbn [assert_consistent bind]. rewrite set_if_given. eauto.
    - unfold assert_consistent at 1. rewrite allclose_refl. cbn [bind]. rewrite set_if_none.
      eexists. split; [reflexivity|]. split; auto. field. auto.
    - cbn [assert_consistent bind]. rewrite set_if_given. exists 0. split; auto.
      f_equal. destruct p2; reflexivity. }
  destruct ZZ as (v & E3 & Z1 & Z2). rewrite E3.
  destruct (Z v) as (ZC & ZK & ZKR & Z4 & Z5 & Z6 & Z7 & Z8).
  exists (upd Vzeta v p2). set (q := upd Vzeta v p2) in *. clearbody q.
  assert (KK : keeps p1 q) by (eapply keeps_trans; eauto).
  assert (KKR : keeps_refs p1 q) by (unfold keeps_refs in *; intuition congruence).
  destruct KK as (L1 & L2 & L3 & L4 & L5 & L6). destruct KKR as (N1 & N2 & N3).
  split; [auto|]. split; [auto|].
  split. { unfold py_get_mass_ratio. rewrite L3, L4, C1, D1, Hcr. field. auto. }
  repeat (split; [congruence|]).
  split.
  { intros Hq. specialize (RR Hq). unfold refs_read, py_get_energy0, py_get_kinetic_energy0, py_get_energy0, py_get_rigidity0 in *.
    rewrite L1, L2, N1, N2, N3. exact RR. }
  rewrite Z6, Z7. split; [auto|]. split; [auto|]. split.
  { unfold py_get_pzeta in *. rewrite Z7. destruct ZKR as (_ & _ & ->). auto. }
  rewrite Z8. split; [auto|]. unfold tau. rewrite Z8. destruct ZKR as (_ & _ & ->). auto.
Qed.

(** * Several values given: everything stored is within the tolerance *)
Lemma allclose_close a b : allclose a b = true -> close a b.
Proof. unfold allclose, close, atol, rtol. destruct (Rle_dec _ _); [auto|discriminate]. Qed.

Lemma close_refl a : close a a.
Proof. apply allclose_close, allclose_refl. Qed.

Lemma assert_consistent_close g c u :
  assert_consistent g c = Some u -> when g (fun v => close v c).
Proof.
  unfold assert_consistent. destruct g as [g|]; cbn; auto.
  destruct (allclose g c) eqn:E; [|discriminate]. intros _. apply allclose_close; auto.
Qed.

Lemma set_if_inv v g c p q :
  set_if_consistent v g c p = Some q ->
  exists w, q = upd v w p /\ when g (fun x => w = x) /\ close w c.
Proof.
  unfold set_if_consistent. destruct (assert_consistent g c) eqn:E; [|discriminate].
  intros [= <-]. apply assert_consistent_close in E.
  destruct g as [g|]; cbn in *; eexists; repeat split; auto. apply close_refl.
Qed.

Lemma bind_some {A B} (o : option A) (f : A -> option B) b :
  bind o f = Some b -> exists a, o = Some a /\ f a = Some b.
Proof. destruct o; cbn; [eauto|discriminate]. Qed.

(** Given references are stored as they are and agree within the tolerance with
    the values derived from the stored momentum. *)
Lemma update_refs_p0c_checked v e0 g b k r p q :
  update_refs (Some v) e0 g b k r p = Some q ->
  let E := sqrt (v ^ 2 + e_mass0 p ^ 2) in
  e_p0c q = v
  /\ when e0 (fun x => close x (e_mass0 p * (E / e_mass0 p)))
  /\ when g (fun x => e_gamma0 q = x) /\ close (e_gamma0 q) (E / e_mass0 p)
  /\ when b (fun x => e_beta0 q = x) /\ close (e_beta0 q) (v / E).
Proof.
  unfold update_refs. cbn [is_none andb compute_refs bind].
  intros H. apply bind_some in H as (u & A & H). apply assert_consistent_close in A.
  apply bind_some in H as (p1 & B & H). apply set_if_inv in B as (w1 & -> & B1 & B2). cbn in B1.
  apply bind_some in H as (p2 & C & H). apply set_if_inv in C as (w2 & -> & C1 & C2).
  apply set_if_inv in H as (w3 & -> & D1 & D2).
  destruct p; cbn in *. subst w1. repeat split; auto.
Qed.

Lemma update_dev_checked d t z rp rv p q :
  update_energy_deviations (Some d) t z rp rv p = Some q ->
  let T := sqrt (d ^ 2 + 2 * d + 1 / e_beta0 p ^ 2) - 1 / e_beta0 p in
  e_delta q = d
  /\ when t (fun x => e_ptau q = x) /\ close (e_ptau q) T
  /\ when z (fun x => close x (T / e_beta0 p))
  /\ when rp (fun x => e_rpp q = x) /\ close (e_rpp q) (1 / (1 + d))
  /\ when rv (fun x => e_rvv q = x)
  /\ close (e_rvv q) ((1 + d) / sqrt ((d * e_beta0 p) ^ 2 + 2 * (d * e_beta0 p) * e_beta0 p + 1)).
Proof.
  unfold update_energy_deviations. cbn [is_none andb negb bind].
  intros H. apply bind_some in H as (u & A & H). apply assert_consistent_close in A.
  apply bind_some in H as (p1 & B & H). apply set_if_inv in B as (w1 & -> & B1 & B2). cbn in B1.
  apply bind_some in H as (p2 & C & H). apply set_if_inv in C as (w2 & -> & C1 & C2).
  apply bind_some in H as (p3 & D & H). apply set_if_inv in D as (w3 & -> & D1 & D2).
  apply set_if_inv in H as (w4 & -> & F1 & F2).
  subst w1.
  replace (e_delta (upd Vptau w2 (upd Vdelta d p))) with d in * by (destruct p; reflexivity).
  replace (1 + (sqrt ((d * e_beta0 p) ^ 2 + 2 * (d * e_beta0 p) * e_beta0 p + 1) - 1))
    with (sqrt ((d * e_beta0 p) ^ 2 + 2 * (d * e_beta0 p) * e_beta0 p + 1)) in F2 by ring.
  destruct p; cbn in *. repeat split; auto.
Qed.

(** * Frozen energy *)
Lemma frozen_update_ptau fz t p :
  fz Vptau = true -> fz Vdelta = true -> fz Vrpp = true -> fz Vrvv = true -> update_ptau fz t p = p.
Proof. intros A B C D. unfold update_ptau, set. rewrite A, B, C, D. reflexivity. Qed.

Lemma frozen_update_delta fz t p :
  fz Vptau = true -> fz Vdelta = true -> fz Vrpp = true -> fz Vrvv = true -> update_delta fz t p = p.
Proof. intros A B C D. unfold update_delta, set. rewrite A, B, C, D. reflexivity. Qed.

Lemma frozen_add_to_energy fz dE b p :
  fz Vptau = true -> fz Vdelta = true -> fz Vrpp = true -> fz Vrvv = true ->
  consistent p -> add_to_energy fz dE b p = p.
Proof.
  intros A B C D (r & P & E & H).
  unfold add_to_energy. rewrite frozen_update_ptau by auto. destruct b; auto.
  assert (e_rpp p <> 0).
  { rewrite (describes_rpp _ _ _ _ H).
    assert (0 < P) by (destruct H as (? & ?); tauto).
    assert (0 < r) by (destruct H as (? & ?); tauto).
    destruct (describes_refs _ _ _ _ H) as (E0 & _ & Hp & _).
    assert (0 < r * e_p0c p / P); [|lra].
    apply Rdiv_lt_0_compat; auto. apply Rmult_lt_0_compat; auto. }
  replace (e_rpp p / e_rpp p) with 1 by (field; auto).
  unfold scale. destruct (fz Vpx), (fz Vpy); destruct p; cbn; rewrite ?Rmult_1_r; reflexivity.
Qed.

(** * Angles *)
Lemma set_xp_yp_read p xp yp : consistent p ->
  get_xp (set_xp_yp fz_none xp yp p) = xp /\ get_yp (set_xp_yp fz_none xp yp p) = yp.
Proof.
  intros (r & P & E & H).
  assert (0 < e_rpp p).
  { rewrite (describes_rpp _ _ _ _ H).
    assert (0 < P) by (destruct H as (? & ?); tauto).
    assert (0 < r) by (destruct H as (? & ?); tauto).
    destruct (describes_refs _ _ _ _ H) as (E0 & _ & Hp & _).
    apply Rdiv_lt_0_compat; auto. apply Rmult_lt_0_compat; auto. }
  unfold get_xp, get_yp, set_xp_yp. destruct p. cbn in *. split; field; lra.
Qed.

Lemma rpp_delta p : consistent p -> e_rpp p = 1 / (1 + e_delta p) /\ 0 < 1 + e_delta p.
Proof.
  intros (r & P & E & H).
  rewrite (describes_rpp _ _ _ _ H). pose proof (describes_momentum _ _ _ _ H) as EP.
  assert (0 < P) by (destruct H as (? & ?); tauto).
  assert (0 < r) by (destruct H as (? & ?); tauto).
  destruct (describes_refs _ _ _ _ H) as (E0 & _ & Hp & _).
  assert (0 < 1 + e_delta p).
  { apply Rmult_lt_reg_r with (e_p0c p * r). { apply Rmult_lt_0_compat; auto. } lra. }
  split; auto. rewrite EP. field. repeat split; lra.
Qed.

Lemma set_exact_read p xp yp : consistent p ->
  let q := set_exact_xp_yp fz_none xp yp p in
  get_exact_xp q = xp /\ get_exact_yp q = yp
  /\ e_delta q = e_delta p /\ e_px q * e_px q + e_py q * e_py q < (1 + e_delta p) * (1 + e_delta p).
Proof.
  intros H. destruct (rpp_delta p H) as (Hrpp & Hd). cbv zeta.
  unfold get_exact_xp, get_exact_yp, exact_rpp, set_exact_xp_yp. unset. rewrite Hrpp.
  set (D := 1 + e_delta p) in *.
  assert (Hs0 : 0 < 1 + xp * xp + yp * yp) by nra.
  set (S := sqrt (1 + xp * xp + yp * yp)).
  assert (HS : 0 < S) by (apply sqrt_lt_R0; auto).
  assert (HSS : S * S = 1 + xp * xp + yp * yp) by (apply sqrt_sqrt; lra).
  assert (EX : xp / (1 / D * S) = xp * D / S) by (field; split; lra).
  assert (EY : yp / (1 / D * S) = yp * D / S) by (field; split; lra).
  rewrite EX, EY.
  set (q := upd Vpy _ _).
  assert (Q : e_px q = xp * D / S /\ e_py q = yp * D / S /\ e_delta q = e_delta p)
    by (unfold q; destruct p; cbn; auto).
  destruct Q as (-> & -> & ->). fold D.
  assert (Hsq : D * D - xp * D / S * (xp * D / S) - yp * D / S * (yp * D / S) = D / S * (D / S)).
  { apply Rmult_eq_reg_r with (S * S); [|nra].
    replace ((D * D - xp * D / S * (xp * D / S) - yp * D / S * (yp * D / S)) * (S * S))
      with (D * D * (S * S) - xp * xp * (D * D) - yp * yp * (D * D)) by (field; lra).
    replace (D / S * (D / S) * (S * S)) with (D * D) by (field; lra).
    rewrite HSS. ring. }
  assert (Hds : 0 < D / S) by (apply Rdiv_lt_0_compat; lra).
  rewrite Hsq, sqrt_square by lra.
  repeat split; try (field; lra).
  nra.
Qed.

Lemma add_exact_read p xp yp : consistent p ->
  let q := add_to_exact_xp_yp fz_none xp yp p in
  get_exact_xp q = get_exact_xp p + xp /\ get_exact_yp q = get_exact_yp p + yp.
Proof. intros H. destruct (set_exact_read p (get_exact_xp p + xp) (get_exact_yp p + yp) H) as (A & B & _). auto. Qed.

Lemma scale_exact_read p a b : consistent p ->
  let q := scale_exact_xp_yp fz_none a b p in
  get_exact_xp q = get_exact_xp p * a /\ get_exact_yp q = get_exact_yp p * b.
Proof. intros H. destruct (set_exact_read p (get_exact_xp p * a) (get_exact_yp p * b) H) as (A & B & _). auto. Qed.
