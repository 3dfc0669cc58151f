(** Proofs for exciters, AC dipoles and electron lenses. *)
From Coq Require Import Reals List ZArith Lra Lia Psatz.
From Verif.Model Require Import Excite.
From Verif.Spec Require Import Excite.
Import ListNotations.
Local Open Scope R_scope.

(** * Exciter *)
Lemma int_part_unique : forall r n, IZR n <= r < IZR n + 1 -> Int_part r = n.
Proof.
  intros r n [H1 H2]. unfold Int_part. assert (E : (n + 1)%Z = up r); [|lia].
  apply tech_up; rewrite plus_IZR; lra.
Qed.
Lemma to_int_pos : forall r n, (0 <= n)%Z -> IZR n <= r < IZR n + 1 -> to_int r = n.
Proof.
  intros r n N H. apply IZR_le in N. unfold to_int. destruct (Rle_dec 0 r); [now apply int_part_unique|lra].
Qed.
Lemma to_int_zero : forall r, -1 < r < 0 -> to_int r = 0%Z.
Proof.
  intros r H. unfold to_int. destruct (Rle_dec 0 r); [lra|]. rewrite (int_part_unique (- r) 0); [reflexivity|lra].
Qed.
Lemma int_part_bounds : forall r, IZR (Int_part r) <= r < IZR (Int_part r) + 1.
Proof. intro r. destruct (base_Int_part r). lra. Qed.
Lemma to_int_neg : forall r, r <= -1 -> (to_int r < 0)%Z.
Proof.
  intros r H. unfold to_int. destruct (Rle_dec 0 r); [lra|]. pose proof (int_part_bounds (- r)).
  assert (IZR 0 < IZR (Int_part (- r))) by lra. apply lt_IZR in H1. lia.
Qed.
Lemma to_int_ge : forall r n, (0 <= n)%Z -> IZR n <= r -> (n <= to_int r)%Z.
Proof.
  intros r n N H. apply IZR_le in N. unfold to_int. destruct (Rle_dec 0 r); [|lra]. pose proof (int_part_bounds r).
  assert (IZR n < IZR (Int_part r + 1)) by (rewrite plus_IZR; lra). apply lt_IZR in H1. lia.
Qed.
Lemma sample_time_is : forall c e p, c <> 0 -> p_beta0 p <> 0 -> sample_time c e p = samples_since_start c e p.
Proof.
  intros c e p C B. unfold sample_time, samples_since_start. rewrite minus_IZR. unfold Rdiv. rewrite Rinv_mult. ring.
Qed.
Lemma excite_field : forall sign x y l n f acc,
  f = INR (fact (pred n)) ->
  excite sign x y n f (fst (cpow x y n)) (snd (cpow x y n)) l acc =
  (fst acc + sign * fst (field x y n l), snd acc + sign * snd (field x y n l)).
Proof.
  intros sign x y l. induction l as [|[kn ks] l IH]; intros n f acc F; cbn [excite field].
  - destruct acc; cbn. f_equal; ring.
  - set (f' := match n with O => f | S _ => f * INR n end).
    assert (F' : f' = INR (fact (pred (S n)))).
    { subst f'. cbn [pred]. destruct n; [exact F|]. rewrite F, <- mult_INR. f_equal. cbn [pred]. rewrite Nat.mul_comm. reflexivity. }
    specialize (IH (S n) f'). cbn [cpow] in IH. destruct (cpow x y n) as [a b]. cbn [fst snd] in *.
    rewrite IH by exact F'. cbn [pred] in F'. rewrite F'. destruct (field x y (S n) l) as [g h]. cbn [fst snd]. unfold Rdiv. f_equal; ring.
Qed.
Lemma excite_all : forall sign x y l,
  excite sign x y 0 1 1 0 l (0, 0) = (sign * fst (field x y 0 l), sign * snd (field x y 0 l)).
Proof.
  intros. pose proof (excite_field sign x y l 0 1 (0, 0)) as H. cbn [cpow fst snd] in H. rewrite H by reflexivity. f_equal; ring.
Qed.
Lemma rem_mod : forall n m, (0 <= n)%Z -> (0 < m)%Z -> (if m <=? n then Z.rem n m else n)%Z = (n mod m)%Z.
Proof.
  intros n m N M. destruct (Z.leb_spec m n).
  - apply Z.rem_mod_nonneg; lia.
  - symmetry. apply Z.mod_small. lia.
Qed.
Lemma track_at : forall c bt e p i, (0 < nsamples e)%Z -> to_int (sample_time c e p) = i -> (0 <= i < x_nduration e)%Z ->
  track_exciter c bt e p =
  let s := (if bt then -1 else 1) * nth (Z.to_nat (i mod nsamples e)) (x_samples e) 0 in
  add_kick (- p_chi p * s * fst (field (p_x p) (p_y p) 0 (x_knl e))) (p_chi p * s * snd (field (p_x p) (p_y p) 0 (x_knl e))) p.
Proof.
  intros c bt e p i N I H. unfold track_exciter. cbv zeta. rewrite I.
  replace ((0 <=? i)%Z && (i <? x_nduration e)%Z)%bool with true
    by (symmetry; apply andb_true_intro; split; [apply Z.leb_le|apply Z.ltb_lt]; lia).
  rewrite rem_mod by lia. rewrite excite_all. cbn [fst snd]. f_equal; ring.
Qed.
Theorem sample : forall c e p n, c <> 0 -> p_beta0 p <> 0 -> (0 < nsamples e)%Z -> (0 <= n < x_nduration e)%Z ->
  IZR n <= samples_since_start c e p < IZR n + 1 ->
  kicked e (nth (Z.to_nat (n mod nsamples e)) (x_samples e) 0) p (track_exciter c false e p).
Proof.
  intros c e p n C B N D T. rewrite <- sample_time_is in T by assumption.
  rewrite (track_at c false e p n N) by (try apply to_int_pos; lia || exact T). cbv zeta. unfold kicked. cbn.
  repeat split; ring.
Qed.
Theorem outside : forall c bt e p, c <> 0 -> p_beta0 p <> 0 -> (0 <= x_nduration e)%Z ->
  samples_since_start c e p <= -1 \/ IZR (x_nduration e) <= samples_since_start c e p -> track_exciter c bt e p = p.
Proof.
  intros c bt e p C B D T. rewrite <- sample_time_is in T by assumption. unfold track_exciter. cbv zeta.
  replace ((0 <=? to_int (sample_time c e p))%Z && (to_int (sample_time c e p) <? x_nduration e)%Z)%bool with false; [reflexivity|].
  symmetry. apply Bool.andb_false_iff. destruct T as [T|T].
  - left. apply Z.leb_gt. now apply to_int_neg.
  - right. apply Z.ltb_ge. now apply to_int_ge.
Qed.
Theorem before : forall c e p, c <> 0 -> p_beta0 p <> 0 -> (0 < nsamples e)%Z -> (0 < x_nduration e)%Z ->
  -1 < samples_since_start c e p < 0 -> kicked e (nth 0 (x_samples e) 0) p (track_exciter c false e p).
Proof.
  intros c e p C B N D T. rewrite <- sample_time_is in T by assumption.
  rewrite (track_at c false e p 0 N) by (try apply to_int_zero; lia || exact T). cbv zeta.
  rewrite Z.mod_0_l by lia. unfold kicked. cbn. repeat split; ring.
Qed.
Lemma kick_back : forall a b p, add_kick (- a) (- b) (add_kick a b p) = p.
Proof. intros a b [x px y py z b0 ch pc q rv rp t]. unfold add_kick. cbn. f_equal; ring. Qed.
Lemma sample_time_kick : forall c e a b p, sample_time c e (add_kick a b p) = sample_time c e p.
Proof. reflexivity. Qed.
Theorem undone : forall c bt e p, (0 < nsamples e)%Z -> track_exciter c (negb bt) e (track_exciter c bt e p) = p.
Proof.
  intros c bt e p N. pose (i := to_int (sample_time c e p)).
  destruct ((0 <=? i)%Z && (i <? x_nduration e)%Z)%bool eqn:I.
  - apply andb_prop in I. destruct I as [I1 I2]. apply Z.leb_le in I1. apply Z.ltb_lt in I2.
    rewrite (track_at c bt e p i N) by (lia || reflexivity). cbv zeta.
    rewrite (track_at c (negb bt) e _ i N) by (lia || (rewrite sample_time_kick; reflexivity)). cbv zeta.
    cbn [add_kick p_x p_y p_chi]. etransitivity; [|apply kick_back]. f_equal; destruct bt; cbn [negb]; ring.
  - unfold track_exciter at 2. cbv zeta. fold i. rewrite I. unfold track_exciter. cbv zeta. fold i. rewrite I. reflexivity.
Qed.
Lemma zip_split : forall (f g : R * R -> R) l, zip (map f l) (map g l) = map (fun k => (f k, g k)) l.
Proof. induction l; cbn; [reflexivity|]. now rewrite IHl. Qed.
Lemma field_opp : forall x y l n, field x y n (map (fun k => (- fst k, - snd k)) l) = (- fst (field x y n l), - snd (field x y n l)).
Proof.
  intros x y l. induction l as [|[kn ks] l IH]; intro n; cbn [map field fst snd]; [f_equal; ring|].
  rewrite IH. destruct (cpow x y n), (field x y (S n) l). cbn [fst snd]. unfold Rdiv. f_equal; ring.
Qed.
Theorem undone_element : forall c e p, (0 < nsamples e)%Z -> x_nduration e = nsamples e ->
  track_exciter c false (backtrack_element e) (track_exciter c false e p) = p.
Proof.
  intros c e p N D.
  assert (B : forall q, track_exciter c false (backtrack_element e) q = track_exciter c true e q).
  { intro q. unfold track_exciter. cbv zeta. change (sample_time c (backtrack_element e) q) with (sample_time c e q).
    change (x_nduration (backtrack_element e)) with (nsamples e). change (nsamples (backtrack_element e)) with (nsamples e).
    change (x_samples (backtrack_element e)) with (x_samples e). rewrite D. rewrite !excite_all.
    unfold backtrack_element, mk_exciter. cbn [x_knl]. rewrite zip_split, field_opp. cbn [fst snd].
    destruct (_ && _)%bool; [|reflexivity]. f_equal; ring. }
  rewrite B. now apply (undone c false e p).
Qed.
Definition part1 (turn : Z) (zeta : R) : part := mkP 0 0 0 0 zeta 1 1 1000000000 1 1 1 turn.
Definition exc1 (duration : option R) : exciter := mk_exciter [1] [] [1] 1 1 0 duration.
Lemma exc1_kick : forall d i p, to_int (sample_time 1 (exc1 d) p) = i -> (0 <= i < x_nduration (exc1 d))%Z ->
  track_exciter 1 false (exc1 d) p = add_kick (- p_chi p) 0 p.
Proof.
  intros d i p I H. rewrite (track_at 1 false (exc1 d) p i) by (exact I || exact H || reflexivity).
  change (nsamples (exc1 d)) with 1%Z. rewrite Z.mod_1_r. cbn. f_equal; field.
Qed.
Theorem before_refuted : exists c e p, c <> 0 /\ p_beta0 p <> 0 /\ (0 < nsamples e)%Z /\ samples_since_start c e p < 0 /\
  track_exciter c false e p <> p.
Proof.
  exists 1, (exc1 None), (part1 0 (1 / 2)). split; [lra|]. split; [cbn; lra|]. split; [reflexivity|].
  assert (T : samples_since_start 1 (exc1 None) (part1 0 (1 / 2)) = - 1 / 2) by (unfold samples_since_start; cbn; field).
  rewrite T. split; [lra|]. rewrite (exc1_kick None 0).
  - intro H. apply (f_equal p_px) in H. cbn in H. lra.
  - apply to_int_zero. rewrite sample_time_is, T by (cbn; lra). lra.
  - cbn. lia.
Qed.
Theorem undone_element_refuted : exists c e p, c <> 0 /\ p_beta0 p <> 0 /\ (0 < nsamples e)%Z /\
  track_exciter c false (backtrack_element e) (track_exciter c false e p) <> p.
Proof.
  exists 1, (exc1 (Some 2)), (part1 1 0). split; [lra|]. split; [cbn; lra|]. split; [reflexivity|].
  assert (T : forall e a b, x_fs e = 1 -> x_frev e = 1 -> x_start e = 0%Z -> to_int (sample_time 1 e (add_kick a b (part1 1 0))) = 1%Z).
  { intros e a b F V S. apply to_int_pos; [lia|]. unfold sample_time. rewrite F, V, S. cbn. lra. }
  assert (D : x_nduration (exc1 (Some 2)) = 2%Z) by (cbn; apply to_int_pos; [lia|lra]).
  rewrite (exc1_kick _ 1).
  - unfold track_exciter. cbv zeta. rewrite T by reflexivity. change (x_nduration (backtrack_element (exc1 (Some 2)))) with 1%Z.
    cbn [Z.leb Z.ltb Z.compare Pos.compare Pos.compare_cont andb]. intro H. apply (f_equal p_px) in H. cbn in H. lra.
  - apply to_int_pos; [lia|]. unfold sample_time. cbn. lra.
  - rewrite D. lia.
Qed.

(** * AC dipole *)
Lemma frac : forall a b, 0 <= a -> a <= b -> 0 < b -> 0 <= a / b <= 1.
Proof.
  intros a b A B C. split; [apply Rmult_le_pos; [lra|]; left; now apply Rinv_0_lt_compat|].
  apply Rmult_le_reg_r with b; [lra|]. unfold Rdiv. rewrite Rmult_assoc, Rinv_l by lra. lra.
Qed.
Lemma voltage : forall vrf r1 r2 r3 r4 t, (r1 < r2)%Z -> (r2 <= r3)%Z -> (r3 < r4)%Z ->
  exists v, ac_voltage vrf r1 r2 r3 r4 t = v * vrf /\ envelope r1 r2 r3 r4 t v.
Proof.
  intros vrf r1 r2 r3 r4 t A B C. unfold ac_voltage, envelope.
  pose proof (IZR_lt 0 (r2 - r1) ltac:(lia)). pose proof (IZR_lt 0 (r4 - r3) ltac:(lia)).
  destruct (Z.ltb_spec t r1); [|destruct (Z.ltb_spec t r2); [|destruct (Z.ltb_spec t r3); [|destruct (Z.ltb_spec t r4)]]].
  - exists 0. split; [ring|]. repeat split; intros; try lia; lra.
  - exists (IZR (t - r1) / IZR (r2 - r1)). split; [field; lra|].
    pose proof (frac (IZR (t - r1)) (IZR (r2 - r1)) ltac:(apply IZR_le; lia) ltac:(apply IZR_le; lia) ltac:(lra)).
    repeat split; intros; try lia; try lra; [|field; lra]. replace (t - r1)%Z with 0%Z by lia. field; lra.
  - exists 1. split; [ring|]. repeat split; intros; try lia; try lra.
    replace t with r2 by lia. ring.
  - exists (IZR (r4 - t) / IZR (r4 - r3)). split; [field; lra|].
    pose proof (frac (IZR (r4 - t)) (IZR (r4 - r3)) ltac:(apply IZR_le; lia) ltac:(apply IZR_le; lia) ltac:(lra)).
    assert (Q : t = r3 -> IZR (r4 - t) / IZR (r4 - r3) = 1) by (intros ->; field; lra).
    repeat split; intros; try lia; try lra; [|apply Q; lia|field; lra].
    rewrite Q by lia. replace t with r2 by lia. ring.
  - exists 0. split; [ring|]. repeat split; intros; try lia; try lra. replace (r4 - t)%Z with 0%Z by lia. ring.
Qed.
Theorem ac_program : forall a p r1 r2 r3 r4, a_twiss a = false -> a_ramp a = (r1, r2, r3, r4) ->
  (0 <= r1 < r2)%Z -> (r2 <= r3)%Z -> (r3 < r4 < 65536)%Z ->
  exists v, envelope r1 r2 r3 r4 (p_turn p) v /\
    let kick := v * (a_volt a * (3 / 10)) / (p_p0c p / 10 ^ 9) * sin (2 * PI * (a_lag a + a_freq a * IZR (p_turn p))) in
    track_acdipole a p = match a_plane a with O => p | 1%nat => add_kick kick 0 p | _ => add_kick 0 kick p end.
Proof.
  intros a p r1 r2 r3 r4 T R A B C.
  destruct (voltage (a_volt a * (300 / 1000)) r1 r2 r3 r4 (p_turn p)) as (v & V & E); [lia..|].
  exists v. split; [exact E|]. cbv zeta. unfold track_acdipole. rewrite T, R. unfold u16. rewrite !Z.mod_small by lia. rewrite V.
  replace (v * (a_volt a * (300 / 1000))) with (v * (a_volt a * (3 / 10))) by field.
  replace (10 ^ 9) with 1000000000 by ring.
  replace (a_lag a * 2 * PI + a_freq a * 2 * PI * IZR (p_turn p)) with (2 * PI * (a_lag a + a_freq a * IZR (p_turn p))) by ring.
  destruct (a_plane a) as [|[|n]]; reflexivity.
Qed.
Theorem ac_twiss : forall a p, a_twiss a = true ->
  track_acdipole a p = match a_plane a with O => p | 1%nat => add_kick (a_grad a * p_x p) 0 p | _ => add_kick 0 (a_grad a * p_y p) p end.
Proof.
  intros a p T. unfold track_acdipole. rewrite T. destruct (a_plane a) as [|[|n]]; [reflexivity|..];
    (destruct (Req_EM_T (a_grad a) 0) as [->|_]; [|reflexivity]; destruct p; unfold add_kick; cbn; f_equal; ring).
Qed.
Definition ac1 : acdipole := mkA 1 0 (1 / 4) (65536, 65537, 65538, 65539)%Z 1 false 0.
Theorem ac_refuted : exists a p r1 r2 r3 r4, a_twiss a = false /\ a_ramp a = (r1, r2, r3, r4) /\
  (0 <= r1 < r2)%Z /\ (r2 <= r3)%Z /\ (r3 < r4 < 2 ^ 32)%Z /\ (p_turn p < r1)%Z /\ track_acdipole a p <> p.
Proof.
  exists ac1, (part1 1 0), 65536%Z, 65537%Z, 65538%Z, 65539%Z. split; [reflexivity|]. split; [reflexivity|]. repeat (split; [cbn; lia|]).
  intro H. apply (f_equal p_px) in H. unfold track_acdipole, ac1 in H. cbn in H.
  replace (1 / 4 * 2 * PI + 0 * 2 * PI * 1) with (PI / 2) in H by field. rewrite sin_PI2 in H. lra.
Qed.

(** * Electron lens *)
Theorem elens_hollow : forall c eps0 emass bt e p, 0 <= l_r1 e -> p_x p * p_x p + p_y p * p_y p <= l_r1 e * l_r1 e ->
  track_elens c eps0 emass bt e p = add_kick (l_resx e) (l_resy e) p.
Proof.
  intros c eps0 emass bt e p N H. unfold track_elens. cbv zeta. destruct (Rlt_dec _ _) as [L|L]; [|reflexivity]. exfalso.
  apply sqrt_le_1_alt in H. rewrite sqrt_square in H by lra. lra.
Qed.
(** Away from the hole the kick is along the radius; outside the electrons, times the radius, it does not depend on the place. *)
Theorem elens_radial : forall c eps0 emass bt e p, let p' := track_elens c eps0 emass bt e p in
  0 <= l_r1 e -> l_r1 e * l_r1 e < p_x p * p_x p + p_y p * p_y p ->
  p_x p * (p_py p' - p_py p) = p_y p * (p_px p' - p_px p).
Proof.
  intros c eps0 emass bt e p p' N H. subst p'. unfold track_elens. cbv zeta. destruct (Rlt_dec _ _) as [L|L].
  - cbn. unfold Rdiv. ring.
  - exfalso. apply L. rewrite <- (sqrt_square (l_r1 e)) by lra. apply sqrt_lt_1_alt. split; [nra|exact H].
Qed.
Lemma theta_opp : forall c eps0 emass l e p, theta_max c eps0 emass (- l) e p = - theta_max c eps0 emass l e p.
Proof. intros. unfold theta_max, Rdiv. ring. Qed.
Theorem elens_outside : forall c eps0 emass e p, let p' := track_elens c eps0 emass false e p in
  0 < l_r1 e < l_r2 e -> l_r2 e * l_r2 e < p_x p * p_x p + p_y p * p_y p ->
  p_x p * (p_px p' - p_px p) + p_y p * (p_py p' - p_py p) =
  - (theta_max c eps0 emass (l_length e) e p * l_r2 e / (p_rpp p * p_chi p)).
Proof.
  intros c eps0 emass e p p' N H. subst p'. unfold track_elens. cbv zeta.
  set (q := p_x p * p_x p + p_y p * p_y p) in *. assert (Q : 0 <= q) by nra.
  assert (S : l_r2 e < sqrt q). { rewrite <- (sqrt_square (l_r2 e)) by lra. apply sqrt_lt_1_alt. split; [nra|exact H]. }
  destruct (Rlt_dec _ _) as [L|L]; [|lra]. unfold frr. destruct (Rlt_dec _ _); [lra|]. destruct (Rlt_dec _ _); [|lra]. cbn.
  set (w := theta_max c eps0 emass (l_length e) e p). set (k := p_rpp p * p_chi p).
  assert (E : p_x p * p_x p + p_y p * p_y p = sqrt q * sqrt q) by (rewrite sqrt_sqrt by exact Q; reflexivity).
  transitivity ((p_x p * p_x p + p_y p * p_y p) * (- w * l_r2 e * / k) * / sqrt q * / sqrt q); [unfold Rdiv; ring|].
  rewrite E. unfold Rdiv. transitivity ((- w * l_r2 e * / k) * (sqrt q * / sqrt q) * (sqrt q * / sqrt q)); [ring|].
  rewrite Rinv_r by lra. ring.
Qed.
Theorem elens_force : forall c eps0 emass e p beta_e, let p' := track_elens c eps0 emass false e p in
  0 < c -> 0 < eps0 -> 0 < emass -> 0 < l_voltage e -> 0 < p_p0c p -> p_q0 p <> 0 -> p_rvv p * p_beta0 p <> 0 -> p_rpp p * p_chi p <> 0 ->
  0 < beta_e -> beta_e * beta_e = 1 - (emass / (l_voltage e + emass)) * (emass / (l_voltage e + emass)) ->
  0 < l_r1 e < l_r2 e -> l_r2 e * l_r2 e < p_x p * p_x p + p_y p * p_y p ->
  (p_x p * (p_px p' - p_px p) + p_y p * (p_py p' - p_py p)) * (p_rpp p * p_chi p) * (p_p0c p / (p_q0 p * c)) =
  - (l_current e * l_length e / (2 * PI * eps0) * (1 / (beta_e * (p_rvv p * p_beta0 p)) + 1) / (c * c)).
Proof.
  intros c eps0 emass e p b p' C E M V P Q B K Hb Eb N H. unfold p'. rewrite elens_outside by assumption.
  assert (S : sqrt ((l_voltage e + emass) * (l_voltage e + emass) - emass * emass) = b * (l_voltage e + emass)).
  { rewrite <- (sqrt_square (b * (l_voltage e + emass))) by nra. f_equal.
    replace (b * (l_voltage e + emass) * (b * (l_voltage e + emass))) with (b * b * ((l_voltage e + emass) * (l_voltage e + emass))) by ring.
    rewrite Eb. field. lra. }
  unfold theta_max. cbv zeta. rewrite S. pose proof PI_RGT_0. set (bp := p_rvv p * p_beta0 p) in *. set (k := p_rpp p * p_chi p) in *.
  field. repeat split; lra || assumption.
Qed.
Lemma poly_acc : forall l r a, fold_left (fun v k => v * r + k) l a = a * r ^ length l + poly l r.
Proof. induction l as [|k l IH]; intros r a; cbn [fold_left poly length pow]; [ring|]. rewrite IH. ring. Qed.
Lemma poly_horner : forall l r, poly l r = horner l r.
Proof. intros. unfold horner. rewrite poly_acc. ring. Qed.
Theorem elens_profile : forall c eps0 emass e p, let p' := track_elens c eps0 emass false e p in let r := sqrt (p_x p * p_x p + p_y p * p_y p) in
  0 <= l_r1 e -> l_r1 e < r <= l_r2 e ->
  p_x p * (p_px p' - p_px p) + p_y p * (p_py p' - p_py p) =
  - (match l_poly e with [] => (r ^ 2 - l_r1 e ^ 2) / (l_r2 e ^ 2 - l_r1 e ^ 2) | l => horner l (1000 * r) end *
     theta_max c eps0 emass (l_length e) e p * l_r2 e / (p_rpp p * p_chi p)).
Proof.
  intros c eps0 emass e p p' r N I. subst p'. unfold track_elens. cbv zeta. fold r.
  destruct (Rlt_dec _ _) as [L|L]; [|lra].
  assert (F : frr e r = match l_poly e with [] => (r ^ 2 - l_r1 e ^ 2) / (l_r2 e ^ 2 - l_r1 e ^ 2) | l => horner l (1000 * r) end).
  { unfold frr. destruct (Rlt_dec _ _); [lra|]. destruct (Rlt_dec _ _); [lra|]. destruct (l_poly e).
    - now replace (r ^ 2 - l_r1 e ^ 2) with (r * r - l_r1 e * l_r1 e) by ring; replace (l_r2 e ^ 2 - l_r1 e ^ 2) with (l_r2 e * l_r2 e - l_r1 e * l_r1 e) by ring.
    - rewrite poly_horner. f_equal. ring. }
  rewrite F. generalize (match l_poly e with [] => (r ^ 2 - l_r1 e ^ 2) / (l_r2 e ^ 2 - l_r1 e ^ 2) | l => horner l (1000 * r) end) as v. intro v. cbn.
  set (w := theta_max c eps0 emass (l_length e) e p). set (k := p_rpp p * p_chi p).
  assert (E : p_x p * p_x p + p_y p * p_y p = r * r) by (unfold r; rewrite sqrt_sqrt by nra; reflexivity).
  transitivity ((p_x p * p_x p + p_y p * p_y p) * (- v * w * l_r2 e * / k) * / r * / r); [unfold Rdiv; ring|].
  rewrite E. unfold Rdiv. transitivity ((- v * w * l_r2 e * / k) * (r * / r) * (r * / r)); [ring|].
  rewrite Rinv_r by lra. ring.
Qed.
Theorem elens_edges : forall e, 0 <= l_r1 e < l_r2 e -> l_poly e = [] -> frr e (l_r1 e) = 0 /\ frr e (l_r2 e) = 1 /\
  forall r s, l_r1 e <= r -> r <= s -> s <= l_r2 e -> 0 <= frr e r <= frr e s.
Proof.
  intros e H P.
  assert (F : forall r, l_r1 e <= r <= l_r2 e -> frr e r = (r * r - l_r1 e * l_r1 e) / (l_r2 e * l_r2 e - l_r1 e * l_r1 e)).
  { intros r I. unfold frr. destruct (Rlt_dec _ _); [lra|]. destruct (Rlt_dec _ _); [lra|]. now rewrite P. }
  assert (D : 0 < l_r2 e * l_r2 e - l_r1 e * l_r1 e) by nra.
  rewrite !F by lra. split; [field; lra|]. split; [field; lra|]. intros r s A B C. rewrite !F by lra.
  pose proof (Rinv_0_lt_compat _ D). unfold Rdiv. split; [apply Rmult_le_pos; [nra|lra]|]. apply Rmult_le_compat_r; [lra|]. nra.
Qed.
Theorem elens_undone : forall c eps0 emass bt e p, 0 <= l_r1 e ->
  l_r1 e * l_r1 e < p_x p * p_x p + p_y p * p_y p \/ l_resx e = 0 /\ l_resy e = 0 ->
  track_elens c eps0 emass (negb bt) e (track_elens c eps0 emass bt e p) = p.
Proof.
  intros c eps0 emass bt e p N H. unfold track_elens at 2. cbv zeta. destruct (Rlt_dec _ _) as [L|L].
  - unfold track_elens. cbv zeta. cbn [add_kick p_x p_y p_rpp p_chi]. destruct (Rlt_dec _ _) as [_|L']; [|contradiction].
    etransitivity; [|apply kick_back]. unfold theta_max; cbn [add_kick p_p0c p_q0 p_rvv p_beta0].
    f_equal; destruct bt; cbn [negb]; unfold Rdiv; ring.
  - destruct H as [H|[X Y]].
    + exfalso. apply L. rewrite <- (sqrt_square (l_r1 e)) by lra. apply sqrt_lt_1_alt. split; [nra|exact H].
    + unfold track_elens. cbv zeta. cbn [add_kick p_x p_y]. destruct (Rlt_dec _ _) as [L'|_]; [contradiction|].
      rewrite X, Y. destruct p. unfold add_kick. cbn. f_equal; ring.
Qed.
Theorem elens_refuted : exists c eps0 emass e p, 0 < l_r1 e < l_r2 e /\
  track_elens c eps0 emass true e (track_elens c eps0 emass false e p) <> p.
Proof.
  exists 1, 1, 1, (mkL 1 1 2 1 1 1 0 []), (part1 0 0). split; [cbn; lra|].
  rewrite (elens_hollow 1 1 1 false) by (cbn; lra). rewrite elens_hollow by (cbn; lra). intro H. apply (f_equal p_px) in H. cbn in H. lra.
Qed.
Lemma case_exciter : (0 < nsamples (exc1 None))%Z /\ x_nduration (exc1 None) = nsamples (exc1 None) /\
  IZR 0 <= samples_since_start 1 (exc1 None) (part1 0 0) < IZR 0 + 1 /\ track_exciter 1 false (exc1 None) (part1 0 0) <> part1 0 0.
Proof.
  split; [reflexivity|]. split; [reflexivity|].
  assert (T : samples_since_start 1 (exc1 None) (part1 0 0) = 0) by (unfold samples_since_start; cbn; field).
  rewrite T. split; [lra|]. rewrite (exc1_kick None 0).
  - intro H. apply (f_equal p_px) in H. cbn in H. lra.
  - apply to_int_pos; [lia|]. rewrite sample_time_is, T by (cbn; lra). lra.
  - cbn. lia.
Qed.
