From Coq Require Import Reals List Bool Arith Lra Psatz.
From Verif.Model Require Import Maps Curved Lattice.
From Verif.Spec Require Import Lattice.
From Verif.Proofs Require Import Curved.
Local Open Scope R_scope.

Definition nu_of (m : mode) : R := sqrt (Rabs (symp (re m) (im m))).
Definition len (row : nat) (m : mode) : R := sqrt (re m row * re m row + im m row * im m row).
Lemma nu_pos : forall m, symp (re m) (im m) <> 0 -> 0 < nu_of m /\ nu_of m * nu_of m = Rabs (symp (re m) (im m)).
Proof.
  intros m H. apply Rabs_pos_lt in H. split; [apply sqrt_lt_R0; exact H | apply sqrt_sqrt; lra].
Qed.
Lemma len_pos : forall row m, re m row <> 0 \/ im m row <> 0 -> 0 < len row m /\ len row m * len row m = re m row * re m row + im m row * im m row.
Proof.
  intros row m H. assert (P : 0 < re m row * re m row + im m row * im m row) by (destruct H; nra).
  split; [apply sqrt_lt_R0; exact P | apply sqrt_sqrt; lra].
Qed.
Lemma sqrt_is : forall x r, 0 <= r -> x = r * r -> sqrt x = r.
Proof. intros x r H ->. apply sqrt_square. exact H. Qed.

Lemma phase_cs : forall row m, regular_mode row m ->
  cos (phase row (renormalize m)) = re m row / len row m /\ sin (phase row (renormalize m)) = im m row / len row m.
Proof.
  intros row m [Hs Hz]. destruct (nu_pos m Hs) as [Np Nn]. destruct (len_pos row m Hz) as [Lp Ll].
  unfold phase, renormalize. cbn [re im]. fold (nu_of m).
  destruct (atan2_spec (im m row / nu_of m) (re m row / nu_of m)) as (Rp & C & S).
  { destruct Hz as [H|H]; [left|right]; unfold Rdiv; apply Rmult_integral_contrapositive_currified; try exact H; apply Rinv_neq_0_compat; lra. }
  rewrite C, S. replace (sqrt _) with (len row m / nu_of m).
  - split; field; lra.
  - symmetry. apply sqrt_is.
    + unfold Rdiv. apply Rmult_le_pos; [lra | left; apply Rinv_0_lt_compat; lra].
    + transitivity (len row m * len row m / (nu_of m * nu_of m)); [rewrite Ll|]; field; lra.
Qed.
Lemma basis_re : forall row m r, regular_mode row m ->
  re (to_basis row m) r = (re m r * re m row + im m r * im m row) / (nu_of m * len row m).
Proof.
  intros row m r H. destruct (phase_cs row m H) as [C S]. destruct H as [Hs Hz]. destruct (nu_pos m Hs) as [Np _]. destruct (len_pos row m Hz) as [Lp _].
  unfold to_basis, rotate. cbn [re im]. rewrite C, S. cbn [renormalize re im]. fold (nu_of m). field. lra.
Qed.
Lemma basis_im : forall row m r, regular_mode row m ->
  im (to_basis row m) r = (im m r * re m row - re m r * im m row) / (nu_of m * len row m).
Proof.
  intros row m r H. destruct (phase_cs row m H) as [C S]. destruct H as [Hs Hz]. destruct (nu_pos m Hs) as [Np _]. destruct (len_pos row m Hz) as [Lp _].
  unfold to_basis, rotate. cbn [re im]. rewrite C, S. cbn [renormalize re im]. fold (nu_of m). field. lra.
Qed.

(** ** Gauge *)
Lemma same_symp : forall m m' k th, 0 < k ->
  (forall r, re m' r = k * (re m r * cos th - im m r * sin th) /\ im m' r = k * (re m r * sin th + im m r * cos th)) ->
  symp (re m') (im m') = k * k * symp (re m) (im m).
Proof.
  intros m m' k th K H. unfold symp.
  destruct (H 0%nat) as [-> ->]. destruct (H 1%nat) as [-> ->]. destruct (H 2%nat) as [-> ->].
  destruct (H 3%nat) as [-> ->]. destruct (H 4%nat) as [-> ->]. destruct (H 5%nat) as [-> ->].
  pose proof (sin2_cos2 th) as P. unfold Rsqr in P.
  transitivity (k * k * (re m 0%nat * im m 1%nat - re m 1%nat * im m 0%nat + (re m 2%nat * im m 3%nat - re m 3%nat * im m 2%nat) + (re m 4%nat * im m 5%nat - re m 5%nat * im m 4%nat)) * (sin th * sin th + cos th * cos th)).
  - ring.
  - rewrite P. ring.
Qed.
Lemma same_basis : forall row m m', regular_mode row m -> same_mode m m' ->
  forall r, re (to_basis row m') r = re (to_basis row m) r /\ im (to_basis row m') r = im (to_basis row m) r.
Proof.
  intros row m m' Hr (k & th & K & H) r. pose proof (same_symp m m' k th K H) as Es.
  pose proof (sin2_cos2 th) as P. unfold Rsqr in P.
  destruct Hr as [Hs Hz]. destruct (nu_pos m Hs) as [Np Nn]. destruct (len_pos row m Hz) as [Lp Ll].
  assert (Hs' : symp (re m') (im m') <> 0).
  { rewrite Es. apply Rmult_integral_contrapositive_currified; [nra | exact Hs]. }
  assert (El : re m' row * re m' row + im m' row * im m' row = k * k * (re m row * re m row + im m row * im m row)).
  { destruct (H row) as [-> ->].
    transitivity (k * k * (re m row * re m row + im m row * im m row) * (sin th * sin th + cos th * cos th)); [ring | rewrite P; ring]. }
  assert (Hz' : re m' row <> 0 \/ im m' row <> 0).
  { destruct (Req_dec (re m' row) 0) as [E1|]; [|left; assumption]. right. intros E2.
    rewrite E1, E2, <- Ll in El. assert (0 < k * k * (len row m * len row m)) by (repeat apply Rmult_lt_0_compat; lra). lra. }
  assert (En : nu_of m' = k * nu_of m).
  { unfold nu_of at 1. rewrite Es, Rabs_mult, (Rabs_right (k * k)) by nra. rewrite <- Nn. apply sqrt_is; [nra | ring]. }
  assert (El' : len row m' = k * len row m).
  { unfold len at 1. rewrite El, <- Ll. apply sqrt_is; [nra | ring]. }
  assert (D : k * nu_of m * (k * len row m) <> 0) by (repeat apply Rmult_integral_contrapositive_currified; lra).
  rewrite !basis_re, !basis_im by (split; assumption). rewrite En, El'.
  destruct (H r) as [-> ->]. destruct (H row) as [-> ->]. split.
  - transitivity (k * k * (re m r * re m row + im m r * im m row) * (sin th * sin th + cos th * cos th) / (k * nu_of m * (k * len row m))).
    + f_equal. ring.
    + rewrite P. field. lra.
  - transitivity (k * k * (im m r * re m row - re m r * im m row) * (sin th * sin th + cos th * cos th) / (k * nu_of m * (k * len row m))).
    + f_equal. ring.
    + rewrite P. field. lra.
Qed.
Theorem gauge : forall w w', regular w -> same_mode (w1 w) (w1 w') -> same_mode (w2 w) (w2 w') -> same_mode (w3 w) (w3 w') ->
  lattice_functions w' = lattice_functions w.
Proof.
  intros w w' (R1 & R2 & R3) S1 S2 S3.
  pose proof (same_basis 0 _ _ R1 S1) as B1. pose proof (same_basis 2 _ _ R2 S2) as B2. pose proof (same_basis 4 _ _ R3 S3) as B3.
  unfold lattice_functions, to_courant_snyder. cbn [w1 w2 w3].
  unfold beta, alfa, gama, disp_pzeta, disp_zeta.
  set (p1 := to_basis 0 (w1 w)) in *. set (p2 := to_basis 2 (w2 w)) in *. set (p3 := to_basis 4 (w3 w)) in *.
  set (q1 := to_basis 0 (w1 w')) in *. set (q2 := to_basis 2 (w2 w')) in *. set (q3 := to_basis 4 (w3 w')) in *.
  rewrite !(proj1 (B1 _)), !(proj2 (B1 _)), !(proj1 (B2 _)), !(proj2 (B2 _)), !(proj1 (B3 _)), !(proj2 (B3 _)). reflexivity.
Qed.

(** ** Values in terms of the given matrix *)
Definition det (row : nat) (m : mode) : R := re m row * im m (S row) - re m (S row) * im m row.
Lemma basis_beta : forall row m r, regular_mode row m -> beta r (to_basis row m) = beta r m / Rabs (symp (re m) (im m)).
Proof.
  intros row m r H. unfold beta. rewrite !basis_re, !basis_im by exact H. destruct H as [Hs Hz].
  destruct (nu_pos m Hs) as [Np Nn]. destruct (len_pos row m Hz) as [Lp Ll]. rewrite <- Nn.
  transitivity ((re m r * re m r + im m r * im m r) * (re m row * re m row + im m row * im m row) / (nu_of m * nu_of m * (len row m * len row m))).
  - field. lra.
  - rewrite <- Ll. field. lra.
Qed.
Lemma basis_gama : forall row m r, regular_mode row m -> gama r (to_basis row m) = gama r m / Rabs (symp (re m) (im m)).
Proof. intros row m r H. exact (basis_beta row m (S r) H). Qed.
Lemma basis_alfa : forall row m r, regular_mode row m -> alfa r (to_basis row m) = alfa r m / Rabs (symp (re m) (im m)).
Proof.
  intros row m r H. unfold alfa. rewrite !basis_re, !basis_im by exact H. destruct H as [Hs Hz].
  destruct (nu_pos m Hs) as [Np Nn]. destruct (len_pos row m Hz) as [Lp Ll]. rewrite <- Nn.
  transitivity ((- re m r * re m (S r) - im m r * im m (S r)) * (re m row * re m row + im m row * im m row) / (nu_of m * nu_of m * (len row m * len row m))).
  - field. lra.
  - rewrite <- Ll. field. lra.
Qed.
Lemma cs_det : forall r m, beta r m * gama r m - alfa r m * alfa r m = det r m * det r m.
Proof. intros r m. unfold beta, gama, alfa, det. ring. Qed.
Lemma plane_symp : forall row m, (row = 0 \/ row = 2 \/ row = 4)%nat -> in_plane row m -> symp (re m) (im m) = det row m.
Proof.
  intros row m [->|[->| ->]] H; unfold symp, det.
  - destruct (H 2%nat) as [-> ->]; try lia. destruct (H 3%nat) as [-> ->]; try lia. destruct (H 4%nat) as [-> ->]; try lia. destruct (H 5%nat) as [-> ->]; try lia. ring.
  - destruct (H 0%nat) as [-> ->]; try lia. destruct (H 1%nat) as [-> ->]; try lia. destruct (H 4%nat) as [-> ->]; try lia. destruct (H 5%nat) as [-> ->]; try lia. ring.
  - destruct (H 0%nat) as [-> ->]; try lia. destruct (H 1%nat) as [-> ->]; try lia. destruct (H 2%nat) as [-> ->]; try lia. destruct (H 3%nat) as [-> ->]; try lia. ring.
Qed.
Lemma plane_regular : forall row m, (row = 0 \/ row = 2 \/ row = 4)%nat -> in_plane row m -> symp (re m) (im m) <> 0 -> regular_mode row m.
Proof.
  intros row m Hr H Hs. split; [exact Hs|]. rewrite (plane_symp row m Hr H) in Hs. unfold det in Hs.
  destruct (Req_dec (re m row) 0) as [E|]; [|left; assumption]. right. intros E'. apply Hs. rewrite E, E'. ring.
Qed.
Lemma sq_div : forall d, d <> 0 -> d * d / (Rabs d * Rabs d) = 1.
Proof. intros d H. rewrite <- Rabs_mult, Rabs_right by nra. field. exact H. Qed.
Lemma basis_cs : forall row m, (row = 0 \/ row = 2 \/ row = 4)%nat -> in_plane row m -> symp (re m) (im m) <> 0 ->
  beta row (to_basis row m) * gama row (to_basis row m) - alfa row (to_basis row m) * alfa row (to_basis row m) = 1.
Proof.
  intros row m Hr H Hs. pose proof (plane_regular row m Hr H Hs) as R0. rewrite basis_beta, basis_gama, basis_alfa by exact R0.
  pose proof (Rabs_pos_lt _ Hs). transitivity ((beta row m * gama row m - alfa row m * alfa row m) / (Rabs (symp (re m) (im m)) * Rabs (symp (re m) (im m)))).
  - field. lra.
  - rewrite cs_det, <- (plane_symp row m Hr H). apply sq_div. exact Hs.
Qed.
(** the matrix in the basis of Courant and Snyder *)
Lemma basis_entries : forall row m, (row = 0 \/ row = 2 \/ row = 4)%nat -> in_plane row m -> 0 < symp (re m) (im m) ->
  let b := to_basis row m in 0 < beta row b /\
  re b row = sqrt (beta row b) /\ im b row = 0 /\ re b (S row) = - alfa row b / sqrt (beta row b) /\ im b (S row) = 1 / sqrt (beta row b).
Proof.
  intros row m Hr H Hs b. assert (Hs' : symp (re m) (im m) <> 0) by lra. pose proof (plane_regular row m Hr H Hs') as R0.
  assert (B : beta row b = len row m * len row m / (nu_of m * nu_of m)).
  { unfold b. rewrite basis_beta by exact R0. destruct R0 as [_ Hz]. destruct (len_pos row m Hz) as [_ Ll]. destruct (nu_pos m Hs') as [_ Nn]. rewrite Ll, Nn. reflexivity. }
  pose proof R0 as [_ Hz]. destruct (len_pos row m Hz) as [Lp Ll]. destruct (nu_pos m Hs') as [Np Nn].
  assert (Sb : sqrt (beta row b) = len row m / nu_of m).
  { rewrite B. apply sqrt_is; [unfold Rdiv; apply Rmult_le_pos; [lra | left; apply Rinv_0_lt_compat; lra] | field; lra]. }
  assert (P : 0 < len row m / nu_of m) by (unfold Rdiv; apply Rmult_lt_0_compat; [lra | apply Rinv_0_lt_compat; lra]).
  split; [rewrite B; replace (len row m * len row m / (nu_of m * nu_of m)) with (len row m / nu_of m * (len row m / nu_of m)) by (field; lra); nra|].
  rewrite Sb. unfold b. rewrite basis_alfa by exact R0. rewrite !basis_re, !basis_im by exact R0.
  rewrite (Rabs_right (symp (re m) (im m))) in * by lra. rewrite (plane_symp row m Hr H) in *. unfold alfa, det in *.
  repeat split.
  - rewrite <- Ll. field. lra.
  - field. lra.
  - rewrite <- Nn. field. lra.
  - transitivity ((re m row * im m (S row) - re m (S row) * im m row) / (nu_of m * len row m)); [f_equal; ring|]. rewrite <- Nn. field. lra.
Qed.

(** ** Transport *)
Theorem transport : forall row m m' a b c d, regular_mode row m -> regular_mode row m' -> symp (re m') (im m') = symp (re m) (im m) ->
  transported row a b c d m m' ->
  let t := to_basis row m in let t' := to_basis row m' in
  beta row t' = a * a * beta row t - 2 * a * b * alfa row t + b * b * gama row t /\
  alfa row t' = - a * c * beta row t + (a * d + b * c) * alfa row t - b * d * gama row t /\
  gama row t' = c * c * beta row t - 2 * c * d * alfa row t + d * d * gama row t.
Proof.
  intros row m m' a b c d R0 R1 Es (T1 & T2 & T3 & T4) t t'. unfold t, t'.
  rewrite !basis_beta, !basis_alfa, !basis_gama by assumption. rewrite Es. destruct R0 as [Hs _]. pose proof (Rabs_pos_lt _ Hs).
  unfold beta, alfa, gama. rewrite T1, T2, T3, T4. repeat split; field; lra.
Qed.
Theorem transport_phase : forall row m m' a b c d, (row = 0 \/ row = 2 \/ row = 4)%nat -> in_plane row m -> 0 < symp (re m) (im m) ->
  regular_mode row m' -> symp (re m') (im m') = symp (re m) (im m) -> transported row a b c d m m' ->
  let t := to_basis row m in let t' := to_basis row m' in
  let adv := phase row (renormalize m') - phase row (renormalize m) in
  sqrt (beta row t * beta row t') * cos adv = a * beta row t - b * alfa row t /\ sqrt (beta row t * beta row t') * sin adv = b.
Proof.
  intros row m m' a b c d Hr Hp Hs R1 Es (T1 & T2 & T3 & T4) t t' adv.
  assert (Hs' : symp (re m) (im m) <> 0) by lra. pose proof (plane_regular row m Hr Hp Hs') as R0.
  destruct (phase_cs row m R0) as [C0 S0]. destruct (phase_cs row m' R1) as [C1 S1].
  unfold adv. rewrite cos_minus, sin_minus, C0, S0, C1, S1. unfold t, t'. rewrite !basis_beta, basis_alfa by assumption. rewrite Es.
  pose proof R0 as [_ Hz]. pose proof R1 as [_ Hz']. destruct (len_pos row m Hz) as [Lp Ll]. destruct (len_pos row m' Hz') as [Lp' Ll'].
  rewrite !(Rabs_right (symp (re m) (im m))) by lra. unfold beta. rewrite <- Ll, <- Ll'.
  rewrite (sqrt_is _ (len row m * len row m' / symp (re m) (im m))).
  - pose proof (plane_symp row m Hr Hp) as Pd. split.
    + transitivity ((re m' row * re m row + im m' row * im m row) / symp (re m) (im m)); [field; lra|].
      rewrite T1, T2. unfold alfa. rewrite Ll. field. lra.
    + transitivity ((im m' row * re m row - re m' row * im m row) / symp (re m) (im m)); [field; lra|].
      rewrite T1, T2. transitivity (b * det row m / symp (re m) (im m)); [unfold det; field; lra|]. rewrite <- Pd. field. lra.
  - unfold Rdiv. apply Rmult_le_pos; [nra | left; apply Rinv_0_lt_compat; lra].
  - field. lra.
Qed.

(** ** Dispersion *)
Theorem dispersion : forall m r p q, regular_mode 4 m -> p * re m 4%nat + q * im m 4%nat = 0 -> p * re m 5%nat + q * im m 5%nat = 1 ->
  disp_pzeta r (to_basis 4 m) = p * re m r + q * im m r.
Proof.
  intros m r p q R0 H4 H5. unfold disp_pzeta. rewrite !basis_re, !basis_im by exact R0. destruct R0 as [Hs Hz].
  destruct (nu_pos m Hs) as [Np _]. destruct (len_pos 4 m Hz) as [Lp Ll].
  assert (D : re m 4%nat * im m 5%nat - im m 4%nat * re m 5%nat <> 0).
  { intros E. assert (A : re m 4%nat = q * (re m 4%nat * im m 5%nat - im m 4%nat * re m 5%nat)).
    { transitivity (re m 4%nat * (p * re m 5%nat + q * im m 5%nat) - re m 5%nat * (p * re m 4%nat + q * im m 4%nat)); [rewrite H4, H5; ring | ring]. }
    assert (B : im m 4%nat = - p * (re m 4%nat * im m 5%nat - im m 4%nat * re m 5%nat)).
    { transitivity (im m 4%nat * (p * re m 5%nat + q * im m 5%nat) - im m 5%nat * (p * re m 4%nat + q * im m 4%nat)); [rewrite H4, H5; ring | ring]. }
    rewrite E in A, B. destruct Hz as [Hz|Hz]; apply Hz; lra. }
  set (D0 := re m 4%nat * im m 5%nat - im m 4%nat * re m 5%nat) in *.
  assert (A : re m 4%nat = q * D0).
  { unfold D0. transitivity (re m 4%nat * (p * re m 5%nat + q * im m 5%nat) - re m 5%nat * (p * re m 4%nat + q * im m 4%nat)); [rewrite H4, H5; ring | ring]. }
  assert (B : im m 4%nat = - p * D0).
  { unfold D0. transitivity (im m 4%nat * (p * re m 5%nat + q * im m 5%nat) - im m 5%nat * (p * re m 4%nat + q * im m 4%nat)); [rewrite H4, H5; ring | ring]. }
  replace (im m 4%nat * re m 4%nat - re m 4%nat * im m 4%nat) with 0 by ring.
  rewrite <- Ll. 
  replace (im m 5%nat * re m 4%nat - re m 5%nat * im m 4%nat) with D0 by (unfold D0; ring).
  transitivity ((im m r * re m 4%nat - re m r * im m 4%nat) / D0).
  - field. repeat split; lra || exact D.
  - rewrite A, B. field. exact D.
Qed.
Theorem crab_dispersion : forall m r p q, regular_mode 4 m -> p * re m 4%nat + q * im m 4%nat = 1 -> p * re m 5%nat + q * im m 5%nat = 0 ->
  re m 4%nat * im m 5%nat - im m 4%nat * re m 5%nat <> 0 ->
  disp_zeta r (to_basis 4 m) = p * re m r + q * im m r.
Proof.
  intros m r p q R0 H4 H5 D. unfold disp_zeta. rewrite !basis_re, !basis_im by exact R0. destruct R0 as [Hs Hz].
  destruct (nu_pos m Hs) as [Np _]. destruct (len_pos 4 m Hz) as [Lp Ll].
  set (D0 := re m 4%nat * im m 5%nat - im m 4%nat * re m 5%nat) in *.
  assert (A : re m 5%nat = - q * D0).
  { unfold D0. transitivity (re m 5%nat * (p * re m 4%nat + q * im m 4%nat) - re m 4%nat * (p * re m 5%nat + q * im m 5%nat)); [rewrite H4, H5; ring | ring]. }
  assert (B : im m 5%nat = p * D0).
  { unfold D0. transitivity (im m 5%nat * (p * re m 4%nat + q * im m 4%nat) - im m 4%nat * (p * re m 5%nat + q * im m 5%nat)); [rewrite H4, H5; ring | ring]. }
  replace (im m 4%nat * re m 4%nat - re m 4%nat * im m 4%nat) with 0 by ring.
  rewrite <- Ll.
  replace (im m 5%nat * re m 4%nat - re m 5%nat * im m 4%nat) with D0 by (unfold D0; ring).
  transitivity (((re m r * re m 4%nat + im m r * im m 4%nat) * D0 - (im m r * re m 4%nat - re m r * im m 4%nat) * (re m 5%nat * re m 4%nat + im m 5%nat * im m 4%nat)) / (len 4 m * len 4 m * D0)).
  - field. repeat split; lra || exact D.
  - rewrite Ll. rewrite A, B.
    assert (Ld : re m 4%nat * re m 4%nat + im m 4%nat * im m 4%nat <> 0) by (rewrite <- Ll; nra).
    transitivity (((re m r * re m 4%nat + im m r * im m 4%nat) - (im m r * re m 4%nat - re m r * im m 4%nat) * (- q * re m 4%nat + p * im m 4%nat)) / (re m 4%nat * re m 4%nat + im m 4%nat * im m 4%nat)).
    { field. split; assumption. }
    transitivity (((re m r * re m 4%nat + im m r * im m 4%nat) * (p * re m 4%nat + q * im m 4%nat) - (im m r * re m 4%nat - re m r * im m 4%nat) * (- q * re m 4%nat + p * im m 4%nat)) / (re m 4%nat * re m 4%nat + im m 4%nat * im m 4%nat)).
    { rewrite H4. field. exact Ld. }
    field. exact Ld.
Qed.

(** ** Edwards and Teng *)
Lemma pair_det : forall m n, symplectic_pair m n -> det 0 m = det 2 n.
Proof.
  intros m n (Z & Sm & Sn & X1 & X2 & X3 & X4). destruct (Z 4%nat) as (A4 & B4 & C4 & D4); [auto|]. destruct (Z 5%nat) as (A5 & B5 & C5 & D5); [auto|].
  unfold symp in *. rewrite ?A4, ?B4, ?C4, ?D4, ?A5, ?B5, ?C5, ?D5 in *. unfold det.
  assert (P : det 0 m * det 0 n = det 2 m * det 2 n).
  { unfold det.
    transitivity ((re m 0%nat * re n 1%nat - re m 1%nat * re n 0%nat) * (im m 0%nat * im n 1%nat - im m 1%nat * im n 0%nat)
                  - (re m 0%nat * im n 1%nat - re m 1%nat * im n 0%nat) * (im m 0%nat * re n 1%nat - im m 1%nat * re n 0%nat)); [ring|].
    replace (re m 0%nat * re n 1%nat - re m 1%nat * re n 0%nat) with (- (re m 2%nat * re n 3%nat - re m 3%nat * re n 2%nat)) by lra.
    replace (im m 0%nat * im n 1%nat - im m 1%nat * im n 0%nat) with (- (im m 2%nat * im n 3%nat - im m 3%nat * im n 2%nat)) by lra.
    replace (re m 0%nat * im n 1%nat - re m 1%nat * im n 0%nat) with (- (re m 2%nat * im n 3%nat - re m 3%nat * im n 2%nat)) by lra.
    replace (im m 0%nat * re n 1%nat - im m 1%nat * re n 0%nat) with (- (im m 2%nat * re n 3%nat - im m 3%nat * re n 2%nat)) by lra.
    ring. }
  unfold det in P.
  assert (E1 : re m 2%nat * im m 3%nat - re m 3%nat * im m 2%nat = 1 - (re m 0%nat * im m 1%nat - re m 1%nat * im m 0%nat)) by lra.
  assert (E2 : re n 0%nat * im n 1%nat - re n 1%nat * im n 0%nat = 1 - (re n 2%nat * im n 3%nat - re n 3%nat * im n 2%nat)) by lra.
  rewrite E1, E2 in P. lra.
Qed.
Theorem edwards_teng : forall w, symplectic_pair (w1 w) (w2 w) -> regular w ->
  re (w1 w) 0%nat * im (w1 w) 1%nat - re (w1 w) 1%nat * im (w1 w) 0%nat <> 0 ->
  let l := lattice_functions w in 0 < g_squared l /\
  betx_edw_teng l * (gamx l / g_squared l) - alfx_edw_teng l * alfx_edw_teng l = 1 /\
  bety_edw_teng l * (gamy l / g_squared l) - alfy_edw_teng l * alfy_edw_teng l = 1.
Proof.
  intros w Hp (R1 & R2 & _) Hd l. pose proof (pair_det _ _ Hp) as Pd. destruct Hp as (_ & S1 & S2 & _).
  change (det 0 (w1 w) <> 0) in Hd.
  assert (X : betx l * gamx l - alfx l * alfx l = det 0 (w1 w) * det 0 (w1 w)).
  { unfold l, lattice_functions, to_courant_snyder. cbn [w1 w2 w3 betx gamx alfx]. rewrite basis_beta, basis_gama, basis_alfa by assumption.
    rewrite S1, Rabs_R1, <- cs_det. field. }
  assert (Y : bety l * gamy l - alfy l * alfy l = det 0 (w1 w) * det 0 (w1 w)).
  { unfold l, lattice_functions, to_courant_snyder. cbn [w1 w2 w3 bety gamy alfy]. rewrite basis_beta, basis_gama, basis_alfa by assumption.
    rewrite S2, Rabs_R1, Pd, <- cs_det. field. }
  assert (Dp : 0 < det 0 (w1 w) * det 0 (w1 w)) by nra.
  assert (G : g_squared l * g_squared l = det 0 (w1 w) * det 0 (w1 w)).
  { unfold g_squared. rewrite X, Rmax_left by lra. apply sqrt_sqrt. lra. }
  assert (Gp : 0 < g_squared l) by (unfold g_squared; rewrite X, Rmax_left by lra; apply sqrt_lt_R0; exact Dp).
  split; [exact Gp|]. unfold betx_edw_teng, alfx_edw_teng, bety_edw_teng, alfy_edw_teng. split.
  - transitivity ((betx l * gamx l - alfx l * alfx l) / (g_squared l * g_squared l)); [field; lra|]. rewrite X, G. field. lra.
  - transitivity ((bety l * gamy l - alfy l * alfy l) / (g_squared l * g_squared l)); [field; lra|]. rewrite Y, G. field. lra.
Qed.
