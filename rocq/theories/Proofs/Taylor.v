(** Proofs for Taylor maps. *)
From Coq Require Import Reals List Arith Lra Lia Psatz.
From Verif.Model Require Import Taylor.
From Verif.Spec Require Import Taylor.
Import ListNotations.
Local Open Scope R_scope.

Lemma add6_is : forall a f, add6 a f = a + sum f.
Proof. intros. unfold add6, six, sum. cbn [fold_left sum_f_R0]. ring. Qed.
Lemma sum_ext : forall f g, (forall i, (i < 6)%nat -> f i = g i) -> sum f = sum g.
Proof. intros f g H. unfold sum. apply sum_eq. intros i I. apply H. lia. Qed.
Lemma sum_add : forall f g, sum (fun i => f i + g i) = sum f + sum g.
Proof. intros. unfold sum. cbn [sum_f_R0]. ring. Qed.
Lemma sum_mul : forall c f, sum (fun i => c * f i) = c * sum f.
Proof. intros. unfold sum. cbn [sum_f_R0]. ring. Qed.
Lemma sum_swap : forall f : nat -> nat -> R, sum (fun i => sum (fun j => f i j)) = sum (fun j => sum (fun i => f i j)).
Proof. intros. unfold sum. cbn [sum_f_R0]. ring. Qed.
Lemma fold6 : forall (h : nat -> nat -> R) a, fold_left (fun a j => add6 a (h j)) six a = a + sum (fun j => sum (h j)).
Proof. intros. unfold six. cbn [fold_left]. rewrite !add6_is. unfold sum at 7. cbn [sum_f_R0]. ring. Qed.
Theorem apply_quadratic : forall m z i, apply2 m z i = quadratic (m_k m) (m_R m) (m_T m) z i.
Proof. intros. unfold apply2, quadratic. cbv zeta. rewrite add6_is. now rewrite (fold6 (fun j k => m_T m i j k * z j * z k)). Qed.

(** * Expansion around the closed orbit *)
Lemma quad_expand : forall k A B co z i, symmetric B ->
  quadratic (fun i => k i - sum (fun j => A i j * co j) + sum (fun j => sum (fun l => B i j l * co l) * co j))
            (fun i j => A i j - 2 * sum (fun l => B i j l * co l)) B z i =
  quadratic k A B (fun j => z j - co j) i.
Proof.
  intros k A B co z i S. unfold quadratic.
  assert (E1 : sum (fun j => (A i j - 2 * sum (fun l => B i j l * co l)) * z j) =
               sum (fun j => A i j * z j) + -2 * sum (fun j => sum (fun l => B i j l * co l * z j))).
  { rewrite <- sum_mul, <- sum_add. apply sum_ext. intros j _. unfold sum. cbn [sum_f_R0]. ring. }
  assert (E2 : sum (fun j => A i j * (z j - co j)) = sum (fun j => A i j * z j) + -1 * sum (fun j => A i j * co j)).
  { rewrite <- sum_mul, <- sum_add. apply sum_ext. intros; ring. }
  assert (E3 : sum (fun j => sum (fun l => B i j l * (z j - co j) * (z l - co l))) =
               sum (fun j => sum (fun l => B i j l * z j * z l)) + -1 * sum (fun j => sum (fun l => B i j l * co l * z j)) +
               -1 * sum (fun j => sum (fun l => B i j l * co j * z l)) + sum (fun j => sum (fun l => B i j l * co l) * co j)).
  { rewrite <- !sum_mul, <- !sum_add. apply sum_ext. intros j _. unfold sum. cbn [sum_f_R0]. ring. }
  assert (E4 : sum (fun j => sum (fun l => B i j l * co j * z l)) = sum (fun j => sum (fun l => B i j l * co l * z j))).
  { rewrite sum_swap. apply sum_ext. intros j J. apply sum_ext. intros l L. now rewrite S. }
  rewrite E1, E2, E3, E4. ring.
Qed.
(** * Symmetry of the second differences *)
Lemma set_set : forall z j k u v, j <> k -> forall i, set (set z j u) k v i = set (set z k v) j u i.
Proof. intros z j k u v N i. unfold set. destruct (Nat.eqb_spec i k), (Nat.eqb_spec i j); subst; congruence. Qed.
Lemma set_same : forall z j u, set z j u j = u.
Proof. intros. unfold set. now rewrite Nat.eqb_refl. Qed.
Lemma set_other : forall z j k u, j <> k -> set z j u k = z k.
Proof. intros z j k u N. unfold set. destruct (Nat.eqb_spec k j); congruence. Qed.
Definition plus (s : steps) (j : nat) (v : R) : R := match j with 5%nat => s_up s v | _ => s_d s j end.
Definition minus (s : steps) (j : nat) (v : R) : R := match j with 5%nat => s_down s v | _ => s_d s j end.
Lemma up_is : forall s j z, up s j z = set z j (z j + plus s j (z j)).
Proof. reflexivity. Qed.
Lemma down_is : forall s j z, down s j z = set z j (z j - minus s j (z j)).
Proof. reflexivity. Qed.
Lemma R_is : forall s f z i j, R_matrix s f z i j = (f (up s j z) i - f (down s j z) i) / (plus s j (z j) + minus s j (z j)).
Proof.
  intros. unfold R_matrix. f_equal. unfold plus, minus. do 6 (destruct j as [|j]; [try ring; field|]). ring.
Qed.
Lemma span_pos : forall s j v, steps_ok s -> (j < 6)%nat -> plus s j v + minus s j v <> 0.
Proof.
  intros s j v [D U] J. unfold plus, minus. destruct (U v).
  do 5 (destruct j as [|j]; [match goal with |- s_d s ?n + _ <> 0 => specialize (D n ltac:(lia)); lra end|]).
  destruct j; [lra|lia].
Qed.
Theorem T_symmetric : forall s f z, of_six f -> steps_ok s -> symmetric (T_matrix s s f z).
Proof.
  intros s f z F O i j k J K. destruct (Nat.eq_dec j k) as [->|N]; [reflexivity|].
  unfold T_matrix. rewrite !R_is.
  pose proof (span_pos s j (z j) O J). pose proof (span_pos s k (z k) O K).
  rewrite !up_is, !down_is. rewrite !set_same, !set_other by auto.
  rewrite (F (set (set z j (z j + plus s j (z j))) k (z k + plus s k (z k))) (set (set z k (z k + plus s k (z k))) j (z j + plus s j (z j))) i) by (intros; now apply set_set).
  rewrite (F (set (set z j (z j - minus s j (z j))) k (z k + plus s k (z k))) (set (set z k (z k + plus s k (z k))) j (z j - minus s j (z j))) i) by (intros; now apply set_set).
  rewrite (F (set (set z j (z j + plus s j (z j))) k (z k - minus s k (z k))) (set (set z k (z k - minus s k (z k))) j (z j + plus s j (z j))) i) by (intros; now apply set_set).
  rewrite (F (set (set z j (z j - minus s j (z j))) k (z k - minus s k (z k))) (set (set z k (z k - minus s k (z k))) j (z j - minus s j (z j))) i) by (intros; now apply set_set).
  replace (z k + plus s k (z k) - (z k - minus s k (z k))) with (plus s k (z k) + minus s k (z k)) by ring.
  replace (z j + plus s j (z j) - (z j - minus s j (z j))) with (plus s j (z j) + minus s j (z j)) by ring.
  field. auto.
Qed.
Theorem expansion : forall s f co_in co_out l z i, of_six f -> steps_ok s ->
  apply2 (from_line s f co_in co_out l) z i =
  quadratic co_out (R_matrix s f co_in) (T_matrix s s f co_in) (fun j => z j - co_in j) i.
Proof.
  intros s f ci co l z i F O. rewrite apply_quadratic. rewrite <- quad_expand by now apply T_symmetric.
  unfold from_line. cbv zeta. cbn [m_k m_R m_T]. unfold quadratic. rewrite !add6_is, !Rplus_0_l.
  f_equal. f_equal; [f_equal; apply sum_ext|apply sum_ext]; intros; now rewrite add6_is, Rplus_0_l.
Qed.
Theorem orbit : forall s f co_in co_out l i, of_six f -> steps_ok s -> apply2 (from_line s f co_in co_out l) co_in i = co_out i.
Proof.
  intros. rewrite expansion by assumption. unfold quadratic, sum. cbn [sum_f_R0]. ring.
Qed.

(** * Lines which are second order maps *)
Lemma quad_shift : forall k A B z i j t, symmetric B -> (j < 6)%nat ->
  quadratic k A B (set z j (z j + t)) i = quadratic k A B z i + t * (A i j + 2 * sum (fun l => B i j l * z l)) + t * t * B i j j.
Proof.
  intros k A B z i j t S J. unfold quadratic.
  assert (E : forall a b, (a < 6)%nat -> (b < 6)%nat -> B i a b = B i b a) by (intros; now apply S).
  do 6 (destruct j as [|j]; [unfold sum, set; cbn [sum_f_R0 Nat.eqb];
    match goal with |- context [2 * (B i ?n 0%nat * _ + _ + _ + _ + _ + _)] =>
      rewrite <- ?(E 0%nat n), <- ?(E 1%nat n), <- ?(E 2%nat n), <- ?(E 3%nat n), <- ?(E 4%nat n), <- ?(E 5%nat n) by lia end;
    ring|]). lia.
Qed.
Lemma R_quadratic : forall s k A B z i j, symmetric B -> steps_ok s -> (j < 6)%nat ->
  (forall v, B i 5%nat 5%nat * (s_up s v - s_down s v) = 0) ->
  R_matrix s (quadratic k A B) z i j = A i j + 2 * sum (fun l => B i j l * z l).
Proof.
  intros s k A B z i j S O J H. rewrite R_is, up_is, down_is.
  replace (z j - minus s j (z j)) with (z j + - minus s j (z j)) by ring. rewrite !quad_shift by assumption.
  pose proof (span_pos s j (z j) O J) as P.
  assert (D : B i j j * (plus s j (z j) - minus s j (z j)) = 0).
  { unfold plus, minus. do 5 (destruct j as [|j]; [ring|]). destruct j; [apply H|lia]. }
  apply Rmult_eq_reg_r with (plus s j (z j) + minus s j (z j)); [|exact P]. unfold Rdiv. rewrite Rmult_assoc, Rinv_l, Rmult_1_r by exact P.
  set (q := sum _) in *. set (u := plus s j (z j)) in *. set (v := minus s j (z j)) in *.
  transitivity ((A i j + 2 * q) * (u + v) + B i j j * (u - v) * (u + v)); [ring|]. rewrite D. ring.
Qed.
Lemma sum_set : forall g z j v, (j < 6)%nat -> sum (fun l => g l * set z j v l) = sum (fun l => g l * z l) + g j * (v - z j).
Proof.
  intros g z j v J. do 6 (destruct j as [|j]; [unfold sum, set; cbn [sum_f_R0 Nat.eqb]; ring|]). lia.
Qed.
Lemma T_quadratic : forall s k A B z i j l, symmetric B -> steps_ok s -> (j < 6)%nat -> (l < 6)%nat ->
  (forall v, B i 5%nat 5%nat * (s_up s v - s_down s v) = 0) ->
  T_matrix s s (quadratic k A B) z i j l = B i j l.
Proof.
  intros s k A B z i j l S O J L H. unfold T_matrix. rewrite !R_quadratic by assumption.
  rewrite !up_is, !down_is, !set_same, !sum_set by assumption. pose proof (span_pos s l (z l) O L). field. lra.
Qed.
Lemma quadratic_ext : forall k k' A A' B B' z i, k i = k' i -> (forall j, (j < 6)%nat -> A i j = A' i j) ->
  (forall j l, (j < 6)%nat -> (l < 6)%nat -> B i j l = B' i j l) -> quadratic k A B z i = quadratic k' A' B' z i.
Proof.
  intros k k' A A' B B' z i K HA HB. unfold quadratic. f_equal; [f_equal; [exact K|]|].
  - apply sum_ext. intros. now rewrite HA.
  - apply sum_ext. intros. apply sum_ext. intros. now rewrite HB.
Qed.
Lemma of_six_quadratic : forall k A B, of_six (quadratic k A B).
Proof.
  intros k A B z z' i H. unfold quadratic. f_equal; [f_equal|].
  - apply sum_ext. intros. now rewrite H.
  - apply sum_ext. intros. apply sum_ext. intros. now rewrite !H.
Qed.
Theorem exact_quadratic : forall s k A B co l z i, symmetric B -> steps_ok s ->
  (forall v, B i 5%nat 5%nat * (s_up s v - s_down s v) = 0) ->
  apply2 (from_line s (quadratic k A B) co (quadratic k A B co) l) z i = quadratic k A B z i.
Proof.
  intros s k A B co l z i S O H. rewrite expansion by (apply of_six_quadratic || exact O).
  rewrite (quadratic_ext _ (quadratic k A B co) _ (fun i j => A i j + 2 * sum (fun l => B i j l * co l)) _ B).
  - rewrite <- quad_expand by exact S. unfold quadratic at 1.
    assert (E1 : sum (fun j => (A i j + 2 * sum (fun l => B i j l * co l)) * co j) =
                 sum (fun j => A i j * co j) + 2 * sum (fun j => sum (fun l => B i j l * co l) * co j)).
    { rewrite <- sum_mul, <- sum_add. apply sum_ext. intros; ring. }
    assert (E2 : sum (fun j => (A i j + 2 * sum (fun l => B i j l * co l) - 2 * sum (fun l => B i j l * co l)) * z j) = sum (fun j => A i j * z j)).
    { apply sum_ext. intros; ring. }
    assert (E3 : sum (fun j => sum (fun l => B i j l * co j * co l)) = sum (fun j => sum (fun l => B i j l * co l) * co j)).
    { apply sum_ext. intros. unfold sum. cbn [sum_f_R0]. ring. }
    rewrite E1, E2. unfold quadratic. rewrite E3. ring.
  - reflexivity.
  - intros. now apply R_quadratic.
  - intros. now apply T_quadratic.
Qed.

(** * Scaling *)
Theorem scaled : forall c m z i, apply2 (scale c m) z i = c i * apply2 m (fun j => c j * z j) i.
Proof.
  intros. rewrite !apply_quadratic. unfold quadratic, scale. cbn [m_k m_R m_T]. rewrite !Rmult_plus_distr_l. f_equal; [f_equal; [ring|]|].
  - rewrite <- sum_mul. apply sum_ext. intros; ring.
  - rewrite <- sum_mul. apply sum_ext. intros. rewrite <- sum_mul. apply sum_ext. intros. ring.
Qed.
Theorem reflected : forall c m z i, (forall j, c j = 1 \/ c j = -1) -> apply2 (scale c m) (fun j => c j * z j) i = c i * apply2 m z i.
Proof.
  intros c m z i H. rewrite scaled. f_equal. rewrite !apply_quadratic. apply of_six_quadratic. intros j _. cbv beta. rewrite <- Rmult_assoc.
  destruct (H j) as [-> | ->]; ring.
Qed.
Definition identity : map2 := mkMap (fun _ => 0) (fun i j => if Nat.eqb i j then 1 else 0) (fun _ _ _ => 0) 0.
Theorem scaled_refuted : exists c m z i, (forall j, c j <> 0) /\ apply2 (scale c m) (fun j => c j * z j) i <> c i * apply2 m z i.
Proof.
  exists (fun _ => 2), identity, (fun _ => 1), 0%nat. split; [intro; lra|]. rewrite scaled. rewrite !apply_quadratic.
  unfold quadratic, sum, identity. cbn. lra.
Qed.

(** * First order maps *)
Theorem composed : forall m n p i, (i < 6)%nat -> p_beta0 p <> 0 ->
  p_z (track1 n (track1 m p)) i =
  p_z (track1 (mkMap1 (fun i => f_m0 n i + sum (fun j => f_m1 n i j * f_m0 m j)) (fun i j => sum (fun l => f_m1 n i l * f_m1 m l j))
                      (f_length m + f_length n)) p) i.
Proof.
  intros m n p i I B.
  assert (E : forall i, add6 (f_m0 n i) (fun j => f_m1 n i j * match j with 4%nat =>
      add6 (f_m0 m 4%nat) (fun j => f_m1 m 4%nat j * match j with 4%nat => p_z p 4%nat / p_beta0 p | _ => p_z p j end) * p_beta0 p / p_beta0 p
      | _ => add6 (f_m0 m j) (fun l => f_m1 m j l * match l with 4%nat => p_z p 4%nat / p_beta0 p | _ => p_z p l end) end) =
    f_m0 n i + sum (fun j => f_m1 n i j * f_m0 m j) + sum (fun j => sum (fun l => f_m1 n i l * f_m1 m l j) *
      match j with 4%nat => p_z p 4%nat / p_beta0 p | _ => p_z p j end)).
  { intro r. rewrite add6_is, Rplus_assoc. f_equal.
    set (w := fun j => match j with 4%nat => p_z p 4%nat / p_beta0 p | _ => p_z p j end).
    transitivity (sum (fun j => f_m1 n r j * (f_m0 m j + sum (fun l => f_m1 m j l * w l)))).
    - apply sum_ext. intros j J. f_equal. do 6 (destruct j as [|j]; [rewrite add6_is; first [reflexivity | unfold w; cbv beta; field; exact B]|]). lia.
    - transitivity (sum (fun j => f_m1 n r j * f_m0 m j) + sum (fun j => sum (fun l => f_m1 n r j * f_m1 m j l * w l))).
      + rewrite <- sum_add. apply sum_ext. intros. rewrite Rmult_plus_distr_l. f_equal. rewrite <- sum_mul. apply sum_ext. intros; ring.
      + f_equal. rewrite sum_swap. apply sum_ext. intros q _. transitivity (sum (fun l => f_m1 n r l * f_m1 m l q) * w q);
        [unfold sum; cbn [sum_f_R0]; ring|reflexivity]. }
  assert (G : forall i, add6 (f_m0 n i + sum (fun j => f_m1 n i j * f_m0 m j)) (fun j => sum (fun l => f_m1 n i l * f_m1 m l j) *
      match j with 4%nat => p_z p 4%nat / p_beta0 p | _ => p_z p j end) =
    f_m0 n i + sum (fun j => f_m1 n i j * f_m0 m j) + sum (fun j => sum (fun l => f_m1 n i l * f_m1 m l j) *
      match j with 4%nat => p_z p 4%nat / p_beta0 p | _ => p_z p j end)) by (intro; apply add6_is).
  do 4 (destruct i as [|i]; [etransitivity; [apply E|symmetry; apply G]|]).
  destruct i as [|i]; [apply (f_equal (fun v => v * p_beta0 p)); etransitivity; [apply E|symmetry; apply G]|].
  destruct i as [|i]; [etransitivity; [apply E|symmetry; apply G]|]. lia.
Qed.
(** A first order map, in tau = zeta / beta0 and ptau, is the second order map without second order in zeta and pzeta. *)
Theorem first_second : forall m p i, (i < 6)%nat -> p_beta0 p <> 0 ->
  let u i := match i with 4%nat => p_beta0 p | 5%nat => / p_beta0 p | _ => 1 end in
  p_z (track1 m p) i = p_z (track2 (mkMap (fun i => u i * f_m0 m i) (fun i j => u i * f_m1 m i j / u j) (fun _ _ _ => 0) (f_length m)) p) i /\
  p_s (track1 m p) = p_s p + f_length m /\ (forall m2, p_s (track2 m2 p) = p_s p + m_length m2).
Proof.
  intros m p i I B u. split; [|split; reflexivity]. unfold track1, track2. cbn [p_z]. rewrite !apply_quadratic. unfold quadratic. cbn [m_k m_R m_T].
  rewrite !add6_is. unfold sum, u.
  do 6 (destruct i as [|i]; [cbn [sum_f_R0]; field; exact B|]). lia.
Qed.
Definition steps1 : steps := mkS (fun _ => 1) (fun _ => 1) (fun _ => 1).
Definition bend1 : nat -> nat -> vec := fun i j k => match i, j, k with 1%nat, 0%nat, 0%nat => 1 | _, _, _ => 0 end.
Lemma case_taylor : steps_ok steps1 /\ symmetric bend1 /\ (forall i v, bend1 i 5%nat 5%nat * (s_up steps1 v - s_down steps1 v) = 0) /\
  quadratic (fun _ => 0) (fun i j => if Nat.eqb i j then 1 else 0) bend1 (fun _ => 1) 1 = 2.
Proof.
  split; [split; [intros; cbn; lra|intros; cbn; lra]|]. split.
  - intros i j k _ _. unfold bend1. destruct i as [|[|i]]; try reflexivity. destruct j, k; reflexivity.
  - split; [intros; cbn; ring|]. unfold quadratic, sum. cbn. ring.
Qed.
Theorem exact_refuted : exists s k A B z i, symmetric B /\ steps_ok s /\
  apply2 (from_line s (quadratic k A B) (fun _ => 0) (quadratic k A B (fun _ => 0)) 0) z i <> quadratic k A B z i.
Proof.
  pose (B := fun i j k : nat => match i, j, k with 0%nat, 5%nat, 5%nat => 1 | _, _, _ => 0 end).
  pose (s := mkS (fun _ => 1) (fun _ => 2) (fun _ => 1)). pose (f := quadratic (fun _ => 0) (fun _ _ => 0) B).
  assert (S : symmetric B).
  { intros i j k J K. unfold B. destruct i; [|reflexivity]. do 6 (destruct j as [|j]; [do 6 (destruct k as [|k]; [reflexivity|]); lia|]). lia. }
  assert (O : steps_ok s) by (split; intros; cbn; lra).
  exists s, (fun _ => 0), (fun _ _ => 0), B, (fun i => match i with 5%nat => 1 | _ => 0 end), 0%nat.
  split; [exact S|]. split; [exact O|]. rewrite expansion by (apply of_six_quadratic || exact O).
  assert (F : forall z, f z 0%nat = z 5%nat * z 5%nat) by (intro z; unfold f, quadratic, sum, B; cbn; ring).
  assert (R5 : forall z, R_matrix s f z 0 5 = 2 * z 5%nat + 1).
  { intro z. unfold R_matrix. rewrite !F. unfold up, down, set, s. cbn. field. }
  assert (T5 : T_matrix s s f (fun _ => 0) 0 5 5 = 1).
  { unfold T_matrix. rewrite !R5. unfold up, down, set, s. cbn. field. }
  change (quadratic (fun _ => 0) (fun _ _ => 0) B) with f. rewrite (F (fun i => match i with 5%nat => 1 | _ => 0 end)).
  unfold quadratic. rewrite (F (fun _ => 0)). unfold sum. cbn [sum_f_R0]. rewrite R5, T5. lra.
Qed.
