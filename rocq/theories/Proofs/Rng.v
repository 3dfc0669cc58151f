From Coq Require Import NArith ZArith QArith List Bool Lia Lqa.
From Verif.Model Require Import Rng.
From Verif.Spec Require Import Rng.
Import ListNotations.
Local Open Scope N_scope.

Lemma lt_pow2_bits s k : s < 2 ^ k <-> (forall j, k <= j -> N.testbit s j = false).
Proof.
  split.
  - intros H j Hj. destruct (N.eq_dec s 0) as [->|Nz]; [apply N.bits_0|].
    apply N.bits_above_log2. apply N.log2_lt_pow2 in H; lia.
  - intros H. assert (E : N.shiftr s k = 0).
    { apply N.bits_inj. intros j. rewrite N.shiftr_spec', N.bits_0. apply H. lia. }
    rewrite N.shiftr_div_pow2 in E. apply N.div_small_iff in E; auto. apply N.pow_nonzero. discriminate.
Qed.

Lemma mask_bit i : N.testbit MASK i = (i <? 32).
Proof.
  change MASK with (N.ones 32). destruct (N.ltb_spec i 32).
  - apply N.ones_spec_low; auto.
  - apply N.ones_spec_high; auto.
Qed.

(** Bits of a Tausworthe step whose mask [c] clears the [k] lowest bits. *)
Lemma taus_bit s a b k d i :
  s < 2 ^ 32 -> i < 32 ->
  N.testbit (TAUSWORTHE s a b (N.shiftl (N.ones (32 - k)) k) d) i
  = xorb ((d <=? i) && (k <=? i - d) && N.testbit s (i - d))
         (xorb ((a <=? i + b) && (i + b <? 32) && N.testbit s (i + b - a)) (N.testbit s (i + b))).
Proof.
  intros Hs Hi. unfold TAUSWORTHE.
  rewrite N.lxor_spec, N.land_spec, N.shiftr_spec', N.lxor_spec, N.land_spec, !mask_bit.
  destruct (N.ltb_spec i 32) as [_|]; [|lia]. rewrite andb_true_r. f_equal.
  - destruct (N.leb_spec d i) as [L|L]; simpl.
    + rewrite N.shiftl_spec_high by lia. rewrite N.land_spec.
      destruct (N.leb_spec k (i - d)) as [K|K].
      * rewrite N.shiftl_spec_high by lia.
        destruct (N.lt_ge_cases (i - d) 32) as [B|B]; [|lia].
        assert (Q : i - d - k < 32 - k) by (clear Hs; lia). rewrite N.ones_spec_low by exact Q. rewrite andb_true_r. reflexivity.
      * rewrite N.shiftl_spec_low by lia. rewrite andb_false_r. reflexivity.
    + rewrite N.shiftl_spec_low by lia. reflexivity.
  - f_equal. destruct (N.leb_spec a (i + b)) as [L|L]; simpl.
    + rewrite N.shiftl_spec_high by lia. apply andb_comm.
    + rewrite N.shiftl_spec_low by lia. reflexivity.
Qed.

Lemma taus_lt s a b c d : s < 2 ^ 32 -> TAUSWORTHE s a b c d < 2 ^ 32.
Proof.
  intros Hs. apply lt_pow2_bits. intros j Hj. unfold TAUSWORTHE.
  rewrite N.lxor_spec, N.land_spec, N.shiftr_spec', N.lxor_spec, N.land_spec, !mask_bit.
  destruct (N.ltb_spec j 32); [lia|]. destruct (N.ltb_spec (j + b) 32); [lia|].
  rewrite !andb_false_r. rewrite (proj1 (lt_pow2_bits s 32) Hs (j + b)) by lia. reflexivity.
Qed.

(** If a step gives a value below [2^k], the argument was below [2^k]. *)
Lemma taus1 s : s < 2 ^ 32 -> TAUSWORTHE s 13 19 4294967294 12 < 2 ^ 1 -> s < 2 ^ 1.
Proof.
  intros Hs HT. change 4294967294 with (N.shiftl (N.ones (32 - 1)) 1) in HT.
  rewrite lt_pow2_bits in HT. apply lt_pow2_bits.
  assert (Hh : forall j, 32 <= j -> N.testbit s j = false) by (apply lt_pow2_bits; exact Hs).
  assert (A : forall j, 1 <= j <= 19 -> N.testbit s j = false).
  { intros j Hj. assert (H : N.testbit _ (j + 12) = false) by (apply HT; lia).
    rewrite taus_bit in H by (assumption || lia).
    destruct (N.leb_spec 12 (j + 12)); [|lia]. destruct (N.leb_spec 1 (j + 12 - 12)); [|lia].
    destruct (N.ltb_spec (j + 12 + 19) 32); [lia|].
    rewrite andb_false_r in H. rewrite (Hh (j + 12 + 19)) in H by lia.
    replace (j + 12 - 12) with j in H by lia. destruct (N.testbit s j); auto. }
  intros j Hj. destruct (N.le_gt_cases j 19) as [L|L]; [apply A; lia|].
  destruct (N.lt_ge_cases j 32) as [B|B]; [|apply Hh; lia].
  assert (H : N.testbit _ (j - 19) = false) by (apply HT; lia).
  rewrite taus_bit in H by (assumption || lia).
  replace (j - 19 + 19) with j in H by lia.
  replace ((12 <=? j - 19) && (1 <=? j - 19 - 12))%bool with false in H.
  2: { destruct (N.leb_spec 12 (j - 19)); auto. simpl. symmetry. apply N.leb_gt. lia. }
  rewrite (A (j - 13)) in H by lia. rewrite andb_false_r in H. simpl in H.
  destruct (N.testbit s j); auto.
Qed.

Lemma taus2 s : s < 2 ^ 32 -> TAUSWORTHE s 2 25 4294967288 4 < 2 ^ 3 -> s < 2 ^ 3.
Proof.
  intros Hs HT. change 4294967288 with (N.shiftl (N.ones (32 - 3)) 3) in HT.
  rewrite lt_pow2_bits in HT. apply lt_pow2_bits.
  assert (Hh : forall j, 32 <= j -> N.testbit s j = false) by (apply lt_pow2_bits; exact Hs).
  assert (A : forall j, 3 <= j <= 27 -> N.testbit s j = false).
  { intros j Hj. assert (H : N.testbit _ (j + 4) = false) by (apply HT; lia).
    rewrite taus_bit in H by (assumption || lia).
    destruct (N.leb_spec 4 (j + 4)); [|lia]. destruct (N.leb_spec 3 (j + 4 - 4)); [|lia].
    destruct (N.ltb_spec (j + 4 + 25) 32); [lia|].
    rewrite andb_false_r in H. rewrite (Hh (j + 4 + 25)) in H by lia.
    replace (j + 4 - 4) with j in H by lia. destruct (N.testbit s j); auto. }
  assert (B : forall j, 28 <= j <= 31 -> N.testbit s (j - 2) = false -> N.testbit s j = false).
  { intros j Hj P. assert (H : N.testbit _ (j - 25) = false) by (apply HT; lia).
    rewrite taus_bit in H by (assumption || lia).
    replace (j - 25 + 25) with j in H by lia.
    replace ((4 <=? j - 25) && (3 <=? j - 25 - 4))%bool with false in H.
    2: { destruct (N.leb_spec 4 (j - 25)); auto. simpl. symmetry. apply N.leb_gt. lia. }
    rewrite P, andb_false_r in H. simpl in H. destruct (N.testbit s j); auto. }
  intros j Hj. destruct (N.le_gt_cases j 27) as [L|L]; [apply A; lia|].
  destruct (N.lt_ge_cases j 32) as [C|C]; [|apply Hh; lia].
  apply B; [lia|]. destruct (N.le_gt_cases (j - 2) 27) as [L2|L2]; [apply A; lia|].
  apply B; [lia|]. apply A. lia.
Qed.

Lemma taus3 s : s < 2 ^ 32 -> TAUSWORTHE s 3 11 4294967280 17 < 2 ^ 4 -> s < 2 ^ 4.
Proof.
  intros Hs HT. change 4294967280 with (N.shiftl (N.ones (32 - 4)) 4) in HT.
  rewrite lt_pow2_bits in HT. apply lt_pow2_bits.
  assert (Hh : forall j, 32 <= j -> N.testbit s j = false) by (apply lt_pow2_bits; exact Hs).
  assert (A : forall j, 4 <= j <= 14 -> N.testbit s j = false).
  { intros j Hj. assert (H : N.testbit _ (j + 17) = false) by (apply HT; lia).
    rewrite taus_bit in H by (assumption || lia).
    destruct (N.leb_spec 17 (j + 17)); [|lia]. destruct (N.leb_spec 4 (j + 17 - 17)); [|lia].
    destruct (N.ltb_spec (j + 17 + 11) 32); [lia|].
    rewrite andb_false_r in H. rewrite (Hh (j + 17 + 11)) in H by lia.
    replace (j + 17 - 17) with j in H by lia. destruct (N.testbit s j); auto. }
  assert (B : forall j, 15 <= j <= 31 -> N.testbit s (j - 3) = false -> N.testbit s j = false).
  { intros j Hj P. assert (H : N.testbit _ (j - 11) = false) by (apply HT; lia).
    rewrite taus_bit in H by (assumption || lia).
    replace (j - 11 + 11) with j in H by lia.
    replace ((17 <=? j - 11) && (4 <=? j - 11 - 17))%bool with false in H.
    2: { destruct (N.leb_spec 17 (j - 11)); auto. simpl. symmetry. apply N.leb_gt. lia. }
    rewrite P, andb_false_r in H. simpl in H. destruct (N.testbit s j); auto. }
  assert (C : forall n j, j <= 3 * N.of_nat n -> 4 <= j <= 31 -> N.testbit s j = false).
  { induction n; intros j H1 H2; [lia|].
    destruct (N.le_gt_cases j 14) as [L|L]; [apply A; lia|].
    apply B; [lia|]. apply IHn; lia. }
  intros j Hj. destruct (N.lt_ge_cases j 32) as [D|D]; [|apply Hh; lia].
  apply (C 11%nat); lia.
Qed.

Lemma lcg_mod s A C : LCG s A C = (A * s + C) mod 2 ^ 32.
Proof.
  unfold LCG. change MASK with (N.ones 32). rewrite !N.land_ones.
  apply N.add_mod_idemp_l. discriminate.
Qed.
Lemma lcg_lt s A C : LCG s A C < 2 ^ 32.
Proof. rewrite lcg_mod. apply N.mod_lt. discriminate. Qed.

Lemma get_good g : good g -> good (fst (rng_get_int32 g)).
Proof.
  intros ((A1 & A2) & (B1 & B2) & (C1 & C2) & D). unfold good, rng_get_int32. cbn [fst s1 s2 s3 s4].
  repeat split; try (apply taus_lt; assumption); try apply lcg_lt.
  - apply N.nlt_ge. intros H. apply (taus1 _ A2) in H. change (2 ^ 1) with 2 in H. lia.
  - apply N.nlt_ge. intros H. apply (taus2 _ B2) in H. change (2 ^ 3) with 8 in H. lia.
  - apply N.nlt_ge. intros H. apply (taus3 _ C2) in H. change (2 ^ 4) with 16 in H. lia.
Qed.

Lemma get_fst g : fst (rng_get g) = fst (rng_get_int32 g).
Proof. unfold rng_get. destruct (rng_get_int32 g). reflexivity. Qed.

Lemma at_least_ok m s : 0 < m -> m + m <= 2 ^ 32 -> s < 2 ^ 32 -> m <= at_least m s < 2 ^ 32.
Proof. intros. unfold at_least. destruct (N.ltb_spec s m); lia. Qed.

Lemma set_good s : good (rng_set s).
Proof.
  unfold rng_set. rewrite !get_fst. do 6 apply get_good. unfold good. cbn [s1 s2 s3 s4].
  repeat split; try apply lcg_lt; apply at_least_ok; try apply lcg_lt; vm_compute; congruence.
Qed.

Lemma lxor_lt a b k : a < 2 ^ k -> b < 2 ^ k -> N.lxor a b < 2 ^ k.
Proof.
  intros Ha Hb. rewrite lt_pow2_bits in *. intros j Hj. rewrite N.lxor_spec, Ha, Hb by auto. reflexivity.
Qed.

Lemma int32_lt g : good g -> snd (rng_get_int32 g) < 2 ^ 32.
Proof.
  intros ((A1 & A2) & (B1 & B2) & (C1 & C2) & D). unfold rng_get_int32. cbn [snd].
  apply lxor_lt; [apply lxor_lt; [apply lxor_lt|]|]; first [apply taus_lt; assumption | apply lcg_lt].
Qed.

Lemma good_set g : good g -> unset g = false.
Proof.
  intros ((A1 & A2) & _). unfold unset. destruct (N.eqb_spec (s1 g) 0); [lia|reflexivity].
Qed.

Lemma uint32_ok p :
  good (p_rng p) ->
  let '(q, x) := uniform_uint32 p in
  p_id q = p_id p /\ p_state q = p_state p /\ good (p_rng q) /\ x < 2 ^ 32.
Proof.
  intros G. unfold uniform_uint32. rewrite (good_set _ G).
  pose proof (get_good _ G). pose proof (int32_lt _ G). destruct (rng_get_int32 (p_rng p)).
  repeat split; auto; apply H.
Qed.

Lemma qdiv2_range x : x < 2 ^ 32 -> (0 <= Qdiv2 x two_to_32 < 1)%Q.
Proof.
  intros H. unfold Qdiv2, two_to_32, Qle, Qlt. simpl Qnum. simpl Qden.
  change (2 ^ 32) with 4294967296 in H. split; lia.
Qed.

Lemma uniform_ok p :
  good (p_rng p) ->
  let '(q, x) := uniform p in
  p_id q = p_id p /\ p_state q = p_state p /\ good (p_rng q) /\ (0 <= x < 1)%Q.
Proof.
  intros G. unfold uniform. rewrite (good_set _ G). unfold rng_get.
  pose proof (get_good _ G). pose proof (int32_lt _ G). destruct (rng_get_int32 (p_rng p)).
  split; [reflexivity|]. split; [reflexivity|]. split; [exact H|]. apply qdiv2_range, H0.
Qed.

Lemma accurate_ok p :
  good (p_rng p) ->
  let '(q, x) := uniform_accurate p in
  p_id q = p_id p /\ p_state q = p_state p /\ good (p_rng q) /\ (0 <= x < 1)%Q.
Proof.
  intros G. unfold uniform_accurate.
  pose proof (uint32_ok p G) as H1. destruct (uniform_uint32 p) as [p1 x1].
  destruct H1 as (I1 & S1 & G1 & X1).
  pose proof (uint32_ok p1 G1) as H2. destruct (uniform_uint32 p1) as [p2 x2].
  destruct H2 as (I2 & S2 & G2 & X2).
  pose proof (uint32_ok p2 G2) as H3. destruct (uniform_uint32 p2) as [p3 x3].
  destruct H3 as (I3 & S3 & G3 & X3).
  pose proof (uint32_ok p3 G3) as H4. destruct (uniform_uint32 p3) as [p4 x4].
  destruct H4 as (I4 & S4 & G4 & X4).
  pose proof (uint32_ok p4 G4) as H5. destruct (uniform_uint32 p4) as [p5 x5].
  destruct H5 as (I5 & S5 & G5 & X5).
  pose proof (uint32_ok p5 G5) as H6. destruct (uniform_uint32 p5) as [p6 x6].
  destruct H6 as (I6 & S6 & G6 & X6).
  split; [congruence|]. split; [congruence|]. split; [exact G6|].
  change (2 ^ 32) with 4294967296 in *. unfold Qdiv2, two_to_32.
  assert (B : forall x, x < 4294967296 -> (0 <= inject_Z (Z.of_N x) <= 4294967295)%Q).
  { intros x Hx. split; [change 0%Q with (inject_Z 0)|change 4294967295%Q with (inject_Z 4294967295)];
    rewrite <- Zle_Qle; lia. }
  assert (E : forall x k, (Z.of_N x # k == inject_Z (Z.of_N x) * (1 # k))%Q).
  { intros x k. unfold Qeq, Qmult, inject_Z. simpl. lia. }
  rewrite !E.
  apply B in X1, X2, X3, X4, X5, X6.
  set (y1 := inject_Z (Z.of_N x1)) in *. set (y2 := inject_Z (Z.of_N x2)) in *.
  set (y3 := inject_Z (Z.of_N x3)) in *. set (y4 := inject_Z (Z.of_N x4)) in *.
  set (y5 := inject_Z (Z.of_N x5)) in *. set (y6 := inject_Z (Z.of_N x6)) in *.
  cbn [Pos.mul]. clearbody y1 y2 y3 y4 y5 y6. clear - X1 X2 X3 X4 X5 X6.
  split; lra.
Qed.

(** Any number of draws. *)
Section Draws.
Context (gen : part -> part * Q).
Hypothesis gen_ok : forall p, good (p_rng p) ->
  let '(q, x) := gen p in
  p_id q = p_id p /\ p_state q = p_state p /\ good (p_rng q) /\ (0 <= x < 1)%Q.

Lemma after_ok n p :
  good (p_rng p) ->
  p_id (after gen n p) = p_id p /\ p_state (after gen n p) = p_state p /\ good (p_rng (after gen n p)).
Proof.
  intros G. induction n; [simpl; auto|]. destruct IHn as (A & B & C). unfold after in *. cbn [iter].
  pose proof (gen_ok _ C) as H. destruct (gen _) as [q x]. destruct H as (H1 & H2 & H3 & _).
  cbn [fst]. repeat split; try congruence; apply H3.
Qed.

Lemma draw_ok n p : good (p_rng p) -> (0 <= draw gen n p < 1)%Q.
Proof.
  intros G. destruct (after_ok n p G) as (_ & _ & C). unfold draw.
  pose proof (gen_ok _ C) as H. destruct (gen _). apply H.
Qed.
End Draws.

Lemma uniform_draws n p s :
  let q := mkPart (p_id p) (p_state p) (rng_set s) in
  good (p_rng (after uniform n q)) /\ p_state (after uniform n q) = p_state p
  /\ (0 <= draw uniform n q < 1)%Q.
Proof.
  intros q. assert (G : good (p_rng q)) by apply set_good.
  destruct (after_ok uniform uniform_ok n q G) as (_ & A & B).
  split; [exact B|]. split; [exact A|]. apply draw_ok; auto. apply uniform_ok.
Qed.

Lemma accurate_draws n p s :
  let q := mkPart (p_id p) (p_state p) (rng_set s) in
  good (p_rng (after uniform_accurate n q)) /\ p_state (after uniform_accurate n q) = p_state p
  /\ (0 <= draw uniform_accurate n q < 1)%Q.
Proof.
  intros q. assert (G : good (p_rng q)) by apply set_good.
  destruct (after_ok uniform_accurate accurate_ok n q G) as (_ & A & B).
  split; [exact B|]. split; [exact A|]. apply draw_ok; auto. apply accurate_ok.
Qed.

(** The argument of the logarithm of the exponential and normal generators. *)
Lemma nonzero_ok fuel : forall p q x,
  good (p_rng p) -> uniform_nonzero fuel p = Some (q, x) ->
  good (p_rng q) /\ p_state q = p_state p /\ (0 < x < 1)%Q.
Proof.
  induction fuel; simpl; intros p q x G E; [discriminate|].
  pose proof (uniform_ok p G) as H. destruct (uniform p) as [p' y].
  destruct H as (_ & H2 & H3 & H4). destruct (Qeq_bool y 0) eqn:Z.
  - destruct (IHfuel _ _ _ H3 E) as (A & B & C). rewrite <- H2. auto.
  - injection E as <- <-. split; [exact H3|]. split; [exact H2|]. split; [|apply H4].
    apply Qeq_bool_neq in Z. destruct H4 as [L _]. apply Qle_lteq in L.
    destruct L; auto. exfalso. apply Z. symmetry. auto.
Qed.

Lemma nonzero_unset fuel : forall p,
  p_rng p = mkRng 0 0 0 0 -> uniform_nonzero fuel p = None.
Proof.
  induction fuel; intros p H; [reflexivity|]. cbn [uniform_nonzero]. unfold uniform. rewrite H.
  change (unset (mkRng 0 0 0 0)) with true. cbv iota. change (Qeq_bool 0 0) with true. cbv iota.
  apply IHfuel. reflexivity.
Qed.

(** * Distinct seeds *)
Lemma mul_inj s t A :
  A * 2783094533 mod 2 ^ 32 = 1 \/ A * 4276115653 mod 2 ^ 32 = 1 ->
  s < 2 ^ 32 -> t < 2 ^ 32 -> A * s mod 2 ^ 32 = A * t mod 2 ^ 32 -> s = t.
Proof.
  intros HA Hs Ht E.
  assert (X : exists B, A * B mod 2 ^ 32 = 1) by (destruct HA; eauto). destruct X as (B & HB).
  assert (Y : forall u, u < 2 ^ 32 -> B * (A * u mod 2 ^ 32) mod 2 ^ 32 = u).
  { intros u Hu. rewrite N.mul_mod_idemp_r by discriminate.
    replace (B * (A * u)) with ((A * B) * u) by lia.
    rewrite <- N.mul_mod_idemp_l by discriminate. rewrite HB, N.mul_1_l. apply N.mod_small; auto. }
  rewrite <- (Y s Hs), <- (Y t Ht). congruence.
Qed.

Lemma lcg_inj s t A C :
  A * 2783094533 mod 2 ^ 32 = 1 \/ A * 4276115653 mod 2 ^ 32 = 1 -> C < 2 ^ 32 ->
  s < 2 ^ 32 -> t < 2 ^ 32 -> LCG s A C = LCG t A C -> s = t.
Proof.
  intros HA HC Hs Ht E. rewrite !lcg_mod in E. apply (mul_inj s t A HA Hs Ht).
  assert (Y : forall u, ((A * u + C) mod 2 ^ 32 + (2 ^ 32 - C)) mod 2 ^ 32 = A * u mod 2 ^ 32).
  { intros u. rewrite N.add_mod_idemp_l by discriminate.
    replace (A * u + C + (2 ^ 32 - C)) with (A * u + 1 * 2 ^ 32) by lia.
    apply N.mod_add. discriminate. }
  rewrite <- (Y s), <- (Y t). congruence.
Qed.

Lemma set_s4 s : ordinary s -> exists g, p_rng (mkPart 0 1 (rng_set s)) = iter 6 (fun g => fst (rng_get_int32 g)) g
  /\ s4 g = 69069 ^ 4 * s mod 2 ^ 32.
Proof.
  intros (H0 & H1 & H2 & H3). unfold rng_set. rewrite !get_fst. cbn [p_rng].
  assert (E1 : LCG s 69069 0 = 69069 * s mod 2 ^ 32) by (rewrite lcg_mod, N.add_0_r; reflexivity).
  assert (F1 : at_least 2 (LCG s 69069 0) = 69069 * s mod 2 ^ 32).
  { rewrite E1. unfold at_least. destruct (N.ltb_spec (69069 * s mod 2 ^ 32) 2); lia. }
  rewrite F1.
  assert (E2 : LCG (69069 * s mod 2 ^ 32) 69069 0 = 69069 ^ 2 * s mod 2 ^ 32).
  { rewrite lcg_mod, N.add_0_r, N.mul_mod_idemp_r, N.mul_assoc by discriminate. reflexivity. }
  assert (F2 : at_least 8 (LCG (69069 * s mod 2 ^ 32) 69069 0) = 69069 ^ 2 * s mod 2 ^ 32).
  { rewrite E2. unfold at_least. destruct (N.ltb_spec (69069 ^ 2 * s mod 2 ^ 32) 8); lia. }
  rewrite F2.
  assert (E3 : LCG (69069 ^ 2 * s mod 2 ^ 32) 69069 0 = 69069 ^ 3 * s mod 2 ^ 32).
  { rewrite lcg_mod, N.add_0_r, N.mul_mod_idemp_r, N.mul_assoc by discriminate. reflexivity. }
  assert (F3 : at_least 16 (LCG (69069 ^ 2 * s mod 2 ^ 32) 69069 0) = 69069 ^ 3 * s mod 2 ^ 32).
  { rewrite E3. unfold at_least. destruct (N.ltb_spec (69069 ^ 3 * s mod 2 ^ 32) 16); lia. }
  rewrite F3.
  assert (E4 : LCG (69069 ^ 3 * s mod 2 ^ 32) 69069 0 = 69069 ^ 4 * s mod 2 ^ 32).
  { rewrite lcg_mod, N.add_0_r, N.mul_mod_idemp_r, N.mul_assoc by discriminate. reflexivity. }
  rewrite E4. eexists. split; [reflexivity|]. reflexivity.
Qed.

Lemma s4_step g h : s4 g < 2 ^ 32 -> s4 h < 2 ^ 32 -> s4 g <> s4 h ->
  s4 (fst (rng_get_int32 g)) < 2 ^ 32 /\ s4 (fst (rng_get_int32 h)) < 2 ^ 32
  /\ s4 (fst (rng_get_int32 g)) <> s4 (fst (rng_get_int32 h)).
Proof.
  intros A B C. cbn [rng_get_int32 fst s4]. repeat split; try apply lcg_lt.
  intros E. apply C. apply (lcg_inj _ _ 1664525 1013904223); auto; try (right; reflexivity); try reflexivity.
Qed.

Lemma s4_iter n g h : s4 g < 2 ^ 32 -> s4 h < 2 ^ 32 -> s4 g <> s4 h ->
  let f := iter n (fun g => fst (rng_get_int32 g)) in
  s4 (f g) < 2 ^ 32 /\ s4 (f h) < 2 ^ 32 /\ s4 (f g) <> s4 (f h).
Proof.
  intros A B C f. subst f. induction n; [simpl; auto|].
  destruct IHn as (X & Y & W). cbn [iter]. apply s4_step; auto.
Qed.

Lemma uniform_rng p : good (p_rng p) -> p_rng (fst (uniform p)) = fst (rng_get_int32 (p_rng p)).
Proof.
  intros G. unfold uniform, rng_get. rewrite (good_set _ G). destruct (rng_get_int32 (p_rng p)). reflexivity.
Qed.

Lemma uniform_iter n p : good (p_rng p) ->
  p_rng (after uniform n p) = iter n (fun g => fst (rng_get_int32 g)) (p_rng p).
Proof.
  intros G. induction n; [reflexivity|]. unfold after in *. cbn [iter].
  pose proof (after_ok uniform uniform_ok n p G) as (_ & _ & C). unfold after in C.
  rewrite uniform_rng by exact C. rewrite IHn. reflexivity.
Qed.

Lemma distinct_seeds s t n id st :
  ordinary s -> ordinary t -> s <> t ->
  p_rng (after uniform n (mkPart id st (rng_set s))) <> p_rng (after uniform n (mkPart id st (rng_set t))).
Proof.
  intros Hs Ht N E. rewrite !uniform_iter in E by apply set_good. cbn [p_rng] in E.
  destruct (set_s4 s Hs) as (g & Eg & Sg). destruct (set_s4 t Ht) as (h & Eh & Sh).
  cbn [p_rng] in Eg, Eh. rewrite Eg, Eh in E.
  destruct (s4_iter 6 g h) as (A & B & C).
  - rewrite Sg. apply N.mod_lt. discriminate.
  - rewrite Sh. apply N.mod_lt. discriminate.
  - rewrite Sg, Sh. intros F. apply N. destruct Hs as (Hs & _), Ht as (Ht & _).
    assert (I : forall k u v, u < 2 ^ 32 -> v < 2 ^ 32 ->
       69069 ^ N.of_nat k * u mod 2 ^ 32 = 69069 ^ N.of_nat k * v mod 2 ^ 32 -> u = v).
    { induction k; intros u v Hu Hv X.
      - change (69069 ^ N.of_nat 0) with 1 in X. rewrite !N.mul_1_l, !N.mod_small in X; auto.
      - rewrite Nat2N.inj_succ, N.pow_succ_r' in X.
        replace (69069 * 69069 ^ N.of_nat k * u) with (69069 ^ N.of_nat k * (69069 * u)) in X by lia.
        replace (69069 * 69069 ^ N.of_nat k * v) with (69069 ^ N.of_nat k * (69069 * v)) in X by lia.
        rewrite <- (N.mul_mod_idemp_r _ (69069 * u)) in X by discriminate.
        rewrite <- (N.mul_mod_idemp_r _ (69069 * v)) in X by discriminate.
        apply IHk in X; try (apply N.mod_lt; discriminate).
        apply (mul_inj u v 69069); auto. }
    apply (I 4%nat s t Hs Ht F).
  - destruct (s4_iter n _ _ A B C) as (_ & _ & D). apply D. rewrite E. reflexivity.
Qed.
