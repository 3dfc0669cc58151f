(** Proofs about tracking several lines together *)
From Coq Require Import List Bool Arith Lia.
From Verif.Model Require Import MultiTracker.
From Verif.Spec Require Import MultiTracker.
Import ListNotations.

Section Multi.
Context {G : Type}.
Variables track resume : nat -> G -> G * bool.

(** statuses as a function of the branch *)
Definition hold (hs : list bool) (i : nat) : bool := nth i hs false.

Lemma first_log a n : forall g g' hs log, first_round track g (seq a n) = (g', hs, log) ->
  length hs = n /\ log = map (fun i => (i, hold hs (i - a))) (seq a n).
Proof.
  revert a. induction n as [|n IH]; intros a g g' hs log; cbn [seq first_round].
  - intros H. injection H as <- <- <-. auto.
  - destruct (track a g) as [g1 h]. destruct (first_round track g1 (seq (S a) n)) as [[g2 hs2] log2] eqn:E. intros H. injection H as <- <- <-.
    destruct (IH _ _ _ _ _ E) as [L ->]. split; [cbn; now rewrite L|]. cbn [map]. f_equal; [unfold hold; now rewrite Nat.sub_diag|].
    apply map_ext_in. intros i I. apply in_seq in I. f_equal. unfold hold. replace (i - a) with (S (i - S a)) by lia. reflexivity.
Qed.
Lemma resume_log a n : forall g hs g' hs' log, length hs = n -> resume_round resume g (seq a n) hs = (g', hs', log) ->
  length hs' = n /\ (forall i, hold hs' i = true -> hold hs i = true) /\
  log = map (fun i => (i, hold hs' (i - a))) (filter (fun i => hold hs (i - a)) (seq a n)).
Proof.
  revert a. induction n as [|n IH]; intros a g hs g' hs' log L; destruct hs as [|h hs]; try discriminate L; cbn [seq resume_round].
  - intros H. injection H as <- <- <-. auto.
  - injection L as L. intros H. cbn [filter].
    replace (hold (h :: hs) (a - a)) with h by (unfold hold; now rewrite Nat.sub_diag).
    assert (Q : forall g1 h1 g2 hs2 log2, resume_round resume g1 (seq (S a) n) hs = (g2, hs2, log2) -> (h1 = true -> h = true) ->
      length (h1 :: hs2) = S n /\ (forall i, hold (h1 :: hs2) i = true -> hold (h :: hs) i = true) /\
      log2 = map (fun i => (i, hold (h1 :: hs2) (i - a))) (filter (fun i => hold (h :: hs) (i - a)) (seq (S a) n))).
    { intros g1 h1 g2 hs2 log2 R Hh. destruct (IH _ _ _ _ _ _ L R) as (L2 & M & ->). split; [cbn; now rewrite L2|]. split.
      - intros [|i]; [exact Hh|exact (M i)].
      - transitivity (map (fun i => (i, hold (h1 :: hs2) (i - a))) (filter (fun i => hold hs (i - S a)) (seq (S a) n))).
        + apply map_ext_in. intros i I. apply filter_In in I as [I _]. apply in_seq in I. f_equal. replace (i - a) with (S (i - S a)) by lia. reflexivity.
        + f_equal. apply filter_ext_in. intros i I. apply in_seq in I. replace (i - a) with (S (i - S a)) by lia. reflexivity. }
    destruct h.
    + destruct (resume a g) as [g1 h1]. destruct (resume_round resume g1 (seq (S a) n) hs) as [[g2 hs2] log2] eqn:R. injection H as <- <- <-.
      destruct (Q g1 h1 _ _ _ R (fun _ => eq_refl)) as (A & B & ->). split; [exact A|]. split; [exact B|]. cbn [map]. f_equal. unfold hold. now rewrite Nat.sub_diag.
    + destruct (resume_round resume g (seq (S a) n) hs) as [[g2 hs2] log2] eqn:R. injection H as <- <- <-. exact (Q g false _ _ _ R (fun x => x)).
Qed.

Definition robin_from (k : nat -> nat) (n a rounds : nat) : list (nat * bool) :=
  flat_map (fun r => map (fun i => (i, r <? k i)) (filter (fun i => r <=? k i) (seq 0 n))) (seq a rounds).
Lemma existsb_hold hs : existsb (fun h => h) hs = false -> forall i, hold hs i = false.
Proof.
  induction hs as [|h hs IH]; cbn; intros H [|i]; try reflexivity; apply orb_false_iff in H as [H1 H2]; [exact H1|exact (IH H2 i)].
Qed.
Lemma rounds_log n fuel : forall g hs g' log, length hs = n -> rounds resume fuel g (seq 0 n) hs = Some (g', log) ->
  exists k R, (forall i, i < n -> (0 <? k i) = hold hs i) /\ (forall i, i < n -> k i <= R) /\ log = robin_from k n 1 R.
Proof.
  induction fuel as [|f IH]; intros g hs g' log L; cbn [rounds]; destruct (existsb (fun h => h) hs) eqn:E; try discriminate.
  - intros H. injection H as <- <-. exists (fun _ => 0), 0. split; [|split; [auto|reflexivity]]. intros i _. now rewrite (existsb_hold _ E).
  - destruct (resume_round resume g (seq 0 n) hs) as [[g1 hs1] log1] eqn:R. destruct (rounds resume f g1 (seq 0 n) hs1) as [[g2 more]|] eqn:M; [|discriminate].
    intros H. injection H as <- <-. destruct (resume_log 0 n _ _ _ _ _ L R) as (L1 & Mo & ->). destruct (IH _ _ _ _ L1 M) as (k & N & K & KN & ->).
    exists (fun i => if hold hs i then S (k i) else 0), (S N). split; [intros i _; destruct (hold hs i); reflexivity|].
    split; [intros i Hi; specialize (KN i Hi); destruct (hold hs i); lia|].
    unfold robin_from. cbn [seq flat_map]. f_equal.
    + transitivity (map (fun i => (i, hold hs1 i)) (filter (hold hs) (seq 0 n))).
      * rewrite (filter_ext (fun i => hold hs (i - 0)) (hold hs)) by (intros i; now rewrite Nat.sub_0_r). apply map_ext. intros i. now rewrite Nat.sub_0_r.
      * replace (filter (fun i => 1 <=? (if hold hs i then S (k i) else 0)) (seq 0 n)) with (filter (hold hs) (seq 0 n)) by (apply filter_ext; intros i; destruct (hold hs i); reflexivity).
        apply map_ext_in. intros i I. apply filter_In in I as [I Hi]. apply in_seq in I. rewrite Hi. f_equal. rewrite <- (K i) by lia. reflexivity.
    + rewrite <- (seq_shift N 1). rewrite !flat_map_concat_map, map_map. f_equal. apply map_ext_in. intros r Hr. apply in_seq in Hr.
      replace (filter (fun i => S r <=? (if hold hs i then S (k i) else 0)) (seq 0 n)) with (filter (fun i => r <=? k i) (seq 0 n)).
      * apply map_ext_in. intros i I. apply filter_In in I as [I Hi]. apply in_seq in I. f_equal.
        destruct (hold hs i) eqn:Hh; [reflexivity|]. exfalso. assert (Z : hold hs1 i = true).
        { rewrite <- (K i) by lia. apply Nat.leb_le in Hi. apply Nat.ltb_lt. lia. } rewrite (Mo i Z) in Hh. discriminate.
      * apply filter_ext_in. intros i I. apply in_seq in I. destruct (hold hs i) eqn:Hh; [reflexivity|]. cbn.
        apply Nat.leb_gt. destruct (k i) eqn:Ki; [lia|]. exfalso. assert (Z : hold hs1 i = true) by (rewrite <- (K i) by lia; rewrite Ki; reflexivity).
        rewrite (Mo i Z) in Hh. discriminate.
  - intros H. injection H as <- <-. exists (fun _ => 0), 0. split; [|split; [auto|reflexivity]]. intros i _. now rewrite (existsb_hold _ E).
Qed.
Lemma multi_robin fuel n g g' log : multitrack track resume fuel n g = Some (g', log) -> exists k R, log = round_robin k n R /\ forall i, i < n -> k i < R.
Proof.
  unfold multitrack. destruct (first_round track g (seq 0 n)) as [[g1 hs] log1] eqn:F. destruct (rounds resume fuel g1 (seq 0 n) hs) as [[g2 more]|] eqn:R; [|discriminate].
  intros H. injection H as <- <-. destruct (first_log 0 n _ _ _ _ F) as [L ->]. destruct (rounds_log n fuel _ _ _ _ L R) as (k & N & K & KN & ->).
  exists k, (S N). split; [|intros i Hi; specialize (KN i Hi); lia]. unfold round_robin, robin_from. cbn [seq flat_map]. f_equal.
  replace (filter (fun i => 0 <=? k i) (seq 0 n)) with (seq 0 n).
  - apply map_ext_in. intros i I. apply in_seq in I. rewrite (K i) by lia. now rewrite Nat.sub_0_r.
  - symmetry. generalize (seq 0 n). induction l as [|x r IH]; [reflexivity|]. cbn [filter Nat.leb] in IH |- *. now rewrite IH.
Qed.
End Multi.

(** * Independent branches *)
Section Independent.
Context {B : Type}.
Variables (track resume : nat -> (nat -> B) -> (nat -> B) * bool) (own_track own_resume : nat -> B -> B * bool).
Hypothesis Ht : independent track own_track.
Hypothesis Hr : independent resume own_resume.

Lemma first_own a n : forall g g' hs log, first_round track g (seq a n) = (g', hs, log) ->
  (forall i, a <= i < a + n -> g' i = fst (own_track i (g i)) /\ hold hs (i - a) = snd (own_track i (g i))) /\
  (forall i, ~ a <= i < a + n -> g' i = g i).
Proof.
  revert a. induction n as [|n IH]; intros a g g' hs log; cbn [seq first_round].
  - intros H. injection H as <- <- <-. split; [lia|auto].
  - destruct (track a g) as [g1 h] eqn:T. destruct (first_round track g1 (seq (S a) n)) as [[g2 hs2] log2] eqn:E. intros H. injection H as <- <- <-.
    destruct (IH _ _ _ _ _ E) as [P Q]. destruct (Ht a g) as [X Y]. rewrite T in X, Y. cbn [fst snd] in X, Y. split.
    + intros i Hi. destruct (Nat.eq_dec i a) as [->|N].
      * rewrite Q by lia. rewrite Y, Nat.eqb_refl, Nat.sub_diag. auto.
      * destruct (P i ltac:(lia)) as [P1 P2]. replace (i - a) with (S (i - S a)) by lia. rewrite P1. unfold hold in *. cbn [nth]. rewrite P2, Y.
        destruct (Nat.eqb_spec i a); [contradiction|auto].
    + intros i Hi. rewrite Q by lia. rewrite Y. destruct (Nat.eqb_spec i a); [lia|reflexivity].
Qed.
Lemma resume_own a n : forall g hs g' hs' log, length hs = n -> resume_round resume g (seq a n) hs = (g', hs', log) ->
  (forall i, a <= i < a + n -> if hold hs (i - a)
      then g' i = fst (own_resume i (g i)) /\ hold hs' (i - a) = snd (own_resume i (g i))
      else g' i = g i /\ hold hs' (i - a) = false) /\
  (forall i, ~ a <= i < a + n -> g' i = g i).
Proof.
  revert a. induction n as [|n IH]; intros a g hs g' hs' log L; destruct hs as [|h hs]; try discriminate L; cbn [seq resume_round].
  - intros H. injection H as <- <- <-. split; [lia|auto].
  - injection L as L. destruct h.
    + destruct (resume a g) as [g1 h1] eqn:T. destruct (resume_round resume g1 (seq (S a) n) hs) as [[g2 hs2] log2] eqn:E. intros H. injection H as <- <- <-.
      destruct (IH _ _ _ _ _ _ L E) as [P Q]. destruct (Hr a g) as [X Y]. rewrite T in X, Y. cbn [fst snd] in X, Y. split.
      * intros i Hi. destruct (Nat.eq_dec i a) as [->|N].
        -- rewrite Nat.sub_diag. unfold hold. cbn [nth]. rewrite Q by lia. rewrite Y, Nat.eqb_refl. auto.
        -- specialize (P i ltac:(lia)). replace (i - a) with (S (i - S a)) by lia. unfold hold in *. cbn [nth]. rewrite Y in P.
           destruct (Nat.eqb_spec i a); [contradiction|exact P].
      * intros i Hi. rewrite Q by lia. rewrite Y. destruct (Nat.eqb_spec i a); [lia|reflexivity].
    + destruct (resume_round resume g (seq (S a) n) hs) as [[g2 hs2] log2] eqn:E. intros H. injection H as <- <- <-.
      destruct (IH _ _ _ _ _ _ L E) as [P Q]. split.
      * intros i Hi. destruct (Nat.eq_dec i a) as [->|N].
        -- rewrite Nat.sub_diag. unfold hold. cbn [nth]. rewrite Q by lia. auto.
        -- specialize (P i ltac:(lia)). replace (i - a) with (S (i - S a)) by lia. exact P.
      * intros i Hi. apply Q. lia.
Qed.
Lemma rounds_own n fuel : forall g hs g' log, length hs = n -> rounds resume fuel g (seq 0 n) hs = Some (g', log) ->
  (forall i, i < n -> exists k, resumed (own_resume i) (g i) (hold hs i) k (g' i)) /\ (forall i, n <= i -> g' i = g i).
Proof.
  induction fuel as [|f IH]; intros g hs g' log L; cbn [rounds]; destruct (existsb (fun h => h) hs) eqn:E; try discriminate.
  1, 3: intros H; injection H as <- <-; split; [|auto]; intros i _; exists 0; rewrite (existsb_hold _ E); constructor.
  destruct (resume_round resume g (seq 0 n) hs) as [[g1 hs1] log1] eqn:R. destruct (rounds resume f g1 (seq 0 n) hs1) as [[g2 more]|] eqn:M; [|discriminate].
  intros H. injection H as <- <-. destruct (resume_log _ 0 n _ _ _ _ _ L R) as (L1 & _ & _). destruct (resume_own 0 n _ _ _ _ _ L R) as [P Q].
  destruct (IH _ _ _ _ L1 M) as [P1 Q1]. split.
  - intros i Hi. specialize (P i ltac:(lia)). rewrite Nat.sub_0_r in P. destruct (P1 i Hi) as (k & K). destruct (hold hs i).
    + destruct P as [P2 P3]. rewrite P2, P3 in K. exists (S k). constructor. exact K.
    + destruct P as [P2 P3]. rewrite P2, P3 in K. exists k. exact K.
  - intros i Hi. rewrite Q1 by lia. apply Q. lia.
Qed.
Lemma multi_alone fuel n g g' log : multitrack track resume fuel n g = Some (g', log) ->
  (forall i, i < n -> exists k, alone (own_track i) (own_resume i) (g i) k (g' i)) /\ (forall i, n <= i -> g' i = g i).
Proof.
  unfold multitrack. destruct (first_round track g (seq 0 n)) as [[g1 hs] log1] eqn:F. destruct (rounds resume fuel g1 (seq 0 n) hs) as [[g2 more]|] eqn:R; [|discriminate].
  intros H. injection H as <- <-. destruct (first_log _ 0 n _ _ _ _ F) as [L _]. destruct (first_own 0 n _ _ _ _ F) as [P Q]. destruct (rounds_own n fuel _ _ _ _ L R) as [P1 Q1]. split.
  - intros i Hi. destruct (P1 i Hi) as (k & K). destruct (P i ltac:(lia)) as [P2 P3]. rewrite Nat.sub_0_r in P3. rewrite P2, P3 in K. exists k. exact K.
  - intros i Hi. rewrite Q1 by lia. apply Q. lia.
Qed.

(** it ends if each branch alone does *)
Lemma rounds_end n fuel : forall g hs, length hs = n ->
  (forall i, i < n -> exists k s', k <= fuel /\ resumed (own_resume i) (g i) (hold hs i) k s') ->
  exists r, rounds resume fuel g (seq 0 n) hs = Some r.
Proof.
  induction fuel as [|f IH]; intros g hs L H; cbn [rounds]; destruct (existsb (fun h => h) hs) eqn:E; eauto.
  - exfalso. apply existsb_exists in E as (h & I & ->). apply (In_nth _ _ false) in I as (i & Hi & N). rewrite L in Hi.
    destruct (H i Hi) as (k & s' & K & X). unfold hold in X. rewrite N in X. inversion X; subst. lia.
  - destruct (resume_round resume g (seq 0 n) hs) as [[g1 hs1] log1] eqn:R. destruct (resume_log _ 0 n _ _ _ _ _ L R) as (L1 & _ & _).
    destruct (resume_own 0 n _ _ _ _ _ L R) as [P _]. destruct (IH g1 hs1 L1) as ([g2 more] & ->); [|eauto].
    intros i Hi. specialize (P i ltac:(lia)). rewrite Nat.sub_0_r in P. destruct (H i Hi) as (k & s' & K & X). destruct (hold hs i).
    + destruct P as [P2 P3]. inversion X as [|? k0 ? X0]; subst. exists k0, s'. split; [lia|]. rewrite P2, P3. exact X0.
    + destruct P as [P2 P3]. exists 0, (g1 i). split; [lia|]. rewrite P3. constructor.
Qed.
Lemma multi_end n fuel g : (forall i, i < n -> exists k s', k <= fuel /\ alone (own_track i) (own_resume i) (g i) k s') ->
  exists r, multitrack track resume fuel n g = Some r.
Proof.
  intros H. unfold multitrack. destruct (first_round track g (seq 0 n)) as [[g1 hs] log1] eqn:F.
  destruct (first_log _ 0 n _ _ _ _ F) as [L _]. destruct (first_own 0 n _ _ _ _ F) as [P _]. destruct (rounds_end n fuel g1 hs L) as ([g2 more] & ->); [|eauto].
  intros i Hi. destruct (P i ltac:(lia)) as [P2 P3]. rewrite Nat.sub_0_r in P3. destruct (H i Hi) as (k & s' & K & X). exists k, s'. split; [exact K|]. rewrite P2, P3. exact X.
Qed.
End Independent.
