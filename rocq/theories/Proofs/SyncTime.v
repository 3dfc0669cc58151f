(** Proofs about tracking of coasting beams in frames *)
From Coq Require Import Reals ZArith List Bool Arith Lia Lra Permutation.
From Verif.Model Require Import SyncTime.
From Verif.Spec Require Import SyncTime.
Import ListNotations.
Local Open Scope list_scope.
Local Open Scope R_scope.

Section SyncTime.
Context {D : Type}.
Variables (C f : R) (m : nat) (pos : nat -> R) (dz : nat -> D -> R) (out : nat -> D -> option D).
Hypothesis HC : 0 < C.
Hypothesis Hf : 0 < f.
Hypothesis Hpos0 : pos 0%nat = 0.
Hypothesis HposE : pos (S m) = C.
Hypothesis Hslow : not_too_fast f m pos dz.
Variables (t0 : R) (d0 : D).
Notation free := (free m pos dz out t0 d0).
Notation wend := (window_end C f).
Notation particle := (particle D).

Definition T (k : nat) (p : particle) : R := INR k * (f * C) + p_s p - p_zeta p.
Definition resting (k j i : nat) (p : particle) : Prop :=
  (p_state p = 0%Z /\ free i = None) \/
  (exists j', (j <= j' <= S m)%nat /\ p_state p = (- ident m j')%Z /\ p_s p = pos j' /\ free i = Some (j', T k p, p_data p) /\ (1 <= k)%nat /\ wend k (pos j') - f * C < T k p) \/
  (exists j', (j' < j)%nat /\ (j' <= S m)%nat /\ p_state p = (- ident m j')%Z /\ p_s p = pos j' /\ free i = Some (j', T (S k) p, p_data p) /\ wend k (pos j') < T (S k) p) \/
  (k = 0%nat /\ p_state p = (- coast)%Z /\ p_s p = 0 /\ free i = Some (0%nat, T 1 p, p_data p) /\ wend 0 0 < T 1 p).
Definition moving (k j i : nat) (p : particle) : Prop :=
  alive p = true /\ p_s p = pos j /\ free i = Some (j, T k p, p_data p) /\ wend k (pos j) - f * C < T k p.
Definition inv k j i p := moving k j i p \/ resting k j i p.
Definition entry (k i : nat) (x : passage) : Prop :=
  match x with (j, z, s, d) => s = pos j /\ free i = Some (j, INR k * (f * C) + s - z, d) /\ in_window C f k (pos j) (INR k * (f * C) + s - z) end.

Lemma free_S i : free (S i) = match free i with
  | None => None
  | Some (j, t, d) => if (j =? S m)%nat then Some (0%nat, t, d) else match out j d with None => None | Some d' => Some (S j, t + (pos (S j) - pos j) - dz j d, d') end
  end.
Proof. reflexivity. Qed.
Lemma ident_pos j : (coast < ident m j)%Z.
Proof. unfold ident. destruct (Nat.eqb_spec j 0); [lia|]. destruct (Nat.eqb_spec j (S m)); lia. Qed.
Lemma ident_inj j j' : (j <= S m)%nat -> (j' <= S m)%nat -> ident m j = ident m j' -> j = j'.
Proof. unfold ident. destruct (Nat.eqb_spec j 0), (Nat.eqb_spec j' 0), (Nat.eqb_spec j (S m)), (Nat.eqb_spec j' (S m)); lia. Qed.
Lemma coast_pos : (0 < coast)%Z. Proof. reflexivity. Qed.

Lemma wend_S k s : wend (S k) s = wend k s + f * C.
Proof. unfold window_end. rewrite S_INR. ring. Qed.
Lemma zmin_T k p : (p_zeta p < zeta_min C f p <-> wend k (p_s p) < T k p) /\ (zeta_min C f p + C * f < p_zeta p <-> T k p < wend k (p_s p) - f * C).
Proof. unfold zeta_min, window_end, T. split; split; intros; lra. Qed.
Lemma T_S k p : T (S k) p = T k p + f * C.
Proof. unfold T. rewrite S_INR. ring. Qed.
Lemma T_add k p x : T k (add_zeta x p) = T k p - x.
Proof. unfold T, add_zeta. cbn. ring. Qed.
Lemma fC : 0 < f * C. Proof. apply Rmult_lt_0_compat; assumption. Qed.

(** what holding does to a particle which is at stage j *)
Lemma hold_at k j i p : p_s p = pos j -> (j <= S m)%nat -> free i = Some (j, T k p, p_data p) -> wend k (pos j) - f * C < T k p ->
  (alive p = true \/ p_state p = (- ident m j)%Z) ->
  exists p2, sync_hold C f (ident m j) p = Some p2 /\
    ((alive p2 = true /\ p_s p2 = pos j /\ p_zeta p2 = p_zeta p /\ p_data p2 = p_data p /\ entry k i (j, p_zeta p2, p_s p2, p_data p2)) \/ (alive p2 = false /\ resting k (S j) i p2)).
Proof.
  intros Hs Hj F L A. pose proof (ident_pos j) as Ip. pose proof coast_pos as Cp. pose proof fC as FC. unfold sync_hold.
  set (p1 := if (p_state p =? - ident m j)%Z then with_state 1 p else p).
  assert (A1 : alive p1 = true). { unfold p1. destruct (Z.eqb_spec (p_state p) (- ident m j)); [reflexivity|]. tauto. }
  assert (E : p_s p1 = p_s p /\ p_zeta p1 = p_zeta p /\ p_data p1 = p_data p) by (unfold p1; destruct (_ =? _)%Z; auto). destruct E as (E1 & E2 & E3).
  assert (ET : forall q, T q p1 = T q p) by (intros q; unfold T; now rewrite E1, E2).
  rewrite A1. destruct (zmin_T k p1) as [Z1 Z2]. rewrite ET, E1, Hs in Z1, Z2.
  destruct (Rlt_dec (zeta_min C f p1 + C * f) (p_zeta p1)) as [B|B]; [apply Z2 in B; lra|].
  destruct (Rlt_dec (p_zeta p1) (zeta_min C f p1)) as [S|S].
  - eexists. split; [reflexivity|]. right. split; [unfold alive; cbn [p_state with_state]; apply Z.ltb_ge; lia|]. right. right. left. exists j. cbn [p_state p_s p_data with_state add_zeta].
    assert (ET' : T (Datatypes.S k) (with_state (- ident m j) (add_zeta (f * C) p1)) = T k p).
    { change (T (Datatypes.S k) (with_state (- ident m j) (add_zeta (f * C) p1))) with (T (Datatypes.S k) (add_zeta (f * C) p1)). rewrite T_add, T_S, ET. ring. }
    rewrite ET', E1, E3. apply Z1 in S. repeat split; try lia; try assumption.
  - eexists. split; [reflexivity|]. left. split; [exact A1|]. split; [congruence|]. split; [exact E2|]. split; [exact E3|]. unfold entry. rewrite E1, E2, E3.
    change (INR k * (f * C) + p_s p - p_zeta p) with (T k p). split; [exact Hs|]. split; [exact F|]. split; [exact L|].
    destruct (Rle_lt_dec (T k p) (wend k (pos j))) as [|X]; [assumption|]. apply Z1 in X. contradiction.
Qed.

Lemma stage_ok prep k j i p : inv k j i p -> (j <= S m)%nat ->
  exists p2, sync_hold C f (ident m j) (sync_start C f (j =? 0)%nat (k =? 0)%nat prep p) = Some p2 /\
    ((alive p2 = true /\ p_s p2 = pos j /\ entry k i (j, p_zeta p2, p_s p2, p_data p2)) \/ (alive p2 = false /\ resting k (S j) i p2)).
Proof.
  intros I Hj. pose proof (ident_pos j) as Ip. pose proof coast_pos as Cp. pose proof fC as FC. destruct I as [(A & Hs & F & L)|R].
  - unfold sync_start. destruct ((j =? 0)%nat && (k =? 0)%nat && negb prep && alive p)%bool eqn:G.
    + destruct (Rlt_dec (p_zeta p) (zeta_min C f p)) as [S|S].
      * apply andb_true_iff in G as [G _]. apply andb_true_iff in G as [G _]. apply andb_true_iff in G as [G1 G2]. apply Nat.eqb_eq in G1, G2. subst j k.
        unfold sync_hold. cbn [p_state with_state]. destruct (Z.eqb_spec (- coast) (- ident m 0)); [lia|]. unfold alive at 1. cbn [p_state with_state]. destruct (Z.ltb_spec 0 (- coast)); [lia|].
        eexists. split; [reflexivity|]. right. split; [unfold alive; cbn [p_state with_state]; apply Z.ltb_ge; lia|]. right. right. right. cbn [p_state p_s p_data add_zeta with_state].
        set (q := mkParticle (- coast) (p_s p) (p_zeta p + C * f) (p_data p)).
        assert (E : T 1 q = T 0 p) by (unfold T, q; cbn; lra). change (with_state (- coast) (add_zeta (C * f) p)) with q. rewrite E. apply (zmin_T 0) in S. rewrite Hs, Hpos0 in *. auto.
      * destruct (hold_at k j i p Hs Hj F L (or_introl A)) as (p2 & E & H). exists p2. split; [exact E|]. tauto.
    + destruct (hold_at k j i p Hs Hj F L (or_introl A)) as (p2 & E & H). exists p2. split; [exact E|]. tauto.
  - assert (NA : alive p = false).
    { unfold alive. apply Z.ltb_ge. destruct R as [[-> _]|[(j' & _ & -> & _)|[(j' & _ & _ & -> & _)|(_ & -> & _)]]]; try (pose proof (ident_pos j')); lia. }
    unfold sync_start. rewrite NA, andb_false_r.
    assert (Same : p_state p <> (- ident m j)%Z -> sync_hold C f (ident m j) p = Some p).
    { intros N. unfold sync_hold. apply Z.eqb_neq in N. now rewrite N, NA. }
    destruct R as [[E F]|[(j' & J & E & Hs & F & K & W)|[(j' & J & J2 & E & Hs & F & W)|(K & E & Hs & F & W)]]].
    + exists p. split; [apply Same; lia|]. right. split; [exact NA|]. left. auto.
    + destruct (Nat.eq_dec j' j) as [->|N].
      * destruct (hold_at k j i p Hs Hj F W (or_intror E)) as (p2 & E2 & H). exists p2. split; [exact E2|]. tauto.
      * exists p. split; [apply Same; rewrite E; intros C'; apply N; apply ident_inj; lia|]. right. split; [exact NA|]. right. left. exists j'. repeat split; try assumption; lia.
    + exists p. split; [apply Same; rewrite E; intros C'; assert (j' = j) by (apply ident_inj; lia); lia|]. right. split; [exact NA|]. right. right. left. exists j'. repeat split; try assumption; lia.
    + exists p. split; [apply Same; lia|]. right. split; [exact NA|]. right. right. right. auto.
Qed.

Definition reset (p : particle) : particle := if alive p then mkParticle (p_state p) 0 (p_zeta p) (p_data p) else p.

Lemma stages_ok prep k n : forall j i p, (n + j = S m)%nat -> inv k j i p ->
  exists log p', stages C f m pos dz out (k =? 0)%nat prep n j p = Some (log, p') /\ inv (S k) 0 (i + length log) (reset p') /\
    forall q x, nth_error log q = Some x -> entry k (i + q) x.
Proof.
  pose proof coast_pos as Cp. pose proof fC as FC. induction n as [|n IH]; intros j i p Hn I.
  - destruct (stage_ok prep k j i p I ltac:(lia)) as (p2 & E & H). cbn [stages]. rewrite E. cbn in Hn. subst j. rewrite Nat.eqb_refl.
    eexists. eexists. split; [reflexivity|]. destruct H as [(A & Hs & En)|(A & R)].
    + rewrite A. split; [|intros [|q] x X; [cbn in X; injection X as <-; rewrite Nat.add_0_r; exact En|destruct q; discriminate]].
      left. unfold sync_end. rewrite A. cbn [andb].
      destruct ((k =? 0)%nat && (p_state (add_zeta (- (C * (1 - f))) p2) =? - coast)%Z)%bool eqn:G.
      { apply andb_true_iff in G as [_ G]. apply Z.eqb_eq in G. cbn in G. unfold alive in A. apply Z.ltb_lt in A. lia. }
      unfold reset. change (alive (add_zeta (- (C * (1 - f))) p2)) with (alive p2). rewrite A. cbn [p_state p_zeta p_data add_zeta].
      set (q := mkParticle _ 0 _ _). destruct En as (Es & F & W).
      assert (ET : T (S k) q = INR k * (f * C) + p_s p2 - p_zeta p2) by (unfold T, q; cbn [p_s p_zeta]; rewrite S_INR, Hs, HposE; ring).
      split; [exact A|]. cbn [p_s p_data]. split; [now rewrite Hpos0|]. rewrite ET. split.
      * cbn [length]. replace (i + 1)%nat with (S i) by lia. rewrite free_S. rewrite F, Nat.eqb_refl. reflexivity.
      * destruct W as [W1 _]. rewrite Hpos0, wend_S. rewrite HposE in W1. unfold window_end in *. lra.
    + rewrite A. cbn [length]. rewrite Nat.add_0_r. split; [|intros [|q] x X; discriminate].
      unfold sync_end. rewrite A. cbn [andb].
      destruct R as [[Es F]|[(j' & J & _)|[(j' & J & J2 & Es & Hs & F & W)|(K & Es & Hs & F & W)]]]; [|lia| |].
      * destruct ((k =? 0)%nat && (p_state p2 =? - coast)%Z)%bool eqn:G; [apply andb_true_iff in G as [_ G]; apply Z.eqb_eq in G; lia|].
        unfold reset. rewrite A. right. left. auto.
      * pose proof (ident_pos j'). destruct ((k =? 0)%nat && (p_state p2 =? - coast)%Z)%bool eqn:G; [apply andb_true_iff in G as [_ G]; apply Z.eqb_eq in G; lia|].
        unfold reset. rewrite A. right. right. left. exists j'. repeat split; try assumption; try lia. rewrite wend_S. lra.
      * subst k. rewrite Es, Z.eqb_refl. cbn [Nat.eqb andb]. unfold reset. cbn [alive with_state p_state p_zeta p_data]. left. split; [reflexivity|].
        cbn [p_s p_data]. split; [now rewrite Hpos0|]. rewrite <- Hs. change (mkParticle 1 (p_s p2) (p_zeta p2) (p_data p2)) with (with_state 1 p2).
        split; [exact F|]. change (wend 1 (pos 0%nat) - f * C < T 1 p2). rewrite Hpos0, wend_S. lra.
  - destruct (stage_ok prep k j i p I ltac:(lia)) as (p2 & E & H). cbn [stages]. rewrite E. destruct (Nat.eqb_spec j (S m)) as [X|X]; [lia|].
    assert (SE : sync_end C f false (k =? 0)%nat p2 = p2) by reflexivity. rewrite SE. destruct H as [(A & Hs & En)|(A & R)]; rewrite A.
    + assert (I' : inv k (S j) (S i) (fly pos dz out j p2)).
      { destruct En as (Es & F & [W1 W2]). unfold fly. rewrite A. destruct (out j (p_data p2)) as [d'|] eqn:O.
        - left. split; [exact A|]. cbn [p_s p_data]. split; [reflexivity|]. set (q := mkParticle _ _ _ _).
          assert (ET : T k q = INR k * (f * C) + p_s p2 - p_zeta p2 + (pos (S j) - pos j) - dz j (p_data p2)) by (unfold T, q; cbn [p_s p_zeta]; rewrite Hs; ring).
          rewrite ET. split.
          + rewrite free_S. rewrite F. destruct (Nat.eqb_spec j (S m)); [lia|]. rewrite O. reflexivity.
          + pose proof (Hslow j (p_data p2) ltac:(lia)) as SL. unfold window_end in *. lra.
        - right. left. split; [reflexivity|]. rewrite free_S. rewrite F. destruct (Nat.eqb_spec j (S m)); [lia|]. now rewrite O. }
      destruct (IH (S j) (S i) _ ltac:(lia) I') as (log & p' & E' & I2 & L). rewrite E'. eexists. eexists. split; [reflexivity|]. split.
      * rewrite app_length, Nat.add_assoc. cbn [length]. rewrite (Nat.add_comm i 1). exact I2.
      * intros [|q] x Q; cbn in Q; [injection Q as <-; rewrite Nat.add_0_r; exact En|]. replace (i + S q)%nat with (S i + q)%nat by lia. exact (L q x Q).
    + assert (FE : fly pos dz out j p2 = p2) by (unfold fly; now rewrite A). rewrite FE.
      destruct (IH (S j) i p2 ltac:(lia) (or_intror R)) as (log & p' & E' & I2 & L). rewrite E'. exists log, p'. auto.
Qed.

Lemma run_ok prep N : forall k i p, inv k 0 i p ->
  exists log p', run C f m pos dz out prep k N p = Some (log, p') /\ inv (k + N) 0 (i + length log) p' /\
    forall q k' x, nth_error log q = Some (k', x) -> (k <= k' < k + N)%nat /\ entry k' (i + q) x.
Proof.
  induction N as [|N IH]; intros k i p I.
  - exists [], p. cbn. rewrite !Nat.add_0_r. split; [reflexivity|]. split; [exact I|]. intros [|q]; discriminate.
  - cbn [run]. unfold frame. destruct (stages_ok prep k (S m) 0 i p ltac:(lia) I) as (log & p1 & E & I1 & L). rewrite E.
    destruct (IH (S k) _ _ I1) as (log2 & p2 & E2 & I2 & L2). unfold reset in E2. rewrite E2. eexists. eexists. split; [reflexivity|]. split.
    + rewrite app_length, map_length, Nat.add_assoc. replace (k + S N)%nat with (S k + N)%nat by lia. exact I2.
    + intros q k' x Q. destruct (Nat.lt_ge_cases q (length log)) as [C1|C1].
      * rewrite nth_error_app1 in Q by (rewrite map_length; exact C1). rewrite nth_error_map in Q. destruct (nth_error log q) as [y|] eqn:Y; [|discriminate].
        cbn in Q. injection Q as <- <-. split; [lia|]. exact (L q y Y).
      * rewrite nth_error_app2 in Q by (rewrite map_length; exact C1). rewrite map_length in Q. destruct (L2 _ _ _ Q) as [K En]. split; [lia|].
        replace (i + q)%nat with (i + length log + (q - length log))%nat by lia. exact En.
Qed.

Lemma free_later k i n j t d : free i = Some (j, t, d) -> (j <= S m)%nat -> wend k (pos j) < t -> forall j' t' d', free (i + n) = Some (j', t', d') -> (j' <= S m)%nat /\ wend k (pos j') < t'.
Proof.
  intros F Hj W. pose proof fC as FC. induction n as [|n IH]; intros j' t' d' F'.
  - rewrite Nat.add_0_r, F in F'. injection F' as <- <- <-. auto.
  - rewrite Nat.add_succ_r in F'. rewrite free_S in F'. destruct (free (i + n)) as [[[j1 t1] d1]|] eqn:F1; [|discriminate].
    destruct (IH j1 t1 d1 eq_refl) as [J1 W1]. destruct (Nat.eqb_spec j1 (S m)) as [->|X].
    + injection F' as <- <- <-. split; [lia|]. rewrite Hpos0. rewrite HposE in W1. unfold window_end in *. lra.
    + destruct (out j1 d1) as [d2|]; [|discriminate]. injection F' as <- <- <-. split; [lia|]. pose proof (Hslow j1 d1 ltac:(lia)). unfold window_end in *. lra.
Qed.
Lemma free_none i n : free i = None -> free (i + n) = None.
Proof. intros F. induction n as [|n IH]; [now rewrite Nat.add_0_r|]. rewrite Nat.add_succ_r. rewrite free_S. now rewrite IH. Qed.
Lemma wend_le k k' s : (k <= k')%nat -> wend k s <= wend k' s.
Proof. intros H. unfold window_end. apply le_INR in H. pose proof fC. nra. Qed.
Lemma window_unique k k' s t : in_window C f k s t -> in_window C f k' s t -> k = k'.
Proof.
  pose proof fC as FC. intros [A B] [A' B']. destruct (Nat.lt_trichotomy k k') as [L|[L|L]]; [|exact L|]; exfalso.
  - pose proof (wend_le (S k) k' s L) as W. rewrite wend_S in W. lra.
  - pose proof (wend_le (S k') k s L) as W. rewrite wend_S in W. lra.
Qed.

Lemma complete prep N p log p' : inv 0 0 0 p -> run C f m pos dz out prep 0 N p = Some (log, p') ->
  forall k j z s d, In (k, (j, z, s, d)) log <-> (k < N)%nat /\ exists i, entry k i (j, z, s, d).
Proof.
  intros I E k j z s d. destruct (run_ok prep N 0 0 p I) as (log1 & p1 & E1 & I1 & L). rewrite E in E1. injection E1 as <- <-. cbn [Nat.add] in *. split.
  - intros H. apply In_nth_error in H as (q & Q). destruct (L _ _ _ Q) as [K En]. split; [lia|]. exists q. exact En.
  - intros (K & i & Es & F & W). set (t := INR k * (f * C) + s - z) in *.
    assert (Hi : (i < length log)%nat).
    { destruct (Nat.lt_ge_cases i (length log)) as [|G]; [assumption|]. exfalso. set (M := length log) in *.
      destruct N as [|N]; [lia|].
      assert (Late : exists j1 t1 d1, free M = Some (j1, t1, d1) /\ (j1 <= S m)%nat /\ wend N (pos j1) < t1 \/ free M = None).
      { destruct I1 as [(_ & _ & F1 & W1)|[[_ F1]|[(j' & J & _ & _ & F1 & _ & W1)|[(j' & J & _)|(X & _)]]]].
        - rewrite wend_S in W1. do 3 eexists. left. split; [exact F1|]. split; [lia|]. lra.
        - exists 0%nat, 0, d0. now right.
        - rewrite wend_S in W1. do 3 eexists. left. split; [exact F1|]. split; [lia|]. lra.
        - lia.
        - discriminate. }
      destruct Late as (j1 & t1 & d1 & [(F1 & J1 & W1)|F1]).
      - destruct (free_later N M (i - M) j1 t1 d1 F1 J1 W1 j t d) as [_ W2]; [replace (M + (i - M))%nat with i by lia; exact F|].
        destruct W as [_ W]. pose proof (wend_le k N (pos j) ltac:(lia)). lra.
      - pose proof (free_none M (i - M) F1) as F2. replace (M + (i - M))%nat with i in F2 by lia. congruence. }
    apply nth_error_Some in Hi. destruct (nth_error log i) as [[k' [[[j' z'] s'] d']]|] eqn:Q; [|congruence].
    destruct (L _ _ _ Q) as [K' (Es' & F' & W')]. rewrite F in F'. injection F' as -> Et ->.
    rewrite <- Et in W'. assert (k = k') by exact (window_unique _ _ _ _ W W'). subst k'. rewrite Es, Es' in *. unfold t in Et.
    assert (z = z') by lra. subst z'. apply nth_error_In in Q. exact Q.
Qed.
End SyncTime.

Section Top.
Context {D : Type}.
Variables (C f : R) (m : nat) (pos : nat -> R) (dz : nat -> D -> R) (out : nat -> D -> option D).

Lemma inv_start (p : particle D) : pos 0%nat = 0 -> alive p = true -> p_s p = 0 -> p_zeta p < f * C / 2 -> inv C f m pos dz out (- p_zeta p) (p_data p) 0 0 0 p.
Proof.
  intros P A S Z. left. assert (E : T C f 0 p = - p_zeta p) by (unfold T; cbn; rewrite S; ring). split; [exact A|]. rewrite P. split; [exact S|]. rewrite E. split; [reflexivity|].
  unfold window_end. cbn. lra.
Qed.
Lemma inv_prepared (p : particle D) : pos 0%nat = 0 -> alive p = true -> p_s p = 0 -> p_zeta p < f * C / 2 -> inv C f m pos dz out (- p_zeta p) (p_data p) 0 0 0 (prepare C f p).
Proof.
  intros P A S Z. unfold prepare. rewrite A. destruct (Rlt_dec _ _) as [L|L]; [|now apply inv_start]. right. right. right. right.
  split; [reflexivity|]. split; [reflexivity|]. split; [exact S|]. unfold zeta_min in L. rewrite S in L.
  set (q := with_state _ _). assert (E : T C f 1 q = - p_zeta p) by (unfold T, q; cbn; rewrite S; ring). rewrite E. split; [reflexivity|]. unfold window_end. cbn. lra.
Qed.

Lemma top (p : particle D) prep (user : bool) N : 0 < C -> 0 < f -> pos 0%nat = 0 -> pos (S m) = C -> not_too_fast f m pos dz ->
  alive p = true -> p_s p = 0 -> p_zeta p < f * C / 2 ->
  exists log p', run C f m pos dz out prep 0 N (if user then prepare C f p else p) = Some (log, p') /\
    (forall i k j z s d, nth_error log i = Some (k, (j, z, s, d)) ->
       s = pos j /\ free m pos dz out (- p_zeta p) (p_data p) i = Some (j, INR k * (f * C) + s - z, d) /\ in_window C f k s (INR k * (f * C) + s - z)) /\
    (forall k j z s d, In (k, (j, z, s, d)) log <->
       (k < N)%nat /\ s = pos j /\ in_window C f k s (INR k * (f * C) + s - z) /\
       exists i, free m pos dz out (- p_zeta p) (p_data p) i = Some (j, INR k * (f * C) + s - z, d)).
Proof.
  intros HC Hf P0 PE SL A S Z.
  assert (I : inv C f m pos dz out (- p_zeta p) (p_data p) 0 0 0 (if user then prepare C f p else p)) by (destruct user; [now apply inv_prepared|now apply inv_start]).
  destruct (run_ok C f m pos dz out HC Hf P0 PE SL _ _ prep N 0 0 _ I) as (log & p' & E & _ & L). exists log, p'. split; [exact E|]. split.
  - intros i k j z s d Q. destruct (L _ _ _ Q) as (_ & Es & F & W). split; [exact Es|]. split; [exact F|]. now rewrite Es at 1.
  - intros k j z s d. rewrite (complete C f m pos dz out HC Hf P0 PE SL _ _ prep N _ log p' I E). unfold entry. split.
    + intros (K & i & Es & F & W). split; [exact K|]. split; [exact Es|]. split; [now rewrite Es at 1|]. eauto.
    + intros (K & Es & W & i & F). split; [exact K|]. exists i. split; [exact Es|]. split; [exact F|]. now rewrite <- Es at 1.
Qed.
End Top.
