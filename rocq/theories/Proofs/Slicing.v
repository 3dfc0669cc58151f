(** Weights, slices of an element and slices of a line. *)
From Coq Require Import ZArith QArith Qabs Qfield List Bool String Ascii Arith Lia Lqa.
From Verif.Model Require Import Line Slicing.
From Verif.Spec Require Import Line Slicing.
From Verif.Proofs Require Import LineBase.
Import ListNotations.
Local Open Scope Q_scope.

(** * Sums *)
Lemma qsum_app a b : qsum (a ++ b) == qsum a + qsum b.
Proof. induction a as [|x a IH]; cbn [qsum app]; [ring|rewrite IH; ring]. Qed.
Lemma qnat_S n : qnat (S n) == qnat n + 1.
Proof. unfold qnat. rewrite Nat2Z.inj_succ. unfold Z.succ. rewrite inject_Z_plus. reflexivity. Qed.
Lemma qnat_pos n : 0 < qnat (S n).
Proof. unfold qnat. change 0 with (inject_Z 0). rewrite <- Zlt_Qlt. lia. Qed.
Lemma qnat_nonneg n : 0 <= qnat n.
Proof. unfold qnat. change 0 with (inject_Z 0). rewrite <- Zle_Qle. lia. Qed.
Lemma qsum_repeat x n : qsum (repeat x n) == qnat n * x.
Proof. induction n as [|n IH]; [cbn [repeat qsum]; change (qnat 0) with 0; ring|]. cbn [repeat qsum]. rewrite IH, qnat_S. ring. Qed.
Lemma qsum_uniform n : qsum (repeat (1 / qnat (S n)) (S n)) == 1.
Proof. rewrite qsum_repeat. pose proof (qnat_pos n). field. lra. Qed.

Lemma qsum_scale l x : ~ x == 0 -> qsum (map (fun y => y / x) l) == qsum l / x.
Proof. intro N. induction l as [|y l IH]; cbn [map qsum]; [field; auto|]. rewrite IH. field. auto. Qed.
Lemma qsum_diffs l a b : qsum (diffs a (l ++ [b])) == b - a.
Proof. revert a. induction l as [|x l IH]; intro a; cbn [app diffs qsum]; [ring|]. rewrite IH. ring. Qed.

(** * Weights *)
Lemma weave_drifts m d e : (List.length e <= List.length d <= S (List.length e))%nat -> drifts (weave m d e) = d.
Proof.
  revert e. induction d as [|w d IH]; intros e L; [reflexivity|]. cbn [weave]. destruct e as [|x e].
  - cbn in L. destruct d; [reflexivity|cbn in L; lia].
  - unfold drifts. cbn in L. destruct m; cbn; fold (drifts (weave MThin d e)) (drifts (weave MThick d e)); f_equal; apply IH; lia.
Qed.
Lemma weave_kicks d e : (List.length e <= List.length d)%nat -> kicks (weave MThin d e) = e.
Proof.
  revert e. induction d as [|w d IH]; intros e L; [destruct e; [reflexivity|cbn in L; lia]|]. cbn [weave]. destruct e as [|x e]; [reflexivity|].
  unfold kicks. cbn. fold (kicks (weave MThin d e)). f_equal. apply IH. cbn in L. lia.
Qed.
Lemma weave_thick d e : kicks (weave MThick d e) = [].
Proof. revert e. induction d as [|w d IH]; intro e; [reflexivity|]. destruct e; [reflexivity|]. unfold kicks. cbn. apply IH. Qed.

Lemma diffs_length l a : List.length (diffs a l) = List.length l.
Proof. revert a. induction l; intro; cbn; auto. Qed.

Lemma drift_weights_length c len : List.length (drift_weights c len) = S (order c) \/
  (exists l m, c = Custom l m /\ requested c = O).
Proof.
  destruct c as [n m|n m|l m]; cbn [drift_weights].
  - left. destruct (order (Uniform n m)); [reflexivity|]. cbn [List.length]. rewrite repeat_length. reflexivity.
  - left. destruct (order (Teapot n m)) as [|[|k]]; [reflexivity|reflexivity|]. cbn [List.length]. rewrite app_length, repeat_length. cbn. lia.
  - left. rewrite map_length, diffs_length, app_length. cbn [List.length]. unfold order. destruct m; cbn; lia.
Qed.

Lemma element_weights_length c e : element_weights c = Some e ->
  List.length e = order c \/ (order c = 0%nat /\ mode_of c = MThick /\ List.length e = 1%nat).
Proof.
  unfold element_weights. destruct c as [n m|n m|l m]; destruct (order _) as [|k] eqn:O.
  1,3: cbn [mode_of]; destruct m; [discriminate|]; intros [= <-]; right; auto.
  1,2: intros [= <-]; left; cbn [List.length]; rewrite repeat_length; reflexivity.
  - discriminate.
  - intros [= <-]. left. cbn [List.length]. rewrite repeat_length. reflexivity.
Qed.
Lemma element_weights_sum c e : element_weights c = Some e -> qsum e == 1.
Proof.
  unfold element_weights. destruct c as [n m|n m|l m]; destruct (order _) as [|k] eqn:O.
  1,3: cbn [mode_of]; destruct m; [discriminate|]; intros [= <-]; reflexivity.
  1,2: intro H; injection H as <-; apply qsum_uniform.
  - discriminate.
  - intro H; injection H as <-; apply qsum_uniform.
Qed.

Lemma drift_weights_sum c len : zero_custom c len = false -> qsum (drift_weights c len) == 1.
Proof.
  destruct c as [n m|n m|l m]; cbn [drift_weights zero_custom]; intro Z.
  - destruct (order _) as [|k]; [reflexivity|]. apply qsum_uniform.
  - destruct (order _) as [|[|k]]; [reflexivity|reflexivity|]. cbn [qsum]. rewrite qsum_app, qsum_repeat. cbn [qsum].
    replace (S (S k) - 1)%nat with (S k) by lia. pose proof (qnat_nonneg k) as P. rewrite !qnat_S.
    field. split; nra.
  - assert (N : ~ len == 0) by (intro E; apply Qeq_bool_iff in E; congruence).
    rewrite qsum_scale, qsum_diffs by exact N. field. exact N.
Qed.

Lemma iter_drifts c len ws : iter_weights c len = Some ws -> drifts ws = drift_weights c len.
Proof.
  unfold iter_weights. destruct (zero_custom c len); [discriminate|]. destruct (element_weights c) as [e|] eqn:E; [|discriminate].
  intros [= <-]. apply weave_drifts. pose proof (element_weights_length _ _ E) as Le.
  destruct (drift_weights_length c len) as [Ld|(l & m & -> & R)].
  - destruct Le as [Le|(O & _ & Le)]; lia.
  - unfold element_weights, order in E. destruct m; cbn in R, E; [destruct l; [discriminate|discriminate]|discriminate].
Qed.

Theorem weights c len ws : scheme_ok c = true -> iter_weights c len = Some ws ->
  qsum (drifts ws) == 1
  /\ (mode_of c = MThin -> List.length (drifts ws) = S (requested c) /\ List.length (kicks ws) = requested c /\ qsum (kicks ws) == 1)
  /\ (mode_of c = MThick -> List.length (drifts ws) = requested c /\ kicks ws = []).
Proof.
  intros Ok H. rewrite (iter_drifts _ _ _ H). unfold iter_weights in H.
  destruct (zero_custom c len) eqn:Z; [discriminate|]. destruct (element_weights c) as [e|] eqn:E; [|discriminate]. injection H as <-.
  assert (R : (1 <= requested c)%nat).
  { unfold scheme_ok in Ok. destruct (Nat.ltb_spec (requested c) 1); [discriminate|lia]. }
  assert (Ld : List.length (drift_weights c len) = S (order c)).
  { destruct (drift_weights_length c len) as [L|(l & m & -> & R0)]; [exact L|lia]. }
  split; [apply drift_weights_sum, Z|]. split; intro M.
  - assert (O : order c = requested c) by (unfold order; rewrite M; reflexivity).
    assert (Le : List.length e = order c).
    { destruct (element_weights_length _ _ E) as [L|(_ & T & _)]; [exact L|congruence]. }
    rewrite M, weave_kicks by lia. split; [congruence|]. split; [congruence|]. apply element_weights_sum with c, E.
  - assert (O : order c = (requested c - 1)%nat) by (unfold order; rewrite M; reflexivity).
    rewrite M, weave_thick. split; [lia|reflexivity].
Qed.

Theorem weights_defined c len : usable c len -> exists ws, iter_weights c len = Some ws.
Proof.
  intro U. unfold iter_weights. assert (Z : zero_custom c len = false).
  { destruct c as [n m|n m|l m]; [reflexivity|reflexivity|]. cbn [zero_custom]. destruct U as [_ U].
    destruct (Qeq_bool len 0) eqn:E; [exfalso|reflexivity]. apply Qeq_bool_iff in E.
    assert (forall l a, increasing a l len -> a < len) as X.
    { clear. induction l as [|x l IH]; intros a H; cbn in H; [exact H|]. destruct H as [H1 H2]. specialize (IH _ H2). lra. }
    apply X in U. lra. }
  rewrite Z. unfold element_weights. destruct c as [n m|n m|l m]; unfold order; cbn [mode_of requested].
  - destruct m; destruct n; cbn in U; try lia; [|destruct n]; cbn; eauto.
  - destruct m; destruct n; cbn in U; try lia; [|destruct n]; cbn; eauto.
  - destruct U as [N _]. destruct l as [|x l]; [congruence|]. destruct m; cbn; eauto.
Qed.

Lemma inc_lt l : forall a b, increasing a l b -> a < b.
Proof. induction l as [|x l IH]; intros a b H; cbn in H; [exact H|]. destruct H as [H1 H2]. specialize (IH _ _ H2). lra. Qed.

Lemma usable_zero c len : usable c len -> zero_custom c len = false.
Proof.
  destruct c as [n m|n m|l m]; [reflexivity|reflexivity|]. cbn. intros [_ U]. apply inc_lt in U.
  destruct (Qeq_bool len 0) eqn:E; [exfalso|reflexivity]. apply Qeq_bool_iff in E. lra.
Qed.

Theorem weights_positive c len ws : usable c len -> iter_weights c len = Some ws ->
  (forall w, In w (drifts ws) -> 0 < w) /\ (forall w, In w (kicks ws) -> 0 < w).
Proof.
  intros U H. rewrite (iter_drifts _ _ _ H). split; intros w Hw.
  - destruct c as [n m|n m|l m]; cbn [drift_weights] in Hw.
    + destruct (order _) as [|k]; [destruct Hw as [<-|[]]; reflexivity|]. apply repeat_spec in Hw. subst w.
      apply Qlt_shift_div_l; [apply qnat_pos|]. rewrite Qmult_0_l. reflexivity.
    + destruct (order _) as [|[|k]].
      * destruct Hw as [<-|[]]. reflexivity.
      * destruct Hw as [<-|[<-|[]]]; reflexivity.
      * pose proof (qnat_nonneg k) as P. assert (E : 0 < 1 / (2 * (1 + qnat (S (S k))))).
        { apply Qlt_shift_div_l; rewrite ?qnat_S; lra. }
        destruct Hw as [<-|Hw]; [exact E|]. apply in_app_iff in Hw. destruct Hw as [Hw|[<-|[]]]; [|exact E].
        apply repeat_spec in Hw. subst w. apply Qlt_shift_div_l; rewrite ?qnat_S; nra.
    + destruct U as [_ U]. pose proof (inc_lt _ _ _ U) as P.
      assert (G : forall l a w, increasing a l len -> In w (map (fun x => x / len) (diffs a (l ++ [len]))) -> 0 < w).
      { clear w Hw l U H. induction l as [|x l IH]; intros a w U Hw; cbn in Hw, U.
        - destruct Hw as [<-|[]]. apply Qlt_shift_div_l; lra.
        - destruct U as [U1 U2]. destruct Hw as [<-|Hw]; [apply Qlt_shift_div_l; lra|]. eapply IH; eassumption. }
      eapply G; eassumption.
  - unfold iter_weights in H. rewrite (usable_zero _ _ U) in H. destruct (element_weights c) as [e|] eqn:E; [|discriminate]. injection H as <-.
    destruct (mode_of c) eqn:M; [|rewrite weave_thick in Hw; destruct Hw].
    assert (S : In w e).
    { clear - Hw. revert e Hw. induction (drift_weights c len) as [|x d IH]; intros e Hw; [destruct Hw|]. cbn [weave] in Hw.
      destruct e as [|y e]; [destruct Hw|]. unfold kicks in Hw. cbn in Hw. destruct Hw as [->|Hw]; [left; reflexivity|right; apply IH, Hw]. }
    assert (exists n x, e = repeat x n /\ 0 < x).
    { clear - E M. unfold element_weights in E. destruct c; cbn [mode_of] in M; subst;
        (destruct (order _) as [|k]; [discriminate|]; injection E as <-; exists (S k), (1 / qnat (S k)); split; [reflexivity|];
         apply Qlt_shift_div_l; [apply qnat_pos|rewrite Qmult_0_l; reflexivity]). }
    destruct H as (n & x & -> & P). apply repeat_spec in S. subst w. exact P.
Qed.

(** custom: the slices end at the given positions *)
Lemma custom_prefix l : forall a len k, ~ len == 0 -> (k < List.length l)%nat ->
  a + qsum (firstn (S k) (map (fun x => x / len) (diffs a (l ++ [len])))) * len == nth k l 0.
Proof.
  induction l as [|x l IH]; intros a len k N K; cbn [List.length] in K; [lia|]. cbn [app diffs map firstn qsum].
  destruct k as [|k].
  - cbn. field. exact N.
  - rewrite <- (IH x len k N ltac:(lia)). cbn [nth]. field. exact N.
Qed.
Theorem custom_positions l m len ws k : iter_weights (Custom l m) len = Some ws -> (k < List.length l)%nat ->
  qsum (firstn (S k) (drifts ws)) * len == nth k l 0.
Proof.
  intros H K. rewrite (iter_drifts _ _ _ H). cbn [drift_weights].
  assert (N : ~ len == 0).
  { unfold iter_weights, zero_custom in H. intro E. apply Qeq_bool_iff in E. rewrite E in H. discriminate. }
  rewrite <- (custom_prefix l 0 len k N K). ring.
Qed.
