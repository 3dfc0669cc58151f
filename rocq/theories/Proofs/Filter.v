From Coq Require Import ZArith QArith Qabs List Bool String Arith Lia Lqa.
From Verif.Model Require Import Line LineEdit.
From Verif.Spec Require Import Line LineEdit.
From Verif.Proofs Require Import LineBase Slices Remove Repeated.
Import ListNotations.
Local Open Scope Q_scope.

Lemma filter_dict_spec v : forall mask names new v', filter_dict v new mask names = Some v' ->
  List.length mask = List.length names /\
  (forall n, masked mask names n -> exists e, blank v n = Some e /\ lookup v' n = Some e) /\
  (forall n, ~ masked mask names n -> lookup v' n = lookup new n).
Proof.
  induction mask as [|b mask IH]; intros [|m names] new v' H; cbn [filter_dict] in H; try discriminate.
  - injection H as <-. split; [reflexivity|]. split; [intros n ([|i] & X & _); discriminate|auto].
  - assert (MS : forall n, masked (b :: mask) (m :: names) n <-> (b = false /\ n = m) \/ masked mask names n).
    { intro n. split.
      - intros ([|i] & H1 & H2); cbn in *; [left; split; congruence|right; exists i; auto].
      - intros [(-> & ->)|(i & H1 & H2)]; [exists 0%nat; auto|exists (S i); auto]. }
    assert (Dec : forall n, masked mask names n \/ ~ masked mask names n).
    { clear. intro n. revert names. induction mask as [|b mask IH]; intro names; [right; intros ([|i] & X & _); discriminate|].
      destruct names as [|m names]; [right; intros ([|i] & _ & X); discriminate|].
      destruct (IH names) as [(i & H)|N]; [left; exists (S i); exact H|].
      destruct b; [right; intros ([|i] & H1 & H2); [discriminate|apply N; exists i; auto]|].
      destruct (string_dec m n) as [->|D]; [left; exists 0%nat; auto|right]. intros ([|i] & H1 & H2); [cbn in H2; congruence|apply N; exists i; auto]. }
    destruct b.
    + destruct (IH _ _ _ H) as (L & A & B). split; [cbn; congruence|]. split; intros n Hn; rewrite MS in Hn; [apply A|apply B]; intuition discriminate.
    + destruct (blank v m) as [e|] eqn:Bl; [|discriminate]. destruct (IH _ _ _ H) as (L & A & B). split; [cbn; congruence|]. split; intros n Hn; rewrite MS in Hn.
      * destruct (Dec n) as [X|X]; [apply A, X|]. destruct Hn as [(_ & ->)|X']; [|contradiction]. exists e. split; [exact Bl|]. rewrite (B _ X), lookup_set, String.eqb_refl. reflexivity.
      * rewrite B by tauto. rewrite lookup_set. destruct (String.eqb_spec n m); [exfalso; apply Hn; auto|reflexivity].
Qed.

Lemma s_length_replica v n p l : lookup v n = Some (EReplica p) -> s_length v p = Some l -> s_length v n = Some l.
Proof.
  intros H Hs. unfold s_length in *. destruct (resolve v p) as [[t e]|] eqn:R; [|discriminate].
  assert (R' : resolve v n = Some (t, e)). { apply resolve_iff in R. destruct R as (R1 & R2). apply resolve_iff. split; [eapply leads_next; eassumption|exact R2]. }
  rewrite R'. exact Hs.
Qed.
Lemma s_length_own v n e : lookup v n = Some e -> (forall p, e <> EReplica p) -> s_length v n = if thick e then elem_length v e else Some 0.
Proof. intros H N. unfold s_length. rewrite (resolve_own v n e H N). reflexivity. Qed.

Lemma is_drift_false v n t e : resolve v n = Some (t, e) -> is_drift v n = false -> thick e = true -> exists l, s_length v n = elem_length v e /\ elem_length v e = l.
Proof. intros R _ T. unfold s_length. rewrite R, T. eauto. Qed.

Section Lengths.
Variables (v v' : env) (mask : list bool) (names : list string).
Hypothesis F : filter_dict v (mkEnv (en_dict v) 0 []) mask names = Some v'.
Hypothesis drifts_kept : forall n l, masked mask names n -> is_drift v n = true -> s_length v n = Some l -> l == 0.
Hypothesis parents_thick : forall n k p w o, lookup v n = Some (ESlice k p w o) -> masked mask names p -> exists e, lookup v p = Some e /\ thick e = true.

Lemma masked_dec n : masked mask names n \/ ~ masked mask names n.
Proof.
  clear. revert names. induction mask as [|b m IH]; intro names; [right; intros ([|i] & X & _); discriminate|].
  destruct names as [|x ns]; [right; intros ([|i] & _ & X); discriminate|].
  destruct (IH ns) as [(i & H)|N]; [left; exists (S i); exact H|].
  destruct b; [right; intros ([|i] & H1 & H2); [discriminate|apply N; exists i; auto]|].
  destruct (string_dec x n) as [->|D]; [left; exists 0%nat; auto|right]. intros ([|i] & H1 & H2); [cbn in H2; congruence|apply N; exists i; auto].
Qed.

Lemma masked_length n l : masked mask names n -> s_length v n = Some l -> exists l' , lookup v' n = Some (EOwn CDrift l' 0) /\ l' == l.
Proof.
  intros M S. destruct (filter_dict_spec v mask names _ v' F) as (_ & A & _). destruct (A n M) as (e & Bl & Lk). rewrite Lk.
  unfold blank in Bl. pose proof S as S'. unfold s_length in S. destruct (resolve v n) as [[t e0]|] eqn:R; [|discriminate].
  destruct (thick e0) eqn:Th.
  - destruct (is_drift v n) eqn:D; cbn in Bl.
    + injection Bl as <-. exists 0. split; [reflexivity|]. symmetry. eapply drifts_kept; eassumption.
    + rewrite S in Bl. injection Bl as <-. exists l. split; reflexivity.
  - cbn in Bl. injection Bl as <-. injection S as <-. exists 0. split; reflexivity.
Qed.
Lemma masked_s_length n l : masked mask names n -> s_length v n = Some l -> exists l', s_length v' n = Some l' /\ l' == l.
Proof.
  intros M S. destruct (masked_length n l M S) as (l' & H & E). exists l'. split; [|exact E]. rewrite (s_length_own v' n _ H) by discriminate. reflexivity.
Qed.
Lemma unmasked n : ~ masked mask names n -> lookup v' n = lookup v n.
Proof. intro M. destruct (filter_dict_spec v mask names _ v' F) as (_ & _ & B). rewrite (B n M). reflexivity. Qed.

Lemma filter_s_length n l : s_length v n = Some l -> exists l', s_length v' n = Some l' /\ l' == l.
Proof.
  intro S. destruct (resolve v n) as [[t e]|] eqn:R; [|unfold s_length in S; rewrite R in S; discriminate].
  apply resolve_iff in R. destruct R as (Ld & Lt). revert l S. induction Ld as [n e0 H N|n p t H Ld IH]; intros l S.
  - rewrite H in Lt. injection Lt as <-. destruct (masked_dec n) as [M|M]; [eapply masked_s_length; eassumption|].
    pose proof (unmasked n M) as U. rewrite H in U. rewrite (s_length_own v n _ H N) in S. rewrite (s_length_own v' n _ U N).
    destruct (thick e0) eqn:Th; [|eexists; split; [reflexivity|injection S as <-; reflexivity]].
    destruct e0 as [c len g|k p w o|b p o|p]; cbn in Th |- *; try discriminate.
    + cbn in S. injection S as <-. eexists. split; reflexivity.
    + cbn in S. destruct (lookup v p) as [ep|] eqn:Lp; [|discriminate]. destruct ep as [c len g| | |]; try discriminate. injection S as <-.
      destruct (masked_dec p) as [Mp|Mp].
      * destruct (parents_thick n k p w o H Mp) as (ep & H1 & H2). rewrite Lp in H1. injection H1 as <-.
        destruct (masked_length p len Mp) as (l' & H3 & H4). { rewrite (s_length_own v p _ Lp) by discriminate. rewrite H2. reflexivity. }
        rewrite H3. eexists. split; [reflexivity|]. rewrite H4. reflexivity.
      * rewrite (unmasked p Mp), Lp. eexists. split; reflexivity.
  - destruct (masked_dec n) as [M|M]; [eapply masked_s_length; eassumption|].
    assert (Sp : s_length v p = Some l).
    { assert (R : resolve v p = Some (t, e)) by (apply resolve_iff; auto). assert (Rn : resolve v n = Some (t, e)) by (apply resolve_iff; split; [eapply leads_next; eassumption|exact Lt]).
      unfold s_length in *. rewrite R. rewrite Rn in S. exact S. }
    destruct (IH Lt l Sp) as (l' & H1 & H2). exists l'. split; [|exact H2]. eapply s_length_replica; [|exact H1]. rewrite (unmasked n M). exact H.
Qed.
End Lengths.

Lemma refers_unmasked v v' mask names : (forall n, ~ masked mask names n -> lookup v' n = lookup v n) ->
  (forall n m, ~ masked mask names n -> refers v n m -> ~ masked mask names m) ->
  forall n t, leads v n t -> ~ masked mask names n -> leads v' n t /\ ~ masked mask names t.
Proof.
  intros U Nr n t Ld. induction Ld as [n e H N|n p t H Ld IH]; intro M.
  - split; [|exact M]. apply leads_here with e; [rewrite U; [exact H|exact M]|exact N].
  - assert (Mp : ~ masked mask names p) by (apply (Nr n p M); constructor; exact H). destruct (IH Mp) as (L' & Mt). split; [|exact Mt].
    eapply leads_next; [|exact L']. rewrite U; assumption.
Qed.

Theorem filter_ok v mask names v' names' L : line_length v names = Some L ->
  filter_elements v mask names = Some (v', names') ->
  (forall n l, masked mask names n -> is_drift v n = true -> s_length v n = Some l -> l == 0) ->
  (forall n k p w o, lookup v n = Some (ESlice k p w o) -> masked mask names p -> exists e, lookup v p = Some e /\ thick e = true) ->
  names' = names /\ same_positions v v' names (map (fun n => [n]) names) 0 /\
  (forall n, ~ masked mask names n -> lookup v' n = lookup v n) /\
  (forall n, masked mask names n -> exists l l', s_length v n = Some l /\ lookup v' n = Some (EOwn CDrift l' 0) /\ l' == l) /\
  ((forall n m, ~ masked mask names n -> refers v n m -> ~ masked mask names m) ->
     forall n, In n names -> ~ masked mask names n -> same_content v v' n n).
Proof.
  intros HL H D P. unfold filter_elements in H. destruct (filter_dict v (mkEnv (en_dict v) 0 []) mask names) as [w|] eqn:F; [|discriminate].
  injection H as <- <-. destruct (line_lens _ _ _ HL) as (lens & LO & _).
  assert (SL : forall n, In n names -> exists l, s_length v n = Some l).
  { clear - LO. induction LO as [|n l ns ls (l' & H & _) _ IH]; intros m [].
    - subst. eauto.
    - auto. }
  split; [reflexivity|]. split; [|split; [|split]].
  - apply chunk_positions; [apply Qle_refl|]. rewrite <- (map_id names) at 1. revert SL. generalize names at 1 2 3. clear - F D P. intros ns SL. induction ns as [|n ns IH]; constructor.
    + destruct (SL n (or_introl eq_refl)) as (l & S). destruct (filter_s_length v w mask names F D P n l S) as (l' & S' & E). exists l, (l' + 0). split; [exact S|].
      split; [cbn; rewrite S'; reflexivity|]. assert (Q : l' + 0 - l == 0) by (rewrite E; ring). rewrite Q. apply Qle_refl.
    + apply IH. intros m Hm. apply SL. right. exact Hm.
  - apply (unmasked v w mask names F).
  - intros n M. destruct (SL n) as (l & S); [destruct M as (i & _ & X); eapply nth_error_In, X|]. destruct (masked_length v w mask names F D n l M S) as (l' & H & E). eauto.
  - intros Nr n Hn M. destruct (SL n Hn) as (l & S). unfold s_length in S. destruct (resolve v n) as [[t e]|] eqn:R; [|discriminate]. exists t, t, e. split; [exact R|].
    apply resolve_iff in R. destruct R as (Ld & Lt). destruct (refers_unmasked v w mask names (unmasked v w mask names F) Nr n t Ld M) as (Ld' & Mt).
    apply resolve_iff. split; [exact Ld'|]. rewrite (unmasked v w mask names F t Mt). exact Lt.
Qed.

Theorem filter_fails v mask names L : line_length v names = Some L -> (filter_elements v mask names = None <-> List.length mask <> List.length names).
Proof.
  intro HL. destruct (line_lens _ _ _ HL) as (lens & LO & _). unfold filter_elements.
  assert (G : forall new, filter_dict v new mask names = None <-> List.length mask <> List.length names).
  { clear HL. revert mask. induction LO as [|n l ns ls (l' & Sn & _) LO IH]; intros [|b mask] new; cbn [filter_dict]; try (split; [cbn; congruence|congruence]).
    - split; [congruence|cbn; congruence].
    - cbn [List.length]. assert (X : S (List.length mask) <> S (List.length ns) <-> List.length mask <> List.length ns) by lia.
      destruct b; [rewrite X; apply IH|]. assert (Bl : exists e, blank v n = Some e).
      { unfold blank. unfold s_length in Sn. destruct (resolve v n) as [[t e]|]; [|discriminate]. destruct (thick e); cbn; [|eauto]. destruct (is_drift v n); cbn; [eauto|]. rewrite Sn. eauto. }
      destruct Bl as (e & ->). rewrite X. apply IH. }
  specialize (G (mkEnv (en_dict v) 0 [])). destruct (filter_dict v (mkEnv (en_dict v) 0 []) mask names); [|tauto]. split; [discriminate|]. intro X. apply G in X. discriminate.
Qed.
