From Coq Require Import ZArith QArith Qabs List Bool String Arith Lia.
From Verif.Model Require Import Line Slicing LineEdit History.
From Verif.Spec Require Import Line Slicing LineEdit History.
From Verif.Proofs Require Import LineBase Slices Cuts Remove Repeated Simplify.
Import ListNotations.

Definition good (v : env) : Prop := cache_ok v /\ edge_names_ok v.

Lemma repeated_cache sep too v order names v' names' : replace_repeated sep too v order names = Some (v', names') -> en_cache v' = en_cache v.
Proof.
  unfold replace_repeated. destruct (rename_all sep too v order names (combine names names)) as [[v1 line]|] eqn:R; [|discriminate]. intro H. injection H as <- _.
  revert R. generalize (combine names names). revert v line. induction order as [|nn order IH]; intros v line' l H; cbn [rename_all] in H; [injection H as <- _; reflexivity|].
  destruct (negb too && is_prefix "||drift_" nn); [eauto|]. destruct (1 <? count nn names)%nat; [|eauto].
  destruct (rename sep nn v 0 l) as [[v2 l2]|] eqn:Rn; [|discriminate]. rewrite (IH _ _ _ H). clear - Rn.
  revert Rn. generalize 0%nat. revert v l2. induction l as [|[o c] l IH]; intros v l2 i H; cbn [rename] in H; [injection H as <- _; reflexivity|].
  destruct (String.eqb o nn).
  - unfold clone_elem in H. destruct (resolve v nn) as [[t e]|]; [|discriminate]. set (j := fresh_index _ _ _) in *.
    destruct (rename sep nn _ j l) as [[v3 l3]|] eqn:Rr; [|discriminate]. injection H as <- _. rewrite (IH _ _ _ Rr). reflexivity.
  - destruct (rename sep nn v i l) as [[v3 l3]|] eqn:Rr; [|discriminate]. injection H as <- _. exact (IH _ _ _ Rr).
Qed.

(** merging only changes elements of the line *)
Lemma merge_from_frame keep : forall names v prev v' names', merge_from keep v prev names = Some (v', names') ->
  en_cache v' = en_cache v /\ (forall m, ~ In m (prev :: names) -> lookup v' m = lookup v m) /\
  (forall m, ~ (exists l t, lookup v m = Some (EOwn CDrift l t)) -> lookup v' m = lookup v m).
Proof.
  induction names as [|n r IH]; intros v prev v' names' H; cbn [merge_from] in H; [injection H as <- _; auto|].
  destruct (is_drift v n && negb (sin keep n) && (is_drift v prev && negb (sin keep prev))) eqn:C.
  - destruct (lookup v prev) as [ep|] eqn:Lp; [|discriminate]. destruct ep as [[| | |] lp tp| | |]; try discriminate.
    destruct (lookup v n) as [en|] eqn:Ln; [|discriminate]. destruct en as [[| | |] l t| | |]; try discriminate.
    destruct (IH _ _ _ _ H) as (A & B & D). split; [exact A|]. split.
    + intros m Hm. rewrite B by (intros [X|X]; apply Hm; [left|right; right]; assumption). rewrite lookup_set. destruct (String.eqb_spec m prev) as [->|]; [|reflexivity]. exfalso. apply Hm. left. reflexivity.
    + intros m Hm. assert (m <> prev) by (intros ->; apply Hm; eauto). rewrite D; rewrite lookup_set; destruct (String.eqb_spec m prev); [contradiction|reflexivity|contradiction|exact Hm].
  - destruct (merge_from keep v n r) as [[v1 l1]|] eqn:M; [|discriminate]. injection H as <- _. destruct (IH _ _ _ _ M) as (A & B & D). split; [exact A|]. split; [|exact D].
    intros m Hm. apply B. intro X. apply Hm. right. exact X.
Qed.

Lemma merge_good keep v order names v' names' : good v -> NoDup order -> (forall n, In n order <-> In n names) -> complete v names ->
  (forall n, handed_out v n -> count_occ string_dec names n <> 1%nat) -> merge_drifts keep v order names = Some (v', names') -> good v'.
Proof.
  intros (C & E) ND Ord Cm Hd H. unfold merge_drifts in H. destruct (replace_repeated "." true v order names) as [[v1 names1]|] eqn:R; [|discriminate].
  destruct (repeated_ok _ _ _ _ _ _ _ ND Ord (proj1 Cm) R) as (K & C1 & E1 & Len & Pt & _). specialize (C1 C). specialize (E1 E). pose proof (repeated_cache _ _ _ _ _ _ _ R) as Ca.
  destruct names1 as [|p r]; [injection H as <- _; split; assumption|]. destruct (merge_from_frame _ _ _ _ _ _ H) as (Ca' & Fr & Fr').
  assert (Out : forall n, handed_out v n -> ~ In n (p :: r)).
  { intros n Hn Hin. apply In_nth_error in Hin. destruct Hin as (i & Hi). assert (Hlt : (i < List.length names)%nat) by (rewrite <- Len; apply nth_error_Some; congruence).
    destruct (nth_error names i) as [o|] eqn:Ho; [|apply nth_error_None in Ho; lia]. destruct (Pt i o n Ho Hi) as (_ & A & B).
    assert (Hin : In o names) by (eapply nth_error_In, Ho). assert (0 < count_occ string_dec names o)%nat by (apply count_occ_In; assumption).
    destruct (Nat.eq_dec (count_occ string_dec names o) 1) as [X|X]; [rewrite (B (or_introl X)) in Hn; exact (Hd o Hn X)|].
    assert (Nw : lookup v n = None) by (apply A; split; [lia|auto]). destruct Hn as (l & Hl). destruct (C l n Hl) as (l' & t & L & _). congruence. }
  split.
  - intros l n Hl. rewrite Ca', Ca in Hl. destruct (C1 l n ltac:(rewrite Ca; exact Hl)) as (l' & t & L & Q). exists l', t. split; [|exact Q]. rewrite Fr; [exact L|]. apply Out. exists l. exact Hl.
  - intros n e He. assert (Nd : forall m, (exists k, m = (k ++ "_entry")%string \/ m = (k ++ "_exit")%string) -> lookup v' m = lookup v1 m).
    { intros m (k & Hm). apply Fr'. intros (l & t & L). assert (X : EOwn CDrift l t = marker) by (apply (E1 k); destruct Hm as [<-|<-]; auto). discriminate. }
    apply (E1 n e). destruct He as [He|He]; [left|right]; rewrite <- Nd; eauto.
Qed.

Lemma step_good o v v' : good v -> respects v o -> apply o v = Some v' -> good v'.
Proof.
  intros G R H. destruct o as [l|n e|st mk rows|rows tol ss|rows bt sel tol|sep too order names|keep order names]; cbn in R, H.
  - injection H as <-. destruct (get_drift v l) as [w n] eqn:D. destruct G as (C & E). destruct (get_drift_evolves _ _ _ _ C D) as (Ev & _). split; [apply Ev, C|eapply evolves_edges; eassumption].
  - injection H as <-. destruct G as (C & E), R as (Nh & Nm). split.
    + intros l m Hm. cbn in Hm. destruct (C l m Hm) as (l' & t & L & Q). exists l', t. split; [|exact Q]. rewrite lookup_set. destruct (String.eqb_spec m n) as [->|]; [|exact L]. exfalso. apply Nh. exists l. exact Hm.
    + intros m e' He. rewrite !lookup_set in He. destruct He as [He|He].
      * destruct (String.eqb_spec (m ++ "_entry") n) as [X|]; [injection He as <-; apply (Nm m); auto|apply (E m); auto].
      * destruct (String.eqb_spec (m ++ "_exit") n) as [X|]; [injection He as <-; apply (Nm m); auto|apply (E m); auto].
  - destruct (slice_rows st mk v rows) as [[w l]|] eqn:S; [|discriminate]. injection H as <-. destruct R as (L & HL), G as (C & E). destruct (slice_line _ _ _ _ _ _ _ C E HL S) as (_ & C' & E' & _). split; assumption.
  - destruct (cut_at_s v rows tol ss) as [[w l]|] eqn:S; [|discriminate]. injection H as <-. destruct R as (ND & T & L & HL), G as (C & E).
    destruct (line_lens _ _ _ HL) as (lens & LO & _). destruct (lens_bounds _ _ _ LO 0 0 (Qeq_refl 0)) as (old & B & _).
    destruct (cut_at_s_ok _ _ _ _ _ _ _ C E ND T B S) as (_ & C' & E' & _). split; assumption.
  - destruct (remove v rows bt sel tol) as [[w l]|] eqn:S; [|discriminate]. injection H as <-. destruct R as (L & HL), G as (C & E). destruct (remove_ok _ _ _ _ _ _ _ _ C HL S) as (_ & C' & E' & _). split; auto.
  - destruct (replace_repeated sep too v order names) as [[w l]|] eqn:S; [|discriminate]. injection H as <-. destruct R as (ND & Ord & Cm), G as (C & E). destruct (repeated_ok _ _ _ _ _ _ _ ND Ord (proj1 Cm) S) as (_ & C' & E' & _). split; auto.
  - destruct (merge_drifts keep v order names) as [[w l]|] eqn:S; [|discriminate]. injection H as <-. destruct R as (ND & Ord & Cm & Hd). eapply merge_good; eassumption.
Qed.

Lemma run_good l : forall v v', good v -> all_respect v l -> run l v = Some v' -> good v'.
Proof.
  induction l as [|o l IH]; intros v v' G R H; cbn in R, H; [injection H as <-; exact G|]. destruct R as (R & Rs). destruct (apply o v) as [w|] eqn:A; [|discriminate].
  apply (IH w v'); [eapply step_good; eassumption|exact Rs|exact H].
Qed.

Lemma fresh_good : good fresh_env.
Proof. split; [intros l n []|]. intros n e [H|H]; discriminate. Qed.

Theorem drifts_ok l v q v' n : all_respect fresh_env l -> run l fresh_env = Some v -> get_drift v q = (v', n) ->
  exists q' t, resolve v' n = Some (n, EOwn CDrift q' t) /\ (q' == q)%Q /\ s_length v' n = Some q'.
Proof.
  intros R H G. destruct (run_good l fresh_env v fresh_good R H) as (C & _). destruct (get_drift_evolves _ _ _ _ C G) as (_ & q' & t & L & Q). exists q', t.
  assert (Rs : resolve v' n = Some (n, EOwn CDrift q' t)) by (apply resolve_own; [exact L|discriminate]). split; [exact Rs|]. split; [exact Q|]. unfold s_length. rewrite Rs. reflexivity.
Qed.

(** a history also keeps the drifts handed out before *)
Theorem drifts_stay l1 l2 v q v1 n v2 : all_respect fresh_env l1 -> run l1 fresh_env = Some v -> get_drift v q = (v1, n) ->
  all_respect v1 l2 -> run l2 v1 = Some v2 -> (forall o, In o l2 -> match o with OMerge _ _ _ => False | ONew m _ => m <> n | _ => True end) ->
  exists q' t, lookup v2 n = Some (EOwn CDrift q' t) /\ (q' == q)%Q.
Proof.
  intros R1 H1 G R2 H2 Nm. pose proof (run_good l1 _ _ fresh_good R1 H1) as (C & E). destruct (get_drift_evolves _ _ _ _ C G) as (Ev & q' & t & L & Q).
  assert (G1 : good v1) by (split; [apply Ev, C|eapply evolves_edges; eassumption]). exists q', t. split; [|exact Q]. clear - G1 R2 H2 Nm L. revert v1 G1 R2 H2 L.
  induction l2 as [|o l IH]; intros v G R H L; cbn in R, H; [injection H as <-; exact L|]. destruct R as (Ro & Rs). destruct (apply o v) as [w|] eqn:A; [|discriminate].
  assert (Gw : good w) by (eapply step_good; eassumption). apply (IH (fun x Hx => Nm x (or_intror Hx)) w Gw Rs H). pose proof (Nm o (or_introl eq_refl)) as No. clear - No A Ro G L. destruct G as (C & E).
  destruct o as [ll|m e|st mk rows|rows tol ss|rows bt sel tol|sep too order names|keep order names]; cbn in Ro, A.
  - injection A as <-. destruct (get_drift v ll) as [w' m] eqn:D. destruct (get_drift_evolves _ _ _ _ C D) as (Ev & _). apply (evolves_keeps _ _ Ev), L.
  - injection A as <-. rewrite lookup_set. destruct (String.eqb_spec n m); [congruence|exact L].
  - destruct (slice_rows st mk v rows) as [[w' l']|] eqn:S; [|discriminate]. injection A as <-. destruct Ro as (L0 & HL). apply (slice_line _ _ _ _ _ _ _ C E HL S), L.
  - destruct (cut_at_s v rows tol ss) as [[w' l']|] eqn:S; [|discriminate]. injection A as <-. destruct Ro as (ND & T & L0 & HL).
    destruct (line_lens _ _ _ HL) as (lens & LO & _). destruct (lens_bounds _ _ _ LO 0 0 (Qeq_refl 0)) as (old & B & _). apply (cut_at_s_ok _ _ _ _ _ _ _ C E ND T B S), L.
  - destruct (remove v rows bt sel tol) as [[w' l']|] eqn:S; [|discriminate]. injection A as <-. destruct Ro as (L0 & HL). apply (remove_ok _ _ _ _ _ _ _ _ C HL S), L.
  - destruct (replace_repeated sep too v order names) as [[w' l']|] eqn:S; [|discriminate]. injection A as <-. destruct Ro as (ND & Ord & Cm). apply (repeated_ok _ _ _ _ _ _ _ ND Ord (proj1 Cm) S), L.
  - destruct No.
Qed.
