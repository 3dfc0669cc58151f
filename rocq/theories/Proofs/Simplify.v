From Coq Require Import ZArith QArith Qabs List Bool String Arith Lia Lqa.
From Verif.Model Require Import Line LineEdit.
From Verif.Spec Require Import Line Slicing LineEdit.
From Verif.Proofs Require Import LineBase Slices Remove LineAlgebra Repeated Filter.
Import ListNotations.
Local Open Scope Q_scope.

(** * Removal of elements that do nothing *)
Section Track.
Variables (state : Type) (drift : Q -> state -> state) (other : elem -> option elem -> state -> state).
Hypothesis laws : drift_laws state drift.
Let emap := elem_map state drift other.
Let trk := track state drift other.

Lemma filter_track v (drop : string -> bool) : forall names s s',
  (forall n f, In n names -> drop n = true -> emap v n = Some f -> forall s, f s = s) ->
  trk v names s = Some s' -> trk v (filter (fun n => negb (drop n)) names) s = Some s'.
Proof.
  unfold trk. induction names as [|n r IH]; intros s s' Id H; cbn in H |- *; [exact H|].
  destruct (elem_map state drift other v n) as [f|] eqn:E; [|discriminate].
  assert (Id' : forall m g, In m r -> drop m = true -> emap v m = Some g -> forall s, g s = s) by (intros m g Hm; apply Id; right; exact Hm).
  destruct (drop n) eqn:D; cbn.
  - rewrite (Id n f (or_introl eq_refl) D E) in H. apply IH; assumption.
  - rewrite E. apply IH; assumption.
Qed.

Theorem markers_track v keep names s s' : trk v names s = Some s' -> trk v (remove_markers v keep names) s = Some s'.
Proof.
  apply (filter_track v (fun n => is_marker v n && negb (sin keep n))). intros n f _ D E. apply andb_true_iff in D. destruct D as (D & _).
  unfold is_marker in D. destruct (lookup v n) as [e|] eqn:Lk; [|discriminate].
  destruct e as [[| | |] l [|g]| | |]; try discriminate. unfold emap, elem_map in E. rewrite (resolve_own v n _ Lk) in E by discriminate. injection E as <-. reflexivity.
Qed.

Lemma is_drift_map v n f : is_drift v n = true -> emap v n = Some f -> exists t e l, resolve v n = Some (t, e) /\ elem_length v e = Some l /\ thick e = true /\ f = drift l.
Proof.
  intros D E. unfold is_drift in D. unfold emap, elem_map in E. destruct (resolve v n) as [[t e]|] eqn:R; [|discriminate].
  destruct e as [[| | |] l g|[| |] p w o| |]; try discriminate.
  - injection E as <-. exists t, (EOwn CDrift l g), l. auto.
  - cbn. destruct (lookup v p) as [[c lp g| | |]|] eqn:Lp; try discriminate. injection E as <-. exists t, (ESlice SDrift p w o), (lp * w). cbn. rewrite Lp. auto.
Qed.

Theorem zero_track v keep names s s' : trk v names s = Some s' -> trk v (remove_zero_drifts v keep names) s = Some s'.
Proof.
  apply (filter_track v (fun n => zero_drift v n && negb (sin keep n))). intros n f _ D E. apply andb_true_iff in D. destruct D as (D & _).
  unfold zero_drift in D. apply andb_true_iff in D. destruct D as (D & Z). destruct (is_drift_map v n f D E) as (t & e & l & R & El & _ & ->).
  rewrite R, El in Z. apply Qeq_bool_iff in Z. destruct laws as (W & Z0 & _). intro x. rewrite (W l 0 x Z). apply Z0.
Qed.
End Track.

Lemma filter_length v (drop : string -> bool) : forall names L,
  (forall n l, In n names -> drop n = true -> s_length v n = Some l -> l == 0) ->
  line_length v names = Some L -> exists L', line_length v (filter (fun n => negb (drop n)) names) = Some L' /\ L' == L.
Proof.
  induction names as [|n r IH]; intros L Z H; cbn in H |- *; [eexists; split; [reflexivity|]; injection H as <-; reflexivity|].
  destruct (s_length v n) as [l|] eqn:Sl; [|discriminate]. destruct (line_length v r) as [m|]; [|discriminate]. injection H as <-.
  destruct (IH m (fun x y Hx => Z x y (or_intror Hx)) eq_refl) as (L' & HL & E). destruct (drop n) eqn:D; cbn.
  - exists L'. split; [exact HL|]. rewrite E, (Z n l (or_introl eq_refl) D Sl). ring.
  - rewrite Sl, HL. eexists. split; [reflexivity|]. rewrite E. reflexivity.
Qed.
Theorem markers_length v keep names L : line_length v names = Some L -> exists L', line_length v (remove_markers v keep names) = Some L' /\ L' == L.
Proof.
  apply (filter_length v (fun n => is_marker v n && negb (sin keep n))). intros n l _ D S. apply andb_true_iff in D. destruct D as (D & _).
  unfold is_marker in D. destruct (lookup v n) as [e|] eqn:Lk; [|discriminate].
  destruct e as [[| | |] le [|g]| | |]; try discriminate. rewrite (s_length_own v n _ Lk) in S by discriminate. cbn in S. injection S as <-. reflexivity.
Qed.
Theorem zero_length_ok v keep names L : line_length v names = Some L -> exists L', line_length v (remove_zero_drifts v keep names) = Some L' /\ L' == L.
Proof.
  apply (filter_length v (fun n => zero_drift v n && negb (sin keep n))). intros n l _ D S. apply andb_true_iff in D. destruct D as (D & _).
  unfold zero_drift in D. apply andb_true_iff in D. destruct D as (D & Z). unfold is_drift in D. unfold s_length in S. destruct (resolve v n) as [[t e]|]; [|discriminate].
  destruct e as [[| | |] le g|[| |] p w o| |]; try discriminate; cbn [thick] in S; rewrite S in Z; apply Qeq_bool_iff, Z.
Qed.

(** * Merging: what happens to the elements *)
Definition own_drift (v : env) (n : string) (l : Q) : Prop := exists t, lookup v n = Some (EOwn CDrift l t).
Definition merged (keep : list string) (v v' : env) (n : string) (chunk : list string) : Prop :=
  (chunk = [n] /\ lookup v' n = lookup v n) \/
  (exists ns lens x, chunk = n :: ns /\ ns <> [] /\ Forall2 (own_drift v) chunk lens /\ (forall m, In m chunk -> ~ In m keep) /\ own_drift v' n x /\ x == qsum lens).

Lemma merged_in keep v v' names chunks : Forall2 (merged keep v v') names chunks -> forall n, In n names -> In n (List.concat chunks).
Proof.
  induction 1 as [|n c ns cs M _ IH]; intros m Hm; [destruct Hm|]. cbn. apply in_app_iff. destruct Hm as [<-|Hm]; [left|right; apply IH, Hm].
  destruct M as [(-> & _)|(ms & lens & x & -> & _)]; left; reflexivity.
Qed.

Lemma sin_false l n : sin l n = false -> ~ In n l.
Proof. intros H X. apply sin_spec in X. congruence. Qed.

Lemma merge_from_spec keep : forall names v prev v' names', NoDup (prev :: names) -> merge_from keep v prev names = Some (v', names') ->
  exists chunks, prev :: names = List.concat chunks /\ Forall2 (merged keep v v') names' chunks /\
    (forall m, ~ In m names' -> lookup v' m = lookup v m) /\ en_cache v' = en_cache v /\ (exists r, names' = prev :: r).
Proof.
  induction names as [|n r IH]; intros v prev v' names' ND H; cbn [merge_from] in H.
  - injection H as <- <-. exists [[prev]]. split; [reflexivity|]. split; [constructor; [left; auto|constructor]|]. split; [auto|]. split; [reflexivity|eauto].
  - destruct (is_drift v n && negb (sin keep n) && (is_drift v prev && negb (sin keep prev))) eqn:C.
    + destruct (lookup v prev) as [ep|] eqn:Lp; [|discriminate]. destruct ep as [[| | |] lp tp| | |]; try discriminate.
      destruct (lookup v n) as [en|] eqn:Ln; [|discriminate]. destruct en as [[| | |] l t| | |]; try discriminate.
      apply andb_true_iff in C. destruct C as (C1 & C2). apply andb_true_iff in C1, C2. destruct C1 as (_ & Kn), C2 as (_ & Kp). apply negb_true_iff in Kn, Kp.
      apply sin_false in Kn, Kp. set (v1 := set_elem v prev (EOwn CDrift (lp + l) tp)) in *.
      assert (Npn : prev <> n) by (inversion ND as [|? ? X _]; subst; intros ->; apply X; left; reflexivity).
      assert (Npr : ~ In prev r) by (inversion ND as [|? ? X _]; subst; intro Y; apply X; right; exact Y).
      assert (Nnr : ~ In n r) by (inversion ND as [|? ? _ X]; subst; inversion X; assumption).
      assert (ND1 : NoDup (prev :: r)) by (constructor; [exact Npr|]; inversion ND as [|? ? _ X]; subst; inversion X; assumption).
      destruct (IH v1 prev v' names' ND1 H) as (chunks & Ec & F & Fr & Ca & (rest & ->)).
      assert (L1 : forall m, m <> prev -> lookup v1 m = lookup v m). { intros m Hm. unfold v1. rewrite lookup_set. destruct (String.eqb_spec m prev); [contradiction|reflexivity]. }
      assert (Lv1 : lookup v1 prev = Some (EOwn CDrift (lp + l) tp)) by (unfold v1; rewrite lookup_set, String.eqb_refl; reflexivity).
      inversion F as [|? c ? cs M F' E1 E2]; subst. cbn [List.concat] in Ec.
      assert (Tail : Forall2 (merged keep v v') rest cs).
      { assert (Nc : ~ In prev (List.concat cs)).
        { destruct M as [(-> & _)|(ms & lens & x & -> & _)]; cbn in Ec; injection Ec as Er; intro X; apply Npr; rewrite Er; [exact X|apply in_app_iff; right; exact X]. }
        clear - F' L1 Nc. induction F' as [|m c ns cs M _ IH]; constructor.
        - assert (Nm : forall x, In x c -> x <> prev) by (intros x Hx ->; apply Nc; cbn; apply in_app_iff; left; exact Hx).
          destruct M as [(-> & E)|(ms & lens & x & -> & Ne & O & K & O' & S)].
          + left. split; [reflexivity|]. rewrite E. apply L1, Nm. left. reflexivity.
          + right. exists ms, lens, x. split; [reflexivity|]. split; [exact Ne|]. split; [|auto].
            clear - O L1 Nm. induction O as [|y ly ys ls (t0 & H) _ IH]; constructor.
            * exists t0. rewrite <- L1; [exact H|apply Nm; left; reflexivity].
            * apply IH. intros z Hz. apply Nm. right. exact Hz.
        - apply IH. intro X. apply Nc. cbn. apply in_app_iff. right. exact X. }
      destruct M as [(-> & E)|(ms & lens & x & -> & Ne & O & K & O' & S)].
      * cbn in Ec. injection Ec as Er. exists ([prev; n] :: cs). split; [cbn; rewrite Er; reflexivity|]. split; [constructor; [right|exact Tail]|].
        -- exists [n], [lp; l], (lp + l). split; [reflexivity|]. split; [discriminate|]. split; [constructor; [exists tp; exact Lp|constructor; [exists t; exact Ln|constructor]]|].
           split; [intros m [<-|[<-|[]]]; assumption|]. split; [exists tp; rewrite E; exact Lv1|]. cbn. ring.
        -- split; [|split; [exact Ca|eauto]]. intros m Hm. rewrite (Fr m Hm). apply L1. intros ->. apply Hm. left. reflexivity.
      * cbn in Ec. injection Ec as Er. inversion O as [|? l0 ? ls (t0 & O1) O2]; subst. rewrite Lv1 in O1. injection O1 as <- <-.
        exists ((prev :: n :: ms) :: cs). split; [reflexivity|]. split; [constructor; [right|exact Tail]|].
        -- exists (n :: ms), (lp :: l :: ls), x. split; [reflexivity|]. split; [discriminate|]. split.
           { constructor; [exists tp; exact Lp|]. constructor; [exists t; exact Ln|].
             assert (Np : forall y, In y ms -> y <> prev) by (intros y Hy ->; apply Npr; apply in_app_iff; left; exact Hy).
             clear - O2 L1 Np. induction O2 as [|y k ys ks (u & H) _ IH]; constructor.
             - exists u. rewrite <- L1; [exact H|apply Np; left; reflexivity].
             - apply IH. intros z Hz. apply Np. right. exact Hz. }
           split; [intros m [<-|[<-|Hm]]; [exact Kp|exact Kn|apply K; right; exact Hm]|]. split; [exact O'|]. rewrite S. cbn. ring.
        -- split; [|split; [exact Ca|eauto]]. intros m Hm. rewrite (Fr m Hm). apply L1. intros ->. apply Hm. left. reflexivity.
    + destruct (merge_from keep v n r) as [[v1 l1]|] eqn:M; [|discriminate]. injection H as <- <-.
      inversion ND as [|? ? Np ND']; subst. destruct (IH v n v1 l1 ND' M) as (chunks & Ec & F & Fr & Ca & _).
      exists ([prev] :: chunks). split; [cbn; rewrite <- Ec; reflexivity|]. split; [constructor; [|exact F]|].
      * left. split; [reflexivity|]. apply Fr. intro X. apply Np. rewrite Ec. eapply merged_in; eassumption.
      * split; [|split; [exact Ca|eauto]]. intros m Hm. apply Fr. intro X. apply Hm. right. exact X.
Qed.

(** * References are not affected *)
Lemma refers_resolve v n t e : resolve v n = Some (t, e) -> n <> t -> refers v n t.
Proof.
  intro R. apply resolve_iff in R. destruct R as (Ld & _). induction Ld as [n e0 H N|n p t H Ld IH]; intro Ne; [congruence|].
  destruct (string_dec p t) as [->|D]; [apply ref_replica; exact H|]. eapply ref_next; [exact H|apply IH, D].
Qed.
Lemma leads_same v v' n t : (forall m, m = n \/ refers v n m -> lookup v' m = lookup v m) -> leads v n t -> leads v' n t.
Proof.
  intros S Ld. induction Ld as [n e H N|n p t H Ld IH].
  - apply leads_here with e; [rewrite S; auto|exact N].
  - eapply leads_next; [rewrite S; [exact H|auto]|]. apply IH. intros m [->|R]; apply S; right; [apply ref_replica; exact H|eapply ref_next; eassumption].
Qed.
Lemma refers_target v n t e m : resolve v n = Some (t, e) -> refers v t m -> refers v n m.
Proof.
  intros R. apply resolve_iff in R. destruct R as (Ld & _). induction Ld as [n e0 H N|n p t H Ld IH]; intro X; [exact X|]. eapply ref_next; [exact H|apply IH, X].
Qed.
(** elements that refer to unchanged elements only have the same map and length *)
Lemma resolve_same v v' n t e : (forall m, m = n \/ refers v n m -> lookup v' m = lookup v m) -> resolve v n = Some (t, e) -> resolve v' n = Some (t, e).
Proof.
  intros S R. pose proof R as R0. apply resolve_iff in R. destruct R as (Ld & Lt). apply resolve_iff. split; [eapply leads_same; eassumption|].
  destruct (string_dec n t) as [->|D]; [rewrite S; auto|]. rewrite S; [exact Lt|right; eapply refers_resolve; eassumption].
Qed.
Lemma parent_same v v' n t e p : (forall m, m = n \/ refers v n m -> lookup v' m = lookup v m) -> resolve v n = Some (t, e) -> lookup v t = Some e ->
  (exists k w o, e = ESlice k p w o) \/ (exists b o, e = EEdge b p o) -> lookup v' p = lookup v p.
Proof.
  intros S R Lt E. apply S. right. eapply refers_target; [exact R|]. destruct E as [(k & w & o & ->)|(b & o & ->)]; [eapply ref_slice; exact Lt|eapply ref_edge; exact Lt].
Qed.
Lemma elem_map_same (state : Type) drift other v v' n f : (forall m, m = n \/ refers v n m -> lookup v' m = lookup v m) ->
  elem_map state drift other v n = Some f -> elem_map state drift other v' n = Some f.
Proof.
  intros S H. unfold elem_map in *. destruct (resolve v n) as [[t e]|] eqn:R; [|discriminate]. rewrite (resolve_same v v' n t e S R).
  assert (Lt : lookup v t = Some e) by (apply resolve_iff in R; tauto).
  destruct e as [c l g|k p w o|b p o|p]; [exact H| | |exact H].
  - rewrite (parent_same v v' n t _ p S R Lt) by eauto. exact H.
  - rewrite (parent_same v v' n t _ p S R Lt) by eauto. exact H.
Qed.
Lemma s_length_same v v' n l : (forall m, m = n \/ refers v n m -> lookup v' m = lookup v m) -> s_length v n = Some l -> s_length v' n = Some l.
Proof.
  intros S H. unfold s_length in *. destruct (resolve v n) as [[t e]|] eqn:R; [|discriminate]. rewrite (resolve_same v v' n t e S R).
  assert (Lt : lookup v t = Some e) by (apply resolve_iff in R; tauto). destruct (thick e); [|exact H].
  destruct e as [c le g|k p w o|b p o|p]; try exact H. cbn in *. rewrite (parent_same v v' n t _ p S R Lt) by eauto. exact H.
Qed.

(** * Merging in a line without repetitions *)
Lemma own_drift_length v n l : own_drift v n l -> s_length v n = Some l.
Proof. intros (t & H). rewrite (s_length_own v n _ H) by discriminate. reflexivity. Qed.

Lemma merged_same keep v v' names names' chunks : independent v names -> names = List.concat chunks -> Forall2 (merged keep v v') names' chunks ->
  (forall m, ~ In m names' -> lookup v' m = lookup v m) ->
  forall n, In n names -> lookup v' n = lookup v n -> forall m, m = n \/ refers v n m -> lookup v' m = lookup v m.
Proof.
  intros I Ec F Fr n Hn E m [->|R]; [exact E|]. apply Fr. intro X. apply (I n m Hn); [|exact R]. rewrite Ec. eapply merged_in; eassumption.
Qed.

Lemma merge_lengths keep v v' names names' chunks L : independent v names -> names = List.concat chunks -> Forall2 (merged keep v v') names' chunks ->
  (forall m, ~ In m names' -> lookup v' m = lookup v m) -> line_length v names = Some L ->
  exists L', line_length v' names' = Some L' /\ L' == L.
Proof.
  intros I Ec F Fr HL. pose proof (merged_same keep v v' names names' chunks I Ec F Fr) as S.
  assert (Sub : forall n, In n (List.concat chunks) -> In n names) by (intros n; rewrite Ec; auto). rewrite Ec in HL. clear Ec I Fr.
  revert L HL. induction F as [|n c ns cs M F IH]; intros L HL; cbn in HL; [exists 0; split; [reflexivity|]; injection HL as <-; reflexivity|].
  assert (Split : exists a b, line_length v c = Some a /\ line_length v (List.concat cs) = Some b /\ L == a + b).
  { destruct M as [(-> & _)|(ms & lens & x & -> & _)]; apply line_length_split; exact HL. }
  destruct Split as (a & b & Ha & Hb & EL). destruct (IH (fun m Hm => Sub m (in_or_app c _ m (or_intror Hm))) b Hb) as (L' & HL' & E').
  assert (Hd : exists l, s_length v' n = Some l /\ l == a).
  { destruct M as [(-> & E)|(ms & lens & x & -> & Ne & O & _ & O' & Q)].
    - cbn in Ha. destruct (s_length v n) as [l|] eqn:Sl; [|discriminate]. injection Ha as <-. exists l. split; [|ring].
      apply (s_length_same v v' n l); [|exact Sl]. apply S; [apply Sub; left; reflexivity|exact E].
    - exists x. split; [apply own_drift_length, O'|]. rewrite Q. clear - O Ha. revert a Ha. induction O as [|y k ys ks O1 _ IH]; intros a Ha; cbn in Ha |- *.
      + injection Ha as <-. reflexivity.
      + rewrite (own_drift_length _ _ _ O1) in Ha. destruct (line_length v ys) as [m|]; [|discriminate]. injection Ha as <-. rewrite (IH m eq_refl). reflexivity. }
  destruct Hd as (l & Hl & El). cbn. rewrite Hl, HL'. eexists. split; [reflexivity|]. rewrite El, E', EL. reflexivity.
Qed.

Lemma merge_track (state : Type) drift other keep v v' names names' chunks : drift_laws state drift -> independent v names -> names = List.concat chunks -> Forall2 (merged keep v v') names' chunks ->
  (forall m, ~ In m names' -> lookup v' m = lookup v m) -> forall s s', track state drift other v names s = Some s' -> track state drift other v' names' s = Some s'.
Proof.
  intros (W & Z & A) I Ec F Fr. pose proof (merged_same keep v v' names names' chunks I Ec F Fr) as S.
  assert (Sub : forall n, In n (List.concat chunks) -> In n names) by (intros n; rewrite Ec; auto). rewrite Ec. clear Ec I Fr.
  induction F as [|n c ns cs M F IH]; intros s s' HT; [exact HT|]. cbn [List.concat] in HT.
  assert (IH' := IH (fun m Hm => Sub m (in_or_app c _ m (or_intror Hm)))). clear IH. cbn [track].
  destruct M as [(-> & E)|(ms & lens & x & -> & Ne & O & _ & (t & O') & Q)].
  - cbn in HT. destruct (elem_map state drift other v n) as [f|] eqn:Em; [|discriminate].
    rewrite (elem_map_same state drift other v v' n f); [apply IH', HT| |exact Em]. apply S; [apply Sub; left; reflexivity|exact E].
  - unfold elem_map. rewrite (resolve_own v' n _ O') by discriminate. apply IH'.
    assert (G : forall s0, track state drift other v ((n :: ms) ++ List.concat cs) s0 = track state drift other v (List.concat cs) (drift (qsum lens) s0)).
    { clear - O W Z A. induction O as [|y k ys ks (t & O1) _ IH]; intro s0; cbn [app track qsum]; [rewrite Z; reflexivity|].
      unfold elem_map. rewrite (resolve_own v y _ O1) by discriminate. rewrite IH, A. reflexivity. }
    rewrite G in HT. rewrite (W x (qsum lens) s Q). exact HT.
Qed.

(** * With the renaming of repeated elements *)
Lemma refers_back v v' n m : keeps v v' -> resolve v n <> None -> refers v' n m -> refers v n m.
Proof.
  intros K R X. induction X as [n p H|n k p w o H|n b p o H|n q p H X IH].
  - destruct (lookup v n) as [e|] eqn:L; [pose proof (K _ _ L); assert (e = EReplica p) by congruence; subst; apply ref_replica; exact L|]. exfalso. apply R. unfold resolve. rewrite L. reflexivity.
  - destruct (lookup v n) as [e|] eqn:L; [pose proof (K _ _ L); assert (e = ESlice k p w o) by congruence; subst; eapply ref_slice; exact L|]. exfalso. apply R. unfold resolve. rewrite L. reflexivity.
  - destruct (lookup v n) as [e|] eqn:L; [pose proof (K _ _ L); assert (e = EEdge b p o) by congruence; subst; eapply ref_edge; exact L|]. exfalso. apply R. unfold resolve. rewrite L. reflexivity.
  - destruct (lookup v n) as [e|] eqn:L; [|exfalso; apply R; unfold resolve; rewrite L; reflexivity]. pose proof (K _ _ L). assert (e = EReplica q) by congruence. subst.
    eapply ref_next; [exact L|]. apply IH. intro Rq. apply R. destruct (resolve v n) as [[t e]|] eqn:Rn; [|reflexivity]. exfalso.
    apply resolve_iff in Rn. destruct Rn as (Ld & Lt). inversion Ld as [? e0 H1 N|? p0 ? H1 Ld']; subst; [rewrite L in H1; injection H1 as <-; eapply N; reflexivity|].
    rewrite L in H1. injection H1 as <-. assert (resolve v q = Some (t, e)) by (apply resolve_iff; auto). congruence.
Qed.

Lemma copies_not_replicas sep too v order names v' names' : replace_repeated sep too v order names = Some (v', names') -> forall n' p, lookup v n' = None -> lookup v' n' = Some (EReplica p) -> False.
Proof.
  intros H n' p Nw H0. revert H0.
    unfold replace_repeated in H. destruct (rename_all sep too v order names (combine names names)) as [[v1 line]|] eqn:R; [|discriminate]. injection H as <- _.
    assert (G : forall order v line v1 line1, rename_all sep too v order names line = Some (v1, line1) -> lookup v1 n' = Some (EReplica p) -> lookup v n' = Some (EReplica p)).
    { clear. induction order as [|nn order IH]; intros v line v1 line1 H L; cbn [rename_all] in H; [injection H as <- _; exact L|]. destruct (negb too && is_prefix "||drift_" nn); [eauto|].
      destruct (1 <? count nn names)%nat; [|eauto]. destruct (rename sep nn v 0 line) as [[v2 line2]|] eqn:Rn; [|discriminate]. apply (IH _ _ _ _ H) in L.
      clear H IH. revert Rn L. generalize 0%nat. revert v line2. induction line as [|[o c] line IH]; intros v line2 i Rn L; cbn [rename] in Rn; [injection Rn as <- _; exact L|].
      destruct (String.eqb o nn).
      - unfold clone_elem in Rn. destruct (resolve v nn) as [[t e]|] eqn:Rv; [|discriminate]. set (j := fresh_index _ _ _) in *.
        destruct (rename sep nn (set_elem v (rep_name sep nn j) e) j line) as [[v3 l3]|] eqn:Rr; [|discriminate]. injection Rn as <- _.
        apply (IH _ _ _ Rr) in L. rewrite lookup_set in L. destruct (String.eqb_spec n' (rep_name sep nn j)); [|exact L]. injection L as ->. exfalso. exact (resolve_not_replica _ _ _ _ Rv p eq_refl).
      - destruct (rename sep nn v i line) as [[v3 l3]|] eqn:Rr; [|discriminate]. injection Rn as <- _. exact (IH _ _ _ Rr L). }
    intro L. apply (G _ _ _ _ _ R) in L. congruence.
Qed.

Lemma repeated_independent sep v order names v' names' : NoDup order -> (forall n, In n order <-> In n names) -> complete v names -> independent v names ->
  replace_repeated sep true v order names = Some (v', names') -> independent v' names' /\ complete v' names' /\ NoDup names'.
Proof.
  intros ND Ord (Kn & Kr) I H. destruct (repeated_ok sep true v order names v' names' ND Ord Kn H) as (K & _ & _ & Len & Pt & Inj).
  assert (ND' : NoDup names').
  { apply NoDup_nth_error. intros i j Hi E. destruct (nth_error names' i) as [x|] eqn:Ei; [|apply nth_error_None in Ei; lia].
    destruct (Inj i j x Ei (eq_sym E)) as [F|(F & _)]; [exact F|discriminate]. }
  assert (Src : forall n', In n' names' -> exists n, In n names /\ ((lookup v n' = None /\ exists t e, resolve v n = Some (t, e) /\ lookup v' n' = Some e) \/ n' = n)).
  { intros n' Hn'. apply In_nth_error in Hn'. destruct Hn' as (i & Hi). assert (Hlt : (i < List.length names)%nat) by (rewrite <- Len; apply nth_error_Some; congruence).
    destruct (nth_error names i) as [n|] eqn:Hn; [|apply nth_error_None in Hn; lia]. exists n. split; [eapply nth_error_In, Hn|].
    destruct (Pt i n n' Hn Hi) as ((t & t' & e & R & R') & A & B).
    assert (In n names) by (eapply nth_error_In, Hn). assert (0 < count_occ string_dec names n)%nat by (apply count_occ_In; assumption).
    destruct (Nat.eq_dec (count_occ string_dec names n) 1) as [E|N]; [right; auto|left]. assert (Nw : lookup v n' = None) by (apply A; split; [lia|auto]).
    split; [exact Nw|]. exists t, e. split; [exact R|]. apply resolve_iff in R'. destruct R' as (Ld & Lt). inversion Ld as [? e0 Hrep Ne|? p ? Hrep Ld']; subst; [exact Lt|].
    exfalso. exact (copies_not_replicas _ _ _ _ _ _ _ H n' p Nw Hrep). }
  assert (Back : forall n' m, In n' names' -> refers v' n' m -> exists n, In n names /\ refers v n m).
  { intros n' m Hn' X. destruct (Src n' Hn') as (n & Hn & [(_ & t & e & R & L)| ->]); exists n; (split; [exact Hn|]).
    - assert (Lt : lookup v t = Some e) by (apply resolve_iff in R; tauto). pose proof (resolve_not_replica _ _ _ _ R) as Nr.
      eapply refers_target; [exact R|]. inversion X as [? p H0|? k p w o H0|? b p o H0|? q p H0 X']; subst; rewrite L in H0; injection H0 as ->.
      + exfalso. eapply Nr. reflexivity.
      + eapply ref_slice; exact Lt.
      + eapply ref_edge; exact Lt.
      + exfalso. eapply Nr. reflexivity.
    - eapply refers_back; eauto. }
  split; [|split; [|exact ND']].
  - intros n' m' Hn' Hm' X. destruct (Back n' m' Hn' X) as (n & Hn & X0). destruct (Src m' Hm') as (m & Hm & [(Nw & _)| ->]); [exact (Kr n m' Hn X0 Nw)|exact (I n m Hn Hm X0)].
  - split.
    + intros n' Hn'. apply In_nth_error in Hn'. destruct Hn' as (i & Hi). assert (Hlt : (i < List.length names)%nat) by (rewrite <- Len; apply nth_error_Some; congruence).
      destruct (nth_error names i) as [n|] eqn:Hn; [|apply nth_error_None in Hn; lia]. destruct (Pt i n n' Hn Hi) as ((t & t' & e & R & R') & _). congruence.
    + intros n' m Hn' X. destruct (Back n' m Hn' X) as (n & Hn & X0). specialize (Kr n m Hn X0). destruct (lookup v m) as [e|] eqn:L; [|congruence]. rewrite (K _ _ L). discriminate.
Qed.

Lemma same_content_map (state : Type) drift other v v' n n' f : keeps v v' -> same_content v v' n n' -> elem_map state drift other v n = Some f -> elem_map state drift other v' n' = Some f.
Proof.
  intros K (t & t' & e & R & R') H. unfold elem_map in *. rewrite R in H. rewrite R'. destruct e as [c l g|k p w o|b p o|p]; [exact H| | |exact H].
  - destruct (lookup v p) as [q|] eqn:L; [rewrite (K _ _ L); exact H|]. destruct k; discriminate.
  - destruct (lookup v p) as [q|] eqn:L; [rewrite (K _ _ L); exact H|]. discriminate.
Qed.
Lemma same_content_length v v' n n' l : keeps v v' -> same_content v v' n n' -> s_length v n = Some l -> s_length v' n' = Some l.
Proof.
  intros K (t & t' & e & R & R') H. unfold s_length in *. rewrite R in H. rewrite R'. destruct (thick e); [|exact H]. destruct e as [c le g|k p w o|b p o|p]; try exact H.
  cbn in *. destruct (lookup v p) as [q|] eqn:L; [rewrite (K _ _ L); exact H|discriminate].
Qed.
Lemma content_track (state : Type) drift other v v' : keeps v v' -> forall names names', Forall2 (same_content v v') names names' ->
  forall s s', track state drift other v names s = Some s' -> track state drift other v' names' s = Some s'.
Proof.
  intros K names names' F. induction F as [|n n' ns ns' C _ IH]; intros s s' H; [exact H|]. cbn [track] in *.
  destruct (elem_map state drift other v n) as [f|] eqn:E; [|discriminate]. rewrite (same_content_map state drift other v v' n n' f K C E). apply IH, H.
Qed.
Lemma content_length v v' : keeps v v' -> forall names names', Forall2 (same_content v v') names names' -> forall L, line_length v names = Some L -> line_length v' names' = Some L.
Proof.
  intros K names names' F. induction F as [|n n' ns ns' C _ IH]; intros L H; [exact H|]. cbn [line_length] in *.
  destruct (s_length v n) as [l|] eqn:S; [|discriminate]. rewrite (same_content_length _ _ _ _ _ K C S). destruct (line_length v ns) as [m|]; [|discriminate]. rewrite (IH m eq_refl). exact H.
Qed.
Lemma forall2_of_nth {A B} (P : A -> B -> Prop) : forall a b, List.length b = List.length a -> (forall i x y, nth_error a i = Some x -> nth_error b i = Some y -> P x y) -> Forall2 P a b.
Proof.
  induction a as [|x a IH]; intros [|y b] L H; try discriminate; constructor; [apply (H 0%nat); reflexivity|]. apply IH; [injection L; auto|]. intros i p q Hp Hq. exact (H (S i) p q Hp Hq).
Qed.

(** * merge_consecutive_drifts *)
Lemma is_drift_own v n l t : lookup v n = Some (EOwn CDrift l t) -> is_drift v n = true.
Proof. intro H. unfold is_drift. rewrite (resolve_own v n _ H) by discriminate. reflexivity. Qed.
Lemma is_drift_set v p l t l' t' x : lookup v p = Some (EOwn CDrift l t) -> is_drift (set_elem v p (EOwn CDrift l' t')) x = is_drift v x.
Proof.
  assert (G : forall v w p l t l' t' x, lookup v p = Some (EOwn CDrift l t) -> lookup w p = Some (EOwn CDrift l' t') -> (forall m, m <> p -> lookup w m = lookup v m) -> is_drift v x = true -> is_drift w x = true).
  { clear. intros v w p l t l' t' x Lv Lw E D. unfold is_drift in *. destruct (resolve v x) as [[y e]|] eqn:R; [|discriminate]. apply resolve_iff in R. destruct R as (Ld & Ly).
    assert (Ld' : leads w x y).
    { clear - Ld Lv Lw E. induction Ld as [n e0 H N|n q y H Ld IH].
      - destruct (string_dec n p) as [->|Ne]; [apply leads_here with (EOwn CDrift l' t'); [exact Lw|discriminate]|apply leads_here with e0; [rewrite E; assumption|exact N]].
      - destruct (string_dec n p) as [->|Ne]; [congruence|]. eapply leads_next; [rewrite E; eassumption|exact IH]. }
    destruct (string_dec y p) as [->|Ne].
    - assert (R : resolve w x = Some (p, EOwn CDrift l' t')) by (apply resolve_iff; auto). rewrite R. reflexivity.
    - assert (R : resolve w x = Some (y, e)) by (apply resolve_iff; split; [exact Ld'|rewrite E; assumption]). rewrite R. exact D. }
  intro L. set (w := set_elem v p (EOwn CDrift l' t')). assert (Lw : lookup w p = Some (EOwn CDrift l' t')) by (unfold w; rewrite lookup_set, String.eqb_refl; reflexivity).
  assert (E : forall m, m <> p -> lookup w m = lookup v m). { intros m Hm. unfold w. rewrite lookup_set. destruct (String.eqb_spec m p); [contradiction|reflexivity]. }
  destruct (is_drift v x) eqn:D.
  - eapply G; [exact L|exact Lw|exact E|exact D].
  - destruct (is_drift w x) eqn:D'; [|reflexivity]. assert (is_drift v x = true); [|congruence]. eapply G; [exact Lw|exact L|intros m Hm; symmetry; auto|exact D'].
Qed.
Lemma merge_from_defined keep : forall names v prev, (forall n, In n (prev :: names) -> ~ In n keep -> is_drift v n = true -> exists l t, lookup v n = Some (EOwn CDrift l t)) ->
  exists r, merge_from keep v prev names = Some r.
Proof.
  induction names as [|n r IH]; intros v prev O; cbn [merge_from]; [eauto|].
  destruct (is_drift v n && negb (sin keep n) && (is_drift v prev && negb (sin keep prev))) eqn:C.
  - apply andb_true_iff in C. destruct C as (C1 & C2). apply andb_true_iff in C1, C2. destruct C1 as (D1 & K1), C2 as (D2 & K2). apply negb_true_iff in K1, K2. apply sin_false in K1, K2.
    destruct (O prev (or_introl eq_refl) K2 D2) as (lp & tp & ->). destruct (O n (or_intror (or_introl eq_refl)) K1 D1) as (l & t & ->). apply IH. intros m Hm Nk Dm.
    rewrite lookup_set. destruct (String.eqb_spec m prev); [eauto|]. apply O; [destruct Hm; [left|right; right]; assumption|exact Nk|].
    destruct (O prev (or_introl eq_refl) K2 D2) as (lp' & tp' & Lp). rewrite <- Dm. symmetry. eapply is_drift_set, Lp.
  - destruct (IH v n) as ((v1 & l1) & ->); [|eauto]. intros m Hm. apply O. right. exact Hm.
Qed.
Lemma merge_from_done keep : forall names v prev v' names', merge_from keep v prev names = Some (v', names') ->
  (forall x, is_drift v' x = is_drift v x) /\ (exists r, names' = prev :: r) /\
  forall i a b, nth_error names' i = Some a -> nth_error names' (S i) = Some b -> ~ In a keep -> ~ In b keep -> is_drift v' a = true -> is_drift v' b = true -> False.
Proof.
  induction names as [|n r IH]; intros v prev v' names' H; cbn [merge_from] in H.
  - injection H as <- <-. split; [reflexivity|]. split; [eauto|]. intros [|i] a b Ha Hb; [discriminate|destruct i; discriminate].
  - destruct (is_drift v n && negb (sin keep n) && (is_drift v prev && negb (sin keep prev))) eqn:C.
    + destruct (lookup v prev) as [ep|] eqn:Lp; [|discriminate]. destruct ep as [[| | |] lp tp| | |]; try discriminate.
      destruct (lookup v n) as [en|] eqn:Ln; [|discriminate]. destruct en as [[| | |] l t| | |]; try discriminate.
      destruct (IH _ _ _ _ H) as (D & Hd & N). split; [|auto]. intro x. rewrite D. eapply is_drift_set, Lp.
    + destruct (merge_from keep v n r) as [[v1 l1]|] eqn:M; [|discriminate]. injection H as <- <-. destruct (IH _ _ _ _ M) as (D & (r' & ->) & N). split; [exact D|]. split; [eauto|].
      intros [|i] a b Ha Hb Ka Kb Da Db; [|exact (N i a b Ha Hb Ka Kb Da Db)]. cbn in Ha, Hb. injection Ha as <-. injection Hb as <-. rewrite D in Da, Db.
      apply not_true_iff_false in C. apply C. rewrite Da, Db. apply andb_true_iff. split; apply andb_true_iff; (split; [reflexivity|]); apply negb_true_iff, not_true_iff_false; intro X; apply sin_spec in X; contradiction.
Qed.

Theorem merge_ok (state : Type) drift other keep v order names v' names' : drift_laws state drift ->
  NoDup order -> (forall n, In n order <-> In n names) -> complete v names -> independent v names ->
  merge_drifts keep v order names = Some (v', names') ->
  (forall s s', track state drift other v names s = Some s' -> track state drift other v' names' s = Some s') /\
  (forall L, line_length v names = Some L -> exists L', line_length v' names' = Some L' /\ L' == L) /\
  NoDup names' /\
  (forall i a b, nth_error names' i = Some a -> nth_error names' (S i) = Some b -> ~ In a keep -> ~ In b keep -> is_drift v' a = true -> is_drift v' b = true -> False).
Proof.
  intros DL ND Ord Cm I H. unfold merge_drifts in H. destruct (replace_repeated "." true v order names) as [[v1 names1]|] eqn:R; [|discriminate].
  destruct (repeated_independent _ _ _ _ _ _ ND Ord Cm I R) as (I1 & _ & ND1). destruct (repeated_ok _ _ _ _ _ _ _ ND Ord (proj1 Cm) R) as (K & _ & _ & Len & Pt & _).
  assert (F1 : Forall2 (same_content v v1) names names1) by (apply forall2_of_nth; [exact Len|]; intros i x y Hx Hy; apply (Pt i x y Hx Hy)).
  destruct names1 as [|p r].
  - injection H as <- <-. split; [intros s s'; apply content_track; assumption|]. split; [intros L HL; exists L; split; [eapply content_length; eassumption|reflexivity]|].
    split; [constructor|]. intros [|i] a b Ha; discriminate.
  - destruct (merge_from_spec keep r v1 p v' names' ND1 H) as (chunks & Ec & F & Fr & _ & _). split; [|split; [|split]].
    + intros s s' T. eapply merge_track; [exact DL|exact I1|exact Ec|exact F|exact Fr|]. eapply content_track; eassumption.
    + intros L HL. eapply merge_lengths; [exact I1|exact Ec|exact F|exact Fr|]. eapply content_length; eassumption.
    + rewrite Ec in ND1. clear - F ND1. induction F as [|n c ns cs M F IH]; constructor; cbn in ND1.
      * intro X. assert (Y : In n (List.concat cs)) by (eapply merged_in; eassumption).
        assert (Hd : exists ms, c = n :: ms) by (destruct M as [(-> & _)|(ms & lens & x & -> & _)]; eauto). destruct Hd as (ms & ->). cbn in ND1. inversion ND1 as [|? ? Z _]; subst. apply Z, in_app_iff. right. exact Y.
      * apply IH. clear - ND1. induction c as [|x c IHc]; [exact ND1|]. inversion ND1; auto.
    + eapply merge_from_done, H.
Qed.

Theorem merge_defined keep v order names : NoDup order -> (forall n, In n order <-> In n names) -> complete v names -> 
  (forall n, In n names -> is_drift v n = true -> exists l t, lookup v n = Some (EOwn CDrift l t)) ->
  exists r, merge_drifts keep v order names = Some r.
Proof.
  intros ND Ord Cm O. unfold merge_drifts. destruct (repeated_defined "." true v order names) as ((v1 & names1) & R); [intros n Hn; apply Cm, Ord, Hn|]. rewrite R.
  destruct names1 as [|p r]; [eauto|]. apply merge_from_defined. destruct (repeated_ok _ _ _ _ _ _ _ ND Ord (proj1 Cm) R) as (K & _ & _ & Len & Pt & _).
  intros n' Hn' _ D. apply In_nth_error in Hn'. destruct Hn' as (i & Hi). assert (Hlt : (i < List.length names)%nat) by (rewrite <- Len; apply nth_error_Some; congruence).
  destruct (nth_error names i) as [n|] eqn:Hn; [|apply nth_error_None in Hn; lia]. destruct (Pt i n n' Hn Hi) as ((t & t' & e & Rn & Rn') & A & B).
  assert (Hin : In n names) by (eapply nth_error_In, Hn). assert (D0 : is_drift v n = true) by (unfold is_drift in *; rewrite Rn' in D; rewrite Rn; exact D).
  destruct (O n Hin D0) as (l & g & L). rewrite (resolve_own v n _ L) in Rn by discriminate. injection Rn as <- <-.
  assert (0 < count_occ string_dec names n)%nat by (apply count_occ_In; assumption).
  destruct (Nat.eq_dec (count_occ string_dec names n) 1) as [E|N]; [rewrite (B (or_introl E)); exists l, g; apply K, L|].
  (* a copy *)
  apply resolve_iff in Rn'. destruct Rn' as (Ld & Lt). inversion Ld as [? e0 Hrep Ne|? q ? Hrep Ld']; subst; [eauto|]. exfalso.
  assert (Nw : lookup v n' = None) by (apply A; split; [lia|auto]).
  exact (copies_not_replicas _ _ _ _ _ _ _ R n' q Nw Hrep).
Qed.
