From Coq Require Import ZArith QArith Qabs List Bool String Arith Lia Lqa.
From Verif.Model Require Import Line LineEdit.
From Verif.Spec Require Import Line LineEdit.
From Verif.Proofs Require Import LineBase Slices.
Import ListNotations.
Local Open Scope nat_scope.

Lemma rep_name_inj sep nn i j : rep_name sep nn i = rep_name sep nn j -> i = j.
Proof. unfold rep_name. intro H. apply append_inj, append_inj in H. apply dec_inj, H. Qed.
Lemma rep_name_clean sep nn i : clean (rep_name sep nn i).
Proof. unfold rep_name. rewrite <- append_assoc. apply clean_dec. Qed.

Lemma resolve_own v n e : lookup v n = Some e -> (forall p, e <> EReplica p) -> resolve v n = Some (n, e).
Proof. intros H N. apply resolve_iff. split; [econstructor; eassumption|exact H]. Qed.
Lemma resolve_not_replica v n t e : resolve v n = Some (t, e) -> forall p, e <> EReplica p.
Proof.
  intro H. apply resolve_iff in H. destruct H as (Ld & Lk). destruct (leads_end _ _ _ Ld) as (e' & H1 & H2). rewrite Lk in H1. injection H1 as <-. exact H2.
Qed.

Lemma rename_spec sep nn t e : forall line v i v' line', resolve v nn = Some (t, e) -> rename sep nn v i line = Some (v', line') ->
  evolves v v' /\ List.length line' = List.length line /\
  (forall k o c, nth_error line k = Some (o, c) -> o <> nn -> nth_error line' k = Some (o, c)) /\
  (forall k c, nth_error line k = Some (nn, c) -> exists c', nth_error line' k = Some (nn, c') /\ lookup v c' = None /\ lookup v' c' = Some e) /\
  (forall j k c d x, nth_error line j = Some (nn, c) -> nth_error line k = Some (nn, d) -> nth_error line' j = Some (nn, x) -> nth_error line' k = Some (nn, x) -> j = k).
Proof.
  induction line as [|[o c] line IH]; intros v i v' line' R H.
  - cbn in H. injection H as <- <-. split; [apply evolves_refl|]. split; [reflexivity|].
    split; [intros [|k] o c X; discriminate|]. split; [intros [|k] c X; discriminate|intros [|j] k c d x X; discriminate].
  - cbn [rename] in H. destruct (String.eqb_spec o nn) as [->|Ne].
    + set (j := fresh_index (en_dict v) (rep_name sep nn) i) in H. set (new := rep_name sep nn j) in H. unfold clone_elem in H. rewrite R in H.
      destruct (rename sep nn (set_elem v new e) j line) as [[v1 l1]|] eqn:Rn; [|discriminate].
      assert (X : v' = v1 /\ line' = (nn, new) :: l1) by (split; congruence). destruct X as (-> & ->). clear H.
      assert (Fr : lookup v new = None). { apply mem_lookup. unfold new, j. apply fresh_new. apply rep_name_inj. }
      assert (E1 : evolves v (set_elem v new e)) by (apply evolves_set; [exact Fr|apply rep_name_clean]).
      assert (R1 : resolve (set_elem v new e) nn = Some (t, e)) by (eapply resolve_keeps; [apply evolves_keeps, E1|exact R]).
      destruct (IH _ _ _ _ R1 Rn) as (E2 & Len & Oth & Ren & Inj).
      assert (Ln : lookup v1 new = Some e) by (apply (evolves_keeps _ _ E2); rewrite lookup_set, String.eqb_refl; reflexivity).
      split; [eapply evolves_trans; eassumption|]. split; [cbn; congruence|]. split; [|split].
      * intros [|k] o c' Hk No; cbn [nth_error] in *; [congruence|]. eapply Oth; eassumption.
      * intros [|k] c' Hk; cbn [nth_error] in *; [exists new; auto|]. destruct (Ren k c' Hk) as (x & H1 & H2 & H3). exists x. split; [exact H1|]. split; [|exact H3].
        rewrite lookup_set in H2. destruct (String.eqb x new); [discriminate|exact H2].
      * assert (Hd : forall k d x, nth_error line k = Some (nn, d) -> nth_error l1 k = Some (nn, x) -> x <> new).
        { intros k d x Hk Hx ->. destruct (Ren k d Hk) as (x' & H1 & H2 & _). rewrite Hx in H1. injection H1 as <-. rewrite lookup_set, String.eqb_refl in H2. discriminate. }
        intros [|a] [|b] c1 d x Ha Hb Xa Xb; cbn [nth_error] in *; try reflexivity.
        -- injection Xa as <-. exfalso. eapply Hd; eauto.
        -- injection Xb as <-. exfalso. eapply Hd; eauto.
        -- f_equal. eapply Inj; eassumption.
    + destruct (rename sep nn v i line) as [[v1 l1]|] eqn:Rn; [|discriminate]. injection H as <- <-.
      destruct (IH _ _ _ _ R Rn) as (E2 & Len & Oth & Ren & Inj). split; [exact E2|]. split; [cbn; congruence|]. split; [|split].
      * intros [|k] o' c' Hk No; cbn [nth_error] in *; [congruence|]. eapply Oth; eassumption.
      * intros [|k] c' Hk; cbn [nth_error] in *; [congruence|]. apply Ren with (1 := Hk).
      * intros [|a] [|b] c1 d x Ha Hb Xa Xb; cbn [nth_error] in *; try congruence. f_equal. eapply Inj; eassumption.
Qed.

Lemma count_eq n l : count n l = count_occ string_dec l n.
Proof.
  unfold count. induction l as [|m r IH]; cbn; [reflexivity|]. destruct (string_dec m n) as [->|N].
  - rewrite String.eqb_refl. cbn. congruence.
  - destruct (String.eqb_spec n m); [congruence|exact IH].
Qed.

(** names that get replaced *)
Definition renamed (drifts_too : bool) (names : list string) (n : string) : bool :=
  negb (negb drifts_too && is_prefix "||drift_" n) && (1 <? count n names).

Section All.
Variables (sep : string) (too : bool) (names : list string) (v0 : env).
Hypothesis known : forall n, In n names -> resolve v0 n <> None.

Definition inv (todo : list string) (v : env) (line : list (string * string)) : Prop :=
  evolves v0 v /\ List.length line = List.length names /\
  (forall k o, nth_error names k = Some o -> exists c, nth_error line k = Some (o, c) /\
     (renamed too names o = true -> ~ In o todo -> lookup v0 c = None /\ exists t e, resolve v0 o = Some (t, e) /\ lookup v c = Some e) /\
     (renamed too names o = false \/ In o todo -> c = o)) /\
  (forall j k a b x, nth_error line j = Some (a, x) -> nth_error line k = Some (b, x) ->
     renamed too names a = true -> ~ In a todo -> renamed too names b = true -> ~ In b todo -> j = k).

Lemma rename_all_inv : forall todo v line v' line', NoDup todo -> (forall n, In n todo -> In n names) -> inv todo v line ->
  rename_all sep too v todo names line = Some (v', line') -> inv [] v' line'.
Proof.
  induction todo as [|nn todo IH]; intros v line v' line' ND Sub I H.
  - cbn in H. injection H as <- <-. exact I.
  - cbn [rename_all] in H. inversion ND as [|? ? Nn ND']; subst. destruct I as (Ev & Len & Pt & Inj).
    assert (Skip : renamed too names nn = false -> inv todo v line).
    { intro Rf. split; [exact Ev|]. split; [exact Len|]. split.
      - intros k o Hk. destruct (Pt k o Hk) as (c & Hc & A & B). exists c. split; [exact Hc|]. split.
        + intros R1 R2. apply A; [exact R1|]. intros [->|X]; [congruence|contradiction].
        + intros [R1|R1]; apply B; [auto|right; right; exact R1].
      - intros j k a b x Hj Hk Ra Na Rb Nb. apply (Inj j k a b x Hj Hk Ra); [intros [->|X]; [congruence|contradiction]|exact Rb|intros [->|X]; [congruence|contradiction]]. }
    destruct (negb too && is_prefix "||drift_" nn) eqn:Sk.
    { apply (IH v line v' line' ND'); [intros; apply Sub; right; assumption|apply Skip; unfold renamed; rewrite Sk; reflexivity|exact H]. }
    destruct (1 <? count nn names) eqn:Ct.
    2: { apply (IH v line v' line' ND'); [intros; apply Sub; right; assumption|apply Skip; unfold renamed; rewrite Ct; apply andb_false_r|exact H]. }
    assert (Rt : renamed too names nn = true) by (unfold renamed; rewrite Sk, Ct; reflexivity).
    destruct (rename sep nn v 0 line) as [[v1 l1]|] eqn:Rn; [|discriminate].
    destruct (resolve v0 nn) as [[t e]|] eqn:R0; [|exfalso; apply (known nn); [apply Sub; left; reflexivity|exact R0]].
    assert (Rv : resolve v nn = Some (t, e)) by (eapply resolve_keeps; [apply evolves_keeps, Ev|exact R0]).
    destruct (rename_spec sep nn t e line v 0 v1 l1 Rv Rn) as (E1 & Len1 & Oth & Ren & Inj1).
    assert (Fr : forall c, lookup v c = None -> lookup v0 c = None).
    { intros c Hc. destruct (lookup v0 c) as [x|] eqn:X; [|reflexivity]. apply (evolves_keeps _ _ Ev) in X. congruence. }
    apply (IH v1 l1 v' line' ND'); [intros; apply Sub; right; assumption| |exact H].
    split; [eapply evolves_trans; eassumption|]. split; [congruence|]. split.
    + intros k o Hk. destruct (Pt k o Hk) as (c & Hc & A & B). destruct (string_dec o nn) as [->|No].
      * destruct (Ren k c Hc) as (c' & H1 & H2 & H3). exists c'. split; [exact H1|]. split.
        -- intros _ _. split; [apply Fr, H2|]. exists t, e. auto.
        -- intros [X|X]; [congruence|contradiction].
      * exists c. split; [eapply Oth; eassumption|]. split.
        -- intros R1 R2. destruct (A R1) as (A1 & (t' & e' & A2 & A3)); [intros [X|X]; [congruence|contradiction]|]. split; [exact A1|]. exists t', e'. split; [exact A2|].
           apply (evolves_keeps _ _ E1), A3.
        -- intros [X|X]; apply B; [auto|right; right; exact X].
    + intros j k a b x Hj Hk Ra Na Rb Nb.
      assert (Src : forall i o y, nth_error l1 i = Some (o, y) -> exists c, nth_error line i = Some (o, c) /\ nth_error names i = Some o).
      { intros i o y Hi. destruct (nth_error names i) as [o'|] eqn:Hn.
        - destruct (Pt i o' Hn) as (c & Hc & _). destruct (string_dec o' nn) as [->|N'].
          + destruct (Ren i c Hc) as (c' & H1 & _). rewrite Hi in H1. injection H1 as -> ->. eauto.
          + pose proof (Oth i o' c Hc N') as H1. rewrite Hi in H1. injection H1 as -> ->. eauto.
        - exfalso. apply nth_error_None in Hn. assert (i < List.length l1) by (apply nth_error_Some; congruence). lia. }
      destruct (Src j a x Hj) as (ca & Hca & Na'). destruct (Src k b x Hk) as (cb & Hcb & Nb').
      assert (Old : forall i o y, nth_error l1 i = Some (o, y) -> renamed too names o = true -> ~ In o todo -> o <> nn -> nth_error line i = Some (o, y) /\ lookup v y <> None).
      { intros i o y Hi Ro No Nn'. destruct (Src i o y Hi) as (c & Hc & Hn). pose proof (Oth i o c Hc Nn') as H1. rewrite Hi in H1. injection H1 as ->.
        split; [exact Hc|]. destruct (Pt i o Hn) as (c' & Hc' & A & _). rewrite Hc in Hc'. injection Hc' as <-.
        destruct (A Ro) as (_ & (t' & e' & _ & A3)); [intros [X|X]; [congruence|contradiction]|]. congruence. }
      destruct (string_dec a nn) as [->|Da], (string_dec b nn) as [->|Db].
      * eapply Inj1; eassumption.
      * exfalso. destruct (Ren j ca Hca) as (x' & H1 & H2 & _). rewrite Hj in H1. injection H1 as <-. destruct (Old k b x Hk Rb Nb Db). contradiction.
      * exfalso. destruct (Ren k cb Hcb) as (x' & H1 & H2 & _). rewrite Hk in H1. injection H1 as <-. destruct (Old j a x Hj Ra Na Da). contradiction.
      * destruct (Old j a x Hj Ra Na Da) as (Hj' & _). destruct (Old k b x Hk Rb Nb Db) as (Hk' & _).
        apply (Inj j k a b x Hj' Hk' Ra); [intros [X|X]; [congruence|contradiction]|exact Rb|intros [X|X]; [congruence|contradiction]].
Qed.
End All.

Lemma combine_nth_same (names : list string) : forall k o, nth_error names k = Some o -> nth_error (combine names names) k = Some (o, o).
Proof. induction names as [|n r IH]; intros [|k] o H; cbn in *; try discriminate; [congruence|auto]. Qed.

Lemma renamed_true too names n : renamed too names n = true <-> 1 < count_occ string_dec names n /\ (too = true \/ is_prefix "||drift_" n = false).
Proof.
  unfold renamed. rewrite andb_true_iff, Nat.ltb_lt, count_eq, negb_true_iff, andb_false_iff, negb_false_iff. tauto.
Qed.

Theorem repeated_ok sep too v order names v' names' :
  NoDup order -> (forall n, In n order <-> In n names) -> (forall n, In n names -> resolve v n <> None) ->
  replace_repeated sep too v order names = Some (v', names') ->
  keeps v v' /\ (cache_ok v -> cache_ok v') /\ (edge_names_ok v -> edge_names_ok v') /\ List.length names' = List.length names /\
  (forall i n n', nth_error names i = Some n -> nth_error names' i = Some n' ->
     same_content v v' n n' /\
     (1 < count_occ string_dec names n /\ (too = true \/ is_prefix "||drift_" n = false) -> lookup v n' = None) /\
     (count_occ string_dec names n = 1 \/ (too = false /\ is_prefix "||drift_" n = true) -> n' = n)) /\
  (forall i j x, nth_error names' i = Some x -> nth_error names' j = Some x -> i = j \/ (too = false /\ is_prefix "||drift_" x = true)).
Proof.
  intros ND Ord Kn H. unfold replace_repeated in H. destruct (rename_all sep too v order names (combine names names)) as [[v1 line]|] eqn:R; [|discriminate].
  injection H as <- <-.
  assert (I : inv too names v order v (combine names names)).
  { split; [apply evolves_refl|]. split; [rewrite combine_length; lia|]. split.
    - intros k o Hk. exists o. split; [apply combine_nth_same, Hk|]. split; [|auto]. intros _ N. exfalso. apply N, Ord. eapply nth_error_In, Hk.
    - intros j k a b x Hj _ _ Na. exfalso. apply Na, Ord. apply nth_error_In, in_combine_l in Hj. exact Hj. }
  pose proof (rename_all_inv sep too names v Kn order v _ v1 line ND (fun n Hn => proj1 (Ord n) Hn) I R) as (Ev & Len & Pt & Inj).
  split; [apply evolves_keeps, Ev|]. split; [apply Ev|]. split; [apply evolves_edges, Ev|]. split; [rewrite map_length; exact Len|].
  assert (PT : forall i n n', nth_error names i = Some n -> nth_error (map snd line) i = Some n' -> nth_error line i = Some (n, n') /\
     (renamed too names n = true -> lookup v n' = None /\ exists t e, resolve v n = Some (t, e) /\ lookup v1 n' = Some e) /\ (renamed too names n = false -> n' = n)).
  { intros i n n' Hn Hn'. destruct (Pt i n Hn) as (c & Hc & A & B). rewrite nth_error_map, Hc in Hn'. cbn in Hn'. injection Hn' as <-. split; [exact Hc|].
    split; [intro X; apply A; [exact X|intros []]|auto]. }
  split.
  - intros i n n' Hn Hn'. destruct (PT i n n' Hn Hn') as (Hl & A & B).
    assert (Rn : exists t e, resolve v n = Some (t, e)). { destruct (resolve v n) as [[t e]|] eqn:X; [eauto|]. exfalso. eapply Kn; [eapply nth_error_In, Hn|exact X]. }
    split; [|split].
    + destruct (renamed too names n) eqn:Rd.
      * destruct (A eq_refl) as (_ & t & e & H1 & H2). exists t, n', e. split; [exact H1|]. apply resolve_own; [exact H2|]. eapply resolve_not_replica, H1.
      * rewrite (B eq_refl). destruct Rn as (t & e & H1). exists t, t, e. split; [exact H1|]. eapply resolve_keeps; [apply evolves_keeps, Ev|exact H1].
    + intro X. apply renamed_true in X. apply A, X.
    + intro X. apply B. apply not_true_iff_false. intro Y. apply renamed_true in Y. destruct X as [X|(X1 & X2)]; [lia|]. destruct Y as (_ & [Y|Y]); congruence.
  - intros i j x Hi Hj.
    assert (Src : forall i, nth_error (map snd line) i = Some x -> exists n, nth_error names i = Some n).
    { intros k Hk. destruct (nth_error names k) as [n|] eqn:X; [eauto|]. exfalso. apply nth_error_None in X.
      assert (k < List.length (map snd line)) by (apply nth_error_Some; congruence). rewrite map_length in H. lia. }
    destruct (Src i Hi) as (a & Ha). destruct (Src j Hj) as (b & Hb).
    destruct (PT i a x Ha Hi) as (Li & A1 & B1). destruct (PT j b x Hb Hj) as (Lj & A2 & B2).
    assert (Kx : forall k n, nth_error names k = Some n -> lookup v n <> None).
    { intros k n Hk X. apply (Kn n); [eapply nth_error_In, Hk|]. unfold resolve. rewrite X. reflexivity. }
    destruct (renamed too names a) eqn:Ra, (renamed too names b) eqn:Rb.
    + left. exact (Inj i j a b x Li Lj Ra (fun F => F) Rb (fun F => F)).
    + exfalso. destruct (A1 eq_refl) as (F & _). rewrite (B2 eq_refl) in F. exact (Kx j b Hb F).
    + exfalso. destruct (A2 eq_refl) as (F & _). rewrite (B1 eq_refl) in F. exact (Kx i a Ha F).
    + assert (a = x) by (symmetry; auto). assert (b = x) by (symmetry; auto). subst a b.
      destruct (Nat.eq_dec i j) as [E|Nij]; [left; exact E|right].
      assert (C2 : 1 < count_occ string_dec names x).
      { clear - Ha Hb Nij. assert (G : forall i j, i < j -> nth_error names i = Some x -> nth_error names j = Some x -> 1 < count_occ string_dec names x).
        { clear. induction names as [|m r IH]; intros i j L Hi Hj; [destruct i; discriminate|]. destruct j as [|j]; [lia|]. cbn in Hj. destruct i as [|i]; cbn in Hi.
          - injection Hi as ->. cbn. destruct (string_dec x x); [|congruence]. assert (0 < count_occ string_dec r x) by (apply count_occ_In; eapply nth_error_In, Hj). lia.
          - cbn. pose proof (IH i j ltac:(lia) Hi Hj). destruct (string_dec m x); lia. }
        destruct (Nat.lt_ge_cases i j); [eapply G; [|exact Ha|exact Hb]; lia|eapply G; [|exact Hb|exact Ha]; lia]. }
      destruct too; [exfalso|split; [reflexivity|]].
      * assert (renamed true names x = true) by (apply renamed_true; auto). congruence.
      * destruct (is_prefix "||drift_" x) eqn:P; [reflexivity|]. exfalso. assert (renamed false names x = true) by (apply renamed_true; auto). congruence.
Qed.

Theorem repeated_defined sep too v order names : (forall n, In n order -> resolve v n <> None) -> exists r, replace_repeated sep too v order names = Some r.
Proof.
  intro Kn. unfold replace_repeated. assert (G : forall order v line, (forall n, In n order -> resolve v n <> None) -> exists v1 l1, rename_all sep too v order names line = Some (v1, l1)).
  { clear. induction order as [|nn order IH]; intros v line Kn; cbn [rename_all]; [eauto|].
    destruct (negb too && is_prefix "||drift_" nn); [apply IH; intros; apply Kn; right; assumption|].
    destruct (1 <? count nn names); [|apply IH; intros; apply Kn; right; assumption].
    assert (Rn : forall line v i, resolve v nn <> None -> exists v1 l1, rename sep nn v i line = Some (v1, l1)).
    { clear. induction line as [|[o c] line IH]; intros v i Hr; cbn [rename]; [eauto|]. destruct (String.eqb o nn).
      - unfold clone_elem. destruct (resolve v nn) as [[t e]|] eqn:R; [|congruence]. set (new := rep_name _ _ _).
        assert (Fr : lookup v new = None). { apply mem_lookup. apply fresh_new. apply rep_name_inj. }
        destruct (IH (set_elem v new e) (fresh_index (en_dict v) (rep_name sep nn) i)) as (v1 & l1 & ->); [|eauto].
        intro X. rewrite (resolve_keeps v (set_elem v new e) nn (t, e)) in X; [discriminate| |exact R].
        apply evolves_keeps, evolves_set; [exact Fr|apply rep_name_clean].
      - destruct (IH v i Hr) as (v1 & l1 & ->). eauto. }
    destruct (Rn line v 0) as (v1 & l1 & E); [apply Kn; left; reflexivity|]. rewrite E. apply IH. intros n Hn.
    destruct (resolve v nn) as [[t e]|] eqn:R; [|exfalso; apply (Kn nn); [left; reflexivity|exact R]].
    destruct (rename_spec sep nn t e line v 0 v1 l1 R E) as (Ev & _). intro X. destruct (resolve v n) as [r|] eqn:Rn'; [|apply (Kn n); [right; exact Hn|exact Rn']].
    rewrite (resolve_keeps v v1 n r (evolves_keeps _ _ Ev) Rn') in X. discriminate. }
  destruct (G order v (combine names names) Kn) as (v1 & l1 & ->). eauto.
Qed.
