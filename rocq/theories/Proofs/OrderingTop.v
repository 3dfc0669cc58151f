(** Order of a line from the positions and the references. *)
From Coq Require Import ZArith QArith Qabs Qfield Lqa List Bool Arith Lia Permutation.
From Verif.Model Require Import Composer.
From Verif.Spec Require Import Composer.
From Verif.Proofs Require Import Ordering.
Import ListNotations.
Local Open Scope nat_scope.

(** * Lists of lists *)
Section Concat.
Context {A : Type}.
Implicit Types ls : list (list A).

Lemma in_concat_nth ls a : In a (concat ls) <-> exists i l, nth_error ls i = Some l /\ In a l.
Proof.
  rewrite in_concat. split.
  - intros (l & Hl & Ha). apply In_nth_error in Hl. destruct Hl as [i Hi]. eauto.
  - intros (i & l & Hi & Ha). apply nth_error_In in Hi. eauto.
Qed.

Lemma concat_before ls a b : before (concat ls) a b <->
  (exists i l, nth_error ls i = Some l /\ before l a b)
  \/ (exists i j l m, i < j /\ nth_error ls i = Some l /\ nth_error ls j = Some m /\ In a l /\ In b m).
Proof.
  induction ls as [|x ls IH]; cbn [concat].
  - split; [intro H; exfalso; exact (before_nil _ _ H)|]. intros [(i & l & H & _)|(i & j & l & m & _ & H & _)]; destruct i; discriminate.
  - rewrite before_app, IH. split.
    + intros [H|[[(i & l & H1 & H2)|(i & j & l & m & H1 & H2 & H3 & H4)]|[H1 H2]]].
      * left. exists 0, x. auto.
      * left. exists (S i), l. auto.
      * right. exists (S i), (S j), l, m. repeat split; try tauto; lia.
      * apply in_concat_nth in H2. destruct H2 as (j & m & H2 & H3). right. exists 0, (S j), x, m. repeat split; auto; lia.
    + intros [(i & l & H1 & H2)|(i & j & l & m & H1 & H2 & H3 & H4 & H5)].
      * destruct i as [|i]; cbn in H1; [injection H1 as ->; auto|]. right. left. left. eauto.
      * destruct j as [|j]; [lia|]. cbn in H3. destruct i as [|i]; cbn in H2.
        -- injection H2 as ->. right. right. split; [exact H4|]. apply in_concat_nth. eauto.
        -- right. left. right. exists i, j, l, m. repeat split; auto; lia.
Qed.

Lemma nodup_app_l (l r : list A) : NoDup (l ++ r) -> NoDup l /\ NoDup r /\ forall a, In a l -> In a r -> False.
Proof.
  induction l as [|x l IH]; cbn; intro H; [repeat split; auto; constructor|]. inversion H; subst. destruct (IH H3) as (A1 & A2 & A3).
  split; [constructor; [|exact A1]; intro C; apply H2, in_app_iff; auto|]. split; [exact A2|].
  intros a [->|Ha] Hr; [apply H2, in_app_iff; auto|eapply A3; eassumption].
Qed.

Lemma concat_unique ls : NoDup (concat ls) -> forall i j l m a, nth_error ls i = Some l -> nth_error ls j = Some m -> In a l -> In a m -> i = j.
Proof.
  induction ls as [|x ls IH]; cbn; intros ND i j l m a H1 H2 H3 H4; [destruct i; discriminate|].
  apply nodup_app_l in ND. destruct ND as (N1 & N2 & N3). destruct i as [|i], j as [|j]; cbn in *.
  - reflexivity.
  - injection H1 as ->. exfalso. apply (N3 a H3). apply in_concat_nth. eauto.
  - injection H2 as ->. exfalso. apply (N3 a H4). apply in_concat_nth. eauto.
  - f_equal. eapply IH; eassumption.
Qed.
Lemma concat_nodup ls i l : NoDup (concat ls) -> nth_error ls i = Some l -> NoDup l.
Proof.
  revert i. induction ls as [|x ls IH]; intros [|i] ND H; cbn in *; try discriminate; apply nodup_app_l in ND.
  - injection H as ->. tauto.
  - eapply IH; [tauto|exact H].
Qed.

Lemma before_antisym l (a b : A) : NoDup l -> before l a b -> before l b a -> False.
Proof.
  induction l as [|x l IH]; intros ND H1 H2; [exact (before_nil _ _ H1)|]. inversion ND; subst.
  apply before_cons in H1. apply before_cons in H2. destruct H1 as [[-> H1]|H1], H2 as [[E H2]|H2].
  - subst. contradiction.
  - apply before_in in H2. tauto.
  - subst. apply before_in in H1. tauto.
  - auto.
Qed.
End Concat.

Lemma nodup_map_inv {A B} (f : A -> B) l : NoDup (map f l) -> NoDup l.
Proof. apply NoDup_map_inv. Qed.
Lemma map_unique {A B} (f : A -> B) l a b : NoDup (map f l) -> In a l -> In b l -> f a = f b -> a = b.
Proof.
  induction l as [|x l IH]; cbn; intros ND Ha Hb E; [contradiction|]. inversion ND; subst.
  destruct Ha as [->|Ha], Hb as [->|Hb]; auto.
  - exfalso. apply H1. rewrite E. apply in_map, Hb.
  - exfalso. apply H1. rewrite <- E. apply in_map, Ha.
Qed.

(** * Groups of elements at the same place *)
Lemma group_concat tol l : forall cur prev, concat (group_from tol cur prev l) = cur ++ l.
Proof.
  induction l as [|p l IH]; intros cur prev; cbn; [rewrite !app_nil_r; reflexivity|].
  destruct (starts_group tol prev p); cbn; rewrite IH, ?app_assoc_reverse; reflexivity.
Qed.
Lemma same_s_concat tol l : concat (group_same_s tol l) = l.
Proof. destruct l as [|p l]; [reflexivity|]. cbn [group_same_s]. rewrite group_concat. reflexivity. Qed.

Lemma group_has tol l : forall cur prev, exists t, In (cur ++ t) (group_from tol cur prev l).
Proof.
  induction l as [|p l IH]; intros cur prev; cbn.
  - exists []. rewrite app_nil_r. auto.
  - destruct (starts_group tol prev p); [exists []; rewrite app_nil_r; left; reflexivity|].
    destruct (IH (cur ++ [p]) p) as [t H]. exists ([p] ++ t). rewrite app_assoc. exact H.
Qed.

Lemma starts_false tol a b : starts_group tol a b = false <->
  (Qabs (rp_center b - rp_center a) <= tol)%Q /\ really_thick a = false /\ really_thick b = false.
Proof. unfold starts_group. rewrite !orb_false_iff, qltb_false. tauto. Qed.

Lemma lt_false tol a b : cmp_lt tol b a = false <-> ((a - b < tol) \/ (a <= b))%Q.
Proof.
  unfold cmp_lt. rewrite andb_false_iff, negb_false_iff, qltb_true, qltb_false. split; intros [H|H].
  - left. apply Qabs_Qlt_condition in H. lra.
  - right. exact H.
  - destruct (Qlt_le_dec b a) as [C|C]; [left|right; exact C]. apply Qabs_Qlt_condition. lra.
  - right. exact H.
Qed.
Lemma lt_false' tol a b : (0 < tol)%Q -> cmp_lt tol b a = false <-> (a - b < tol)%Q.
Proof. intro T. rewrite lt_false. split; [intros [H|H]; lra|auto]. Qed.

Section Main.
Variables (tol : Q) (ps : list rplace).
Hypothesis tol_pos : (0 < tol)%Q.
Hypothesis cc : clear_cut tol (map rp_center ps).
Hypothesis nd : NoDup (map rp_index ps).
Hypothesis ta : thick_apart tol ps.
Notation c := rp_center.
Notation R a b := (c a - c b < tol)%Q.
Definition lt (a b : rplace) := cmp_lt tol (c a) (c b).
Definition sorted := stable_sort lt ps.
Definition groups := group_same_s tol sorted.

Lemma near a b d : In a ps -> In b ps -> In d ps -> (Qabs (c a - c b) <= tol)%Q -> (Qabs (c b - c d) <= tol)%Q -> (Qabs (c a - c d) < tol)%Q.
Proof. intros Ha Hb Hd. apply cc; apply in_map; assumption. Qed.

Lemma R_trans a b d : In a ps -> In b ps -> In d ps -> R a b -> R b d -> R a d.
Proof.
  intros Ha Hb Hd H1 H2. destruct (Qlt_le_dec (c a - c d) tol) as [H|H]; [exact H|exfalso].
  destruct (Qlt_le_dec tol (Qabs (c a - c b))) as [C1|C1].
  { destruct (Qlt_le_dec (c a) (c b)); [rewrite Qabs_neg in C1 by lra; lra|rewrite Qabs_pos in C1 by lra; lra]. }
  destruct (Qlt_le_dec tol (Qabs (c b - c d))) as [C2|C2].
  { destruct (Qlt_le_dec (c b) (c d)); [rewrite Qabs_neg in C2 by lra; lra|rewrite Qabs_pos in C2 by lra; lra]. }
  pose proof (near a b d Ha Hb Hd C1 C2) as N. apply Qabs_Qlt_condition in N. lra.
Qed.

(** between two elements at the same place *)
Lemma R_between a b d : In a ps -> In b ps -> In d ps -> R a b -> R b d -> (Qabs (c a - c d) <= tol)%Q -> (Qabs (c a - c b) < tol)%Q.
Proof.
  intros Ha Hb Hd H1 H2 H. apply Qabs_Qlt_condition. split; [|exact H1].
  destruct (Qlt_le_dec (- tol) (c a - c b)) as [C|C]; [exact C|exfalso].
  pose proof (near a d a Ha Hd Ha H) as N. rewrite Qabs_Qminus in H.
  destruct (Qlt_le_dec tol (Qabs (c b - c d))) as [C2|C2].
  { destruct (Qlt_le_dec (c b) (c d)); [rewrite Qabs_neg in C2 by lra|rewrite Qabs_pos in C2 by lra; lra].
    apply Qabs_Qle_condition in H. lra. }
  rewrite Qabs_Qminus in C2. pose proof (near b d a Hb Hd Ha) as M. rewrite Qabs_Qminus in C2. specialize (M C2 H).
  apply Qabs_Qlt_condition in M. lra.
Qed.

Lemma sorted_perm : Permutation ps sorted.
Proof. apply sort_perm. Qed.
Lemma in_sorted x : In x sorted <-> In x ps.
Proof. split; apply Permutation_in; [apply Permutation_sym|]; apply sorted_perm. Qed.
Lemma nd_sorted : NoDup (map rp_index sorted).
Proof. eapply Permutation_NoDup; [apply Permutation_map, sorted_perm|exact nd]. Qed.
Lemma nd_s : NoDup sorted.
Proof. eapply nodup_map_inv, nd_sorted. Qed.

Lemma sorted_R a b : before sorted a b -> R a b.
Proof.
  intro H. apply lt_false'; [exact tol_pos|]. refine (proj1 (sort_ordered lt ps _ _ ps _) a b H); unfold lt.
  - intros x y _ _. intro E. apply lt_false'; [exact tol_pos|]. unfold cmp_lt in E. apply andb_true_iff in E. destruct E as [_ E]. apply qltb_true in E. lra.
  - intros x y z Hx Hy Hz. rewrite !lt_false' by exact tol_pos. apply R_trans; assumption.
  - intros x Hx. exact Hx.
Qed.
Lemma sorted_keep a b : before ps a b -> R a b -> before sorted a b.
Proof.
  intros H E. refine (proj2 (sort_ordered lt ps _ _ ps _) a b H _); unfold lt.
  - intros x y _ _. intro E'. apply lt_false'; [exact tol_pos|]. unfold cmp_lt in E'. apply andb_true_iff in E'. destruct E' as [_ E']. apply qltb_true in E'. lra.
  - intros x y z Hx Hy Hz. rewrite !lt_false' by exact tol_pos. apply R_trans; assumption.
  - intros x Hx. exact Hx.
  - apply lt_false'; assumption.
Qed.

(** members of a group *)
Definition close_group (g : list rplace) : Prop :=
  (forall x y, In x g -> In y g -> (Qabs (c x - c y) < tol)%Q)
  /\ forall x y, In x g -> In y g -> x <> y -> really_thick x = false /\ really_thick y = false.

Lemma groups_close_from l : forall cur prev, incl (cur ++ l) ps -> In prev cur -> close_group cur ->
  (2 <= List.length cur -> forall x, In x cur -> really_thick x = false) ->
  (List.length cur <= 1 -> cur = [prev]) ->
  forall g, In g (group_from tol cur prev l) -> close_group g.
Proof.
  induction l as [|p l IH]; intros cur prev I Hp C Th One g Hg; cbn in Hg.
  - destruct Hg as [<-|[]]. exact C.
  - assert (Pp : In p ps) by (apply I, in_app_iff; cbn; auto).
    assert (Cur : forall x, In x cur -> In x ps) by (intros x Hx; apply I, in_app_iff; auto).
    assert (Self : forall x : rplace, (Qabs (c x - c x) < tol)%Q).
    { intro x. setoid_replace (c x - c x)%Q with 0%Q by ring. exact tol_pos. }
    destruct (starts_group tol prev p) eqn:E.
    + destruct Hg as [<-|Hg]; [exact C|]. revert Hg. apply IH.
      * intros x [<-|Hx]; [exact Pp|]. apply I, in_app_iff. cbn. auto.
      * left. reflexivity.
      * split; intros x y [<-|[]] [<-|[]]; [apply Self|congruence].
      * cbn. lia.
      * reflexivity.
    + apply starts_false in E. destruct E as (E1 & E2 & E3).
      assert (Thin : forall x, In x cur -> really_thick x = false).
      { intros x Hx. destruct (le_lt_dec 2 (List.length cur)) as [L|L]; [apply Th; assumption|].
        rewrite One in Hx by lia. destruct Hx as [<-|[]]. exact E2. }
      assert (Np : forall x, In x cur -> (Qabs (c x - c p) < tol)%Q).
      { intros x Hx. apply (near x prev p); auto; [|rewrite Qabs_Qminus; exact E1].
        apply Qlt_le_weak. apply C; assumption. }
      revert Hg. apply IH.
      * intros x Hx. apply I. rewrite <- app_assoc in Hx. exact Hx.
      * apply in_app_iff. right. left. reflexivity.
      * split; intros x y Hx Hy; apply in_app_iff in Hx, Hy; destruct Hx as [Hx|[<-|[]]], Hy as [Hy|[<-|[]]].
        -- apply C; assumption.
        -- apply Np, Hx.
        -- rewrite Qabs_Qminus. apply Np, Hy.
        -- apply Self.
        -- split; apply Thin; assumption.
        -- split; [apply Thin; assumption|exact E3].
        -- split; [exact E3|apply Thin; assumption].
        -- split; exact E3.
      * intros _ x Hx. apply in_app_iff in Hx. destruct Hx as [Hx|[<-|[]]]; [apply Thin; assumption|exact E3].
      * rewrite app_length. cbn. intro L. destruct cur; [contradiction|cbn in L; lia].
Qed.

Lemma groups_close g : In g groups -> close_group g.
Proof.
  unfold groups. destruct sorted as [|p l] eqn:E; [contradiction|]. cbn [group_same_s]. apply groups_close_from.
  - intros x Hx. apply in_sorted. rewrite E. exact Hx.
  - left. reflexivity.
  - split; intros x y [<-|[]] [<-|[]]; [|congruence]. setoid_replace (c p - c p)%Q with 0%Q by ring. exact tol_pos.
  - cbn. lia.
  - reflexivity.
Qed.

Lemma groups_tied_from l : forall cur prev x y, incl (cur ++ l) ps -> NoDup (map rp_index (cur ++ l)) ->
  (forall a b, before (cur ++ l) a b -> R a b) ->
  (exists u, cur = u ++ [prev]) -> before (cur ++ l) x y -> tied tol x y ->
  exists g, In g (group_from tol cur prev l) /\ In x g /\ In y g.
Proof.
  induction l as [|p l IH]; intros cur prev x y I ND S [u Hu] B T.
  - rewrite app_nil_r in B. apply before_in in B. exists cur. cbn. tauto.
  - assert (Pall : forall z, In z (cur ++ p :: l) -> In z ps) by exact I.
    assert (Sub : forall z, In z l -> In z (cur ++ p :: l)) by (intros z Hz; apply in_app_iff; cbn; auto).
    cbn. destruct (starts_group tol prev p) eqn:E.
    + assert (B' : before cur x y \/ before (p :: l) x y \/ (In x cur /\ In y (p :: l))) by (apply before_app; exact B).
      assert (NDr : NoDup (map rp_index ([p] ++ l))).
      { rewrite map_app in ND. apply nodup_app_l in ND. tauto. }
      destruct B' as [B'|[B'|[Hx Hy]]].
      * apply before_in in B'. exists cur. cbn. tauto.
      * destruct (IH [p] p x y) as (g & Hg & Hx & Hy); auto.
        -- intros z Hz. apply Pall, in_app_iff. right. exact Hz.
        -- intros a b Hab. apply S, before_app. right. left. exact Hab.
        -- exists []. reflexivity.
        -- exists g. cbn. auto.
      * (* the boundary cannot separate them *)
        exfalso. destruct T as (T1 & T2 & T3 & T4).
        assert (Ix : In x ps) by (apply Pall, in_app_iff; auto).
        assert (Iy : In y ps) by (apply Pall, in_app_iff; auto).
        assert (Iprev : In prev ps). { apply Pall. rewrite Hu. apply in_app_iff. left. apply in_app_iff. right. left. reflexivity. }
        assert (Ip : In p ps). { apply Pall, in_app_iff. right. left. reflexivity. }
        assert (Z0 : forall z : rplace, (c z - c z < tol)%Q) by (intro z; lra).
        assert (Rxp : R x prev).
        { rewrite Hu in Hx. apply in_app_iff in Hx. destruct Hx as [Hx|[->|[]]]; [|apply Z0].
          apply S. rewrite Hu. apply before_app. left. apply before_app. right. right. cbn. auto. }
        assert (Rpp : R prev p).
        { apply S, before_app. right. right. rewrite Hu. split; [apply in_app_iff|]; cbn; auto. }
        assert (Rpy : R p y).
        { destruct Hy as [->|Hy]; [apply Z0|]. apply S, before_app. right. left. apply before_cons. auto. }
        assert (Rprevy : R prev y) by (apply (R_trans prev p y); assumption).
        assert (Rxp2 : R x p) by (apply (R_trans x prev p); assumption).
        assert (N1 : (Qabs (c x - c prev) < tol)%Q) by (apply (R_between x prev y); assumption).
        assert (N2 : (Qabs (c x - c p) < tol)%Q) by (apply (R_between x p y); assumption).
        assert (ES : starts_group tol prev p = false).
        { apply starts_false. split; [|split].
          - apply Qlt_le_weak. apply (near p x prev); auto; [rewrite Qabs_Qminus|]; apply Qlt_le_weak; assumption.
          - destruct (really_thick prev) eqn:Tk; [exfalso|reflexivity].
            assert (Ne : rp_index prev <> rp_index x).
            { intro C. apply (map_unique _ _ _ _ nd Iprev Ix) in C. congruence. }
            pose proof (ta prev x Iprev Ix Tk Ne) as H. rewrite Qabs_Qminus in H. lra.
          - destruct (really_thick p) eqn:Tk; [exfalso|reflexivity].
            assert (Ne : rp_index p <> rp_index x).
            { intro C. apply (map_unique _ _ _ _ nd Ip Ix) in C. congruence. }
            pose proof (ta p x Ip Ix Tk Ne) as H. rewrite Qabs_Qminus in H. lra. }
        congruence.
    + apply IH.
      * rewrite <- app_assoc. exact I.
      * rewrite <- app_assoc. exact ND.
      * rewrite <- app_assoc. exact S.
      * exists cur. reflexivity.
      * rewrite <- app_assoc. exact B.
      * exact T.
Qed.

Lemma tied_sym p q : tied tol p q -> tied tol q p.
Proof. intros (H1 & H2 & H3 & H4). repeat split; auto. rewrite Qabs_Qminus. exact H4. Qed.

Lemma groups_tied x y : In x ps -> In y ps -> tied tol x y -> exists g, In g groups /\ In x g /\ In y g.
Proof.
  assert (G : forall x y, before sorted x y -> tied tol x y -> exists g, In g groups /\ In x g /\ In y g).
  { clear x y. intros x y B T. unfold groups. pose proof nd_sorted as NS. pose proof sorted_R as SR. pose proof in_sorted as IS.
    destruct sorted as [|p l]; [exfalso; exact (before_nil _ _ B)|]. cbn [group_same_s]. apply groups_tied_from; auto.
    - intros z Hz. apply IS. exact Hz.
    - exists []. reflexivity. }
  intros Hx Hy T. apply in_sorted in Hx, Hy.
  destruct (before_total sorted x y nd_s Hx Hy) as [B|B].
  - intros ->. destruct T. congruence.
  - apply G; assumption.
  - destruct (G y x B (tied_sym _ _ T)) as (g & H1 & H2 & H3). eauto.
Qed.

(** * Group indices *)
Definition gi := group_index groups 0.
Lemma in_groups x : In x ps <-> exists k g, nth_error groups k = Some g /\ In x g.
Proof. rewrite <- in_sorted, <- (same_s_concat tol sorted). apply in_concat_nth. Qed.
Lemma nd_groups : NoDup (map rp_index (concat groups)).
Proof. unfold groups. rewrite same_s_concat. apply nd_sorted. Qed.
Lemma nd_g : NoDup (concat groups).
Proof. eapply nodup_map_inv, nd_groups. Qed.

Lemma gi_some gs k0 row k : group_index gs k0 row = Some k ->
  exists g p, k0 <= k /\ nth_error gs (k - k0) = Some g /\ In p g /\ rp_index p = row.
Proof.
  revert k0. induction gs as [|g gs IH]; intros k0 H; cbn in H; [discriminate|].
  destruct (existsb _ g) eqn:E.
  - injection H as <-. apply existsb_exists in E. destruct E as (p & Hp & E). apply Nat.eqb_eq in E.
    exists g, p. rewrite Nat.sub_diag. cbn. auto.
  - destruct (IH _ H) as (g' & p & L & H1 & H2 & H3). exists g', p. replace (k - k0) with (S (k - S k0)) by lia. cbn. repeat split; auto; lia.
Qed.
Lemma gi_total gs k0 g k p : nth_error gs k = Some g -> In p g -> exists k', group_index gs k0 (rp_index p) = Some k'.
Proof.
  revert k0 k. induction gs as [|g0 gs IH]; intros k0 [|k] H Hp; cbn in *; try discriminate.
  - injection H as ->. assert (E : existsb (fun q => rp_index q =? rp_index p) g = true) by (apply existsb_exists; exists p; split; [exact Hp|apply Nat.eqb_refl]).
    rewrite E. eauto.
  - destruct (existsb _ g0); [eauto|]. eapply IH; eassumption.
Qed.
Lemma gi_in k g p : nth_error groups k = Some g -> In p g -> gi (rp_index p) = Some k.
Proof.
  intros H Hp. destruct (gi_total groups 0 g k p H Hp) as [k' E]. unfold gi. rewrite E. f_equal.
  apply gi_some in E. destruct E as (g' & q & _ & H1 & H2 & H3). rewrite Nat.sub_0_r in H1.
  assert (q = p).
  { apply (map_unique _ _ _ _ nd_groups); [apply in_concat_nth|apply in_concat_nth|exact H3]; eauto. }
  subst q. eapply (concat_unique groups nd_g); eassumption.
Qed.
Lemma gi_row f k : gi f = Some k -> exists g p, nth_error groups k = Some g /\ In p g /\ rp_index p = f.
Proof. intro H. apply gi_some in H. destruct H as (g & p & _ & H & Hp). rewrite Nat.sub_0_r in H. eauto. Qed.

Lemma group_order x y i j g h : nth_error groups i = Some g -> nth_error groups j = Some h -> In x g -> In y h ->
  (tol < c y - c x)%Q -> i < j.
Proof.
  intros Hg Hh Hx Hy D. destruct (lt_eq_lt_dec i j) as [[L | -> ] | L]; [exact L|exfalso|exfalso].
  - assert (g = h) by congruence. subst h. pose proof (groups_close g (nth_error_In _ _ Hg)) as [C _].
    specialize (C y x Hy Hx). apply Qabs_Qlt_condition in C. lra.
  - assert (B : before sorted y x).
    { rewrite <- (same_s_concat tol sorted). apply concat_before. right. exists j, i, h, g. auto. }
    apply sorted_R in B. lra.
Qed.

(** * Ordered groups *)
Lemma groups_some gi0 allow gs : forall k res, order_groups gi0 allow k gs = Some res ->
  exists ress, res = concat ress /\ List.length ress = List.length gs
  /\ forall i g, nth_error gs i = Some g -> exists r, nth_error ress i = Some r /\ order_group gi0 (k + i) allow g = Some r.
Proof.
  induction gs as [|g gs IH]; intros k res H; cbn in H.
  - injection H as <-. exists []. repeat split. intros [|i] g H; discriminate.
  - destruct (order_group gi0 k allow g) as [a|] eqn:Ea; [|discriminate]. destruct (order_groups gi0 allow (S k) gs) as [b|] eqn:Eb; [|discriminate].
    injection H as <-. destruct (IH _ _ Eb) as (ress & -> & L & F). exists (a :: ress). cbn. split; [reflexivity|]. split; [f_equal; exact L|].
    intros [|i] g' Hg; cbn in Hg.
    + injection Hg as <-. exists a. cbn. rewrite Nat.add_0_r. auto.
    + destruct (F i g' Hg) as (r & H1 & H2). exists r. cbn. rewrite <- plus_n_Sm. auto.
Qed.
Lemma groups_none gi0 allow gs : forall k, order_groups gi0 allow k gs = None ->
  exists i g, nth_error gs i = Some g /\ order_group gi0 (k + i) allow g = None.
Proof.
  induction gs as [|g gs IH]; intros k H; cbn in H; [discriminate|].
  destruct (order_group gi0 k allow g) as [a|] eqn:Ea.
  - destruct (order_groups gi0 allow (S k) gs) as [b|] eqn:Eb; [discriminate|]. destruct (IH _ Eb) as (i & g' & H1 & H2).
    exists (S i), g'. cbn. rewrite <- plus_n_Sm. auto.
  - exists 0, g. cbn. rewrite Nat.add_0_r. auto.
Qed.

Variable allow : bool.
Notation sort := (sort_places tol allow ps).

Lemma sort_eq : sort = order_groups gi allow 0 groups.
Proof. reflexivity. Qed.

Lemma result res : sort = Some res -> exists ress, res = concat ress /\ List.length ress = List.length groups
  /\ forall i g, nth_error groups i = Some g -> exists r, nth_error ress i = Some r /\ order_group gi i allow g = Some r.
Proof. rewrite sort_eq. intro H. apply groups_some in H. exact H. Qed.

Theorem sort_sorted res : sort = Some res -> forall a b, before res a b -> R a b.
Proof.
  intros H a b B. apply result in H. destruct H as (ress & -> & L & F).
  assert (Back : forall i r, nth_error ress i = Some r -> exists g, nth_error groups i = Some g /\ Permutation r g).
  { intros i r Hr. destruct (nth_error groups i) as [g|] eqn:E.
    - destruct (F i g E) as (r' & H1 & H2). exists g. split; [reflexivity|]. replace r with r' by congruence. eapply group_perm; exact H2.
    - apply nth_error_None in E. assert (i < List.length ress) by (apply nth_error_Some; congruence). lia. }
  apply concat_before in B. destruct B as [(i & r & H1 & H2)|(i & j & r & m & L1 & H1 & H2 & H3 & H4)].
  - destruct (Back i r H1) as (g & Hg & P). apply before_in in H2. destruct H2 as [Ha Hb].
    apply (Permutation_in _ P) in Ha, Hb. pose proof (groups_close g (nth_error_In _ _ Hg)) as [C _].
    specialize (C a b Ha Hb). apply Qabs_Qlt_condition in C. tauto.
  - destruct (Back i r H1) as (g & Hg & P). destruct (Back j m H2) as (h & Hh & P2).
    apply (Permutation_in _ P) in H3. apply (Permutation_in _ P2) in H4. apply sorted_R.
    rewrite <- (same_s_concat tol sorted). apply concat_before. right. exists i, j, g, h. auto.
Qed.

(** two tied elements: their group *)
Lemma tied_group res x y : sort = Some res -> In x ps -> In y ps -> tied tol x y ->
  exists k g r, nth_error groups k = Some g /\ In x g /\ In y g /\ order_group gi k allow g = Some r
  /\ (forall a b, before r a b -> before res a b).
Proof.
  intros H Hx Hy T. destruct (groups_tied x y Hx Hy T) as (g & Hg & Gx & Gy). apply In_nth_error in Hg. destruct Hg as [k Hk].
  apply result in H. destruct H as (ress & -> & L & F). destruct (F k g Hk) as (r & H1 & H2).
  exists k, g, r. repeat split; auto. intros a b B. apply concat_before. left. eauto.
Qed.

Lemma same_kind k g x f : nth_error groups k = Some g -> In x g -> rp_from x = Some f ->
  kind_of gi k allow x = SameS <-> gi f = Some k /\ rp_from_anchor x <> None.
Proof.
  intros Hk Hx Hf. unfold kind_of. rewrite Hf. destruct (gi f) as [j|]; [|destruct allow; split; [discriminate|intros [C _]; discriminate|discriminate|intros [C _]; discriminate]].
  destruct (j <? k) eqn:E1; [apply Nat.ltb_lt in E1; split; [discriminate|intros [C _]; injection C as ->; lia]|].
  destruct (k <? j) eqn:E2; [apply Nat.ltb_lt in E2; split; [discriminate|intros [C _]; injection C as ->; lia]|].
  apply Nat.ltb_ge in E1, E2. assert (j = k) by lia. subst j.
  destruct (rp_from_anchor x); split; try discriminate; auto; [split; [reflexivity|discriminate]|intros [_ C]; congruence].
Qed.

Lemma two_elements (g : list rplace) x y : In x g -> In y g -> x <> y -> (List.length g =? 1) = false.
Proof. intros Hx Hy Ne. destruct g as [|a [|b g]]; [contradiction| |reflexivity]. destruct Hx as [<-|[]], Hy as [<-|[]]. congruence. Qed.

Theorem sort_explicit res p q an : sort = Some res -> In p ps -> In q ps -> tied tol p q ->
  rp_from p = Some (rp_index q) -> rp_from_anchor p = Some an ->
  match an with AEnd => before res q p | _ => before res p q end.
Proof.
  intros H Hp Hq T Hf Ha. destruct (tied_group res p q H Hp Hq T) as (k & g & r & Hk & Gp & Gq & Ho & K).
  assert (Ne : p <> q) by (intros ->; destruct T; congruence).
  assert (KS : kind_of gi k allow p = SameS).
  { apply (same_kind k g p (rp_index q)); auto. split; [eapply gi_in; eassumption|congruence]. }
  pose proof (group_perm _ _ _ _ _ Ho) as P. unfold order_group in Ho.
  rewrite (two_elements g p q Gp Gq Ne) in Ho. cbn [orb] in Ho.
  assert (FB : forallb (fun p0 => match rp_from p0 with Some _ => false | None => true end) g = false).
  { destruct (forallb _ g) eqn:E; [|reflexivity]. rewrite forallb_forall in E. specialize (E p Gp). rewrite Hf in E. discriminate. }
  rewrite FB in Ho. destruct (existsb _ g); [discriminate|]. cbv zeta in Ho. apply loop_ok in Ho. destruct Ho as (_ & _ & B & C).
  assert (Uniq : forall y, In y r -> wants (rp_index y) p = true -> y = q).
  { intros y Hy W. unfold wants in W. rewrite Hf in W. apply Nat.eqb_eq in W. apply (map_unique rp_index ps); auto.
    apply in_groups. exists k, g. split; [exact Hk|]. eapply Permutation_in; eassumption. }
  assert (Is : In p (filter (is_kind gi k allow SameS) g)) by (apply filter_In; split; [exact Gp|apply kind_dec, KS]).
  destruct an.
  1,2: destruct (B p) as (y & Hy & W & Bf); [apply filter_In; rewrite Ha; auto|]; rewrite (Uniq y Hy W) in Bf; apply K, Bf.
  destruct (C p) as (y & Hy & W & Bf); [apply filter_In; rewrite Ha; auto|]. rewrite (Uniq y Hy W) in Bf. apply K, Bf.
Qed.

Lemma pull_kind k g p n : nth_error groups k = Some g -> In p g -> pull tol ps p n ->
  kind_of gi k allow p = match n with 0 => Upstream | 1 => Free | _ => Downstream end.
Proof.
  intros Hk Hp H. unfold kind_of. inversion H as [u Hu Hf D|Hf|u Hu Hf T Ha|u Hu Hf D]; subst; rewrite Hf.
  - pose proof Hu as Hu'. apply in_groups in Hu'. destruct Hu' as (j & h & Hj & Gu). rewrite (gi_in j h u Hj Gu).
    assert (L : j < k) by (eapply group_order; [exact Hj|exact Hk|exact Gu|exact Hp|exact D]).
    apply Nat.ltb_lt in L. rewrite L. reflexivity.
  - reflexivity.
  - assert (Pp : In p ps) by (apply in_groups; eauto). destruct (groups_tied p u Pp Hu T) as (h & Hh & G1 & G2).
    apply In_nth_error in Hh. destruct Hh as [j Hj]. assert (j = k) by (exact (concat_unique groups nd_g _ _ _ _ p Hj Hk G1 Hp)). subst j.
    rewrite (gi_in k h u Hj G2), Nat.ltb_irrefl, Ha. reflexivity.
  - pose proof Hu as Hu'. apply in_groups in Hu'. destruct Hu' as (j & h & Hj & Gu). rewrite (gi_in j h u Hj Gu).
    assert (L : k < j) by (eapply group_order; [exact Hk|exact Hj|exact Hp|exact Gu|exact D]).
    assert (L' : (j <? k) = false) by (apply Nat.ltb_ge; lia). apply Nat.ltb_lt in L. rewrite L', L. reflexivity.
Qed.

Theorem sort_pull res p q m n : sort = Some res -> In p ps -> In q ps -> tied tol p q ->
  pull tol ps p m -> pull tol ps q n -> m < n \/ (m = n /\ before ps p q) -> before res p q.
Proof.
  intros H Hp Hq T Pm Pn D. destruct (tied_group res p q H Hp Hq T) as (k & g & r & Hk & Gp & Gq & Ho & K). apply K.
  assert (Ne : p <> q) by (intros ->; destruct T; congruence).
  pose proof (pull_kind k g p m Hk Gp Pm) as Kp. pose proof (pull_kind k g q n Hk Gq Pn) as Kq.
  assert (Bg : m = n -> before ps p q -> before g p q).
  { intros _ B. assert (Bs : before sorted p q).
    { apply sorted_keep; [exact B|]. pose proof (groups_close g (nth_error_In _ _ Hk)) as [C _].
      specialize (C p q Gp Gq). apply Qabs_Qlt_condition in C. tauto. }
    rewrite <- (same_s_concat tol sorted) in Bs. apply concat_before in Bs.
    destruct Bs as [(i & h & Hi & Bs)|(i & j & h & h' & L & Hi & Hj & H1 & H2)].
    - pose proof (before_in _ _ _ Bs) as [I1 _]. assert (i = k) by (exact (concat_unique groups nd_g _ _ _ _ p Hi Hk I1 Gp)). subst i.
      unfold groups in Hk. congruence.
    - assert (i = k) by (exact (concat_unique groups nd_g _ _ _ _ p Hi Hk H1 Gp)). assert (j = k) by (exact (concat_unique groups nd_g _ _ _ _ q Hj Hk H2 Gq)). lia. }
  assert (Lm : m <= 2) by (inversion Pm; lia). assert (Ln : n <= 2) by (inversion Pn; lia).
  unfold order_group in Ho. rewrite (two_elements g p q Gp Gq Ne) in Ho. cbn [orb] in Ho.
  destruct (forallb _ g) eqn:FB.
  - injection Ho as <-. rewrite forallb_forall in FB. pose proof (FB p Gp) as Np. pose proof (FB q Gq) as Nq.
    destruct (rp_from p) eqn:Ep; [discriminate|]. destruct (rp_from q) eqn:Eq; [discriminate|].
    assert (Mm : m = 1) by (inversion Pm; congruence). assert (Mn : n = 1) by (inversion Pn; congruence).
    subst m n. destruct D as [D|[_ D]]; [lia|]. apply Bg; auto.
  - destruct (existsb _ g); [discriminate|]. cbv zeta in Ho. apply loop_ok in Ho. destruct Ho as (_ & B & _). apply B.
    assert (Sel : forall x y, In x g -> kind_of gi k allow x = y -> In x (filter (is_kind gi k allow y) g)).
    { intros x y Hx E. apply filter_In. split; [exact Hx|]. apply kind_dec, E. }
    rewrite !before_app, !in_app_iff.
    destruct m as [|[|[|m]]], n as [|[|[|n]]]; try lia;
      (destruct D as [D|[D1 D2]]; [try lia|try discriminate]);
      try (right; right; split; [apply Sel; assumption|]; auto using Sel; fail);
      try (right; left; right; right; split; apply Sel; assumption).
    + left. apply before_filter; [apply kind_dec, Kp|apply kind_dec, Kq|apply Bg; auto].
    + right. left. left. apply before_filter; [apply kind_dec, Kp|apply kind_dec, Kq|apply Bg; auto].
    + right. left. right. left. apply before_filter; [apply kind_dec, Kp|apply kind_dec, Kq|apply Bg; auto].
Qed.

(** * Success *)
Hypothesis ns : no_self ps.
Hypothesis refs : allow = true \/ refs_exist ps.

Lemma no_missing k g : nth_error groups k = Some g -> existsb (is_kind gi k allow Missing) g = false.
Proof.
  intro Hk. destruct (existsb _ g) eqn:E; [exfalso|reflexivity]. apply existsb_exists in E. destruct E as (p & Hp & Kp). apply kind_dec in Kp.
  unfold kind_of in Kp. destruct (rp_from p) as [f|] eqn:Hf; [|discriminate]. destruct (gi f) as [j|] eqn:Hj.
  - destruct (j <? k); [discriminate|]. destruct (k <? j); [discriminate|]. destruct (rp_from_anchor p); discriminate.
  - destruct refs as [->|RE]; [discriminate|]. assert (Pp : In p ps) by (apply in_groups; eauto).
    destruct (RE p f Pp Hf) as (q & Hq & <-). apply in_groups in Hq. destruct Hq as (i & h & Hi & Gq). rewrite (gi_in i h q Hi Gq) in Hj. discriminate.
Qed.

Lemma settled_in p : settled tol ps p -> In p ps.
Proof. destruct 1; assumption. Qed.

Theorem sort_success : sort <> None <-> forall p, In p ps -> settled tol ps p.
Proof.
  split.
  - intros S p Hp. destruct (sort_places tol allow ps) as [res|] eqn:E; [clear S|congruence]. apply result in E.
    destruct E as (ress & _ & _ & F). pose proof Hp as Hp'. apply in_groups in Hp'. destruct Hp' as (k & g & Hk & Gp).
    destruct (F k g Hk) as (r & _ & Ho).
    assert (Base : forall x, In x g -> kind_of gi k allow x <> SameS -> settled tol ps x).
    { intros x Hx Kx. assert (Px : In x ps) by (apply in_groups; eauto). apply st_base; [exact Px|]. intros q Hq Hf Ha T. apply Kx.
      apply (same_kind k g x (rp_index q)); auto. split; [|exact Ha].
      destruct (groups_tied x q Px Hq T) as (h & Hh & G1 & G2). apply In_nth_error in Hh. destruct Hh as [j Hj].
      assert (j = k) by (exact (concat_unique groups nd_g _ _ _ _ x Hj Hk G1 Hx)). subst j. eapply gi_in; eassumption. }
    pose proof (group_perm _ _ _ _ _ Ho) as P. unfold order_group in Ho.
    destruct (List.length g =? 1) eqn:L1.
    + apply st_base; [exact Hp|]. intros q Hq Hf Ha T.
      destruct (groups_tied p q Hp Hq T) as (h & Hh & G1 & G2). apply In_nth_error in Hh. destruct Hh as [j Hj].
      assert (j = k) by (exact (concat_unique groups nd_g _ _ _ _ p Hj Hk G1 Gp)). subst j. assert (h = g) by congruence. subst h.
      rewrite (two_elements g p q) in L1; [discriminate|exact G1|exact G2|]. intros ->. destruct T; congruence.
    + cbn [orb] in Ho. destruct (forallb _ g) eqn:FB.
      * rewrite forallb_forall in FB. specialize (FB p Gp). apply st_base; [exact Hp|]. intros q _ Hf. rewrite Hf in FB. discriminate.
      * destruct (existsb _ g) eqn:EM; [discriminate|]. cbv zeta in Ho.
        apply (loop_chain _ (settled tol ps) _ _ _ _ Ho); [| |eapply Permutation_in; [apply Permutation_sym; exact P|exact Gp]].
        -- intros x Hx. rewrite !in_app_iff, !filter_In, !kind_dec in Hx. apply Base; [tauto|]. intuition congruence.
        -- intros x y Hx Sy W. rewrite in_app_iff, !filter_In in Hx.
           assert (Gx : In x g) by tauto. apply (st_next _ _ x y); [apply in_groups; eauto|apply settled_in; exact Sy| |exact Sy].
           unfold wants in W. destruct (rp_from x); [|discriminate]. apply Nat.eqb_eq in W. congruence.
  - intros S E. rewrite sort_eq in E. apply groups_none in E. destruct E as (k & g & Hk & Ho). cbn [plus] in Ho.
    unfold order_group in Ho. destruct (List.length g =? 1) eqn:L1; [discriminate|]. cbn [orb] in Ho. destruct (forallb _ g); [discriminate|].
    rewrite (no_missing k g Hk) in Ho. cbv zeta in Ho.
    set (is_end := fun p : rplace => match rp_from_anchor p with Some AEnd => true | _ => false end) in *.
    set (same := filter (is_kind gi k allow SameS) g) in *.
    apply loop_fail in Ho.
    + destruct Ho as (o & b & a & P & Ne & Inc & W).
      assert (Pg : Permutation (o ++ b ++ a) g).
      { rewrite P. etransitivity; [apply Permutation_app_head, (filter_split is_end same)|].
        rewrite <- !app_assoc. symmetry. apply kinds_perm, (no_missing k g Hk). }
      set (pend := b ++ a) in *.
      assert (Pend : forall x, In x pend -> In x g /\ kind_of gi k allow x = SameS).
      { intros x Hx. apply Inc in Hx. rewrite in_app_iff, !filter_In in Hx. unfold same in Hx. rewrite !filter_In, !kind_dec in Hx. tauto. }
      assert (Next : forall x, In x pend -> exists q, In q pend /\ rp_from x = Some (rp_index q) /\ tied tol x q /\ rp_from_anchor x <> None).
      { intros x Hx. destruct (Pend x Hx) as [Gx Kx].
        assert (Px : In x ps) by (apply in_groups; eauto).
        destruct (rp_from x) as [f|] eqn:Hf; [|unfold kind_of in Kx; rewrite Hf in Kx; discriminate].
        apply (same_kind k g x f) in Kx; auto. destruct Kx as [Gf Ha]. apply gi_row in Gf. destruct Gf as (h & q & Hh & Gq & <-).
        assert (h = g) by congruence. subst h. exists q.
        assert (Nx : x <> q). { intros ->. apply (ns q Px Hf). }
        split; [|split; [reflexivity|split; [|exact Ha]]].
        - apply (Permutation_in _ (Permutation_sym Pg)) in Gq. apply in_app_iff in Gq. destruct Gq as [Gq|Gq]; [|exact Gq].
          exfalso. specialize (W x q Hx Gq). unfold wants in W. rewrite Hf, Nat.eqb_refl in W. discriminate.
        - pose proof (groups_close g (nth_error_In _ _ Hk)) as [C1 C2]. destruct (C2 x q Gx Gq Nx) as [T1 T2].
          split; [|split; [exact T1|split; [exact T2|apply Qlt_le_weak, C1; assumption]]].
          intro C. apply Nx. apply (map_unique rp_index ps); auto. apply in_groups. eauto. }
      assert (All : forall x, settled tol ps x -> In x pend -> False).
      { induction 1 as [x Px Hx|x q Px Pq Hf Sq IH]; intro Hin; destruct (Next x Hin) as (q' & Hq' & Hf' & T & Ha).
        - eapply Hx; [|exact Hf'|exact Ha|exact T]. apply in_groups. destruct (Pend q' Hq') as [Gq' _]. eauto.
        - apply IH. replace q with q'; [exact Hq'|]. apply (map_unique rp_index ps); auto; [|congruence].
          apply in_groups. destruct (Pend q' Hq') as [Gq' _]. eauto. }
      destruct pend as [|x pend']; [congruence|]. apply (All x); [|left; reflexivity]. apply S. apply in_groups.
      destruct (Pend x) as [Gx _]; [left; reflexivity|]. eauto.
    + etransitivity; [apply Nat.eq_le_incl, (Permutation_length (filter_split is_end same))|]. unfold same. clear.
      induction g as [|x g IH]; cbn; [lia|]. destruct (is_kind gi k allow SameS x); cbn; lia.
Qed.
End Main.

(** always a reordering of the elements *)
Theorem sort_permutation tol allow ps res : sort_places tol allow ps = Some res -> Permutation ps res.
Proof.
  unfold sort_places. cbv zeta. intro H. set (s := stable_sort _ ps) in *.
  transitivity s; [apply sort_perm|]. rewrite <- (same_s_concat tol s).
  generalize dependent (group_index (group_same_s tol s) 0). intros g H. revert H. generalize (group_same_s tol s) 0.
  intros gs. clear. revert res. induction gs as [|x gs IH]; intros res k H; cbn in H.
  - injection H as <-. reflexivity.
  - destruct (order_group g k allow x) eqn:E; [|discriminate]. destruct (order_groups g allow (S k) gs) eqn:E2; [|discriminate].
    injection H as <-. cbn. apply Permutation_app; [symmetry; eapply group_perm; exact E|eapply IH; exact E2].
Qed.
