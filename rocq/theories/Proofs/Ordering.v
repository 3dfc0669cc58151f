(** Ordering of the placements. *)
From Coq Require Import ZArith QArith Qabs Qfield Lqa List Bool Arith Lia Permutation.
From Verif.Model Require Import Composer.
From Verif.Spec Require Import Composer.
Import ListNotations.
Local Open Scope nat_scope.

Lemma qltb_true a b : Qltb a b = true <-> (a < b)%Q.
Proof.
  unfold Qltb. rewrite negb_true_iff. split; intro H.
  - apply Qnot_le_lt. intro C. apply Qle_bool_iff in C. congruence.
  - destruct (Qle_bool b a) eqn:E; [|reflexivity]. apply Qle_bool_iff in E. lra.
Qed.
Lemma qltb_false a b : Qltb a b = false <-> (b <= a)%Q.
Proof. unfold Qltb. rewrite negb_false_iff. apply Qle_bool_iff. Qed.

(** * Before *)
Section Before.
Context {A : Type}.
Implicit Types l r : list A.

Lemma before_cons x l a b : before (x :: l) a b <-> (x = a /\ In b l) \/ before l a b.
Proof.
  split.
  - intros (u & v & w & E). destruct u as [|y u]; cbn in E; injection E as <- E.
    + left. split; [reflexivity|]. subst l. apply in_app_iff. right. left. reflexivity.
    + right. exists u, v, w. exact E.
  - intros [[-> H]|(u & v & w & ->)].
    + apply in_split in H. destruct H as (v & w & ->). exists [], v, w. reflexivity.
    + exists (x :: u), v, w. reflexivity.
Qed.

Lemma before_nil (a b : A) : ~ before [] a b.
Proof. intros (u & v & w & E). destruct u; discriminate. Qed.

Lemma before_app l r a b : before (l ++ r) a b <-> before l a b \/ before r a b \/ (In a l /\ In b r).
Proof.
  induction l as [|x l IH]; cbn [app].
  - split; [auto|]. intros [H|[H|[H _]]]; [exfalso; exact (before_nil _ _ H)|exact H|contradiction].
  - rewrite !before_cons, IH, in_app_iff. cbn [In]. intuition (subst; auto).
Qed.

Lemma before_in l a b : before l a b -> In a l /\ In b l.
Proof. intros (u & v & w & ->). split; apply in_app_iff; right; cbn; [auto|]. right. apply in_app_iff. right. cbn. auto. Qed.

Lemma before_filter (f : A -> bool) l a b : f a = true -> f b = true -> before l a b -> before (filter f l) a b.
Proof.
  intros Ha Hb. induction l as [|x l IH]; intro H; [exact H|]. apply before_cons in H. cbn [filter]. destruct H as [[-> H]|H].
  - rewrite Ha. apply before_cons. left. split; [reflexivity|]. apply filter_In. auto.
  - destruct (f x); [apply before_cons; right|]; auto.
Qed.

Lemma before_concat (ls : list (list A)) k l a b : nth_error ls k = Some l -> before l a b -> before (concat ls) a b.
Proof.
  revert k. induction ls as [|x ls IH]; intros [|k] E H; cbn in *; try discriminate.
  - injection E as ->. apply before_app. auto.
  - apply before_app. right. left. eapply IH; eassumption.
Qed.

Lemma before_total l a b : NoDup l -> In a l -> In b l -> a <> b -> before l a b \/ before l b a.
Proof.
  induction l as [|x l IH]; intros ND Ha Hb Ne; [contradiction|]. inversion ND; subst. rewrite !before_cons.
  destruct Ha as [->|Ha], Hb as [->|Hb]; try congruence; auto. destruct (IH H2 Ha Hb Ne); auto.
Qed.
End Before.

(** * Stable sort *)
Section Sort.
Context {A : Type}.
Variables (lt : A -> A -> bool) (U : list A).
Hypothesis asym : forall a b, In a U -> In b U -> lt a b = true -> lt b a = false.
Hypothesis trans : forall a b c, In a U -> In b U -> In c U -> lt b a = false -> lt c b = false -> lt c a = false.
Definition ordered l := forall a b, before l a b -> lt b a = false.

Lemma ins_perm x l : Permutation (x :: l) (insert_sorted lt x l).
Proof.
  induction l as [|y l IH]; cbn; [reflexivity|]. destruct (lt x y); [reflexivity|].
  rewrite perm_swap. apply perm_skip, IH.
Qed.

Lemma ins_keep x l a b : before l a b -> before (insert_sorted lt x l) a b.
Proof.
  induction l as [|y l IH]; intro H; [exfalso; exact (before_nil _ _ H)|]. cbn. destruct (lt x y).
  - apply before_cons. right. exact H.
  - apply before_cons in H. apply before_cons. destruct H as [[-> H]|H].
    + left. split; [reflexivity|]. eapply Permutation_in; [apply ins_perm|]. right. exact H.
    + right. apply IH, H.
Qed.

Lemma ins_ordered x l : incl (x :: l) U -> ordered l -> ordered (insert_sorted lt x l).
Proof.
  induction l as [|y l IH]; intros I O; cbn.
  - intros a b H. apply before_cons in H. destruct H as [[_ []]|H]. exfalso. exact (before_nil _ _ H).
  - assert (Ux : In x U) by (apply I; left; reflexivity). assert (Uy : In y U) by (apply I; right; left; reflexivity).
    destruct (lt x y) eqn:E; intros a b H; apply before_cons in H.
    + destruct H as [[<- H]|H]; [|exact (O a b H)]. destruct H as [<-|H].
      * apply asym; assumption.
      * assert (Ub : In b U) by (apply I; right; right; exact H).
        apply (trans x y b); try assumption; [apply asym; assumption|]. apply O. apply before_cons. auto.
    + destruct H as [[<- H]|H].
      * apply (Permutation_in (l' := x :: l)) in H; [|apply Permutation_sym, ins_perm]. destruct H as [<-|H]; [exact E|].
        apply O. apply before_cons. auto.
      * apply IH; [intros z [<-|Hz]; apply I; cbn; auto| |exact H]. intros c d Hcd. apply O. apply before_cons. auto.
Qed.

Lemma ins_after x l a : incl (x :: l) U -> ordered l -> In a l -> lt x a = false -> before (insert_sorted lt x l) a x.
Proof.
  induction l as [|y l IH]; intros I O Ha E; [contradiction|]. cbn.
  assert (Ux : In x U) by (apply I; left; reflexivity). assert (Uy : In y U) by (apply I; right; left; reflexivity).
  destruct (lt x y) eqn:Exy.
  - exfalso. destruct Ha as [->|Ha]; [congruence|]. assert (Ua : In a U) by (apply I; right; right; exact Ha).
    assert (lt a y = false) by (apply O, before_cons; auto). rewrite (trans y a x) in Exy; congruence || auto.
  - apply before_cons. destruct Ha as [->|Ha].
    + left. split; [reflexivity|]. eapply Permutation_in; [apply ins_perm|]. left. reflexivity.
    + right. apply IH; [intros z [<-|Hz]; apply I; cbn; auto| |exact Ha|exact E]. intros c d Hcd. apply O. apply before_cons. auto.
Qed.

Lemma fold_perm l acc : Permutation (acc ++ l) (fold_left (fun acc x => insert_sorted lt x acc) l acc).
Proof.
  revert acc. induction l as [|x l IH]; intro acc; cbn; [rewrite app_nil_r; reflexivity|].
  rewrite <- IH. rewrite <- ins_perm. cbn. symmetry. apply Permutation_middle.
Qed.

Lemma sort_perm l : Permutation l (stable_sort lt l).
Proof. apply (fold_perm l []). Qed.

Lemma fold_ordered l acc : incl (acc ++ l) U -> ordered acc ->
  ordered (fold_left (fun acc x => insert_sorted lt x acc) l acc)
  /\ (forall a b, before acc a b -> before (fold_left (fun acc x => insert_sorted lt x acc) l acc) a b)
  /\ (forall a b, In a acc -> In b l -> lt b a = false -> before (fold_left (fun acc x => insert_sorted lt x acc) l acc) a b)
  /\ (forall a b, before l a b -> lt b a = false -> before (fold_left (fun acc x => insert_sorted lt x acc) l acc) a b).
Proof.
  revert acc. induction l as [|x l IH]; intros acc I O; cbn [fold_left].
  - repeat split; auto; [contradiction|]. intros a b H. exfalso. exact (before_nil _ _ H).
  - assert (Ix : incl (x :: acc) U) by (intros z [<-|Hz]; apply I, in_app_iff; cbn; auto).
    destruct (IH (insert_sorted lt x acc)) as (A1 & A2 & A3 & A4).
    + intros z Hz. apply in_app_iff in Hz. destruct Hz as [Hz|Hz]; [|apply I, in_app_iff; cbn; auto].
      apply Ix. eapply Permutation_in; [apply Permutation_sym, ins_perm|exact Hz].
    + apply ins_ordered; assumption.
    + split; [exact A1|]. split; [|split].
      * intros a b H. apply A2, ins_keep, H.
      * intros a b Ha [<-|Hb] E.
        -- apply A2. apply ins_after; assumption.
        -- apply A3; [|exact Hb|exact E]. eapply Permutation_in; [apply ins_perm|]. right. exact Ha.
      * intros a b H E. apply before_cons in H. destruct H as [[<- Hb]|H]; [|apply A4; assumption].
        apply A3; [|exact Hb|exact E]. eapply Permutation_in; [apply ins_perm|]. left. reflexivity.
Qed.

Lemma sort_ordered l : incl l U -> ordered (stable_sort lt l)
  /\ forall a b, before l a b -> lt b a = false -> before (stable_sort lt l) a b.
Proof.
  intro I. destruct (fold_ordered l []) as (A1 & _ & _ & A4); [exact I| |auto].
  intros a b H. exfalso. exact (before_nil _ _ H).
Qed.
End Sort.

(** * Insertions *)
Lemma walk_perm order : forall bf af new bf' af', walk order bf af = (new, bf', af') ->
  Permutation (new ++ bf' ++ af') (order ++ bf ++ af).
Proof.
  induction order as [|p r IH]; intros bf af new bf' af' H; cbn [walk] in H.
  - injection H as <- <- <-. reflexivity.
  - destruct (walk r _ _) as [[l b1] a1] eqn:E. injection H as <- <- <-. apply IH in E.
    set (w := wants (rp_index p)) in *.
    assert (S : forall l : list rplace, Permutation l (filter w l ++ filter (fun q => negb (w q)) l)).
    { induction l0 as [|x l0 IHl]; [reflexivity|]. cbn. destruct (w x); cbn; [apply perm_skip, IHl|].
      rewrite IHl at 1. apply Permutation_middle. }
    set (x := filter w bf) in *. set (y := filter w af) in *.
    set (u := filter (fun q => negb (w q)) bf) in *. set (v := filter (fun q => negb (w q)) af) in *.
    transitivity (p :: x ++ y ++ (l ++ b1 ++ a1)).
    { rewrite <- app_assoc. cbn [app]. rewrite <- app_assoc. symmetry. apply Permutation_middle. }
    transitivity (p :: x ++ y ++ (r ++ u ++ v)).
    { apply perm_skip, Permutation_app_head, Permutation_app_head, E. }
    transitivity (p :: r ++ (x ++ u) ++ (y ++ v)).
    { apply perm_skip. transitivity (r ++ x ++ y ++ u ++ v).
      - rewrite (app_assoc x y (r ++ u ++ v)), (app_assoc r x (y ++ u ++ v)).
        rewrite (app_assoc (x ++ y) r), (Permutation_app_comm (x ++ y) r), <- !app_assoc. reflexivity.
      - apply Permutation_app_head. rewrite <- app_assoc. apply Permutation_app_head.
        rewrite (app_assoc y u v), (app_assoc u y v). apply Permutation_app_tail, Permutation_app_comm. }
    cbn [app]. apply perm_skip, Permutation_app_head, Permutation_app; symmetry; apply S.
Qed.

Lemma walk_keep order : forall bf af new bf' af' a b, walk order bf af = (new, bf', af') ->
  before order a b -> before new a b.
Proof.
  induction order as [|p r IH]; intros bf af new bf' af' a b H B; [exfalso; exact (before_nil _ _ B)|]. cbn [walk] in H.
  destruct (walk r _ _) as [[l b1] a1] eqn:E. injection H as <- <- <-.
  assert (Sub : forall x, In x r -> In x l).
  { clear -E. revert E. generalize (filter (fun q => negb (wants (rp_index p) q)) bf) (filter (fun q => negb (wants (rp_index p) q)) af). intros b2 a2 E.
    revert b2 a2 l b1 a1 E. induction r as [|y r IHr]; intros b2 a2 l b1 a1 E x Hx; [contradiction|]. cbn [walk] in E.
    destruct (walk r _ _) as [[l' b'] a'] eqn:E'. injection E as <- <- <-. apply in_app_iff. right. destruct Hx as [->|Hx]; [left; reflexivity|].
    right. apply in_app_iff. right. eapply IHr; eassumption. }
  apply before_app. right. left. apply before_cons in B. apply before_cons. destruct B as [[-> B]|B].
  - left. split; [reflexivity|]. apply in_app_iff. right. apply Sub, B.
  - right. apply before_app. right. left. eapply IH; eassumption.
Qed.

Lemma walk_in order bf af new bf' af' x : walk order bf af = (new, bf', af') -> In x order -> In x new.
Proof.
  revert bf af new bf' af'. induction order as [|p r IH]; intros bf af new bf' af' H Hx; [contradiction|]. cbn [walk] in H.
  destruct (walk r _ _) as [[l b1] a1] eqn:E. injection H as <- <- <-. apply in_app_iff. right.
  destruct Hx as [->|Hx]; [left; reflexivity|]. right. apply in_app_iff. right. eapply IH; eassumption.
Qed.

Lemma walk_before order : forall bf af new bf' af' x, walk order bf af = (new, bf', af') -> In x bf ->
  In x bf' \/ exists y, In y order /\ wants (rp_index y) x = true /\ before new x y.
Proof.
  induction order as [|p r IH]; intros bf af new bf' af' x H Hx; cbn [walk] in H.
  - injection H as <- <- <-. auto.
  - destruct (walk r _ _) as [[l b1] a1] eqn:E. injection H as <- <- <-.
    destruct (wants (rp_index p) x) eqn:W.
    + right. exists p. split; [left; reflexivity|]. split; [exact W|]. apply before_app. right. right.
      split; [apply filter_In; auto|left; reflexivity].
    + destruct (IH _ _ _ _ _ x E) as [H|(y & Hy & Wy & B)].
      * apply filter_In. rewrite W. auto.
      * auto.
      * right. exists y. split; [right; exact Hy|]. split; [exact Wy|]. apply before_app. right. left.
        apply before_cons. right. apply before_app. auto.
Qed.

Lemma walk_after order : forall bf af new bf' af' x, walk order bf af = (new, bf', af') -> In x af ->
  In x af' \/ exists y, In y order /\ wants (rp_index y) x = true /\ before new y x.
Proof.
  induction order as [|p r IH]; intros bf af new bf' af' x H Hx; cbn [walk] in H.
  - injection H as <- <- <-. auto.
  - destruct (walk r _ _) as [[l b1] a1] eqn:E. injection H as <- <- <-.
    destruct (wants (rp_index p) x) eqn:W.
    + right. exists p. split; [left; reflexivity|]. split; [exact W|]. apply before_app. right. left.
      apply before_cons. left. split; [reflexivity|]. apply in_app_iff. left. apply filter_In. auto.
    + destruct (IH _ _ _ _ _ x E) as [H|(y & Hy & Wy & B)].
      * apply filter_In. rewrite W. auto.
      * auto.
      * right. exists y. split; [right; exact Hy|]. split; [exact Wy|]. apply before_app. right. left.
        apply before_cons. right. apply before_app. auto.
Qed.

Lemma walk_kept order : forall bf af new bf' af', walk order bf af = (new, bf', af') ->
  (forall x, In x bf' -> In x bf /\ forall y, In y order -> wants (rp_index y) x = false)
  /\ (forall x, In x af' -> In x af /\ forall y, In y order -> wants (rp_index y) x = false).
Proof.
  induction order as [|p r IH]; intros bf af new bf' af' H; cbn [walk] in H.
  - injection H as <- <- <-. split; intros x Hx; (split; [exact Hx|contradiction]).
  - destruct (walk r _ _) as [[l b1] a1] eqn:E. injection H as <- <- <-. destruct (IH _ _ _ _ _ E) as [I1 I2].
    split; intros x Hx; [destruct (I1 x Hx) as [H1 H2]|destruct (I2 x Hx) as [H1 H2]]; apply filter_In in H1;
      destruct H1 as [H1 H3]; apply negb_true_iff in H3; (split; [exact H1|]); intros y [<-|Hy]; auto.
Qed.

(** New elements are pending ones whose target is in the order. *)
Lemma walk_new order : forall bf af new bf' af' x, walk order bf af = (new, bf', af') -> In x new ->
  In x order \/ (In x (bf ++ af) /\ exists y, In y order /\ wants (rp_index y) x = true).
Proof.
  induction order as [|p r IH]; intros bf af new bf' af' x H Hx; cbn [walk] in H.
  - injection H as <- <- <-. contradiction.
  - destruct (walk r _ _) as [[l b1] a1] eqn:E. injection H as <- <- <-. apply in_app_iff in Hx. destruct Hx as [Hx|[<-|Hx]].
    + apply filter_In in Hx. destruct Hx as [H1 H2]. right. split; [apply in_app_iff; auto|]. exists p. cbn. auto.
    + left. left. reflexivity.
    + apply in_app_iff in Hx. destruct Hx as [Hx|Hx].
      * apply filter_In in Hx. destruct Hx as [H1 H2]. right. split; [apply in_app_iff; auto|]. exists p. cbn. auto.
      * destruct (IH _ _ _ _ _ x E Hx) as [H|[H (y & Hy & W)]]; [left; right; exact H|]. right. split.
        -- apply in_app_iff in H. apply in_app_iff. destruct H as [H|H]; apply filter_In in H; destruct H; auto.
        -- exists y. cbn. auto.
Qed.

Definition empty (l : list rplace) : Prop := l = [].

Lemma loop_ok fuel : forall order bf af res, insert_loop fuel order bf af = Some res ->
  Permutation res (order ++ bf ++ af)
  /\ (forall a b, before order a b -> before res a b)
  /\ (forall x, In x bf -> exists y, In y res /\ wants (rp_index y) x = true /\ before res x y)
  /\ (forall x, In x af -> exists y, In y res /\ wants (rp_index y) x = true /\ before res y x).
Proof.
  induction fuel as [|fuel IH]; intros order bf af res H; cbn [insert_loop] in H.
  - destruct bf, af; try discriminate. injection H as <-. rewrite !app_nil_r. repeat split; auto; contradiction.
  - destruct (match bf with [] => match af with [] => true | _ => false end | _ => false end) eqn:Em.
    { destruct bf, af; try discriminate. injection H as <-. rewrite !app_nil_r. repeat split; auto; contradiction. }
    assert (H' : (let '(new_order, before, after) := walk order bf af in
        if List.length new_order =? List.length order then None else insert_loop fuel new_order before after) = Some res)
      by (destruct bf, af; try discriminate; exact H).
    clear H. destruct (walk order bf af) as [[new b'] a'] eqn:E.
    destruct (List.length new =? List.length order); [discriminate|]. destruct (IH _ _ _ _ H') as (P & K & B & C).
    assert (IR : forall y, In y order -> In y res).
    { intros y Hy. eapply Permutation_in; [apply Permutation_sym, P|]. apply in_app_iff. left. eapply walk_in; eassumption. }
    split; [rewrite P; eapply walk_perm; exact E|]. split; [|split].
    + intros a b Hab. apply K. eapply walk_keep; eassumption.
    + intros x Hx. destruct (walk_before _ _ _ _ _ _ x E Hx) as [H|(y & Hy & W & Bf)]; [apply B, H|]. exists y. auto.
    + intros x Hx. destruct (walk_after _ _ _ _ _ _ x E Hx) as [H|(y & Hy & W & Bf)]; [apply C, H|]. exists y. auto.
Qed.

(** The loop fails only when every pending element waits for a pending element. *)
Lemma loop_fail fuel : forall order bf af, List.length (bf ++ af) <= fuel -> insert_loop fuel order bf af = None ->
  exists order' bf' af', Permutation (order' ++ bf' ++ af') (order ++ bf ++ af) /\ bf' ++ af' <> []
  /\ incl (bf' ++ af') (bf ++ af)
  /\ forall x y, In x (bf' ++ af') -> In y order' -> wants (rp_index y) x = false.
Proof.
  induction fuel as [|fuel IH]; intros order bf af L H; cbn [insert_loop] in H.
  - destruct bf, af; cbn in L; try lia. discriminate.
  - destruct (match bf with [] => match af with [] => true | _ => false end | _ => false end) eqn:Em.
    { destruct bf, af; discriminate. }
    assert (NE : bf ++ af <> []) by (destruct bf, af; try discriminate).
    assert (H' : (let '(new_order, before, after) := walk order bf af in
        if List.length new_order =? List.length order then None else insert_loop fuel new_order before after) = None)
      by (destruct bf, af; try discriminate; exact H).
    clear H. destruct (walk order bf af) as [[new b'] a'] eqn:E.
    pose proof (walk_perm _ _ _ _ _ _ E) as P. pose proof (walk_kept _ _ _ _ _ _ E) as [K1 K2].
    assert (Inc : incl (b' ++ a') (bf ++ af)).
    { intros x Hx. apply in_app_iff in Hx. apply in_app_iff. destruct Hx as [Hx|Hx]; [left; apply K1, Hx|right; apply K2, Hx]. }
    destruct (List.length new =? List.length order) eqn:Le.
    + apply Nat.eqb_eq in Le. exists order, bf, af. split; [reflexivity|]. split; [exact NE|]. split; [intros x Hx; exact Hx|].
      (* nothing was inserted *)
      intros x y Hx Hy. destruct (wants (rp_index y) x) eqn:W; [exfalso|reflexivity].
      assert (Len : List.length (b' ++ a') = List.length (bf ++ af)).
      { apply Permutation_length in P. rewrite !app_length in *. lia. }
      clear -E Le W Hx Hy Len.
      assert (F : forall (l : list rplace) f, In x l -> f x = false -> List.length (filter f l) < List.length l).
      { intros l f Hl Hf. induction l as [|z l IHl]; [contradiction|]. cbn. assert (List.length (filter f l) <= List.length l).
        { clear. induction l as [|w l IH]; cbn; [lia|]. destruct (f w); cbn; lia. }
        destruct Hl as [->|Hl]; [rewrite Hf; lia|]. specialize (IHl Hl). destruct (f z); cbn; lia. }
      assert (G : forall order bf af new b' a', walk order bf af = (new, b', a') -> In x (bf ++ af) -> In y order -> List.length (b' ++ a') < List.length (bf ++ af)).
      { clear -F W. induction order as [|p r IH]; intros bf af new b' a' E Hx Hy; [contradiction|]. cbn [walk] in E.
        destruct (walk r _ _) as [[l b1] a1] eqn:E1. injection E as <- <- <-.
        set (f := fun q => negb (wants (rp_index p) q)) in *.
        pose proof (walk_perm _ _ _ _ _ _ E1) as P1. pose proof (fun x => proj1 (walk_kept _ _ _ _ _ _ E1) x) as K1.
        assert (Len1 : List.length (b1 ++ a1) <= List.length (filter f bf ++ filter f af)).
        { apply Permutation_length in P1. rewrite !app_length in *.
          assert (List.length r <= List.length l); [|lia]. clear -E1.
          revert E1. generalize (filter f bf) (filter f af). intros u v. revert u v l b1 a1. induction r as [|z r IHr]; intros u v l b1 a1 E; cbn; [lia|].
          cbn [walk] in E. destruct (walk r _ _) as [[l' b'] a'] eqn:E'. injection E as <- <- <-. specialize (IHr _ _ _ _ _ E').
          rewrite app_length. cbn. rewrite app_length. lia. }
        assert (FL : forall l : list rplace, List.length (filter f l) <= List.length l).
        { clear. induction l as [|w l IH]; cbn; [lia|]. destruct (f w); cbn; lia. }
        destruct (f x) eqn:Fx.
        - destruct Hy as [->|Hy]; [unfold f in Fx; rewrite W in Fx; discriminate|].
          assert (List.length (b1 ++ a1) < List.length (filter f bf ++ filter f af)).
          { apply (IH _ _ _ _ _ E1); [|exact Hy]. apply in_app_iff in Hx. apply in_app_iff. destruct Hx; [left|right]; apply filter_In; auto. }
          pose proof (FL bf). pose proof (FL af). rewrite !app_length in *. lia.
        - pose proof (FL bf). pose proof (FL af). apply in_app_iff in Hx. destruct Hx as [Hx|Hx]; pose proof (F _ f Hx Fx); rewrite !app_length in *; lia. }
      pose proof (G _ _ _ _ _ _ E Hx Hy). lia.
    + apply Nat.eqb_neq in Le. destruct (IH new b' a') as (o1 & b1 & a1 & P1 & N1 & I1 & W1).
      * apply Permutation_length in P. rewrite !app_length in *.
        assert (List.length order <= List.length new); [|lia]. clear -E. revert bf af new b' a' E.
        induction order as [|z r IHr]; intros bf af new b' a' E; cbn; [lia|].
        cbn [walk] in E. destruct (walk r _ _) as [[l' b1] a1] eqn:E'. injection E as <- <- <-. specialize (IHr _ _ _ _ _ E').
        rewrite app_length. cbn. rewrite app_length. lia.
      * exact H'.
      * exists o1, b1, a1. split; [rewrite P1; exact P|]. split; [exact N1|]. split; [|exact W1].
        intros x Hx. apply Inc, I1, Hx.
Qed.

(** In a successful loop each new element refers to one which was placed before. *)
Lemma loop_chain fuel (Q : rplace -> Prop) : forall order bf af res, insert_loop fuel order bf af = Some res ->
  (forall x, In x order -> Q x) -> (forall x y, In x (bf ++ af) -> Q y -> wants (rp_index y) x = true -> Q x) -> forall x, In x res -> Q x.
Proof.
  induction fuel as [|fuel IH]; intros order bf af res H Ho Hp x Hx; cbn [insert_loop] in H.
  - destruct bf, af; try discriminate. injection H as <-. auto.
  - destruct (match bf with [] => match af with [] => true | _ => false end | _ => false end) eqn:Em.
    { destruct bf, af; try discriminate. injection H as <-. auto. }
    assert (H' : (let '(new_order, before, after) := walk order bf af in
        if List.length new_order =? List.length order then None else insert_loop fuel new_order before after) = Some res)
      by (destruct bf, af; try discriminate; exact H).
    clear H. destruct (walk order bf af) as [[new b'] a'] eqn:E. destruct (List.length new =? List.length order); [discriminate|].
    pose proof (walk_kept _ _ _ _ _ _ E) as [K1 K2].
    eapply IH; [exact H'| | |exact Hx].
    + intros z Hz. destruct (walk_new _ _ _ _ _ _ z E Hz) as [H|[H (y & Hy & W)]]; [auto|]. eapply Hp; [exact H| |exact W]. auto.
    + intros z y Hz. apply Hp. apply in_app_iff in Hz. apply in_app_iff. destruct Hz as [Hz|Hz]; [left; apply K1, Hz|right; apply K2, Hz].
Qed.

(** * Groups *)
Lemma kind_dec gi k allow p x : is_kind gi k allow x p = true <-> kind_of gi k allow p = x.
Proof. unfold is_kind. destruct (kind_of gi k allow p), x; split; congruence. Qed.

Lemma kinds_perm gi k allow g : existsb (is_kind gi k allow Missing) g = false ->
  Permutation g (filter (is_kind gi k allow Upstream) g ++ filter (is_kind gi k allow Free) g
                 ++ filter (is_kind gi k allow Downstream) g ++ filter (is_kind gi k allow SameS) g).
Proof.
  induction g as [|p g IH]; intro H; [reflexivity|]. cbn [existsb] in H. apply orb_false_iff in H. destruct H as [H1 H2]. specialize (IH H2).
  assert (EU : is_kind gi k allow Upstream p = match kind_of gi k allow p with Upstream => true | _ => false end) by (unfold is_kind; destruct kind_of; reflexivity).
  assert (EF : is_kind gi k allow Free p = match kind_of gi k allow p with Free => true | _ => false end) by (unfold is_kind; destruct kind_of; reflexivity).
  assert (ED : is_kind gi k allow Downstream p = match kind_of gi k allow p with Downstream => true | _ => false end) by (unfold is_kind; destruct kind_of; reflexivity).
  assert (ES : is_kind gi k allow SameS p = match kind_of gi k allow p with SameS => true | _ => false end) by (unfold is_kind; destruct kind_of; reflexivity).
  unfold is_kind in H1. cbn [filter]. rewrite EU, EF, ED, ES. clear EU EF ED ES. destruct (kind_of gi k allow p); cbn [app].
  - apply perm_skip, IH.
  - rewrite <- Permutation_middle. apply perm_skip, IH.
  - rewrite app_assoc, <- Permutation_middle, <- app_assoc. apply perm_skip, IH.
  - rewrite !app_assoc, <- Permutation_middle, <- !app_assoc. apply perm_skip, IH.
  - discriminate.
Qed.

Lemma filter_split (f : rplace -> bool) l : Permutation (filter (fun p => negb (f p)) l ++ filter f l) l.
Proof.
  induction l as [|x l IH]; [reflexivity|]. cbn. destruct (f x); cbn; [rewrite <- Permutation_middle|]; apply perm_skip, IH.
Qed.

Lemma group_perm gi k allow g res : order_group gi k allow g = Some res -> Permutation res g.
Proof.
  unfold order_group. destruct (_ || _); [intros [= <-]; reflexivity|].
  destruct (existsb (is_kind gi k allow Missing) g) eqn:Ms; [discriminate|]. cbv zeta. intro H.
  apply loop_ok in H. destruct H as (P & _). rewrite P, filter_split, <- !app_assoc. symmetry. apply kinds_perm, Ms.
Qed.
