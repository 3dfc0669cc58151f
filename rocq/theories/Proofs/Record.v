From Coq Require Import ZArith List Bool Lia Permutation.
From Verif.Model Require Import Record.
From Verif.Spec Require Import Record.
Import ListNotations.
Local Open Scope Z_scope.

Section P.
Context {D : Type}.
Implicit Types (s : rstate D) (es : list (event D)).

Lemma grants_app (a b : list (event D)) : grants (a ++ b) = grants a ++ grants b.
Proof. apply flat_map_app. Qed.
Lemma requests_app (a b : list (event D)) : requests (a ++ b) = requests a ++ requests b.
Proof. apply flat_map_app. Qed.
Lemma refusals_app (a b : list (event D)) : refusals (a ++ b) = refusals a ++ refusals b.
Proof. apply flat_map_app. Qed.

Lemma zseq_S n : zseq (S n) = zseq n ++ [Z.of_nat n].
Proof. unfold zseq. rewrite seq_S, map_app. reflexivity. Qed.
Lemma zseq_nodup n : NoDup (zseq n).
Proof.
  unfold zseq. apply FinFun.Injective_map_NoDup; [intros a b; lia|apply seq_NoDup].
Qed.
Lemma in_zseq n k : In k (zseq n) <-> 0 <= k < Z.of_nat n.
Proof.
  unfold zseq. rewrite in_map_iff. split.
  - intros (m & <- & H). apply in_seq in H. lia.
  - intros H. exists (Z.to_nat k). split; [lia|]. apply in_seq. lia.
Qed.

(** Records held by calls in progress. *)
Definition inprog (t : pc D) : list D :=
  match t with Passed d | Overshoot d => [d] | _ => [] end.
Definition over (t : pc D) : nat := match t with Overshoot _ => 1 | _ => 0 end.
Definition overs (l : list (pc D)) : nat := list_sum (map over l).

Lemma upd_length {A} i (x : A) l : length (upd i x l) = length l.
Proof. revert i. induction l; destruct i; simpl; auto. Qed.
Lemma upd_same {A} i (x y : A) l : nth_error l i = Some y -> nth_error (upd i x l) i = Some x.
Proof. revert i. induction l; destruct i; simpl; try discriminate; auto. Qed.
Lemma upd_other {A} i j (x : A) l : i <> j -> nth_error (upd i x l) j = nth_error l j.
Proof. revert i j. induction l; destruct i, j; simpl; auto; congruence. Qed.

Lemma upd_split {A} i (y : A) l :
  nth_error l i = Some y -> exists a b, l = a ++ y :: b /\ forall x, upd i x l = a ++ x :: b.
Proof.
  revert i. induction l; destruct i; simpl; try discriminate.
  - intros [= ->]. exists [], l. auto.
  - intros H. destruct (IHl _ H) as (u & v & -> & E). exists (a :: u), v.
    split; [reflexivity|]. intros x. rewrite E. reflexivity.
Qed.

Lemma overs_upd i x y l :
  nth_error l i = Some y -> (overs (upd i x l) + over y = overs l + over x)%nat.
Proof.
  intros H. destruct (upd_split _ _ _ H) as (a & b & -> & E). rewrite E.
  unfold overs. rewrite !map_app, !list_sum_app. simpl. lia.
Qed.
Lemma overs_le l : (overs l <= length l)%nat.
Proof. induction l as [|[]]; unfold overs in *; simpl in *; lia. Qed.
Lemma overs_in i d l : nth_error l i = Some (Overshoot d) -> (1 <= overs l)%nat.
Proof.
  intros H. destruct (upd_split _ _ _ H) as (a & b & -> & _).
  unfold overs. rewrite map_app, list_sum_app. simpl. lia.
Qed.

Lemma inprog_upd i x y l :
  nth_error l i = Some y ->
  Permutation (inprog y ++ flat_map inprog (upd i x l)) (inprog x ++ flat_map inprog l).
Proof.
  intros H. destruct (upd_split _ _ _ H) as (a & b & -> & E). rewrite E.
  rewrite !flat_map_app. simpl.
  rewrite (Permutation_app_comm (flat_map inprog a) (inprog x ++ _)).
  rewrite (Permutation_app_comm (flat_map inprog a) (inprog y ++ _)).
  rewrite <- !app_assoc.
  rewrite !app_assoc. do 2 apply Permutation_app_tail. apply Permutation_app_comm.
Qed.

Record inv (cap : Z) (N : nat) s es : Prop := {
  i_cap : r_cap s = cap;
  i_len : length (r_thr s) = N;
  i_pos : 0 <= r_num s;
  i_seq : map fst (grants es) = zseq (length (grants es));
  i_min : Z.of_nat (length (grants es)) = Z.min (r_num s) cap;
  i_top : r_num s <= cap + Z.of_nat (overs (r_thr s));
  i_over : (1 <= overs (r_thr s))%nat -> cap <= r_num s;
  i_hold : forall i k d, nth_error (r_thr s) i = Some (Holding k d) -> In (k, d) (grants es);
  i_tab1 : forall k d, r_tab s k = Some d -> In (k, d) (grants es);
  i_tab2 : forall k d, In (k, d) (grants es) ->
           r_tab s k = Some d \/ exists i, nth_error (r_thr s) i = Some (Holding k d);
  i_full : refusals es <> [] -> cap <= r_num s;
  i_req : Permutation (requests es)
            (map snd (grants es) ++ refusals es ++ flat_map inprog (r_thr s)) }.

Lemma overs_repeat N : overs (repeat (@Idle D) N) = 0%nat.
Proof. unfold overs. induction N; simpl; auto. Qed.

Lemma inv_init cap N : 0 <= cap -> inv cap N (init cap N) [].
Proof.
  intros H. constructor; simpl; try rewrite repeat_length; try rewrite overs_repeat; try lia;
    try reflexivity; try easy.
  - intros i k d E. apply nth_error_In, repeat_spec in E. discriminate.
  - assert (E : flat_map inprog (repeat (@Idle D) N) = []) by (induction N; simpl; auto).
    rewrite E. constructor.
Qed.

Lemma app_nonempty {A} (a b : list A) : a ++ b <> [] -> a <> [] \/ b <> [].
Proof. destruct a; simpl; auto. left. discriminate. Qed.

Lemma grant_fun (g : list (Z * D)) k d d' :
  NoDup (map fst g) -> In (k, d) g -> In (k, d') g -> d = d'.
Proof.
  induction g as [|[a b] g IH]; simpl; [easy|].
  intros H. inversion H; subst. intros [E|E] [F|F].
  - congruence.
  - injection E as -> ->. exfalso. apply H2. apply (in_map fst) in F. exact F.
  - injection F as -> ->. exfalso. apply H2. apply (in_map fst) in E. exact E.
  - eauto.
Qed.

Lemma inv_step cap N s es i d s' e' :
  0 <= cap -> cap + Z.of_nat N < two32 -> inv cap N s es -> step i d s = (s', e') ->
  inv cap N s' (es ++ e').
Proof.
  intros Hc Hw I E. unfold step in E.
  destruct (nth_error (r_thr s) i) as [t|] eqn:T; cycle 1.
  { injection E as <- <-. rewrite app_nil_r. exact I. }
  pose proof (overs_le (r_thr s)) as OL. rewrite (i_len _ _ _ _ I) in OL.
  destruct t as [|d'|d'|k d'].
  - rewrite (i_cap _ _ _ _ I) in E.
    destruct (Z.geb_spec (r_num s) cap) as [G|G]; injection E as <- <-.
    + destruct I. constructor; auto; rewrite ?grants_app, ?requests_app, ?refusals_app; simpl;
        rewrite ?app_nil_r; auto.
      rewrite <- app_assoc. simpl.
      rewrite i_req0.
      rewrite <- !app_assoc. apply Permutation_app_head, Permutation_app_head. simpl.
      rewrite Permutation_app_comm. reflexivity.
    + pose proof (overs_upd i (Passed d) _ _ T) as OU. simpl in OU.
      pose proof (inprog_upd i (Passed d) _ _ T) as IU. simpl in IU.
      destruct I. constructor; auto; rewrite ?grants_app, ?requests_app, ?refusals_app; simpl;
        rewrite ?app_nil_r; auto; rewrite ?upd_length; auto.
      * lia.
      * intros. apply i_over0. lia.
      * intros j k d0 H. destruct (Nat.eq_dec i j) as [->|Nj].
        { rewrite (upd_same _ _ _ _ T) in H. discriminate. }
        rewrite upd_other in H by auto. eauto.
      * intros k d0 H. destruct (i_tab4 k d0 H) as [?|(j & Hj)]; auto.
        right. exists j. rewrite upd_other; auto. intros ->. congruence.
      * rewrite IU, i_req0.
        rewrite Permutation_app_comm. simpl.
        rewrite !app_assoc. apply Permutation_middle.
  - rewrite (i_cap _ _ _ _ I) in E.
    assert (Hn : 0 <= r_num s + 1 < two32).
    { destruct I. pose proof (overs_upd i (Overshoot d') _ _ T) as OU. simpl in OU.
      pose proof (overs_le (upd i (Overshoot d') (r_thr s))) as OL2.
      rewrite upd_length in OL2. lia. }
    rewrite Z.mod_small in E by exact Hn.
    destruct (Z.geb_spec (r_num s) cap) as [G|G]; injection E as <- <-.
    + pose proof (overs_upd i (Overshoot d') _ _ T) as OU. simpl in OU.
      pose proof (inprog_upd i (Overshoot d') _ _ T) as IU. simpl in IU.
      apply Permutation_cons_inv in IU.
      destruct I. rewrite app_nil_r.
      constructor; simpl; auto; rewrite ?upd_length; auto; try lia.
      * intros j k d0 H. destruct (Nat.eq_dec i j) as [->|Nj].
        { rewrite (upd_same _ _ _ _ T) in H. discriminate. }
        rewrite upd_other in H by auto. eauto.
      * intros k d0 H. destruct (i_tab4 k d0 H) as [?|(j & Hj)]; auto.
        right. exists j. rewrite upd_other; auto. intros ->. congruence.
      * rewrite IU. exact i_req0.
    + pose proof (overs_upd i (Holding (r_num s) d') _ _ T) as OU. simpl in OU.
      pose proof (inprog_upd i (Holding (r_num s) d') _ _ T) as IU. simpl in IU.
      destruct I.
      assert (LG : Z.of_nat (length (grants es)) = r_num s) by lia.
      constructor; simpl; auto; rewrite ?grants_app, ?requests_app, ?refusals_app; simpl;
        rewrite ?app_nil_r; auto; rewrite ?upd_length; auto; try lia.
      * rewrite app_length, Nat.add_1_r, zseq_S, map_app, i_seq0, LG. reflexivity.
      * rewrite app_length, Nat.add_1_r. lia.
      * intros j k d0 H. apply in_or_app. destruct (Nat.eq_dec i j) as [->|Nj].
        { rewrite (upd_same _ _ _ _ T) in H. injection H as <- <-. right. simpl. auto. }
        rewrite upd_other in H by auto. left. eauto.
      * intros k d0 H. apply in_or_app. left. eauto.
      * intros k d0 H. apply in_app_or in H. destruct H as [H|[H|[]]].
        { destruct (i_tab4 k d0 H) as [?|(j & Hj)]; auto.
          right. exists j. rewrite upd_other; auto. intros ->. congruence. }
        injection H as <- <-. right. exists i. eapply upd_same; eauto.
      * intros H. specialize (i_full0 H). lia.
      * rewrite i_req0, map_app. simpl.
        rewrite <- IU. rewrite <- !app_assoc. apply Permutation_app_head. simpl.
        symmetry. apply Permutation_middle.
  - pose proof (overs_in _ _ _ T) as O1. pose proof (i_over _ _ _ _ I O1) as G.
    rewrite (i_cap _ _ _ _ I) in E.
    rewrite Z.mod_small in E by lia. injection E as <- <-.
    pose proof (overs_upd i Idle _ _ T) as OU. simpl in OU.
    pose proof (inprog_upd i Idle _ _ T) as IU. simpl in IU.
    destruct I.
    constructor; simpl; auto; rewrite ?grants_app, ?requests_app, ?refusals_app; simpl;
        rewrite ?app_nil_r; auto; rewrite ?upd_length; auto; try lia.
    + intros j k d0 H. destruct (Nat.eq_dec i j) as [->|Nj].
      { rewrite (upd_same _ _ _ _ T) in H. discriminate. }
      rewrite upd_other in H by auto. eauto.
    + intros k d0 H. destruct (i_tab4 k d0 H) as [?|(j & Hj)]; auto.
      right. exists j. rewrite upd_other; auto. intros ->. congruence.
    + rewrite i_req0, <- IU. rewrite <- !app_assoc. reflexivity.
  - injection E as <- <-.
    pose proof (overs_upd i Idle _ _ T) as OU. simpl in OU.
    pose proof (inprog_upd i Idle _ _ T) as IU. simpl in IU.
    destruct I. pose proof (i_hold0 _ _ _ T) as HG.
    assert (ND : NoDup (map fst (grants es))) by (rewrite i_seq0; apply zseq_nodup).
    constructor; simpl; auto; rewrite ?grants_app, ?requests_app, ?refusals_app; simpl;
        rewrite ?app_nil_r; auto; rewrite ?upd_length; auto; try lia.
    + intros j k0 d0 H. destruct (Nat.eq_dec i j) as [->|Nj].
      { rewrite (upd_same _ _ _ _ T) in H. discriminate. }
      rewrite upd_other in H by auto. eauto.
    + intros k0 d0. destruct (Z.eqb_spec k0 k) as [->|Nk]; auto. intros [= <-]. exact HG.
    + intros k0 d0 H. destruct (Z.eqb_spec k0 k) as [->|Nk].
      { left. f_equal. eapply grant_fun; eauto. }
      destruct (i_tab4 k0 d0 H) as [?|(j & Hj)]; auto.
      right. exists j. rewrite upd_other; auto. intros ->. congruence.
    + rewrite i_req0, IU. reflexivity.
Qed.

Lemma inv_run cap N sched s es s' e' :
  0 <= cap -> cap + Z.of_nat N < two32 -> inv cap N s es -> run sched s = (s', e') ->
  inv cap N s' (es ++ e').
Proof.
  intros Hc Hw. revert s es e'. induction sched as [|[i d] sched IH]; simpl; intros s es e' I E.
  - injection E as <- <-. rewrite app_nil_r. exact I.
  - destruct (step i d s) as [s1 e1] eqn:E1. destruct (run sched s1) as [s2 e2] eqn:E2.
    injection E as <- <-. rewrite app_assoc. eapply IH; eauto. eapply inv_step; eauto.
Qed.

Lemma inv_reach cap N sched s es :
  0 <= cap -> cap + Z.of_nat N < two32 -> run sched (init cap N) = (s, es) -> inv cap N s es.
Proof. intros. change es with ([] ++ es). eapply inv_run; eauto. apply inv_init; auto. Qed.

Lemma slots cap N sched s es :
  0 <= cap -> cap + Z.of_nat N < two32 -> run sched (init cap N) = (s, es) ->
  map fst (grants es) = zseq (length (grants es))
  /\ Z.of_nat (length (grants es)) <= cap
  /\ (refusals es <> [] -> Z.of_nat (length (grants es)) = cap).
Proof.
  intros H1 H2 E. destruct (inv_reach _ _ _ _ _ H1 H2 E).
  split; [assumption|]. split; [lia|]. intros H. specialize (i_full0 H). lia.
Qed.

Lemma quiescent_overs l : Forall (fun t : pc D => t = Idle) l -> overs l = 0%nat /\ flat_map inprog l = [].
Proof.
  induction 1; [easy|]. subst. destruct IHForall as [A B]. unfold overs in *. simpl. auto.
Qed.

Lemma at_rest cap N sched s es :
  0 <= cap -> cap + Z.of_nat N < two32 -> run sched (init cap N) = (s, es) -> quiescent s ->
  r_num s = Z.min (Z.of_nat (length (requests es))) cap
  /\ Permutation (requests es) (map snd (grants es) ++ refusals es)
  /\ (forall k, r_tab s k = if (0 <=? k) && (k <? r_num s)
                            then nth_error (map snd (grants es)) (Z.to_nat k) else None).
Proof.
  intros H1 H2 E Q. destruct (inv_reach _ _ _ _ _ H1 H2 E).
  destruct (quiescent_overs _ Q) as [O P]. rewrite O in *. rewrite P, app_nil_r in i_req0.
  assert (LG : Z.of_nat (length (grants es)) = r_num s) by lia.
  split; [|split; [assumption|]].
  - apply Permutation_length in i_req0. rewrite app_length, map_length in i_req0.
    destruct (refusals es) as [|x l] eqn:R.
    + simpl in i_req0. lia.
    + assert (cap <= r_num s) by (apply i_full0; discriminate). simpl in i_req0. lia.
  - intros k. assert (ND : NoDup (map fst (grants es))) by (rewrite i_seq0; apply zseq_nodup).
    destruct (Z.leb_spec 0 k) as [K0|K0]; simpl; cycle 1.
    { destruct (r_tab s k) eqn:T; auto. apply i_tab3 in T. apply (in_map fst) in T. simpl in T.
      rewrite i_seq0, in_zseq in T. lia. }
    destruct (Z.ltb_spec k (r_num s)) as [K1|K1]; cycle 1.
    { destruct (r_tab s k) eqn:T; auto. apply i_tab3 in T. apply (in_map fst) in T. simpl in T.
      rewrite i_seq0, in_zseq in T. lia. }
    destruct (nth_error (grants es) (Z.to_nat k)) as [[k' d]|] eqn:G; cycle 1.
    { apply nth_error_None in G. lia. }
    rewrite (map_nth_error _ _ _ G). simpl.
    assert (k' = k).
    { pose proof (map_nth_error fst _ _ G) as F. rewrite i_seq0 in F. unfold zseq in F. simpl in F.
      rewrite (map_nth_error Z.of_nat (Z.to_nat k) (seq 0 (length (grants es))) (d := Z.to_nat k)) in F.
      - injection F. lia.
      - rewrite (nth_error_nth' _ 0%nat) by (rewrite seq_length; lia).
        rewrite seq_nth by lia. reflexivity. }
    subst k'. apply nth_error_In in G.
    destruct (i_tab4 _ _ G) as [T|(i & T)]; auto.
    exfalso. apply nth_error_In in T. unfold quiescent in Q. rewrite Forall_forall in Q.
    apply Q in T. discriminate.
Qed.

(** Every call ends after at most three steps of its own thread, whatever the others do. *)
Definition rank (t : pc D) : nat :=
  match t with Idle => 0 | Passed _ => 2 | _ => 1 end.

Lemma rank_le t : (rank t <= 2)%nat.
Proof. destruct t; simpl; auto. Qed.

Lemma step_own i d s t :
  nth_error (r_thr s) i = Some t -> t <> Idle ->
  exists t', nth_error (r_thr (fst (step i d s))) i = Some t' /\ (rank t' < rank t)%nat.
Proof.
  intros T Nt. unfold step. rewrite T. destruct t; try congruence.
  - destruct (_ >=? _); simpl; rewrite (upd_same _ _ _ _ T); eexists; split; eauto; simpl; lia.
  - simpl. rewrite (upd_same _ _ _ _ T); eexists; split; eauto; simpl; lia.
  - simpl. rewrite (upd_same _ _ _ _ T); eexists; split; eauto; simpl; lia.
Qed.

Lemma step_others i j d s : i <> j -> nth_error (r_thr (fst (step i d s))) j = nth_error (r_thr s) j.
Proof.
  intros H. unfold step. destruct (nth_error (r_thr s) i) as [[]|]; auto;
    repeat (destruct (_ >=? _)); simpl; auto using upd_other.
Qed.

Lemma call_ends i sched : forall s t,
  nth_error (r_thr s) i = Some t ->
  (rank t <= length (filter (fun x => Nat.eqb (fst x) i) sched))%nat ->
  exists pre suf, sched = pre ++ suf /\ nth_error (r_thr (fst (run pre s))) i = Some Idle.
Proof.
  induction sched as [|[j d] sched IH]; simpl; intros s t T H.
  - exists [], []. split; auto. simpl. destruct t; simpl in H; try lia. exact T.
  - destruct (rank t) eqn:R.
    { exists [], ((j, d) :: sched). split; auto. simpl. destruct t; simpl in R; try lia. exact T. }
    assert (X : exists t', nth_error (r_thr (fst (step j d s))) i = Some t'
             /\ (rank t' <= length (filter (fun x => Nat.eqb (fst x) i) sched))%nat).
    { destruct (Nat.eqb_spec j i) as [->|Nj].
      - destruct (step_own i d s t T) as (t' & T' & L); [intros ->; discriminate|].
        exists t'. split; auto. simpl in H. lia.
      - exists t. rewrite step_others by auto. split; auto. lia. }
    destruct X as (t' & T' & L). destruct (IH _ _ T' L) as (pre & suf & -> & F).
    exists ((j, d) :: pre), suf. split; auto. simpl.
    destruct (step j d s) as [s1 e1]. simpl in *. destruct (run pre s1). exact F.
Qed.

(** One thread alone: the n-th call gets slot [n mod 2^32]. *)
Definition solo (d : D) (n : nat) : list (nat * D) := concat (repeat [(0%nat, d); (0%nat, d); (0%nat, d)] n).

Lemma run_app a b s :
  run (a ++ b) s =
  let '(s1, e1) := run a s in let '(s2, e2) := run b s1 in (s2, e1 ++ e2).
Proof.
  revert s. induction a as [|[i d] a IH]; simpl; intros s.
  - destruct (run b s). reflexivity.
  - destruct (step i d s) as [s1 e1]. rewrite IH. destruct (run a s1) as [s2 e2].
    destruct (run b s2) as [s3 e3]. rewrite app_assoc. reflexivity.
Qed.

Lemma solo_run cap d n :
  two32 <= cap ->
  exists tab es, run (solo d n) (init cap 1) = (mkR cap (Z.of_nat n mod two32) tab [Idle], es)
  /\ map fst (grants es) = map (fun k => Z.of_nat k mod two32) (seq 0 n).
Proof.
  intros H. induction n.
  - exists (fun _ => None), []. split; reflexivity.
  - destruct IHn as (tab & es & E & G).
    assert (B : 0 <= Z.of_nat n mod two32 < two32) by (apply Z.mod_pos_bound; reflexivity).
    assert (Q : solo d (S n) = solo d n ++ [(0%nat, d); (0%nat, d); (0%nat, d)]).
    { unfold solo. rewrite <- (Nat.add_1_r n), repeat_app, concat_app. reflexivity. }
    rewrite Q, run_app, E. cbn [run step r_thr nth_error r_num r_cap].
    destruct (Z.geb_spec (Z.of_nat n mod two32) cap); [lia|].
    cbn [step upd r_thr nth_error r_num r_cap].
    destruct (Z.geb_spec (Z.of_nat n mod two32) cap); [lia|].
    cbn [step upd r_thr nth_error r_num r_cap r_tab app].
    rewrite Zplus_mod_idemp_l. replace (Z.of_nat n + 1) with (Z.of_nat (S n)) by lia.
    do 2 eexists. split; [reflexivity|].
    rewrite grants_app, map_app, G, seq_S, map_app. reflexivity.
Qed.

Lemma wrap_around (d : D) :
  exists cap N sched s es, run sched (init cap N) = (s, es) /\ ~ NoDup (map fst (@grants D es)).
Proof.
  assert (X : exists m, Z.of_nat m = two32).
  { exists (Z.to_nat two32). apply Z2Nat.id. discriminate. }
  destruct X as [m Hm].
  destruct (solo_run two32 d (S m)) as (tab & es & E & G); [lia|].
  exists two32, 1%nat, (solo d (S m)). eexists. exists es. split; [exact E|].
  rewrite G, seq_S, map_app, Nat.add_0_l. cbn [map]. rewrite Hm, Z.mod_same by discriminate.
  assert (Hpos : (0 < m)%nat).
  { destruct m; [discriminate Hm|apply Nat.lt_0_succ]. }
  clear E G Hm. intros ND. apply NoDup_remove_2 in ND. apply ND. rewrite app_nil_r.
  apply in_map_iff. exists 0%nat. split; [reflexivity|].
  apply in_seq. split; [apply Nat.le_refl|exact Hpos].
Qed.

End P.
