From Coq Require Import ZArith List Bool Lia ZifyBool Permutation QArith Sorted.
From Verif.Model Require Import Container.
From Verif.Spec Require Import Container.
Import ListNotations.
Local Open Scope Z_scope.

Lemma filter_all {A} (f : A -> bool) l : Forall (fun x => f x = true) l -> filter f l = l.
Proof. induction 1; cbn; [reflexivity|]. rewrite H. congruence. Qed.
Lemma filter_none {A} (f : A -> bool) l : Forall (fun x => f x = false) l -> filter f l = [].
Proof. induction 1; cbn; [reflexivity|]. now rewrite H. Qed.
Lemma filter_Forall {A} (f : A -> bool) l : Forall (fun x => f x = true) (filter f l).
Proof. apply Forall_forall. intros x Hx. apply filter_In in Hx. tauto. Qed.

Section Proofs.
Context {C G : Type} (blank_c : C).
Notation row := (row C G).
Notation parts := (@Model.Container.parts C G).
Implicit Types (r : row) (l : list row).

Lemma active_alive r : is_active r = true <-> alive r.
Proof. unfold is_active, alive. lia. Qed.
Lemma lost_dead r : is_lost r = true <-> dead r.
Proof. unfold is_lost, dead, LAST_INVALID. lia. Qed.
Lemma active_lost r : alive r -> is_lost r = false.
Proof. unfold is_lost, alive. lia. Qed.
Lemma dead_active r : dead r -> is_active r = false.
Proof. unfold is_active, dead. lia. Qed.
Lemma free_active r : free r -> is_active r = false.
Proof. unfold is_active, free. lia. Qed.
Lemma free_lost r : free r -> is_lost r = false.
Proof. unfold is_lost, free, LAST_INVALID. lia. Qed.
Lemma row_cases r : alive r \/ dead r \/ free r.
Proof. unfold alive, dead, free. lia. Qed.

(** ** Random states stay in place *)
Lemma with_rng_content (s : list row) : forall l, (length l <= length s)%nat ->
  map content (with_rng s l) = map content l.
Proof.
  induction s as [|x s IH]; intros [|y l] H; cbn in *; try reflexivity; [lia|].
  rewrite IH by lia. reflexivity.
Qed.
Lemma with_rng_rng (s : list row) : forall l, length l = length s ->
  map r_rng (with_rng s l) = map r_rng s.
Proof.
  induction s as [|x s IH]; intros [|y l] H; cbn in *; try reflexivity; [discriminate|].
  rewrite IH by lia. reflexivity.
Qed.
Lemma with_rng_length (s : list row) : forall l, (length l <= length s)%nat ->
  length (with_rng s l) = length l.
Proof.
  induction s as [|x s IH]; intros [|y l] H; cbn in *; try reflexivity; [lia|]. rewrite IH by lia. reflexivity.
Qed.

(** predicates that only depend on the content *)
Lemma content_state l l' : map content l = map content l' -> map r_state l = map r_state l'.
Proof.
  revert l'. induction l as [|x l IH]; intros [|y l'] H; cbn in *; try discriminate; [reflexivity|].
  injection H as H1 H2 H3 H4 H5. f_equal; auto.
Qed.
Lemma content_ids l l' : map content l = map content l' -> map r_id l = map r_id l'.
Proof.
  revert l'. induction l as [|x l IH]; intros [|y l'] H; cbn in *; try discriminate; [reflexivity|].
  injection H as H1 H2 H3 H4 H5. f_equal; auto.
Qed.
Lemma Forall_state (P : Z -> Prop) l l' : map r_state l = map r_state l' ->
  Forall (fun r => P (r_state r)) l' -> Forall (fun r => P (r_state r)) l.
Proof.
  intros H H'. assert (Forall P (map r_state l)).
  { rewrite H. apply (proj2 (Forall_map r_state P l')). exact H'. }
  exact (proj1 (Forall_map r_state P l) H0).
Qed.

Lemma split_content (l' : list row) : forall l a b : list row, map content l = map content (a ++ b) -> l = l' ->
  exists a' b', l = a' ++ b' /\ map content a' = map content a /\ map content b' = map content b.
Proof.
  intros l a b H _. exists (firstn (length a) l), (skipn (length a) l).
  rewrite map_app in H. assert (HL : length l = (length a + length b)%nat).
  { apply (f_equal (@length _)) in H. rewrite app_length, !map_length in H. exact H. }
  split; [symmetry; apply firstn_skipn|].
  rewrite <- firstn_map, <- skipn_map, H.
  rewrite firstn_app, skipn_app, map_length, Nat.sub_diag. cbn [firstn skipn].
  rewrite firstn_all2, skipn_all2 by (rewrite map_length; lia). rewrite app_nil_r. auto.
Qed.

Lemma filter_split_count l :
  (length (filter is_active l) + length (filter is_lost l) <= length l)%nat.
Proof.
  induction l as [|x l IH]; cbn; [lia|].
  destruct (row_cases x) as [H|[H|H]].
  - rewrite (active_lost _ H), (proj2 (active_alive x) H). cbn; lia.
  - rewrite (dead_active _ H), (proj2 (lost_dead x) H). cbn; lia.
  - rewrite (free_active _ H), (free_lost _ H). lia.
Qed.

Lemma regroup_content l :
  map content (regroup blank_c l)
  = map content (filter is_active l ++ filter is_lost l
      ++ map (blank blank_c) (skipn (length (filter is_active l ++ filter is_lost l)) l)).
Proof.
  unfold regroup. apply with_rng_content.
  pose proof (filter_split_count l).
  rewrite !app_length, map_length, skipn_length. lia.
Qed.
Lemma regroup_rng l : map r_rng (regroup blank_c l) = map r_rng l.
Proof.
  unfold regroup. apply with_rng_rng.
  pose proof (filter_split_count l).
  rewrite !app_length, map_length, skipn_length. lia.
Qed.
Lemma regroup_length l : length (regroup blank_c l) = length l.
Proof. pose proof (f_equal (@length _) (regroup_rng l)). now rewrite !map_length in H. Qed.

Lemma blank_free l : Forall free (map (blank blank_c) l).
Proof. apply Forall_map, Forall_forall. intros. unfold free, blank, LAST_INVALID. cbn. lia. Qed.

Lemma regroup_ok l : exists a d f, regroup blank_c l = a ++ d ++ f
  /\ map content a = map content (filter is_active l)
  /\ map content d = map content (filter is_lost l)
  /\ Forall free f.
Proof.
  destruct (split_content _ _ _ _ (regroup_content l) eq_refl) as (a & b & E & Ha & Hb).
  destruct (split_content _ _ _ _ Hb eq_refl) as (d & f & E' & Hd & Hf).
  exists a, d, f. rewrite E, E'. repeat split; auto.
  apply content_state in Hf. eapply (Forall_state (fun s => s <= -999999999)); [exact Hf|].
  apply blank_free.
Qed.

(** ** The test [needs_reorganization] *)
Lemma firstn_active l n :
  n = length (filter is_active l) -> forallb is_active (firstn n l) = true ->
  firstn n l = filter is_active l /\ filter is_active (skipn n l) = [].
Proof.
  intros Hn Hf.
  assert (E : filter is_active l = filter is_active (firstn n l) ++ filter is_active (skipn n l)).
  { rewrite <- filter_app, firstn_skipn. reflexivity. }
  rewrite (filter_all is_active (firstn n l)) in E.
  2:{ apply Forall_forall. intros x Hx. eapply forallb_forall in Hf; eauto. }
  assert (L : length (firstn n l) = n).
  { rewrite firstn_length. pose proof (filter_split_count l). lia. }
  pose proof (f_equal (@length _) E) as HL. rewrite app_length, L in HL.
  assert (filter is_active (skipn n l) = []).
  { destruct (filter is_active (skipn n l)); [reflexivity|cbn in HL; lia]. }
  rewrite H, app_nil_r in E. auto.
Qed.

Lemma needs_alive_first l :
  forallb is_active (firstn (length (filter is_active l)) l) = true <-> alive_first l.
Proof.
  split.
  - intros H. destruct (firstn_active l _ eq_refl H) as [E1 E2].
    exists (filter is_active l), (skipn (length (filter is_active l)) l).
    split; [rewrite <- E1 at 1; symmetry; apply firstn_skipn|]. split.
    + eapply Forall_impl; [|apply filter_Forall]. intros. now apply active_alive.
    + apply Forall_forall. intros x Hx Ha. apply active_alive in Ha.
      assert (In x []) by (rewrite <- E2; apply filter_In; auto). contradiction.
  - intros (a & b & -> & Ha & Hb).
    rewrite filter_app, (filter_all _ a), (filter_none _ b), app_nil_r.
    + rewrite firstn_app, Nat.sub_diag, firstn_all. cbn [firstn]. rewrite app_nil_r.
      apply forallb_forall. intros x Hx. apply active_alive. eapply Forall_forall in Ha; eauto.
    + eapply Forall_impl; [|exact Hb]. intros r H. unfold is_active, alive in *. lia.
    + eapply Forall_impl; [|exact Ha]. intros r H. now apply active_alive.
Qed.

Lemma grouped_alive_first l : grouped l -> alive_first l.
Proof.
  intros (a & d & f & -> & Ha & Hd & Hf). exists a, (d ++ f). split; [reflexivity|]. split; [exact Ha|].
  apply Forall_app. split; [eapply Forall_impl; [|exact Hd]|eapply Forall_impl; [|exact Hf]];
    unfold dead, free, alive; cbn; lia.
Qed.

Lemma grouped_compact l : grouped l <-> alive_first l /\ compact l.
Proof.
  split.
  - intros H. split; [now apply grouped_alive_first|].
    destruct H as (a & d & f & -> & Ha & Hd & Hf). exists (a ++ d), f.
    rewrite app_assoc. split; [reflexivity|]. split; [|exact Hf].
    apply Forall_app. split; [eapply Forall_impl; [|exact Ha]|eapply Forall_impl; [|exact Hd]];
      unfold dead, free, alive; cbn; lia.
  - intros [(a & b & Hl & Ha & Hb) (u & f & Hl' & Hu & Hf)].
    assert (E : exists d, u = a ++ d /\ b = d ++ f).
    { clear -Hl Hl' Ha Hf. subst l. revert u Hl'.
      induction Ha as [|x a Hx Ha IH]; intros u Hl'.
      - exists u. cbn in Hl'. auto.
      - destruct u as [|y u].
        + cbn in Hl'. rewrite <- Hl' in Hf. inversion Hf; subst. unfold alive, free in *. lia.
        + cbn in Hl'. injection Hl' as -> H. destruct (IH _ H) as (d & -> & ->). exists d. auto. }
    destruct E as (d & -> & ->). exists a, d, f. repeat split; auto.
    apply Forall_app in Hu as [_ Hu]. apply Forall_app in Hb as [Hb _].
    apply Forall_forall. intros x Hx. eapply Forall_forall in Hu; eauto. eapply Forall_forall in Hb; eauto.
    unfold dead, free, alive in *. cbn in *. lia.
Qed.

(** ** reorganize *)
Lemma reorganize_ok l : compact l \/ ~ alive_first l ->
  exists a d f,
    reorganize_rows blank_c l = (a ++ d ++ f, Z.of_nat (length a), Z.of_nat (length d))
    /\ map content a = map content (filter is_active l)
    /\ map content d = map content (filter is_lost l)
    /\ Forall free f
    /\ map r_rng (a ++ d ++ f) = map r_rng l.
Proof.
  intros H. unfold reorganize_rows.
  destruct (forallb is_active (firstn (length (filter is_active l)) l)) eqn:E; cbn [negb].
  - apply needs_alive_first in E.
    destruct H as [H|H]; [|contradiction].
    destruct (proj2 (grouped_compact l) (conj E H)) as (a & d & f & -> & Ha & Hd & Hf).
    assert (A : filter is_active (a ++ d ++ f) = a).
    { rewrite !filter_app, (filter_all _ a), (filter_none _ d), (filter_none _ f), !app_nil_r; [reflexivity|..].
      - eapply Forall_impl; [|exact Hf]. apply free_active.
      - eapply Forall_impl; [|exact Hd]. apply dead_active.
      - eapply Forall_impl; [|exact Ha]. intros r Hr. now apply active_alive. }
    assert (D : filter is_lost (a ++ d ++ f) = d).
    { rewrite !filter_app, (filter_none _ a), (filter_all _ d), (filter_none _ f), !app_nil_r; [reflexivity|..].
      - eapply Forall_impl; [|exact Hf]. apply free_lost.
      - eapply Forall_impl; [|exact Hd]. intros r Hr. now apply lost_dead.
      - eapply Forall_impl; [|exact Ha]. apply active_lost. }
    exists a, d, f. rewrite A, D. auto.
  - destruct (regroup_ok l) as (a & d & f & E' & Ha & Hd & Hf).
    exists a, d, f. rewrite E'.
    apply (f_equal (@length _)) in Ha as La. apply (f_equal (@length _)) in Hd as Ld.
    rewrite !map_length in La, Ld. rewrite <- La, <- Ld. repeat split; auto.
    rewrite <- E'. apply regroup_rng.
Qed.

Lemma contents_alive (a l : list row) : map content a = map content (filter is_active l) -> Forall alive a.
Proof.
  intros H. apply content_state in H. eapply (Forall_state (fun s => 0 < s)); [exact H|].
  eapply Forall_impl; [|apply filter_Forall]. intros r Hr. now apply active_alive.
Qed.
Lemma contents_dead (a l : list row) : map content a = map content (filter is_lost l) -> Forall dead a.
Proof.
  intros H. apply content_state in H. eapply (Forall_state (fun s => -999999999 < s <= 0)); [exact H|].
  eapply Forall_impl; [|apply filter_Forall]. intros r Hr. now apply lost_dead.
Qed.

Lemma reorganize_exact l :
  grouped (fst (fst (reorganize_rows blank_c l))) <-> (compact l \/ ~ alive_first l).
Proof.
  split.
  - unfold reorganize_rows.
    destruct (forallb is_active (firstn (length (filter is_active l)) l)) eqn:E; cbn [negb fst].
    + intros H. left. now apply grouped_compact.
    + intros _. right. intros H. apply needs_alive_first in H. congruence.
  - intros H. destruct (reorganize_ok l H) as (a & d & f & -> & Ha & Hd & Hf & _). cbn [fst].
    exists a, d, f. repeat split; auto; [eapply contents_alive|eapply contents_dead]; eauto.
Qed.

Lemma reorganize_length l : length (fst (fst (reorganize_rows blank_c l))) = length l.
Proof.
  unfold reorganize_rows. cbn [fst]. destruct (negb _); [apply regroup_length|reflexivity].
Qed.

(** ** add_particles *)
Lemma set_ids_content (l : list row) : forall id,
  map r_state (set_ids id l) = map r_state l
  /\ map r_c (set_ids id l) = map r_c l /\ map r_parent (set_ids id l) = map r_parent l
  /\ map r_id (set_ids id l) = map (fun k => id + Z.of_nat k) (seq 0 (length l)).
Proof.
  induction l as [|r l IH]; intros id; [repeat split; reflexivity|].
  destruct (IH (id + 1)) as (H1 & H2 & H3 & H4). cbn [set_ids map length seq].
  cbn [r_state r_c r_parent r_id]. rewrite H1, H2, H3, H4. repeat split; auto.
  f_equal; [lia|]. rewrite <- seq_shift, map_map. apply map_ext. intros; lia.
Qed.

Lemma set_ids_length (l : list row) : forall id, length (set_ids id l) = length l.
Proof. induction l; intros; cbn; auto. Qed.

Lemma np_max_ok (l : list Z) m : np_max l = Some m -> In m l /\ forall x, In x l -> x <= m.
Proof.
  destruct l as [|y l]; [discriminate|]. cbn [np_max]. intros [= <-].
  revert y. induction l as [|z l IH]; intros y; cbn [fold_left].
  - split; [now left|]. intros x [->|[]]. lia.
  - destruct (IH (Z.max y z)) as [H1 H2]. split.
    + destruct H1 as [H1|H1]; [|right; right; exact H1].
      destruct (Z.max_dec y z) as [E|E]; [left|right; left]; congruence.
    + intros x [->|[->|Hx]]; [| |apply H2; now right];
        (eapply Z.le_trans; [|apply H2; left; reflexivity]); lia.
Qed.
Lemma np_min_ok (l : list Z) m : np_min l = Some m -> In m l /\ forall x, In x l -> m <= x.
Proof.
  destruct l as [|y l]; [discriminate|]. cbn [np_min]. intros [= <-].
  revert y. induction l as [|z l IH]; intros y; cbn [fold_left].
  - split; [now left|]. intros x [->|[]]. lia.
  - destruct (IH (Z.min y z)) as [H1 H2]. split.
    + destruct H1 as [H1|H1]; [|right; right; exact H1].
      destruct (Z.min_dec y z) as [E|E]; [left|right; left]; congruence.
    + intros x [->|[->|Hx]]; [| |apply H2; now right];
        (eapply Z.le_trans; [apply H2; left; reflexivity|]); lia.
Qed.

Lemma states_filter (f : Z -> bool) (l l' : list row) :
  map content l = map content l' ->
  map content (filter (fun r => f (r_state r)) l) = map content (filter (fun r => f (r_state r)) l').
Proof.
  revert l'. induction l as [|x l IH]; intros [|y l'] H; cbn in *; try discriminate; [reflexivity|].
  injection H as H1 H2 H3 H4 H5. rewrite H3. destruct (f (r_state y)); cbn.
  - unfold content at 1 3. rewrite H1, H2, H3, H4. f_equal. auto.
  - auto.
Qed.
Lemma content_active (l l' : list row) : map content l = map content l' ->
  map content (filter is_active l) = map content (filter is_active l').
Proof. apply (states_filter (fun s => 0 <? s)). Qed.
Lemma content_lost (l l' : list row) : map content l = map content l' ->
  map content (filter is_lost l) = map content (filter is_lost l').
Proof. apply (states_filter (fun s => (s <? 1) && (LAST_INVALID <? s))). Qed.

Lemma add_ok (p other p' : parts) :
  compact (rows p) -> hidden p = false ->
  add_particles blank_c p other = Some p' ->
  exists a n d f,
    rows p' = a ++ n ++ d ++ f
    /\ map content a = map content (filter is_active (rows p))
    /\ map content d = map content (filter is_lost (rows p))
    /\ map r_c n = map r_c (filter is_active (visible other))
    /\ map r_state n = map r_state (filter is_active (visible other))
    /\ map r_parent n = map r_parent (filter is_active (visible other))
    /\ (forall i r, In i (map r_id n) -> In r (a ++ d) -> r_id r < i)
    /\ NoDup (map r_id n)
    /\ Forall free f /\ length (rows p') = length (rows p)
    /\ hidden p' = false
    /\ nact p' = Z.of_nat (length (a ++ n)) /\ nlost p' = Z.of_nat (length d).
Proof.
  intros Hc Hh. unfold add_particles.
  destruct (reorganize_ok (rows p) (or_introl Hc)) as (a & d & f & E & Ha & Hd & Hf & Hr).
  set (cp := filter is_active (visible other)).
  assert (Ep : reorganize blank_c p = mkParts (a ++ d ++ f) false (Z.of_nat (length a)) (Z.of_nat (length d))).
  { unfold reorganize. now rewrite E, Hh. }
  rewrite Ep.
  change (visible (mkParts (a ++ d ++ f) false (Z.of_nat (length a)) (Z.of_nat (length d)))) with (a ++ d ++ f).
  cbn [nact nlost rows hidden].
  replace (Z.to_nat (Z.of_nat (length a) + Z.of_nat (length d))) with (length a + length d)%nat by lia.
  assert (F1 : firstn (length a + length d) (a ++ d ++ f) = a ++ d).
  { rewrite app_assoc, firstn_app, <- app_length, Nat.sub_diag, firstn_all. cbn [firstn]. apply app_nil_r. }
  assert (F2 : skipn (length a + length d) (a ++ d ++ f) = f).
  { rewrite app_assoc, skipn_app, <- app_length, Nat.sub_diag, skipn_all. reflexivity. }
  rewrite F1. destruct (np_max (map r_id (a ++ d))) as [mx|] eqn:Em; [|discriminate].
  destruct (_ <? _) eqn:Efree; [discriminate|].
  unfold zlen in Efree. rewrite !app_length in Efree.
  assert (Hlen : (length cp <= length f)%nat) by lia. clear Efree.
  unfold slice_assign. cbn [rows]. rewrite set_ids_length, !app_length.
  replace (Nat.eqb _ (length cp)) with true by lia.
  rewrite F1, F2. replace (length a + length d + length cp)%nat with (length cp + (length a + length d))%nat by lia.
  assert (F3 : skipn (length cp + (length a + length d)) (a ++ d ++ f) = skipn (length cp) f).
  { rewrite Nat.add_comm. rewrite app_assoc, skipn_app, <- app_length.
    rewrite skipn_all2 by lia. cbn [app]. f_equal. lia. }
  rewrite F3. set (nw := with_rng f (set_ids (mx + 1) cp)).
  intros [= <-]. unfold reorganize. cbn [rows hidden].
  assert (Nw : map content nw = map content (set_ids (mx + 1) cp)).
  { apply with_rng_content. rewrite set_ids_length. exact Hlen. }
  assert (Nl : length nw = length cp).
  { unfold nw. rewrite with_rng_length; rewrite set_ids_length; lia. }
  destruct (set_ids_content cp (mx + 1)) as (S1 & S2 & S3 & S4).
  assert (Nalive : Forall alive nw).
  { apply (Forall_state (fun s => 0 < s)) with (l' := cp).
    - rewrite (content_state _ _ Nw). exact S1.
    - eapply Forall_impl; [|apply filter_Forall]. intros r H. now apply active_alive. }
  assert (Aalive : Forall alive a) by (eapply contents_alive; eauto).
  assert (Ddead : Forall dead d) by (eapply contents_dead; eauto).
  set (l1 := (a ++ d) ++ nw ++ skipn (length cp) f).
  assert (Hfree : Forall free (skipn (length cp) f)).
  { rewrite <- (firstn_skipn (length cp) f) in Hf. apply Forall_app in Hf. tauto. }
  assert (Hc1 : compact l1).
  { exists ((a ++ d) ++ nw), (skipn (length cp) f). unfold l1. rewrite !app_assoc. split; [reflexivity|].
    split; [|exact Hfree]. rewrite !Forall_app. repeat split;
    (eapply Forall_impl; [|eassumption]); unfold alive, dead, free; cbn; lia. }
  assert (A1 : filter is_active l1 = a ++ nw).
  { unfold l1. rewrite !filter_app, (filter_all _ a), (filter_none _ d), (filter_all _ nw), (filter_none _ (skipn _ f)),
      !app_nil_r; [reflexivity|..].
    - eapply Forall_impl; [|exact Hfree]. apply free_active.
    - eapply Forall_impl; [|exact Nalive]. intros r H. now apply active_alive.
    - eapply Forall_impl; [|exact Ddead]. apply dead_active.
    - eapply Forall_impl; [|exact Aalive]. intros r H. now apply active_alive. }
  assert (D1 : filter is_lost l1 = d).
  { unfold l1. rewrite !filter_app, (filter_none _ a), (filter_all _ d), (filter_none _ nw), (filter_none _ (skipn _ f)),
      !app_nil_r; [reflexivity|..].
    - eapply Forall_impl; [|exact Hfree]. apply free_lost.
    - eapply Forall_impl; [|exact Nalive]. apply active_lost.
    - eapply Forall_impl; [|exact Ddead]. intros r H. now apply lost_dead.
    - eapply Forall_impl; [|exact Aalive]. apply active_lost. }
  destruct (reorganize_ok l1 (or_introl Hc1)) as (a2 & d2 & f2 & E2 & Ha2 & Hd2 & Hf2 & Hr2).
  rewrite E2. cbn [rows hidden nact nlost]. rewrite A1 in Ha2. rewrite D1 in Hd2.
  destruct (split_content _ _ _ _ Ha2 eq_refl) as (a3 & n3 & -> & Ha3 & Hn3).
  exists a3, n3, d2, f2.
  assert (Ci : map r_id n3 = map (fun k => mx + 1 + Z.of_nat k) (seq 0 (length cp))).
  { rewrite (content_ids _ _ Hn3), (content_ids _ _ Nw). exact S4. }
  split; [now rewrite !app_assoc|]. split; [congruence|]. split; [congruence|].
  assert (Cn : map content n3 = map content (set_ids (mx + 1) cp)) by congruence.
  assert (Cc : map r_c n3 = map r_c (set_ids (mx + 1) cp)).
  { pose proof (f_equal (map (fun x : Z * Z * Z * C => snd x)) Cn) as H. rewrite !map_map in H. exact H. }
  assert (Cs : map r_state n3 = map r_state (set_ids (mx + 1) cp)) by now apply content_state.
  assert (Cp : map r_parent n3 = map r_parent (set_ids (mx + 1) cp)).
  { pose proof (f_equal (map (fun x : Z * Z * Z * C => snd (fst (fst x)))) Cn) as H. rewrite !map_map in H. exact H. }
  split; [congruence|]. split; [congruence|]. split; [congruence|].
  split.
  { intros i r Hi Hin. rewrite Ci in Hi. apply in_map_iff in Hi as (k & <- & _).
    apply np_max_ok in Em as [_ Em].
    assert (r_id r <= mx); [|lia]. apply Em. apply in_map with (f := r_id) in Hin.
    rewrite map_app in Hin |- *. rewrite (content_ids _ _ Ha3), (content_ids _ _ Hd2) in Hin. exact Hin. }
  split.
  { rewrite Ci. apply FinFun.Injective_map_NoDup; [|apply seq_NoDup]. intros x y H. lia. }
  split; [exact Hf2|]. split.
  { apply (f_equal (@length _)) in Hr2. rewrite !map_length in Hr2. rewrite Hr2.
    apply (f_equal (@length _)) in Hr. rewrite !map_length in Hr. rewrite <- Hr.
    unfold l1. rewrite !app_length, Nl, skipn_length. lia. }
  auto.
Qed.

(** ** merge *)
Lemma map_id_shift d l : map r_id (map (shift_ids d) l)
  = map (fun i => if 0 <=? i then i + d else i) (map r_id l).
Proof.
  rewrite !map_map. apply map_ext. intros r. unfold shift_ids. destruct (0 <=? r_id r); reflexivity.
Qed.

Lemma nodup_shift d (l : list Z) : 0 <= d -> NoDup (filter (fun i => 0 <=? i) l) ->
  NoDup (filter (fun i => 0 <=? i) (map (fun i => if 0 <=? i then i + d else i) l)).
Proof.
  intros Hd. induction l as [|x l IH]; cbn [map filter]; [auto|].
  destruct (0 <=? x) eqn:E.
  - replace (0 <=? x + d) with true by lia. intros H. inversion H; subst. constructor; [|auto].
    intros Hin. apply filter_In in Hin as [Hin Hp]. apply in_map_iff in Hin as (y & Ey & Hy).
    apply H2. apply filter_In. destruct (0 <=? y) eqn:Ey'.
    + assert (y = x) by lia. subst. auto.
    + lia.
  - rewrite E. auto.
Qed.

Lemma merge_rows_ok : forall (lst : list (list row)) mc l,
  -1 <= mc ->
  Forall (fun pp => NoDup (filter (fun i => 0 <=? i) (map r_id pp))) lst ->
  merge_rows mc lst = Some l ->
  NoDup (filter (fun i => 0 <=? i) (map r_id l))
  /\ (forall i, In i (map r_id l) -> 0 <= i -> mc < i)
  /\ map r_state l = map r_state (concat lst) /\ map r_c l = map r_c (concat lst)
  /\ map r_rng l = map r_rng (concat lst)
  /\ map (fun r => 0 <=? r_id r) l = map (fun r => 0 <=? r_id r) (concat lst).
Proof.
  induction lst as [|pp lst IH]; intros mc l Hmc Hnd H.
  - injection H as <-. cbn. repeat split; try constructor. contradiction.
  - cbn [merge_rows] in H. inversion Hnd; subst.
    destruct (np_min (filter (fun i => 0 <=? i) (map r_id pp))) as [m|] eqn:Em; [|discriminate].
    set (pp' := if m <=? mc then map (shift_ids (mc + 1)) pp else pp) in *.
    destruct (np_max (map r_id pp')) as [mx|] eqn:Ex; [|discriminate].
    destruct (merge_rows mx lst) as [l'|] eqn:El; [|discriminate]. injection H as <-.
    apply np_min_ok in Em as [Em1 Em2]. apply np_max_ok in Ex as [Ex1 Ex2].
    apply filter_In in Em1 as [Em1 Em0].
    assert (Hp : forall i, In i (map r_id pp') -> 0 <= i -> mc < i).
    { intros i Hi Hi0. unfold pp' in Hi. destruct (m <=? mc) eqn:E.
      - rewrite map_id_shift in Hi. apply in_map_iff in Hi as (j & <- & Hj).
        destruct (0 <=? j) eqn:Ej; lia.
      - assert (m <= i); [|lia]. apply Em2. apply filter_In. split; [exact Hi|lia]. }
    assert (Hmx : mc < mx /\ -1 <= mx).
    { assert (exists i, In i (map r_id pp') /\ 0 <= i) as (i & Hi & Hi0).
      { unfold pp'. destruct (m <=? mc) eqn:E.
        - exists (m + (mc + 1)). split; [|lia]. rewrite map_id_shift. apply in_map_iff.
          exists m. split; [|exact Em1]. destruct (0 <=? m) eqn:Q; [reflexivity|congruence].
        - exists m. split; [exact Em1|lia]. }
      specialize (Hp i Hi Hi0). specialize (Ex2 i Hi). lia. }
    assert (Hn' : NoDup (filter (fun i => 0 <=? i) (map r_id pp'))).
    { unfold pp'. destruct (m <=? mc); [|assumption]. rewrite map_id_shift. apply nodup_shift; [lia|assumption]. }
    assert (Hpp : map r_state pp' = map r_state pp /\ map r_c pp' = map r_c pp /\ map r_rng pp' = map r_rng pp
        /\ map (fun r => 0 <=? r_id r) pp' = map (fun r => 0 <=? r_id r) pp).
    { unfold pp'. destruct (m <=? mc); [|auto]. rewrite !map_map.
      repeat split; apply map_ext; intros r; unfold shift_ids; destruct (0 <=? r_id r) eqn:Er; cbn; try reflexivity.
      - lia.
      - exact Er. }
    destruct (IH mx l' ltac:(lia) ltac:(assumption) El) as (I1 & I2 & I3 & I4 & I5 & I6).
    destruct Hpp as (P1 & P2 & P3 & P4).
    cbn [concat]. rewrite !map_app, I3, I4, I5, I6, P1, P2, P3, P4. split.
    { rewrite filter_app. clear -Hn' I1 I2 Ex2.
      assert (D : forall i, In i (filter (fun i => 0 <=? i) (map r_id pp')) ->
        ~ In i (filter (fun i => 0 <=? i) (map r_id l'))).
      { intros i Hi Hi'. apply filter_In in Hi as [Hi _]. apply filter_In in Hi' as [Hi' H0].
        specialize (Ex2 i Hi). specialize (I2 i Hi'). lia. }
      clear I2 Ex2. revert Hn' I1 D. generalize (filter (fun i => 0 <=? i) (map r_id pp')) as x.
      generalize (filter (fun i => 0 <=? i) (map r_id l')) as y.
      intros y x Hx Hy D. induction Hx as [|z x Hz Hx IH]; [exact Hy|]. cbn. constructor.
      - rewrite in_app_iff. intros [H|H]; [auto|]. eapply D; [left; reflexivity|exact H].
      - apply IH. intros i Hi. apply D. now right. }
    split; [|auto].
    intros i Hi Hi0. apply in_app_iff in Hi as [Hi|Hi]; [auto|]. specialize (I2 i Hi Hi0). lia.
Qed.

Lemma np_max_some (l : list Z) m : In m l -> (forall x, In x l -> x <= m) -> np_max l = Some m.
Proof.
  intros H1 H2. destruct (np_max l) as [y|] eqn:E.
  - apply np_max_ok in E as [E1 E2]. f_equal. apply Z.le_antisymm; auto.
  - destruct l; [contradiction|discriminate].
Qed.

Lemma merge_rows_same : forall (lst : list (list row)) mc, increasing mc lst ->
  merge_rows mc lst = Some (concat lst).
Proof.
  induction lst as [|pp lst IH]; intros mc H; [reflexivity|].
  destruct H as (H1 & mx & Hm1 & Hm0 & Hm2 & H3). cbn [merge_rows concat].
  destruct (np_min (filter (fun i => 0 <=? i) (map r_id pp))) as [m|] eqn:Em.
  - apply np_min_ok in Em as [Em _]. apply filter_In in Em as [Em E0].
    assert (mc < m) by (apply H1; auto; lia).
    replace (m <=? mc) with false by lia. rewrite (np_max_some _ _ Hm1 Hm2), (IH _ H3). reflexivity.
  - exfalso. assert (In mx (filter (fun i => 0 <=? i) (map r_id pp))) by (apply filter_In; split; [auto|lia]).
    destruct (filter _ _); [contradiction|discriminate].
Qed.

(** ** filter *)
Lemma select_In {A} (m : list bool) : forall (l : list A) x, In x (select m l) -> In x l.
Proof.
  induction m as [|b m IH]; intros [|y l] x H; cbn in *; try contradiction.
  destruct b; [destruct H as [->|H]|]; auto.
Qed.
Lemma select_app {A} (m : list bool) : forall (l1 l2 : list A),
  select m (l1 ++ l2) = select (firstn (length l1) m) l1 ++ select (skipn (length l1) m) l2.
Proof.
  induction m as [|b m IH]; intros [|y l1] l2; cbn; try reflexivity.
  rewrite IH. destruct b; reflexivity.
Qed.
Lemma select_Forall {A} (P : A -> Prop) m (l : list A) : Forall P l -> Forall P (select m l).
Proof. rewrite !Forall_forall. intros H x Hx. apply H. eapply select_In; eauto. Qed.

Lemma select_compact m l : compact l -> compact (select m l).
Proof.
  intros (u & f & -> & Hu & Hf). rewrite select_app. do 2 eexists. split; [reflexivity|].
  split; now apply select_Forall.
Qed.

Lemma firstn_compact n l : compact l -> compact (firstn n l).
Proof.
  intros (u & f & -> & Hu & Hf). rewrite firstn_app. do 2 eexists. split; [reflexivity|].
  split; [rewrite <- (firstn_skipn n u) in Hu; apply Forall_app in Hu; tauto|].
  rewrite <- (firstn_skipn (n - length u) f) in Hf; apply Forall_app in Hf; tauto.
Qed.

Lemma filter_ok mask (p p' : parts) : compact (rows p) -> pfilter blank_c mask p = Some p' ->
  exists a d f, rows p' = a ++ d ++ f
  /\ map content a = map content (filter is_active (select mask (visible p)))
  /\ map content d = map content (filter is_lost (select mask (visible p)))
  /\ Forall free f
  /\ hidden p' = false /\ nact p' = Z.of_nat (length a) /\ nlost p' = Z.of_nat (length d)
  /\ length (rows p') = length (select mask (visible p)).
Proof.
  intros Hc. unfold pfilter. destruct (negb _); [discriminate|].
  assert (Hv : compact (visible p)).
  { unfold visible. destruct (hidden p); [now apply firstn_compact|exact Hc]. }
  assert (forall l, compact l -> Some (reorganize blank_c (mkParts l false 0 0)) = Some p' ->
    exists a d f, rows p' = a ++ d ++ f
  /\ map content a = map content (filter is_active l)
  /\ map content d = map content (filter is_lost l)
  /\ Forall free f
  /\ hidden p' = false /\ nact p' = Z.of_nat (length a) /\ nlost p' = Z.of_nat (length d)
  /\ length (rows p') = length l).
  { intros l Hl [= <-]. unfold reorganize. cbn [rows hidden].
    pose proof (reorganize_length l) as HL.
    destruct (reorganize_ok l (or_introl Hl)) as (a & d & f & E & Ha & Hd & Hf & _).
    rewrite E in HL |- *. cbn [rows hidden nact nlost fst] in *. exists a, d, f. repeat split; auto. }
  destruct (select mask (visible p)) eqn:E; [discriminate|].
  rewrite <- E. apply H. now apply select_compact.
Qed.

(** ** sort *)
Variable argsort : list Q -> list nat.
Hypothesis argsort_perm : forall k, Permutation (argsort k) (seq 0 (length k)).
Hypothesis argsort_sorted : forall k, Sorted Qle (map (fun i => nth i k 0%Q) (argsort k)).

Lemma permute_perm idx l : Permutation idx (seq 0 (length l)) -> Permutation (permute idx l) l.
Proof.
  intros H. unfold permute. rewrite (Permutation_flat_map _ H). clear.
  assert (E : flat_map (fun i => match nth_error l i with Some r => [r] | None => [] end) (seq 0 (length l)) = l); [|now rewrite E].
  induction l as [|x l IH]; [reflexivity|]. cbn [length seq flat_map nth_error app]. f_equal.
  rewrite <- seq_shift. rewrite flat_map_concat_map, map_map, <- flat_map_concat_map. exact IH.
Qed.

Lemma permute_map idx l : Permutation idx (seq 0 (length l)) ->
  forall (f : row -> Q), map f (permute idx l) = map (fun i => nth i (map f l) 0%Q) idx.
Proof.
  intros H f. assert (Hb : Forall (fun i => (i < length l)%nat) idx).
  { apply Forall_forall. intros i Hi. eapply Permutation_in in Hi; [|exact H]. apply in_seq in Hi. lia. }
  clear H. induction Hb as [|i idx Hi Hb IH]; [reflexivity|].
  unfold permute in *. cbn [flat_map map].
  destruct (nth_error l i) as [r|] eqn:E; [|apply nth_error_None in E; lia].
  cbn [app map]. f_equal; [|exact IH].
  rewrite (nth_indep _ 0%Q (f r)) by (rewrite map_length; exact Hi).
  rewrite map_nth. f_equal. symmetry. now apply nth_error_nth.
Qed.

Lemma sorted_map_split {A} (key : A -> Q) (P : A -> Prop) (Pd : forall x, {P x} + {~ P x}) :
  forall l : list A, Sorted Qle (map key l) ->
  (forall x y, In x l -> In y l -> P x -> ~ P y -> (key x < key y)%Q) ->
  exists a b, l = a ++ b /\ Forall P a /\ Forall (fun x => ~ P x) b.
Proof.
  intros l Hs Hk. apply Sorted_StronglySorted in Hs; [|intros x y z; apply Qle_trans].
  induction l as [|x l IH]; [exists [], []; auto|].
  cbn in Hs. inversion Hs; subst. destruct IH as (a & b & -> & Ha & Hb); auto.
  { intros. apply Hk; auto; now right. }
  destruct (Pd x) as [Hx|Hx].
  - exists (x :: a), b. auto.
  - destruct a as [|y a].
    + exists [], (x :: b). auto.
    + exfalso. inversion Ha; subst. assert (K : (key y < key x)%Q) by (apply Hk; auto; cbn; auto).
      apply Forall_inv in H2. now apply (Qlt_not_le _ _ K).
Qed.

Lemma perm_split {A} (P : A -> Prop) (a b a' b' : list A) :
  Permutation (a ++ b) (a' ++ b') ->
  Forall P a -> Forall (fun x => ~ P x) b -> Forall P a' -> Forall (fun x => ~ P x) b' ->
  (forall x, {P x} + {~ P x}) ->
  Permutation a a' /\ Permutation b b'.
Proof.
  intros H Ha Hb Ha' Hb' Pd.
  set (g := fun x => if Pd x then true else false).
  assert (G1 : forall x, P x -> g x = true) by (intros x Hx; unfold g; destruct (Pd x); tauto).
  assert (G2 : forall x, ~ P x -> g x = false) by (intros x Hx; unfold g; destruct (Pd x); tauto).
  assert (Fp : forall h (l l' : list A), Permutation l l' -> Permutation (filter h l) (filter h l')).
  { intros h l l' Hp. induction Hp; cbn; [constructor|destruct (h x); auto|destruct (h x), (h y); auto; constructor|].
    eapply Permutation_trans; eauto. }
  split.
  - apply (Fp g) in H. rewrite !filter_app in H.
    rewrite (filter_all g a), (filter_none g b), (filter_all g a'), (filter_none g b'), !app_nil_r in H; auto;
      (eapply Forall_impl; [|eassumption]); auto.
  - apply (Fp (fun x => negb (g x))) in H. rewrite !filter_app in H.
    rewrite (filter_none _ a), (filter_all _ b), (filter_none _ a'), (filter_all _ b') in H; auto;
      (eapply Forall_impl; [|eassumption]); cbn; intros x Hx; [rewrite G2|rewrite G1|rewrite G2|rewrite G1]; auto.
Qed.

Lemma sorted_app_l {A} (R : A -> A -> Prop) a b : Sorted R (a ++ b) -> Sorted R a.
Proof.
  induction a as [|x a IH]; cbn; intros H; [constructor|]. inversion H; subst. constructor; [auto|].
  destruct a; constructor. cbn in H3. now inversion H3.
Qed.
Lemma sorted_app_r {A} (R : A -> A -> Prop) a b : Sorted R (a ++ b) -> Sorted R b.
Proof. induction a as [|x a IH]; cbn; intros H; [exact H|]. inversion H; subst. auto. Qed.

Definition id_key (r : row) : Q := inject_Z (r_id r).

Lemma sorted_inject (l : list row) (d : Q) :
  Sorted Qle (map (fun r => (d + id_key r)%Q) l) -> Sorted Z.le (map r_id l).
Proof.
  induction l as [|x l IH]; cbn; intros H; [constructor|]. inversion H; subst. constructor; [auto|].
  destruct l; constructor. cbn in H3. inversion H3; subst. unfold id_key in H1.
  apply Qplus_le_r in H1. now rewrite Zle_Qle.
Qed.

(** By particle_id, without interleaving: alive particles by increasing identifier, then the
    lost ones by increasing identifier. *)
Lemma sort_ok (p p' : parts) :
  compact (rows p) ->
  (forall r, In r (rows p) -> dead r -> -10 < r_id r) ->
  sort blank_c argsort id_key false p = Some p' ->
  exists a d f, rows p' = a ++ d ++ f
  /\ Permutation (map content a) (map content (filter is_active (rows p)))
  /\ Permutation (map content d) (map content (filter is_lost (rows p)))
  /\ Sorted Z.le (map r_id a) /\ Sorted Z.le (map r_id d)
  /\ Forall free f /\ hidden p' = hidden p
  /\ nact p' = Z.of_nat (length a) /\ nlost p' = Z.of_nat (length d).
Proof.
  intros Hc Hid. unfold sort, unhide, reorganize. cbn [rows hidden].
  destruct (reorganize_ok (rows p) (or_introl Hc)) as (a & d & f & E & Ha & Hd & Hf & Hr).
  rewrite E. cbn [rows nact nlost hidden].
  replace (Z.to_nat (Z.of_nat (length a) + Z.of_nat (length d))) with (length a + length d)%nat by lia.
  rewrite Nat2Z.id.
  assert (F1 : firstn (length a + length d) (a ++ d ++ f) = a ++ d).
  { rewrite app_assoc, firstn_app, <- app_length, Nat.sub_diag, firstn_all. cbn [firstn]. apply app_nil_r. }
  assert (F2 : skipn (length a + length d) (a ++ d ++ f) = f).
  { rewrite app_assoc, skipn_app, <- app_length, Nat.sub_diag, skipn_all. reflexivity. }
  assert (F0 : firstn (length a) (a ++ d ++ f) = a).
  { rewrite firstn_app, Nat.sub_diag, firstn_all. cbn [firstn]. apply app_nil_r. }
  rewrite F1, F2, F0.
  destruct (np_max (map r_id a)) as [mx|] eqn:Em; [|discriminate].
  apply np_max_ok in Em as [Em1 Em2].
  rewrite map_app, firstn_app, skipn_app, map_length, Nat.sub_diag. cbn [firstn skipn].
  rewrite app_nil_r, firstn_all2, skipn_all2 by (rewrite map_length; lia). cbn [app].
  assert (Aal : Forall alive a) by (eapply contents_alive; eauto).
  assert (Dde : Forall dead d) by (eapply contents_dead; eauto).
  set (key := fun r => if is_active r then (0 + id_key r)%Q else (inject_Z (10 + mx) + id_key r)%Q).
  assert (K : map id_key a ++ map (fun k => (inject_Z (10 + mx) + k)%Q) (map id_key d)
      = map (fun r => if is_active r then id_key r else (inject_Z (10 + mx) + id_key r)%Q) (a ++ d)).
  { rewrite map_app, map_map. f_equal; apply map_ext_in; intros r Hr'.
    - rewrite (proj2 (active_alive r)); [reflexivity|]. eapply Forall_forall in Aal; eauto.
    - rewrite dead_active; [reflexivity|]. eapply Forall_forall in Dde; eauto. }
  rewrite K.
  intros Hs. injection Hs as <-. cbn [rows hidden nact nlost].
  set (key' := fun r => if is_active r then id_key r else (inject_Z (10 + mx) + id_key r)%Q) in *.
  set (idx := argsort (map key' (a ++ d))).
  assert (Pi : Permutation idx (seq 0 (length (a ++ d)))).
  { unfold idx. eapply Permutation_trans; [apply argsort_perm|]. now rewrite map_length. }
  assert (Pr : Permutation (permute idx (a ++ d)) (a ++ d)) by now apply permute_perm.
  assert (So : Sorted Qle (map key' (permute idx (a ++ d)))).
  { rewrite permute_map by exact Pi. apply argsort_sorted. }
  set (srt := permute idx (a ++ d)) in *.
  assert (Hida : forall r, In r a -> r_id r <= mx) by (intros; apply Em2, in_map; assumption).
  assert (Hidd : forall r, In r d -> -10 < r_id r).
  { intros r Hr'. assert (Hx : In (content r) (map content (filter is_lost (rows p)))).
    { rewrite <- Hd. now apply in_map. }
    apply in_map_iff in Hx as (r0 & E0 & H0). apply filter_In in H0 as [H0 H1].
    apply lost_dead in H1. specialize (Hid r0 H0 H1). unfold content in E0. injection E0 as E0 _ _ _. lia. }
  assert (Pd : forall x : row, {alive x} + {~ alive x}).
  { intros x. unfold alive. destruct (Z_lt_dec 0 (r_state x)); auto. }
  destruct (sorted_map_split key' alive Pd srt So) as (a' & d' & Es & Ha' & Hd').
  { intros x y Hx Hy Px Py. eapply Permutation_in in Hx; [|exact Pr]. eapply Permutation_in in Hy; [|exact Pr].
    assert (In x a).
    { apply in_app_iff in Hx as [Hx|Hx]; [exact Hx|]. eapply Forall_forall in Dde; eauto. unfold dead, alive in *. lia. }
    assert (In y d).
    { apply in_app_iff in Hy as [Hy|Hy]; [|exact Hy]. exfalso. apply Py. eapply Forall_forall in Aal; eauto. }
    unfold key'. rewrite (proj2 (active_alive x) Px). rewrite (dead_active y) by (eapply Forall_forall in Dde; eauto).
    unfold id_key. rewrite <- inject_Z_plus. rewrite <- Zlt_Qlt.
    specialize (Hida x H). specialize (Hidd y H0). lia. }
  assert (Dn : Forall (fun x => ~ alive x) d).
  { eapply Forall_impl; [|exact Dde]. unfold dead, alive. cbn. lia. }
  rewrite Es in Pr, So. destruct (perm_split alive a' d' a d Pr Ha' Hd' Aal Dn Pd) as [Pa Pdd].
  exists a', d', f. split; [change (srt ++ f = a' ++ d' ++ f); now rewrite Es, <- app_assoc|].
  rewrite <- Ha, <- Hd.
  split; [now apply Permutation_map|]. split; [now apply Permutation_map|].
  rewrite map_app in So.
  split.
  { apply sorted_app_l in So. apply (sorted_inject a' 0).
    assert (forall l, Forall alive l -> map key' l = map id_key l).
    { intros l Hl. apply map_ext_in. intros r Hr'. unfold key'. rewrite (proj2 (active_alive r)); [reflexivity|].
      eapply Forall_forall in Hl; eauto. }
    rewrite H in So by exact Ha'. clear -So.
    induction a' as [|x l IH]; cbn in *; [constructor|]. inversion So; subst. constructor; [auto|].
    destruct l; constructor. cbn in H2. inversion H2; subst. now rewrite !Qplus_0_l. }
  split.
  { apply sorted_app_r in So. apply (sorted_inject d' (inject_Z (10 + mx))).
    assert (forall l, Forall (fun x => ~ alive x) l -> map key' l = map (fun r => (inject_Z (10 + mx) + id_key r)%Q) l).
    { intros l Hl. apply map_ext_in. intros r Hr'. unfold key'.
      replace (is_active r) with false; [reflexivity|].
      eapply Forall_forall in Hl; eauto. unfold is_active, alive in *. cbn in Hl. lia. }
    now rewrite <- H. }
  split; [exact Hf|]. split; [reflexivity|].
  apply Permutation_length in Pa, Pdd. rewrite Pa, Pdd. auto.
Qed.
End Proofs.
