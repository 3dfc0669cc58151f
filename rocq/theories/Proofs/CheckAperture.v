From Coq Require Import ZArith QArith Qabs Lqa List Bool Arith Lia.
From Verif.Model Require Import CheckAperture.
From Verif.Spec Require Import CheckAperture.
Import ListNotations.

Lemma positions_nth rows : forall s k, (k <= length rows)%nat -> nth k (positions s rows) 0 == s + s_entry rows k.
Proof.
  induction rows as [|r rows IH]; intros s [|k] H; cbn [positions nth length] in *; unfold s_entry; cbn [firstn map fold_right]; try ring; try lia.
  rewrite IH by lia. unfold s_entry, advances. destruct (r_thick r); ring.
Qed.
Lemma s_entry_S rows k r : nth_error rows k = Some r ->
  s_entry rows (S k) == s_entry rows k + (if r_thick r then r_len r else 0).
Proof.
  revert k. induction rows as [|a rows IH]; intros [|k] H; cbn in H; try discriminate.
  - injection H as ->. unfold s_entry. cbn. ring.
  - specialize (IH k H). unfold s_entry in *. cbn [firstn map fold_right] in *. rewrite IH. ring.
Qed.
Lemma s_entry_mono rows : no_negative rows -> forall k l, (k <= l)%nat -> s_entry rows k <= s_entry rows l.
Proof.
  unfold no_negative, s_entry. induction rows as [|r rows IH]; intros H k l L.
  - rewrite !firstn_nil. apply Qle_refl.
  - inversion H as [|? ? Hr Hrows]; subst. destruct k, l; try lia; cbn [firstn map fold_right].
    + apply Qle_refl.
    + specialize (IH Hrows 0%nat l ltac:(lia)). cbn [firstn map fold_right] in IH. destruct (r_thick r); lra.
    + specialize (IH Hrows k l ltac:(lia)). destruct (r_thick r); lra.
Qed.

Lemma first_spec rows : forall i,
  match first_aperture i rows with
  | Some j => (i <= j)%nat /\ aperture_at rows (j - i) /\ forall k, (k < j - i)%nat -> ~ aperture_at rows k
  | None => forall k, ~ aperture_at rows k
  end.
Proof.
  induction rows as [|r rows IH]; intros i; cbn [first_aperture].
  - intros k (a & H & _). destruct k; discriminate.
  - destruct (r_aper r) eqn:E.
    + rewrite Nat.sub_diag. split; [lia|]. split; [exists r; auto|]. intros k Hk. lia.
    + specialize (IH (S i)). destruct (first_aperture (S i) rows) as [j|].
      * destruct IH as (L & A & N). replace (j - i)%nat with (S (j - S i)) by lia.
        split; [lia|]. split; [exact A|]. intros [|k] Hk (a & Ha & Hb).
        { cbn in Ha. congruence. }
        apply (N k); [lia|]. now exists a.
      * intros [|k] (a & Ha & Hb); cbn in Ha; [congruence|]. apply (IH k). now exists a.
Qed.

(** The last aperture before element [i]. *)
Definition last_before (rows : list row) (i u : nat) : Prop :=
  (u < i)%nat /\ aperture_at rows u /\ forall k, (u < k < i)%nat -> ~ aperture_at rows k.
(** The first after it; when there is none, some earlier element. *)
Definition next_of (rows : list row) (i d : nat) : Prop :=
  ((i < d)%nat /\ aperture_at rows d /\ forall k, (i < k < d)%nat -> ~ aperture_at rows k)
  \/ ((d < i)%nat /\ forall k, (i < k)%nat -> ~ aperture_at rows k).

Definition ap_ok (rows : list row) (i : nat) (r : row) (ap : option (nat * nat)) : Prop :=
  match ap with
  | None => r_aper r = true \/ dont_need r = true
  | Some (u, d) => r_aper r = false /\ dont_need r = false /\ last_before rows i u /\ next_of rows i d
  end.

Lemma skip_at rows i k : aperture_at (skipn i rows) k <-> aperture_at rows (i + k).
Proof.
  unfold aperture_at. split; intros (a & H & Ha); exists a; split; auto.
  - revert i H. induction rows as [|r rows IH]; intros [|i] H; cbn in *; auto. destruct k; discriminate.
  - revert i H. induction rows as [|r rows IH]; intros [|i] H; cbn in *; auto. discriminate.
Qed.
Lemma skip_cons {A} (l : list A) : forall i r rest, skipn i l = r :: rest ->
  nth_error l i = Some r /\ skipn (S i) l = rest.
Proof.
  induction l as [|a l IH]; intros [|i] r rest H; cbn in H; try discriminate.
  - now injection H as -> ->.
  - destruct (IH _ _ _ H) as [A1 A2]. split; [exact A1|]. cbn. exact A2.
Qed.

Lemma scan_ok rows : forall tail i u d,
  skipn i rows = tail ->
  (last_before rows i u \/ exists r t, tail = r :: t /\ r_aper r = true) ->
  ((i <= d)%nat -> (0 < d)%nat -> aperture_at rows d /\ forall k, (i <= k < d)%nat -> ~ aperture_at rows k) ->
  length (scan i u d tail) = length tail
  /\ forall k r, nth_error tail k = Some r -> exists ap,
       nth_error (scan i u d tail) k = Some ap /\ ap_ok rows (i + k) r ap.
Proof.
  induction tail as [|r tail IH]; intros i u d Hs Hu Hd.
  - split; [reflexivity|]. intros [|k] ? H; discriminate.
  - destruct (skip_cons _ _ _ _ Hs) as [Hi Ht]. cbn [scan]. destruct (r_aper r) eqn:Ea.
    + destruct (IH (S i) i d Ht) as [L K].
      { left. split; [lia|]. split; [exists r; auto|]. intros k Hk. lia. }
      { intros H1 H2. destruct (Hd ltac:(lia) H2) as [A N]. split; [exact A|]. intros k Hk. apply N. lia. }
      split; [cbn; now rewrite L|].
      intros [|k] q Hq; cbn [nth_error] in *.
      * injection Hq as <-. exists None. split; [reflexivity|]. now left.
      * replace (i + S k)%nat with (S i + k)%nat by lia. apply K, Hq.
    + destruct Hu as [Hu|(q & t & E & Hq)]; [|injection E as <- <-; congruence].
      assert (Nu : forall u', last_before rows i u' -> last_before rows (S i) u').
      { intros u' (A & B & C). split; [lia|]. split; [exact B|]. intros k Hk (a & Ha & Hb).
        destruct (Nat.eq_dec k i) as [->|]; [congruence|]. apply (C k); [lia|]. now exists a. }
      destruct (dont_need r) eqn:En.
      * destruct (IH (S i) u d Ht) as [L K]; [left; auto| |].
        { intros H1 H2. destruct (Hd ltac:(lia)) as [A N]; [destruct Hu; lia|]. split; [exact A|].
          intros k Hk. apply N. lia. }
        split; [cbn; now rewrite L|]. intros [|k] q Hq; cbn [nth_error] in *.
        { injection Hq as <-. exists None. split; [reflexivity|]. now right. }
        replace (i + S k)%nat with (S i + k)%nat by lia. apply K, Hq.
      * assert (ND : ~ aperture_at rows i). { intros (a & Ha & Hb). congruence. }
        set (d' := if (d <? i)%nat then match first_aperture i (r :: tail) with Some ii => ii | None => d end else d).
        assert (Dn : next_of rows i d').
        { subst d'. destruct (d <? i)%nat eqn:Lt.
          - apply Nat.ltb_lt in Lt. pose proof (first_spec (r :: tail) i) as F.
            destruct (first_aperture i (r :: tail)) as [j|].
            + destruct F as (F1 & F2 & F3). rewrite <- Hs, skip_at in F2.
              replace (i + (j - i))%nat with j in F2 by lia. left.
              assert (i <> j) by (intros ->; auto). split; [lia|]. split; [exact F2|].
              intros k Hk Hc. apply (F3 (k - i)%nat); [lia|]. rewrite <- Hs, skip_at.
              now replace (i + (k - i))%nat with k by lia.
            + right. split; [exact Lt|]. intros k Hk Hc. apply (F (k - i)%nat). rewrite <- Hs, skip_at.
              now replace (i + (k - i))%nat with k by lia.
          - apply Nat.ltb_ge in Lt. destruct (Hd Lt) as [A N]; [destruct Hu; lia|]. left.
            assert (i <> d) by (intros ->; auto). split; [lia|]. split; [exact A|]. intros k Hk. apply N. lia. }
        destruct (IH (S i) u d' Ht) as [L K]; [left; auto| |].
        { intros H1 H2. destruct Dn as [(A & B & C)|(A & B)]; [|lia]. split; [exact B|].
          intros k Hk. apply C. lia. }
        split; [cbn; now rewrite L|]. intros [|k] q Hq; cbn [nth_error] in *.
        { injection Hq as <-. exists (Some (u, d')). split; [reflexivity|]. rewrite Nat.add_0_r.
          cbn [ap_ok]. auto. }
        replace (i + S k)%nat with (S i + k)%nat by lia. apply K, Hq.
Qed.

Lemma repeat_nth {A} (x : A) n k : (k < n)%nat -> nth_error (repeat x n) k = Some x.
Proof. revert k. induction n; intros [|k] H; cbn; try lia; auto. apply IHn. lia. Qed.

Lemma apertures_length rows : length (apertures_of rows) = length rows.
Proof.
  unfold apertures_of. pose proof (first_spec rows 0) as F. destruct (first_aperture 0 rows) as [j|] eqn:E.
  - destruct F as (_ & (a & Ha & Hb) & _). rewrite Nat.sub_0_r in Ha.
    assert (j < length rows)%nat by (apply nth_error_Some; congruence).
    destruct (scan_ok rows (skipn j rows) j j 0 eq_refl) as [L _].
    + right. destruct (skipn j rows) as [|r t] eqn:S.
      { apply (f_equal (@length row)) in S. rewrite skipn_length in S. cbn in S. lia. }
      destruct (skip_cons _ _ _ _ S) as [S1 _]. exists r, t. split; [reflexivity|]. congruence.
    + intros; lia.
    + rewrite app_length, repeat_length, L, skipn_length. lia.
  - rewrite skipn_all. cbn. now rewrite app_length, repeat_length, Nat.add_0_r.
Qed.
(** elements before the first aperture are skipped *)
Lemma apertures_before rows i : (i < length rows)%nat -> (forall j, (j <= i)%nat -> ~ aperture_at rows j) ->
  nth_error (apertures_of rows) i = Some None.
Proof.
  intros Hi Hn. unfold apertures_of. pose proof (first_spec rows 0) as F.
  destruct (first_aperture 0 rows) as [j|].
  - destruct F as (_ & A & _). rewrite Nat.sub_0_r in A.
    assert (i < j)%nat. { destruct (le_lt_dec j i) as [L|L]; [|exact L]. destruct (Hn j L A). }
    rewrite nth_error_app1 by (rewrite repeat_length; lia). now apply repeat_nth.
  - rewrite nth_error_app1 by (rewrite repeat_length; lia). now apply repeat_nth.
Qed.
Lemma apertures_after rows i r : nth_error rows i = Some r -> (exists j, (j <= i)%nat /\ aperture_at rows j) ->
  exists ap, nth_error (apertures_of rows) i = Some ap /\ ap_ok rows i r ap.
Proof.
  intros Hr (j & Hj & A). unfold apertures_of. pose proof (first_spec rows 0) as F.
  destruct (first_aperture 0 rows) as [j0|]; [|destruct (F j A)].
  destruct F as (_ & A0 & N0). rewrite Nat.sub_0_r in *.
  assert (j0 <= j)%nat. { destruct (le_lt_dec j0 j) as [L|L]; [exact L|]. destruct (N0 j L A). }
  destruct (scan_ok rows (skipn j0 rows) j0 j0 0 eq_refl) as [_ K].
  - right. destruct A0 as (a & Ha & Hb). destruct (skipn j0 rows) as [|q t] eqn:S.
    { apply (f_equal (@length row)) in S. rewrite skipn_length in S. cbn in S.
      assert (j0 < length rows)%nat by (apply nth_error_Some; congruence). lia. }
    destruct (skip_cons _ _ _ _ S) as [S1 _]. exists q, t. split; [reflexivity|]. congruence.
  - intros; lia.
  - rewrite nth_error_app2 by (rewrite repeat_length; lia). rewrite repeat_length.
    destruct (K (i - j0)%nat r) as (ap & H1 & H2).
    { rewrite <- Hr. replace i with (j0 + (i - j0))%nat at 2 by lia. generalize (i - j0)%nat. clear.
      intros k. revert rows. induction j0; intros [|a rows]; cbn; auto. now destruct k. }
    exists ap. replace (j0 + (i - j0))%nat with i in H2 by lia. auto.
Qed.

Lemma reports_nth s rows : forall aps i k r ap, nth_error rows k = Some r -> nth_error aps k = Some ap ->
  nth_error (reports s i rows aps) k = Some (report_of s (i + k) r ap).
Proof.
  induction rows as [|q rows IH]; intros [|a aps] i [|k] r ap H1 H2; cbn in *; try discriminate.
  - injection H1 as ->. injection H2 as ->. now rewrite Nat.add_0_r.
  - replace (i + S k)%nat with (S i + k)%nat by lia. now apply IH.
Qed.
Lemma check_length rows : length (check_aperture rows) = length rows.
Proof.
  unfold check_aperture. pose proof (apertures_length rows) as L. revert L.
  generalize (positions 0 rows) 0%nat (apertures_of rows). induction rows as [|r rows IH]; intros s i [|a aps] L; cbn in *; try lia.
  rewrite IH; lia.
Qed.

Lemma not_active r : r_aper r = false -> dont_need r = false -> active r.
Proof.
  unfold dont_need, active. intros H. destruct (r_edge r), (r_refine r), (r_needs r); cbn; intros E; try discriminate; auto.
Qed.
Lemma active_need r : active r -> r_aper r = false /\ dont_need r = false.
Proof.
  unfold active, dont_need. intros (A & B & C). rewrite A, B. split; [reflexivity|].
  destruct C as [C|C]; rewrite C; [reflexivity|]. destruct (r_refine r); reflexivity.
Qed.

(** the report of an active element *)
Theorem active_report rows i r : no_negative rows -> nth_error rows i = Some r -> active r ->
  (exists j, (j < i)%nat /\ aperture_at rows j) ->
  exists p, nth_error (check_aperture rows) i = Some p
    /\ (misses_upstream p = true <-> ~ covered_upstream rows i)
    /\ (r_thick r = true -> (r_needs r = true -> ~ r_len r == 0) -> 1 # 1000000 < r_len r ->
        (misses_downstream p = true <-> ~ covered_downstream rows i (r_len r)))
    /\ has_problem p = misses_upstream p || (isthick r && misses_downstream p).
Proof.
  intros Hn Hr Ha (j & Hj & Aj). destruct (active_need _ Ha) as [E1 E2].
  destruct (apertures_after rows i r Hr) as (ap & Hap & Ok); [exists j; split; [lia|exact Aj]|].
  destruct ap as [(u, d)|]; cbn [ap_ok] in Ok; [|destruct Ok; congruence].
  destruct Ok as (_ & _ & (U1 & U2 & U3) & D).
  assert (Li : (i < length rows)%nat) by (apply nth_error_Some; congruence).
  assert (At : forall k, aperture_at rows k -> (k < length rows)%nat).
  { intros k (a & H & _). apply nth_error_Some. congruence. }
  exists (report_of (positions 0 rows) i r (Some (u, d))). split.
  { unfold check_aperture. apply (reports_nth _ _ _ 0 i); auto. }
  cbn [report_of misses_upstream misses_downstream has_problem].
  assert (Pi : nth i (positions 0 rows) 0 == s_entry rows i) by (rewrite positions_nth by lia; ring).
  assert (Pu : nth u (positions 0 rows) 0 == s_entry rows u) by (rewrite positions_nth by lia; ring).
  split; [|split; [|reflexivity]].
  - rewrite negb_true_iff. split.
    + intros H (k & K1 & K2 & K3). assert (k <= u)%nat.
      { destruct (le_lt_dec k u) as [L|L]; [exact L|]. destruct (U3 k ltac:(lia) K2). }
      apply Qeq_bool_neq in H. apply H. rewrite Pi, Pu.
      pose proof (s_entry_mono rows Hn k u ltac:(lia)). pose proof (s_entry_mono rows Hn u i ltac:(lia)). lra.
    + intros H. destruct (Qeq_bool (nth u (positions 0 rows) 0) (nth i (positions 0 rows) 0)) eqn:E; [|reflexivity].
      apply Qeq_bool_eq in E. rewrite Pi, Pu in E. destruct H. exists u. auto.
  - intros Ht Hz Hl.
    assert (It : isthick r = true).
    { unfold isthick. rewrite Ht. cbn. destruct (r_needs r); [|reflexivity]. cbn.
      destruct (Qeq_bool (r_len r) 0) eqn:Z; [|reflexivity]. apply Qeq_bool_eq in Z. destruct (Hz eq_refl Z). }
    rewrite It.
    pose proof (s_entry_S rows i r Hr) as SS. rewrite Ht in SS.
    assert (Ed : nth d (positions 0 rows) 0 - (nth i (positions 0 rows) 0 + r_len r)
                 == s_entry rows d - (s_entry rows i + r_len r)).
    { rewrite Pi. rewrite positions_nth; [ring|]. destruct D as [(D1 & D2 & D3)|(D1 & D2)]; [pose proof (At d D2); lia|lia]. }
    rewrite negb_true_iff. unfold tol.
    assert (Q : Qle_bool (Qabs (nth d (positions 0 rows) 0 - (nth i (positions 0 rows) 0 + r_len r))) (1 # 1000000) = true
                <-> - (1 # 1000000) <= s_entry rows d - (s_entry rows i + r_len r) <= 1 # 1000000).
    { rewrite Qle_bool_iff, Ed, Qabs_Qle_condition. reflexivity. }
    destruct D as [(D1 & D2 & D3)|(D1 & D2)].
    + pose proof (s_entry_mono rows Hn (S i) d ltac:(lia)). split.
      * intros H0 (k & K1 & K2 & K3). assert (d <= k)%nat.
        { destruct (le_lt_dec d k) as [L|L]; [exact L|]. destruct (D3 k ltac:(lia) K2). }
        pose proof (s_entry_mono rows Hn d k ltac:(lia)).
        assert (Qle_bool (Qabs (nth d (positions 0 rows) 0 - (nth i (positions 0 rows) 0 + r_len r))) (1 # 1000000) = true);
          [|congruence]. apply Q. lra.
      * intros H0. destruct (Qle_bool _ _) eqn:B; [|reflexivity]. pose proof (proj1 Q eq_refl) as B'. destruct H0.
        exists d. split; [exact D1|]. split; [exact D2|]. lra.
    + split; [intros _ (k & K1 & K2 & _); exact (D2 k K1 K2)|]. intros _.
      destruct (Qle_bool _ _) eqn:B; [|reflexivity]. pose proof (proj1 Q eq_refl) as B'.
      pose proof (s_entry_mono rows Hn d i ltac:(lia)). lra.
Qed.

Theorem reported rows i r : no_negative rows -> nth_error rows i = Some r -> active r ->
  (r_thick r = true -> 1 # 1000000 < r_len r) -> (exists j, (j < i)%nat /\ aperture_at rows j) ->
  exists p, nth_error (check_aperture rows) i = Some p
    /\ (has_problem p = true <->
         ~ covered_upstream rows i \/ (r_thick r = true /\ ~ covered_downstream rows i (r_len r))).
Proof.
  intros Hn Hr Ha Hl Hj. destruct (active_report rows i r Hn Hr Ha Hj) as (p & Hp & U & D & B).
  exists p. split; [exact Hp|]. rewrite B, orb_true_iff, andb_true_iff, U.
  assert (Z : r_thick r = true -> ~ r_len r == 0) by (intros T Z; specialize (Hl T); lra).
  assert (I : isthick r = r_thick r).
  { unfold isthick. destruct (r_thick r); [|reflexivity]. cbn. destruct (r_needs r); [|reflexivity]. cbn.
    destruct (Qeq_bool (r_len r) 0) eqn:E; [|reflexivity]. apply Qeq_bool_eq in E. destruct (Z eq_refl E). }
  rewrite I. split.
  - intros [H|[H1 H2]]; [now left|right]. split; [exact H1|]. apply D; auto.
  - intros [H|[H1 H2]]; [now left|right]. split; [exact H1|]. apply D; auto.
Qed.
(** zero length elements of [needs_aperture] only need the aperture upstream *)
Theorem reported_zero rows i r : no_negative rows -> nth_error rows i = Some r -> active r ->
  r_needs r = true -> r_len r == 0 -> (exists j, (j < i)%nat /\ aperture_at rows j) ->
  exists p, nth_error (check_aperture rows) i = Some p
    /\ (has_problem p = true <-> ~ covered_upstream rows i).
Proof.
  intros Hn Hr Ha Hd Hz Hj. destruct (active_report rows i r Hn Hr Ha Hj) as (p & Hp & U & _ & B).
  exists p. split; [exact Hp|]. rewrite B, <- U.
  assert (I : isthick r = false).
  { unfold isthick. rewrite Hd. apply Qeq_bool_iff in Hz. rewrite Hz. cbn. apply andb_false_r. }
  rewrite I. cbn. now rewrite orb_false_r.
Qed.
(** nothing is reported for apertures and for elements that need none *)
Theorem not_reported rows i r : nth_error rows i = Some r -> ~ active r ->
  nth_error (check_aperture rows) i = Some (mkReport false false false).
Proof.
  intros Hr Ha.
  assert (Li : (i < length rows)%nat) by (apply nth_error_Some; congruence).
  assert (exists ap, nth_error (apertures_of rows) i = Some ap) as (ap & Hap).
  { destruct (nth_error (apertures_of rows) i) eqn:E; [eauto|]. apply nth_error_None in E.
    rewrite apertures_length in E. lia. }
  unfold check_aperture. rewrite (reports_nth _ _ _ 0 i r ap Hr Hap).
  destruct ap as [(u, d)|]; [|reflexivity].
  destruct (first_aperture 0 rows) as [j|] eqn:F; pose proof (first_spec rows 0) as S; rewrite F in S.
  - destruct S as (_ & A & N). rewrite Nat.sub_0_r in *. destruct (le_lt_dec j i) as [L|L].
    + destruct (apertures_after rows i r Hr) as (ap & H1 & H2); [eauto|]. rewrite Hap in H1. injection H1 as <-.
      cbn in H2. destruct H2 as (H2 & H3 & _). destruct Ha. now apply not_active.
    + rewrite (apertures_before rows i Li) in Hap; [discriminate|]. intros k Hk. apply N. lia.
  - rewrite (apertures_before rows i Li) in Hap; [discriminate|]. intros k Hk. apply S.
Qed.
(** the printed lists contain the elements with a problem *)
Theorem printed rows i r p : nth_error rows i = Some r -> nth_error (check_aperture rows) i = Some p ->
  printed_thin r p || printed_thick r p = has_problem p.
Proof.
  intros Hr Hp. assert (exists ap, p = report_of (positions 0 rows) i r ap) as (ap & ->).
  { destruct (nth_error (apertures_of rows) i) as [ap|] eqn:E.
    - exists ap. unfold check_aperture in Hp. rewrite (reports_nth _ _ _ 0 i r ap Hr E) in Hp. injection Hp as <-. reflexivity.
    - apply nth_error_None in E. rewrite apertures_length in E.
      assert (i < length rows)%nat by (apply nth_error_Some; congruence). lia. }
  unfold printed_thin, printed_thick. destruct ap as [(u, d)|]; cbn [report_of misses_upstream misses_downstream has_problem].
  - destruct (isthick r); destruct (negb (Qeq_bool _ _)); destruct (negb (Qle_bool _ _)); reflexivity.
  - now destruct (isthick r).
Qed.
(** before the first aperture nothing is reported *)
Theorem before_first rows i : (i < length rows)%nat -> (forall j, (j <= i)%nat -> ~ aperture_at rows j) ->
  nth_error (check_aperture rows) i = Some (mkReport false false false).
Proof.
  intros Hi Hn. destruct (nth_error rows i) as [r|] eqn:Hr; [|apply nth_error_None in Hr; lia].
  unfold check_aperture. now rewrite (reports_nth _ _ _ 0 i r None Hr (apertures_before _ _ Hi Hn)).
Qed.

Lemma no_aperture : exists rows i r p, no_negative rows /\ nth_error rows i = Some r /\ active r
  /\ r_thick r = true /\ 1 # 1000000 < r_len r /\ (forall j, ~ aperture_at rows j)
  /\ nth_error (check_aperture rows) i = Some p /\ has_problem p = false.
Proof.
  exists [mkRow false true 1 false false false], 0%nat. do 2 eexists.
  split; [repeat constructor; discriminate|]. split; [reflexivity|]. split; [unfold active; cbn; auto|].
  split; [reflexivity|]. split; [reflexivity|]. split; [|split; reflexivity].
  intros [|[|j]] (a & H1 & H2); cbn in H1; try discriminate. injection H1 as <-. discriminate.
Qed.
Lemma short_element : exists rows i r p, no_negative rows /\ nth_error rows i = Some r /\ active r
  /\ r_thick r = true /\ 0 < r_len r /\ aperture_at rows 0 /\ ~ covered_downstream rows i (r_len r)
  /\ nth_error (check_aperture rows) i = Some p /\ has_problem p = false.
Proof.
  exists [mkRow true false 0 true false false; mkRow false true (1 # 10000000) false false false], 1%nat. do 2 eexists.
  split; [repeat constructor; discriminate|]. split; [reflexivity|]. split; [unfold active; cbn; auto|].
  split; [reflexivity|]. split; [reflexivity|]. split; [eexists; split; reflexivity|].
  split; [|split; reflexivity].
  intros ([|[|[|j]]] & L & (a & H1 & H2) & _); cbn in H1; try lia; discriminate.
Qed.
