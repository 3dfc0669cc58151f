From Coq Require Import ZArith QArith Qabs List Bool String Arith Lia Lqa.
From Verif.Model Require Import Line Slicing LineEdit.
From Verif.Model Require Composer.
From Verif.Spec Require Import Line Slicing LineEdit.
From Verif.Proofs Require Import LineBase Slices Cuts.
Import ListNotations.
Local Open Scope Q_scope.

Lemma inb_spec l i : inb l i = true <-> In i l.
Proof.
  unfold inb. rewrite existsb_exists. split; [intros (x & H & E); apply Nat.eqb_eq in E; subst; exact H|].
  intro H. exists i. split; [exact H|apply Nat.eqb_refl].
Qed.
Lemma sin_spec l n : sin l n = true <-> In n l.
Proof.
  unfold sin. rewrite existsb_exists. split; [intros (x & H & E); apply String.eqb_eq in E; subst; exact H|].
  intro H. exists n. split; [exact H|apply String.eqb_refl].
Qed.
Lemma dedup_in l : forall seen i, In i (dedup seen l) <-> In i l /\ ~ In i seen.
Proof.
  induction l as [|j l IH]; intros seen i; cbn; [tauto|]. destruct (inb seen j) eqn:E.
  - apply inb_spec in E. rewrite IH. split; [tauto|]. intros ([->|H] & N); tauto.
  - assert (N : ~ In j seen) by (intro H; apply inb_spec in H; congruence). cbn. rewrite IH. cbn.
    destruct (Nat.eq_dec j i) as [->|D]; tauto.
Qed.
Lemma dedup_nodup l : forall seen, NoDup (dedup seen l).
Proof.
  induction l as [|j l IH]; intro seen; cbn; [constructor|]. destruct (inb seen j); [apply IH|]. constructor; [|apply IH].
  rewrite dedup_in. cbn. tauto.
Qed.
Lemma env_matches_in sel names : forall i k, In k (env_matches i sel names) <-> exists j n, k = (i + j)%nat /\ nth_error names j = Some n /\ In n sel.
Proof.
  induction names as [|n r IH]; intros i k; cbn.
  - split; [tauto|]. intros (j & m & _ & H & _). destruct j; discriminate.
  - assert (X : In k (env_matches (S i) sel r) <-> exists j m, k = (i + S j)%nat /\ nth_error r j = Some m /\ In m sel).
    { rewrite IH. split; intros (j & m & -> & H); exists j, m; (split; [lia|exact H]). }
    destruct (sin sel n) eqn:E; cbn; rewrite X.
    + apply sin_spec in E. split.
      * intros [<-|(j & m & H)]; [exists 0%nat, n; cbn; split; [lia|auto]|exists (S j), m; exact H].
      * intros ([|j] & m & -> & H & Hm); [left; lia|right; exists j, m; auto].
    + assert (N : ~ In n sel) by (intro H; apply sin_spec in H; congruence). split.
      * intros (j & m & H). exists (S j), m. exact H.
      * intros ([|j] & m & -> & H & Hm); [cbn in H; injection H as ->; contradiction|exists j, m; auto].
Qed.
Lemma name_match_spec bt sel names l : name_match bt sel names = Some l -> NoDup l /\ forall i, In i l <-> selected bt sel names i.
Proof.
  unfold name_match. set (d := dedup _ _). intro H. assert (E : l = d) by (destruct d; [discriminate|congruence]). subst l. split; [apply dedup_nodup|].
  intro i. unfold d. rewrite dedup_in, in_app_iff, env_matches_in. unfold selected. split.
  - intros ([H1|(j & n & -> & H1)] & _); [auto|right; exists n; exact H1].
  - intros [H1|(n & H1)]; (split; [|tauto]); [auto|right; exists i, n; auto].
Qed.
Lemma name_match_none bt sel names : name_match bt sel names = None <-> forall i, ~ selected bt sel names i.
Proof.
  unfold name_match. set (d := dedup _ _).
  assert (X : forall i, In i d <-> selected bt sel names i).
  { intro i. unfold d. rewrite dedup_in, in_app_iff, env_matches_in. unfold selected. split.
    - intros ([H1|(j & n & -> & H1)] & _); [auto|right; exists n; exact H1].
    - intros [H1|(n & H1)]; (split; [|tauto]); [auto|right; exists i, n; auto]. }
  clearbody d. destruct d as [|i d]; split; intro H; try discriminate; auto.
  - intros i Hi. apply X in Hi. exact Hi.
  - exfalso. apply (H i), X. left. reflexivity.
Qed.

Lemma put_nth {A} (l : list A) : forall i x j, nth_error (Composer.put l i x) j = if Nat.eqb i j then (match nth_error l j with Some _ => Some x | None => None end) else nth_error l j.
Proof.
  induction l as [|y l IH]; intros i x j; cbn.
  - destruct i, j; cbn; try destruct (Nat.eqb _ _); reflexivity.
  - destruct i as [|i], j as [|j]; cbn; try reflexivity. apply IH.
Qed.
Lemma put_length {A} (l : list A) : forall i x, List.length (Composer.put l i x) = List.length l.
Proof. induction l as [|y l IH]; intros [|i] x; cbn; auto. Qed.

(** a sum of lengths, piece by piece *)
Lemma qabs_zero : Qabs 0 == 0.
Proof. reflexivity. Qed.
Lemma chunk_positions v v' e : 0 <= e -> forall names chunks,
  Forall2 (fun n c => exists l l', s_length v n = Some l /\ line_length v' c = Some l' /\ Qabs (l' - l) <= e) names chunks ->
  same_positions v v' names chunks e.
Proof.
  intros He names chunks F k. revert k. induction F as [|n c ns cs (l & l' & H1 & H2 & H3) F IH]; intro k.
  - exists 0, 0. rewrite !firstn_nil. split; [reflexivity|]. split; [reflexivity|].
    assert (0 <= inject_Z (Z.of_nat k)) by (change 0 with (inject_Z 0); rewrite <- Zle_Qle; lia).
    change (Qabs (0 - 0)) with 0. nra.
  - destruct k as [|k].
    + exists 0, 0. split; [reflexivity|]. split; [reflexivity|]. change (Qabs (0 - 0)) with 0. change (inject_Z (Z.of_nat 0)) with 0. lra.
    + destruct (IH k) as (a & b & A & B & D). exists (l + a). cbn [firstn line_length List.concat]. rewrite H1, A.
      destruct (line_length_app v' c (List.concat (firstn k cs)) l' b H2 B) as (x & X & Ex).
      exists x. split; [reflexivity|]. split; [exact X|]. rewrite Ex.
      assert (Q : l' + b - (l + a) == (l' - l) + (b - a)) by ring. rewrite Q.
      eapply Qle_trans; [apply Qabs_triangle|].
      assert (S1 : inject_Z (Z.of_nat (S k)) == inject_Z (Z.of_nat k) + 1) by (rewrite Nat2Z.inj_succ; unfold Z.succ; rewrite inject_Z_plus; reflexivity).
      rewrite S1. lra.
Qed.

(** * remove *)
Lemma same_dict_evolves v v' : en_dict v' = en_dict v -> en_cache v' = en_cache v -> evolves v v'.
Proof.
  intros D C. assert (L : forall n, lookup v' n = lookup v n) by (intro n; unfold lookup; rewrite D; reflexivity).
  split; [split; [intros n e H; rewrite L; exact H|rewrite D; lia]|]. split.
  - intros H l n Hin. rewrite C in Hin. rewrite L. apply H, Hin.
  - intros m e H. rewrite L in H. auto.
Qed.
Lemma drift_clean k : clean (drift_name k).
Proof. unfold drift_name. apply clean_dec. Qed.

Lemma to_drift_spec v names tab i r v' names' : nth_error tab i = Some r -> to_drift v names tab i = (v', names') ->
  exists d, evolves v v' /\ lookup v d = None /\ lookup v' d = Some (EOwn CDrift (row_len r) 0) /\ names' = Composer.put names i d.
Proof.
  intros Hr H. unfold to_drift in H. rewrite Hr in H. destruct (a_drift_name v) as [v1 d] eqn:A.
  destruct (a_drift_name_spec _ _ _ A) as (D & Ca & N & (k & K)). pose proof (f_equal fst H) as H1. pose proof (f_equal snd H) as H2. cbn [fst snd] in H1, H2. subst v' names'.
  exists d. assert (N1 : lookup v1 d = None) by (unfold lookup; rewrite D; exact N).
  split; [eapply evolves_trans; [apply same_dict_evolves; [exact D|exact Ca]|apply evolves_set; [exact N1|subst d; apply drift_clean]]|].
  split; [exact N|]. split; [|reflexivity]. rewrite lookup_set, String.eqb_refl. reflexivity.
Qed.

Lemma to_drifts_spec tab : forall idx v names v' names', NoDup idx -> (forall i, In i idx -> nth_error tab i <> None) ->
  to_drifts v names tab idx = (v', names') ->
  evolves v v' /\ List.length names' = List.length names /\
  (forall j, ~ In j idx -> nth_error names' j = nth_error names j) /\
  (forall j r, In j idx -> nth_error tab j = Some r -> (j < List.length names)%nat ->
     exists d, nth_error names' j = Some d /\ lookup v d = None /\ lookup v' d = Some (EOwn CDrift (row_len r) 0)).
Proof.
  induction idx as [|i idx IH]; intros v names v' names' ND V H; cbn in H.
  - injection H as <- <-. split; [apply evolves_refl|]. split; [reflexivity|]. split; [auto|]. intros j r [].
  - destruct (to_drift v names tab i) as [v1 n1] eqn:T. inversion ND as [|? ? Ni ND']; subst.
    destruct (nth_error tab i) as [ri|] eqn:Ri; [|exfalso; apply (V i); [left; reflexivity|exact Ri]].
    destruct (to_drift_spec _ _ _ _ _ _ _ Ri T) as (d & E1 & Nd & Ld & ->).
    destruct (IH v1 _ v' names' ND' (fun j Hj => V j (or_intror Hj)) H) as (E2 & Len & Oth & Dr).
    rewrite put_length in Len. split; [eapply evolves_trans; eassumption|]. split; [exact Len|]. split.
    + intros j Nj. rewrite Oth by (cbn in Nj; tauto). rewrite put_nth. destruct (Nat.eqb_spec i j); [subst; exfalso; apply Nj; left; reflexivity|reflexivity].
    + intros j r [<-|Hj] Rj Lj.
      * exists d. rewrite Oth by exact Ni. rewrite put_nth, Nat.eqb_refl.
        destruct (nth_error names i) eqn:X; [|apply nth_error_None in X; lia]. split; [reflexivity|]. split; [exact Nd|].
        rewrite Ri in Rj. injection Rj as <-. apply evolves_keeps in E2. apply E2, Ld.
      * destruct (Dr j r Hj Rj) as (d' & H1 & H2 & H3); [rewrite put_length; exact Lj|]. exists d'. split; [exact H1|]. split; [|exact H3].
        destruct (lookup v d') as [e|] eqn:X; [|reflexivity]. apply evolves_keeps in E1. apply E1 in X. congruence.
Qed.

(** the names that stay, one chunk per row *)
Fixpoint drop_chunks (i : nat) (idx : list nat) (names : list string) : list (list string) :=
  match names with [] => [] | n :: r => (if inb idx i then [] else [n]) :: drop_chunks (S i) idx r end.
Lemma drop_concat idx : forall names i, drop_idx i idx names = List.concat (drop_chunks i idx names).
Proof. induction names as [|n r IH]; intro i; cbn; [reflexivity|]. rewrite IH. destruct (inb idx i); reflexivity. Qed.
Lemma drop_length idx : forall names i, List.length (drop_chunks i idx names) = List.length names.
Proof. induction names as [|n r IH]; intro i; cbn; auto. Qed.
Lemma drop_nth idx : forall names i j n, nth_error names j = Some n ->
  nth_error (drop_chunks i idx names) j = Some (if inb idx (i + j)%nat then [] else [n]).
Proof.
  induction names as [|m r IH]; intros i [|j] n H; cbn in *; try discriminate.
  - injection H as ->. rewrite Nat.add_0_r. reflexivity.
  - rewrite (IH (S i) j n H). replace (S i + j)%nat with (i + S j)%nat by lia. reflexivity.
Qed.

Lemma qltb_iff a b : Qltb a b = true <-> a < b.
Proof. unfold Qltb. rewrite negb_true_iff, <- not_true_iff_false, Qle_bool_iff. split; [intro H; apply Qnot_le_lt, H|intros H K; lra]. Qed.

Theorem remove_ok v rows bt sel tol v' names' L : cache_ok v -> line_length v (map snd rows) = Some L ->
  remove v rows bt sel tol = Some (v', names') ->
  keeps v v' /\ cache_ok v' /\ (edge_names_ok v -> edge_names_ok v') /\
  exists chunks, names' = List.concat chunks /\ List.length chunks = List.length rows /\
    (forall i n, nth_error (map snd rows) i = Some n ->
       (~ selected bt sel (map snd rows) i -> nth_error chunks i = Some [n]) /\
       (selected bt sel (map snd rows) i -> long v tol n -> exists d l l', nth_error chunks i = Some [d] /\ lookup v d = None /\
          lookup v' d = Some (EOwn CDrift l' 0) /\ s_length v n = Some l /\ l' == l) /\
       (selected bt sel (map snd rows) i -> ~ long v tol n -> nth_error chunks i = Some [])) /\
    (forall e, 0 <= e -> (forall i n l, nth_error (map snd rows) i = Some n -> selected bt sel (map snd rows) i -> s_length v n = Some l ->
        ~ long v tol n -> Qabs l <= e) -> same_positions v v' (map snd rows) chunks e).
Proof.
  intros C HL H. unfold remove in H. destruct (line_lens _ _ _ HL) as (lens & LO & _).
  destruct (lens_bounds _ _ _ LO 0 0 (Qeq_refl 0)) as (old & B & _).
  destruct (crows_spec v rows 0 old B) as (tab & Ct & Ch & Eo & FT). rewrite Ct in H.
  destruct (name_match bt sel (map snd rows)) as [l|] eqn:NM; [|discriminate]. destruct (name_match_spec _ _ _ _ NM) as (ND & Sel).
  destruct (to_drifts v (map snd rows) tab (filter (is_thick_row tol tab) l)) as [v1 n1] eqn:TD.
  pose proof (some_inj_pair := f_equal (fun o => match o with Some x => fst x | None => v end) H). cbn in some_inj_pair. subst v1.
  assert (En : names' = drop_idx 0 (filter (fun i => negb (is_thick_row tol tab i)) l) n1) by congruence. clear H.
  assert (V : forall i, In i (filter (is_thick_row tol tab) l) -> nth_error tab i <> None).
  { intros i Hi X. apply filter_In in Hi. unfold is_thick_row in Hi. rewrite X in Hi. destruct Hi; discriminate. }
  destruct (to_drifts_spec tab _ _ _ _ _ (NoDup_filter _ ND) V TD) as (Ev & Len & Oth & Dr).
  set (thin := filter (fun i => negb (is_thick_row tol tab i)) l) in *.
  assert (TR : forall i n, nth_error (map snd rows) i = Some n -> exists r, nth_error tab i = Some r /\ s_length v n = Some (cr_len r) /\
     (is_thick_row tol tab i = true <-> long v tol n)).
  { intros i n Hn. rewrite nth_error_map in Hn. destruct (nth_error rows i) as [row|] eqn:Hr; [|discriminate]. cbn in Hn. injection Hn as <-.
    destruct (forall2_nth _ _ _ _ _ FT Hr) as (r & Hr' & _ & SL & (t & e & Re & Th)). exists r. split; [exact Hr'|]. split; [exact SL|].
    unfold is_thick_row. rewrite Hr', andb_true_iff, qltb_iff. unfold row_len, long. split.
    - intros (T1 & T2). exists t, e, (cr_len r). split; [exact Re|]. split; [congruence|]. split; [exact SL|]. lra.
    - intros (t' & e' & l0 & R' & T' & S' & Lt). rewrite Re in R'. injection R' as <- <-. rewrite SL in S'. injection S' as <-. split; [congruence|]. lra. }
  assert (Chn : forall i n, nth_error (map snd rows) i = Some n ->
     (~ selected bt sel (map snd rows) i -> nth_error (drop_chunks 0 thin n1) i = Some [n]) /\
     (selected bt sel (map snd rows) i -> long v tol n -> exists d l l', nth_error (drop_chunks 0 thin n1) i = Some [d] /\ lookup v d = None /\
          lookup v' d = Some (EOwn CDrift l' 0) /\ s_length v n = Some l /\ l' == l) /\
     (selected bt sel (map snd rows) i -> ~ long v tol n -> nth_error (drop_chunks 0 thin n1) i = Some [])).
  { intros i n Hn. destruct (TR i n Hn) as (r & Hr & SL & Lo). assert (Li : (i < List.length (map snd rows))%nat) by (apply nth_error_Some; congruence).
    split; [|split].
    - intro NS. assert (Ni : ~ In i l) by (rewrite Sel; exact NS).
      assert (N1 : nth_error n1 i = Some n). { rewrite Oth; [exact Hn|]. intro X. apply filter_In in X. tauto. }
      rewrite (drop_nth _ _ 0 i n N1). cbn [Nat.add]. destruct (inb thin i) eqn:I; [|reflexivity]. apply inb_spec, filter_In in I. tauto.
    - intros S Lg. apply Sel in S. assert (T1 : is_thick_row tol tab i = true) by (apply Lo, Lg).
      destruct (Dr i r) as (d & N1 & Nd & Ld); [apply filter_In; auto|exact Hr|exact Li|]. exists d, (cr_len r), (row_len r).
      rewrite (drop_nth _ _ 0 i d N1). cbn [Nat.add]. destruct (inb thin i) eqn:I.
      + apply inb_spec, filter_In in I. destruct I as (_ & I). rewrite T1 in I. discriminate.
      + split; [reflexivity|]. split; [exact Nd|]. split; [exact Ld|]. split; [exact SL|]. unfold row_len. ring.
    - intros S NL. apply Sel in S. destruct (is_thick_row tol tab i) eqn:T1; [exfalso; apply NL, Lo; reflexivity|].
      destruct (nth_error n1 i) as [m|] eqn:N1; [|apply nth_error_None in N1; lia]. rewrite (drop_nth _ _ 0 i m N1). cbn [Nat.add].
      destruct (inb thin i) eqn:I; [reflexivity|]. exfalso. assert (X : inb thin i = true) by (apply inb_spec, filter_In; rewrite T1; auto). congruence. }
  split; [apply evolves_keeps, Ev|]. split; [apply Ev, C|]. split; [apply evolves_edges, Ev|].
  exists (drop_chunks 0 thin n1). split; [rewrite En; apply drop_concat|]. split; [rewrite drop_length, Len, map_length; reflexivity|].
  split; [exact Chn|]. intros e He Small. apply chunk_positions; [exact He|].
  assert (LC : List.length (drop_chunks 0 thin n1) = List.length (map snd rows)) by (rewrite drop_length, Len; reflexivity).
  assert (PW : forall i n c, nth_error (map snd rows) i = Some n -> nth_error (drop_chunks 0 thin n1) i = Some c ->
     exists l0 l', s_length v n = Some l0 /\ line_length v' c = Some l' /\ Qabs (l' - l0) <= e).
  { intros i n c Hn Hc. destruct (TR i n Hn) as (r & Hr & SL & Lo). destruct (Chn i n Hn) as (A1 & A2 & A3).
    assert (Dec : selected bt sel (map snd rows) i \/ ~ selected bt sel (map snd rows) i).
    { destruct (in_dec Nat.eq_dec i l) as [Y|Y]; rewrite Sel in Y; auto. }
    destruct Dec as [S|NS].
    - destruct (is_thick_row tol tab i) eqn:T1.
      + destruct (A2 S (proj1 Lo eq_refl)) as (d & l0 & l' & Hc' & _ & Ld & Sl & El). rewrite Hc in Hc'. injection Hc' as ->. exists l0, (l' + 0).
        split; [exact Sl|]. split; [cbn; unfold s_length, resolve; rewrite Ld; cbn; reflexivity|].
        assert (Q : l' + 0 - l0 == 0) by (rewrite El; ring). rewrite Q. exact He.
      + assert (NL : ~ long v tol n) by (intro X; apply Lo in X; discriminate). rewrite (A3 S NL) in Hc. injection Hc as <-. exists (cr_len r), 0.
        split; [exact SL|]. split; [reflexivity|]. assert (Q : 0 - cr_len r == - cr_len r) by ring. rewrite Q, Qabs_opp. eapply Small; eauto.
    - rewrite (A1 NS) in Hc. injection Hc as <-. exists (cr_len r), (cr_len r + 0). split; [exact SL|].
      split; [cbn; rewrite (s_length_keeps _ _ _ _ (evolves_keeps _ _ Ev) SL); reflexivity|]. assert (Q : cr_len r + 0 - cr_len r == 0) by ring. rewrite Q. exact He. }
  clear - LC PW. revert LC PW. generalize (drop_chunks 0 thin n1) as cs. generalize (map snd rows) as ns. induction ns as [|n ns IH]; intros [|c cs] LC PW; try discriminate; constructor.
  - apply (PW 0%nat n c); reflexivity.
  - apply IH; [cbn in LC; lia|]. intros i n0 c0. apply (PW (S i)).
Qed.

Theorem remove_fails v rows bt sel tol L : line_length v (map snd rows) = Some L ->
  (remove v rows bt sel tol = None <-> forall i, ~ selected bt sel (map snd rows) i).
Proof.
  intro HL. destruct (line_lens _ _ _ HL) as (lens & LO & _). destruct (lens_bounds _ _ _ LO 0 0 (Qeq_refl 0)) as (old & B & _).
  destruct (crows_spec v rows 0 old B) as (tab & Ct & _). unfold remove. rewrite Ct, <- name_match_none.
  destruct (name_match bt sel (map snd rows)) as [l|]; [|tauto]. destruct (to_drifts _ _ _ _). split; discriminate.
Qed.

(** * replace *)
Lemma put_all_spec n : forall idx names j, nth_error (put_all names n idx) j =
  if inb idx j then match nth_error names j with Some _ => Some n | None => None end else nth_error names j.
Proof.
  induction idx as [|i idx IH]; intros names j; cbn [put_all]; [reflexivity|]. rewrite IH, put_nth. cbn [inb existsb]. rewrite (Nat.eqb_sym j i).
  destruct (Nat.eqb_spec i j) as [->|]; cbn [orb]; fold (inb idx j); [|reflexivity].
  destruct (inb idx j), (nth_error names j); reflexivity.
Qed.
Lemma put_all_length n : forall idx names, List.length (put_all names n idx) = List.length names.
Proof. induction idx as [|i idx IH]; intro names; cbn; [reflexivity|]. rewrite IH. apply put_length. Qed.

Lemma concat_singles {A} (l : list A) : List.concat (map (fun x => [x]) l) = l.
Proof. induction l; cbn; congruence. Qed.

Theorem replace_ok v rows bt sel new tol names' L : line_length v (map snd rows) = Some L -> 0 <= tol ->
  replace v rows bt sel new tol = Some names' ->
  List.length names' = List.length rows /\
  (forall i n, nth_error (map snd rows) i = Some n ->
     (selected bt sel (map snd rows) i -> nth_error names' i = Some new) /\ (~ selected bt sel (map snd rows) i -> nth_error names' i = Some n)) /\
  (forall e, 0 <= e -> (forall i n l l', nth_error (map snd rows) i = Some n -> selected bt sel (map snd rows) i -> s_length v n = Some l -> s_length v new = Some l' ->
     Qabs (l' - l) <= e) -> same_positions v v (map snd rows) (map (fun x => [x]) names') e).
Proof.
  intros HL T H. destruct (line_lens _ _ _ HL) as (lens & LO & _). destruct (lens_bounds _ _ _ LO 0 0 (Qeq_refl 0)) as (old & B & _).
  destruct (crows_spec v rows 0 old B) as (tab & Ct & Ch & Eo & FT). unfold replace, new_length in H. rewrite Ct in H.
  destruct (name_match bt sel (map snd rows)) as [l|] eqn:NM; [|discriminate]. destruct (name_match_spec _ _ _ _ NM) as (ND & Sel).
  destruct (s_length v new) as [ln|] eqn:Ln; [|discriminate]. destruct (existsb _ l) eqn:X; [discriminate|]. destruct (forallb _ l) eqn:Y; [|discriminate]. injection H as <-.
  assert (NT : forall i n, nth_error (map snd rows) i = Some n ->
     (selected bt sel (map snd rows) i -> nth_error (put_all (map snd rows) new l) i = Some new) /\
     (~ selected bt sel (map snd rows) i -> nth_error (put_all (map snd rows) new l) i = Some n)).
  { intros i n Hn. rewrite put_all_spec, Hn, <- Sel. split; intro S.
    - apply inb_spec in S. rewrite S. reflexivity.
    - destruct (inb l i) eqn:I; [apply inb_spec in I; contradiction|reflexivity]. }
  split; [rewrite put_all_length, map_length; reflexivity|]. split; [exact NT|].
  intros e He Small. apply chunk_positions; [exact He|].
  assert (LC : List.length (map (fun x => [x]) (put_all (map snd rows) new l)) = List.length (map snd rows)) by (rewrite map_length, put_all_length; reflexivity).
  assert (PW : forall i n c, nth_error (map snd rows) i = Some n -> nth_error (map (fun x => [x]) (put_all (map snd rows) new l)) i = Some c ->
     exists l0 l', s_length v n = Some l0 /\ line_length v c = Some l' /\ Qabs (l' - l0) <= e).
  { intros i n c Hn Hc. rewrite nth_error_map in Hc. destruct (NT i n Hn) as (A1 & A2).
    assert (SL : exists l0, s_length v n = Some l0).
    { rewrite nth_error_map in Hn. destruct (nth_error rows i) as [row|] eqn:Hr; [|discriminate]. injection Hn as <-.
      destruct (forall2_nth _ _ _ _ _ FT Hr) as (r & _ & _ & S & _). eauto. }
    destruct SL as (l0 & SL).
    assert (Dec : selected bt sel (map snd rows) i \/ ~ selected bt sel (map snd rows) i) by (destruct (in_dec Nat.eq_dec i l) as [Z|Z]; rewrite Sel in Z; auto).
    destruct Dec as [S|NS].
    - rewrite (A1 S) in Hc. injection Hc as <-. exists l0, (ln + 0). split; [exact SL|]. split; [cbn; rewrite Ln; reflexivity|].
      assert (Q : ln + 0 - l0 == ln - l0) by ring. rewrite Q. eapply Small; eauto.
    - rewrite (A2 NS) in Hc. injection Hc as <-. exists l0, (l0 + 0). split; [exact SL|]. split; [cbn; rewrite SL; reflexivity|].
      assert (Q : l0 + 0 - l0 == 0) by ring. rewrite Q. exact He. }
  clear - LC PW. revert LC PW. generalize (map (fun x : string => [x]) (put_all (map snd rows) new l)) as cs. generalize (map snd rows) as ns. induction ns as [|n ns IH]; intros [|c cs] LC PW; try discriminate; constructor.
  - apply (PW 0%nat n c); reflexivity.
  - apply IH; [cbn in LC; lia|]. intros i n0 c0. apply (PW (S i)).
Qed.

Theorem replace_defined v rows bt sel new tol L : line_length v (map snd rows) = Some L ->
  (replace v rows bt sel new tol <> None <->
   (exists i, selected bt sel (map snd rows) i) /\
   exists l', s_length v new = Some l' /\ forall i, selected bt sel (map snd rows) i ->
     exists n l, nth_error (map snd rows) i = Some n /\ s_length v n = Some l /\ Qabs (l - l') <= tol).
Proof.
  intro HL. destruct (line_lens _ _ _ HL) as (lens & LO & _). destruct (lens_bounds _ _ _ LO 0 0 (Qeq_refl 0)) as (old & B & _).
  destruct (crows_spec v rows 0 old B) as (tab & Ct & Ch & Eo & FT). unfold replace, new_length. rewrite Ct.
  assert (TR : forall i n, nth_error (map snd rows) i = Some n -> exists r, nth_error tab i = Some r /\ s_length v n = Some (cr_len r) /\ old_length tab i == cr_len r).
  { intros i n Hn. rewrite nth_error_map in Hn. destruct (nth_error rows i) as [row|] eqn:Hr; [|discriminate]. injection Hn as <-.
    destruct (forall2_nth _ _ _ _ _ FT Hr) as (r & Hr' & _ & S & _). exists r. split; [exact Hr'|]. split; [exact S|]. unfold old_length. rewrite Hr'. unfold row_len. ring. }
  destruct (name_match bt sel (map snd rows)) as [l|] eqn:NM.
  - destruct (name_match_spec _ _ _ _ NM) as (ND & Sel). assert (Ne : exists i, selected bt sel (map snd rows) i).
    { destruct l as [|i l]; [|exists i; apply Sel; left; reflexivity]. exfalso. unfold name_match in NM. destruct (dedup _ _); discriminate. }
    destruct (s_length v new) as [ln|] eqn:Ln; [|split; [congruence|intros (_ & l' & H & _); discriminate]].
    destruct (existsb _ l) eqn:X; [|destruct (forallb _ l) eqn:Y].
    + split; [congruence|]. intros (_ & l' & [= <-] & Ok). exfalso. apply existsb_exists in X. destruct X as (i & Hi & Lt). apply qltb_iff in Lt.
      destruct (Ok i (proj1 (Sel i) Hi)) as (n & ll & Hn & Sl & Le). destruct (TR i n Hn) as (r & _ & Sr & Eq). rewrite Sl in Sr. injection Sr as ->. rewrite Eq in Lt. lra.
    + split; [|congruence]. intros _. split; [exact Ne|]. exists ln. split; [reflexivity|]. intros i Hi. apply Sel in Hi.
      rewrite forallb_forall in Y. pose proof (Y i Hi) as Li. apply Nat.ltb_lt in Li.
      destruct (nth_error (map snd rows) i) as [n|] eqn:Hn; [|apply nth_error_None in Hn; lia]. destruct (TR i n Hn) as (r & _ & Sr & Eq). exists n, (cr_len r).
      split; [reflexivity|]. split; [exact Sr|]. apply Qnot_lt_le. intro Lt. assert (Z : existsb (fun i => Qltb tol (Qabs (old_length tab i - ln))) l = true); [|congruence].
      apply existsb_exists. exists i. split; [exact Hi|]. apply qltb_iff. rewrite Eq. exact Lt.
    + split; [congruence|]. intros (_ & l' & _ & Ok). exfalso. rewrite <- not_true_iff_false in Y. apply Y. apply forallb_forall. intros i Hi. apply Nat.ltb_lt.
      destruct (Ok i (proj1 (Sel i) Hi)) as (n & _ & Hn & _). apply nth_error_Some. congruence.
  - rewrite name_match_none in NM. split; [congruence|]. intros ((i & Hi) & _). exfalso. eapply NM, Hi.
Qed.
