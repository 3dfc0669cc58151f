From Coq Require Import ZArith List Bool Lia ZifyBool Permutation QArith Sorted.
From Verif.Model Require Import Container.
From Verif.Spec Require Import Container.
From Verif.Proofs Require Import Container.
Import ListNotations.
Local Open Scope Z_scope.

Section Steps.
Context {C G : Type} (blank_c : C) (argsort : list Q -> list nat).
Notation row := (row C G).
Notation parts := (@Model.Container.parts C G).
Hypothesis argsort_perm : forall k, Permutation (argsort k) (seq 0 (length k)).

Lemma reorganize_compact (l : list row) : compact l -> compact (fst (fst (reorganize_rows blank_c l))).
Proof.
  intros H. apply grouped_compact. apply reorganize_exact. now left.
Qed.

Lemma reorganize_rows_fst (p : parts) :
  rows (reorganize blank_c p) = fst (fst (reorganize_rows blank_c (rows p))).
Proof. unfold reorganize. destruct (reorganize_rows blank_c (rows p)) as [[l a] b]. reflexivity. Qed.

Lemma slice_compact vis (a d f src l' : list row) :
  Forall alive a -> Forall dead d -> Forall free f -> Forall alive src -> (length src <= length f)%nat ->
  slice_assign vis (a ++ d ++ f) (length a + length d) src = Some l' -> compact l'.
Proof.
  intros Ha Hd Hf Hs Hl. unfold slice_assign.
  assert (Cc : compact (a ++ d ++ f)).
  { exists (a ++ d), f. rewrite app_assoc. split; [reflexivity|]. split; [|exact Hf].
    apply Forall_app. split; (eapply Forall_impl; [|eassumption]); unfold alive, dead, free; cbn; lia. }
  destruct (Nat.eqb _ _).
  - intros [= <-].
    assert (F1 : firstn (length a + length d) (a ++ d ++ f) = a ++ d).
    { rewrite app_assoc, firstn_app, <- app_length, Nat.sub_diag, firstn_all. cbn [firstn]. apply app_nil_r. }
    assert (F2 : skipn (length a + length d) (a ++ d ++ f) = f).
    { rewrite app_assoc, skipn_app, <- app_length, Nat.sub_diag, skipn_all. reflexivity. }
    assert (F3 : skipn (length a + length d + length src) (a ++ d ++ f) = skipn (length src) f).
    { rewrite app_assoc, skipn_app, <- app_length. rewrite skipn_all2 by lia. cbn [app]. f_equal. lia. }
    rewrite F1, F2, F3.
    exists ((a ++ d) ++ with_rng f src), (skipn (length src) f). rewrite !app_assoc. split; [reflexivity|].
    split.
    + rewrite !Forall_app. repeat split.
      1,2: (eapply Forall_impl; [|eassumption]); unfold alive, dead, free; cbn; lia.
      pose proof (with_rng_content f src Hl) as E. apply content_state in E.
      eapply Forall_impl; [|eapply (Forall_state (fun s => 0 < s)); [exact E|exact Hs]].
      unfold free. cbn. lia.
    + rewrite <- (firstn_skipn (length src) f) in Hf. apply Forall_app in Hf. tauto.
  - destruct (Nat.eqb _ _); [|discriminate]. intros [= <-]. exact Cc.
Qed.

Lemma add_compact (p other p' : parts) :
  compact (rows p) -> add_particles blank_c p other = Some p' -> compact (rows p').
Proof.
  intros Hc. unfold add_particles.
  destruct (reorganize_ok blank_c (rows p) (or_introl Hc)) as (a & d & f & E & Ha & Hd & Hf & Hr).
  assert (Ep : reorganize blank_c p = mkParts (a ++ d ++ f) (hidden p) (Z.of_nat (length a)) (Z.of_nat (length d))).
  { unfold reorganize. now rewrite E. }
  rewrite Ep. cbn [nact nlost rows hidden].
  replace (Z.to_nat (Z.of_nat (length a) + Z.of_nat (length d))) with (length a + length d)%nat by lia.
  match goal with |- match ?x with _ => _ end = _ -> _ => destruct x as [mx|]; [|discriminate] end.
  destruct (_ <? _) eqn:Ef; [discriminate|]. unfold zlen in Ef. rewrite !app_length in Ef.
  match goal with |- match ?x with _ => _ end = _ -> _ => destruct x as [l1|] eqn:E1; [|discriminate] end.
  intros [= <-]. rewrite reorganize_rows_fst. apply reorganize_compact. cbn [rows].
  eapply slice_compact; [..|exact E1].
  - eapply contents_alive; eauto.
  - eapply contents_dead; eauto.
  - exact Hf.
  - set (cp := filter is_active (visible other)) in *.
    destruct (set_ids_content cp (mx + 1)) as (S1 & _).
    eapply (Forall_state (fun s => 0 < s)); [exact S1|].
    eapply Forall_impl; [|apply filter_Forall]. intros r H. now apply active_alive.
  - rewrite set_ids_length. lia.
Qed.

Lemma sort_compact by_ inter (p p' : parts) :
  compact (rows p) -> sort blank_c argsort by_ inter p = Some p' -> compact (rows p').
Proof.
  intros Hc. unfold sort, unhide, reorganize. cbn [rows hidden].
  destruct (reorganize_ok blank_c (rows p) (or_introl Hc)) as (a & d & f & E & Ha & Hd & Hf & Hr).
  rewrite E. cbn [rows nact nlost hidden].
  replace (Z.to_nat (Z.of_nat (length a) + Z.of_nat (length d))) with (length a + length d)%nat by lia.
  rewrite Nat2Z.id.
  assert (F1 : firstn (length a + length d) (a ++ d ++ f) = a ++ d).
  { rewrite app_assoc, firstn_app, <- app_length, Nat.sub_diag, firstn_all. cbn [firstn]. apply app_nil_r. }
  assert (F2 : skipn (length a + length d) (a ++ d ++ f) = f).
  { rewrite app_assoc, skipn_app, <- app_length, Nat.sub_diag, skipn_all. reflexivity. }
  rewrite F1, F2.
  match goal with |- match ?x with _ => _ end = _ -> _ => destruct x as [key|] eqn:Ek; [|discriminate] end.
  intros H.
  assert (R : rows p' = permute (argsort key) (a ++ d) ++ f).
  { destruct inter; injection H as <-; reflexivity. }
  rewrite R. exists (permute (argsort key) (a ++ d)), f. split; [reflexivity|]. split; [|exact Hf].
  apply Forall_forall. intros r Hr'. unfold permute in Hr'. apply in_flat_map in Hr' as (i & _ & Hi).
  destruct (nth_error (a ++ d) i) eqn:En; [|contradiction]. destruct Hi as [->|[]].
  apply nth_error_In in En. apply in_app_iff in En as [En|En].
  - apply contents_alive in Ha. eapply Forall_forall in Ha; eauto. unfold alive, free in *. lia.
  - apply contents_dead in Hd. eapply Forall_forall in Hd; eauto. unfold dead, free in *. lia.
Qed.

Lemma step_compact (p p' : parts) : step blank_c argsort p p' -> compact (rows p) -> compact (rows p').
Proof.
  intros H Hc. destruct H.
  - rewrite reorganize_rows_fst. now apply reorganize_compact.
  - unfold hide. cbn [rows]. rewrite reorganize_rows_fst. now apply reorganize_compact.
  - exact Hc.
  - eapply add_compact; eauto.
  - destruct (filter_ok blank_c mask p p' Hc H) as (a & d & f & E & Ha & Hd & Hf & _).
    rewrite E. exists (a ++ d), f. rewrite app_assoc. split; [reflexivity|]. split; [|exact Hf].
    apply contents_alive in Ha. apply contents_dead in Hd.
    apply Forall_app. split; (eapply Forall_impl; [|eassumption]); unfold alive, dead, free; cbn; lia.
  - eapply sort_compact; eauto.
  - cbn [rows]. destruct Hc as (u & f & E & Hu & Hf). rewrite E in H.
    apply Forall2_app_inv_l in H as (u' & f' & H1 & H2 & ->). exists u', f'. split; [reflexivity|]. split.
    + clear -H1 Hu. induction H1; [constructor|]. inversion Hu; subst. constructor; [tauto|auto].
    + clear -H2 Hf. induction H2; [constructor|]. inversion Hf; subst. constructor; [tauto|auto].
  - cbn [rows]. destruct Hc as (u0 & f0 & E & Hu0 & Hf0).
    (* u ++ f = u0 ++ f0 with u used: u is a prefix of u0 *)
    rewrite H in E. clear p H. revert u0 E Hu0.
    induction u as [|x u IH]; intros u0 E Hu0.
    + cbn in E. subst f. exists (u' ++ u0), f0. rewrite app_assoc. split; [reflexivity|].
      split; [apply Forall_app; auto|exact Hf0].
    + inversion H0; subst. destruct u0 as [|y u0].
      * cbn in E. rewrite <- E in Hf0. inversion Hf0; subst. contradiction.
      * cbn in E. injection E as -> E. inversion Hu0; subst. eapply IH; eauto.
Qed.

Lemma steps_compact (p p' : parts) : steps blank_c argsort p p' -> compact (rows p) -> compact (rows p').
Proof. induction 1; auto. intros. apply IHsteps. eapply step_compact; eauto. Qed.

Lemma fresh_compact (p : parts) : fresh p -> compact (rows p).
Proof. intros [_ H]. exact H. Qed.

(** After any history, reorganize groups the particles. *)
Lemma reorganize_reachable (p p' : parts) : fresh p -> steps blank_c argsort p p' ->
  well_grouped (reorganize blank_c p')
  /\ exists a d f, rows (reorganize blank_c p') = a ++ d ++ f
     /\ map content a = map content (filter is_active (rows p'))
     /\ map content d = map content (filter is_lost (rows p')) /\ Forall free f
     /\ length (rows (reorganize blank_c p')) = length (rows p').
Proof.
  intros Hf Hs. pose proof (steps_compact _ _ Hs (fresh_compact _ Hf)) as Hc.
  destruct (reorganize_ok blank_c (rows p') (or_introl Hc)) as (a & d & f & E & Ha & Hd & Hfr & Hr).
  unfold reorganize. rewrite E. cbn [rows]. split.
  - exists a, d, f. cbn [rows nact nlost]. repeat split; auto; [eapply contents_alive|eapply contents_dead]; eauto.
  - exists a, d, f. repeat split; auto. apply (f_equal (@length _)) in Hr. now rewrite !map_length in Hr.
Qed.
End Steps.

(** An argsort. *)
Fixpoint insert_key (k : list Q) (i : nat) (l : list nat) : list nat :=
  match l with
  | [] => [i]
  | j :: l' => if Qle_bool (nth i k 0%Q) (nth j k 0%Q) then i :: j :: l' else j :: insert_key k i l'
  end.
Definition argsort_ins (k : list Q) : list nat :=
  fold_right (insert_key k) [] (seq 0 (length k)).

Lemma insert_key_perm k i l : Permutation (insert_key k i l) (i :: l).
Proof.
  induction l as [|j l IH]; cbn; [reflexivity|]. destruct (Qle_bool _ _); [reflexivity|].
  rewrite IH. apply perm_swap.
Qed.
Lemma argsort_ins_perm k : Permutation (argsort_ins k) (seq 0 (length k)).
Proof.
  unfold argsort_ins. generalize (seq 0 (length k)) as s. induction s as [|i s IH]; cbn; [reflexivity|].
  rewrite insert_key_perm. now constructor.
Qed.
Lemma argsort_ins_sorted k : Sorted Qle (map (fun i => nth i k 0%Q) (argsort_ins k)).
Proof.
  unfold argsort_ins. generalize (seq 0 (length k)) as s. induction s as [|i s IH]; cbn; [constructor|].
  set (l := fold_right (insert_key k) [] s) in *. clearbody l. clear s.
  induction l as [|j l IHl]; cbn.
  - repeat constructor.
  - destruct (Qle_bool (nth i k 0%Q) (nth j k 0%Q)) eqn:E.
    + apply Qle_bool_iff in E. cbn. constructor; [exact IH|]. constructor. exact E.
    + assert (E' : (nth j k 0 <= nth i k 0)%Q).
      { destruct (Qlt_le_dec (nth j k 0%Q) (nth i k 0%Q)) as [H|H]; [now apply Qlt_le_weak|].
        apply Qle_bool_iff in H. congruence. }
      cbn in IH. inversion IH; subst. cbn. constructor; [auto|].
      destruct l as [|m l]; cbn; [constructor; exact E'|].
      destruct (Qle_bool (nth i k 0%Q) (nth m k 0%Q)); cbn; constructor; [exact E'|].
      cbn in H2. now inversion H2.
Qed.
