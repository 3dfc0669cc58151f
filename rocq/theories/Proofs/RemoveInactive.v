(** Proofs about removing multipoles which do nothing *)
From Coq Require Import Reals ZArith Lra Lia List Bool String Arith.
From Verif.Model Require Import Maps Magnet FeedDown MergeMultipoles.
From Verif.Model Require LineEdit.
From Verif.Spec Require Import Frames Aligned MergeMultipoles.
From Verif.Proofs Require Import FrameMaps MagnetKick Cx Aligned RemoveApertures MergeMultipoles MergeTrack MergeLine.
Import ListNotations.
Local Open Scope R_scope.
Local Open Scope list_scope.

Lemma all_zero l : forallb is0 l = true <-> forall i, nth i l 0 = 0.
Proof.
  induction l as [|v r IH]; cbn [forallb].
  - split; [intros _ [|i]; reflexivity|reflexivity].
  - rewrite andb_true_iff, IH, is0_t. split.
    + intros [-> H] [|i]; [reflexivity|apply H].
    + intros H. split; [exact (H 0%nat)|]. intros i. exact (H (S i)).
Qed.
Lemma inactive_iff m : inactive m = true <-> does_nothing m.
Proof.
  unfold inactive, does_nothing. rewrite !andb_true_iff, negb_true_iff, andb_false_iff, negb_false_iff, !is0_t, !all_zero. split.
  - intros (((((A & B) & C) & D) & E) & F). split; [intros T; destruct A; [congruence|assumption]|].
    repeat split; try assumption; [now rewrite <- total_knl_nth|now rewrite <- total_ksl_nth].
  - intros (A & B & C & D & E). repeat split; try assumption.
    + destruct (mp_thick m); auto.
    + intros i. rewrite total_knl_nth. apply E.
    + intros i. rewrite total_ksl_nth. apply E.
Qed.
Lemma nothing_track thick synrad m p : does_nothing m -> mp_thick m = false -> well_formed m -> physical p ->
  track_mult thick synrad false m p = p.
Proof.
  intros (_ & H0 & Rx & Ry & Z) T W P. unfold track_mult. rewrite T.
  assert (B : forall q, thin_slice false 1 (magnet_of m) q = q).
  { intros q. rewrite (thin_kick m (List.length (mp_knl m) + List.length (mp_knl_rel m))) by (try assumption; lia). cbv zeta.
    assert (F : field m (List.length (mp_knl m) + List.length (mp_knl_rel m)) (p_x q, p_y q) = C0).
    { unfold field, fieldc. rewrite <- (csum_0 (List.length (mp_knl m) + List.length (mp_knl_rel m))). apply csum_ext.
      intros i _. destruct (Z i) as [-> ->]. cxr. }
    rewrite F. cbn [C0 fst snd]. replace (1 * (p_chi q * - 0)) with 0 by ring. replace (1 * (p_chi q * 0)) with 0 by ring. apply kicked_0. }
  pose proof (aligned_drift synrad (mp_align m) 0 0 p (untilted_enter _ p Ry Rx P)) as D.
  unfold track_aligned, Drift_track, run_drift in *. cbn [Z.eqb Pos.eqb] in D. rewrite !drift_exact_0 in D.
  destruct (rot_shift_active (mp_align m)); rewrite B; [exact D|reflexivity].
Qed.

Definition gone (keep : list string) (ne : string * element) : bool :=
  match snd ne with EMult m => negb (LineEdit.sin keep (fst ne)) && inactive m | EOther _ => false end.
Lemma remove_filter keep l : remove_inactive keep l = map fst (filter (fun ne => negb (gone keep ne)) l).
Proof.
  induction l as [|[n e] r IH]; cbn; [reflexivity|]. unfold gone at 1. cbn [snd fst].
  destruct e as [m|t]; cbn; [|now rewrite IH]. destruct (negb (LineEdit.sin keep n) && inactive m); cbn; now rewrite IH.
Qed.
Lemma removed_ok keep d names l names' : elements d names = Some l -> remove_inactive_multipoles keep d names = Some names' ->
  exists stays, names' = map fst (filter stays l) /\
    forall n e, stays (n, e) = false <-> ~ In n keep /\ exists m, e = EMult m /\ does_nothing m.
Proof.
  intros E H. unfold remove_inactive_multipoles in H. rewrite E in H. injection H as <-.
  exists (fun ne => negb (gone keep ne)). split; [apply remove_filter|]. intros n e. rewrite negb_false_iff. unfold gone. cbn [fst snd].
  destruct e as [m|t].
  - rewrite andb_true_iff, negb_true_iff, inactive_iff. split.
    + intros [K D]. split; [|eauto]. intros I. apply sin_in in I. congruence.
    + intros [K (m' & E' & D)]. injection E' as <-. split; [|exact D].
      destruct (LineEdit.sin keep n) eqn:S; [apply sin_in in S; tauto|reflexivity].
  - split; [discriminate|]. intros [_ (m & E' & _)]. discriminate.
Qed.
Lemma elements_filter d (f : string * element -> bool) names l : elements d names = Some l ->
  elements d (map fst (filter f l)) = Some (filter f l).
Proof.
  revert l; induction names as [|n r IH]; cbn; intros l H; [now injection H as <-|].
  destruct (find d n) as [e|] eqn:F; [|discriminate]. destruct (elements d r) as [lr|]; [|discriminate]. injection H as <-.
  cbn. destruct (f (n, e)); cbn; [rewrite F, (IH _ eq_refl)|rewrite (IH _ eq_refl)]; reflexivity.
Qed.
Lemma elements_firstn d names l k : elements d names = Some l -> elements d (firstn k names) = Some (firstn k l).
Proof.
  revert l k; induction names as [|n r IH]; cbn; intros l k H.
  - injection H as <-. destruct k; reflexivity.
  - destruct (find d n) as [e|] eqn:F; [|discriminate]. destruct (elements d r) as [lr|]; [|discriminate]. injection H as <-.
    destruct k; cbn; [reflexivity|]. rewrite F, (IH _ k eq_refl). reflexivity.
Qed.
Lemma removed_tracks other thick synrad keep d names l names' p : elements d names = Some l ->
  remove_inactive_multipoles keep d names = Some names' ->
  (forall n m, In (n, EMult m) l -> ~ In n keep -> does_nothing m -> mp_thick m = false /\ well_formed m) ->
  (forall k q, track_line other thick synrad false d (firstn k names) p = Some q -> physical q) ->
  track_line other thick synrad false d names' p = track_line other thick synrad false d names p.
Proof.
  intros E R H P. unfold remove_inactive_multipoles in R. rewrite E in R. injection R as <-. rewrite remove_filter.
  rewrite (track_line_through _ _ _ false d _ _ p (elements_filter d _ names l E)), (track_line_through _ _ _ false d names l p E).
  f_equal.
  assert (P' : forall k, physical (through other thick synrad false (firstn k l) p)).
  { intros k. apply (P k). now rewrite (track_line_through _ _ _ false d _ _ p (elements_firstn d names l k E)). }
  clear P E. revert p P'. induction l as [|[n e] r IH]; intros p P'; [reflexivity|].
  assert (IH' : forall q, (forall k, physical (through other thick synrad false (firstn k r) q)) ->
    through other thick synrad false (filter (fun ne => negb (gone keep ne)) r) q = through other thick synrad false r q).
  { intros q Q. apply IH; [|exact Q]. intros n' m I. apply (H n' m). now right. }
  cbn [filter]. destruct (gone keep (n, e)) eqn:G; cbn [negb].
  - cbn [through fold_left snd]. unfold gone in G. cbn [fst snd] in G. destruct e as [m|t]; [|discriminate].
    rewrite andb_true_iff, negb_true_iff, inactive_iff in G. destruct G as [K D].
    assert (~ In n keep) as K' by (intros I; apply sin_in in I; congruence).
    destruct (H n m (or_introl eq_refl) K' D) as [T W].
    assert (Eq : track_element other thick synrad false (EMult m) p = p).
    { cbn. apply nothing_track; try assumption. exact (P' 0%nat). }
    rewrite Eq. apply IH'. intros k. specialize (P' (S k)). cbn [firstn through fold_left snd] in P'. rewrite Eq in P'. exact P'.
  - cbn [through fold_left snd]. apply IH'. intros k. exact (P' (S k)).
Qed.
