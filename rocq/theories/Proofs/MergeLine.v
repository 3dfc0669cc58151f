(** Proofs about merging multipoles: whole lines *)
From Coq Require Import Reals ZArith QArith Lra Lia List Bool String Arith.
From Verif.Model Require Import Maps Magnet MergeMultipoles.
From Verif.Model Require Line LineEdit.
From Verif.Spec Require Import MergeMultipoles.
From Verif.Spec Require Line LineEdit.
From Verif.Proofs Require Import MergeMultipoles MergeTrack.
From Verif.Proofs Require Repeated.
Import ListNotations.
Local Open Scope list_scope.

Lemma elements_app d a b la lb : elements d a = Some la -> elements d b = Some lb -> elements d (a ++ b) = Some (la ++ lb).
Proof.
  revert la; induction a as [|n a IH]; cbn; intros la Ha Hb; [now injection Ha as <-|].
  destruct (find d n); [|discriminate]. destruct (elements d a); [|discriminate]. injection Ha as <-.
  rewrite (IH _ eq_refl Hb). reflexivity.
Qed.
Lemma elements_rev d a la : elements d a = Some la -> elements d (rev a) = Some (rev la).
Proof.
  revert la; induction a as [|n a IH]; cbn; intros la Ha; [now injection Ha as <-|].
  destruct (find d n) eqn:F; [|discriminate]. destruct (elements d a); [|discriminate]. injection Ha as <-.
  cbn. apply elements_app; [now apply IH|]. cbn. now rewrite F.
Qed.

Section T.
Variable other : nat -> bool -> part -> part.
Variable thick : mp -> bool -> part -> part.
Variable synrad : bool.
Notation te := (track_element other thick synrad).
Definition through (bt : bool) (l : list (string * element)) (p : part) : part :=
  fold_left (fun p ne => te bt (snd ne) p) l p.

Lemma through_app bt a b p : through bt (a ++ b) p = through bt b (through bt a p).
Proof. apply fold_left_app. Qed.
Lemma track_all_through bt d names l p : elements d names = Some l ->
  track_all other thick synrad bt d names p = Some (through bt l p).
Proof.
  revert l p; induction names as [|n r IH]; cbn; intros l p H; [now injection H as <-|].
  destruct (find d n) as [e|]; [|discriminate]. destruct (elements d r); [|discriminate]. injection H as <-.
  now rewrite (IH _ _ eq_refl).
Qed.
Lemma track_line_through bt d names l p : elements d names = Some l ->
  track_line other thick synrad bt d names p = Some (through bt (if bt then rev l else l) p).
Proof. intros H. unfold track_line. apply track_all_through. destruct bt; [now apply elements_rev|exact H]. Qed.

Definition good (ne : string * element) : Prop := exists m, snd ne = EMult m /\ plain m.
Lemma collapse_through bt g : forall n m p, plain m -> Forall good g ->
  te bt (collapse (EMult m) g) p = through bt ((n, EMult m) :: g) p
  /\ te bt (collapse (EMult m) g) p = through bt (rev ((n, EMult m) :: g)) p.
Proof.
  induction g as [|[k e] g IH]; intros n m p Hm Hg; [split; reflexivity|].
  inversion Hg as [|x xs (b & E & Hb) Hg']; subst x xs. cbn in E. subst e.
  cbn [collapse fold_left merge2 snd]. change (fold_left _ g (EMult (merged m b))) with (collapse (EMult (merged m b)) g).
  destruct (IH n (merged m b) p (merged_plain m b Hm) Hg') as [A B].
  destruct (merged_track thick synrad bt m b p Hm Hb) as [M1 _]. split.
  - rewrite A. cbn [through fold_left snd]. cbn [track_element]. rewrite M1. reflexivity.
  - rewrite B. cbn [rev]. rewrite <- app_assoc, !through_app. cbn [app]. cbn [through fold_left snd track_element].
    destruct (merged_track thick synrad bt m b (through bt (rev g) p) Hm Hb) as [_ M2]. exact M2.
Qed.

Lemma mergeable_in keep n e : mergeable keep (n, e) = true -> exists m, e = EMult m /\ mp_thick m = false /\ mp_hxl m = 0%R.
Proof.
  unfold mergeable. cbn. destruct e as [m|t]; [|discriminate]. rewrite !andb_true_iff, !negb_true_iff. intros (((_ & T) & H) & _).
  apply is0_t in H. eauto.
Qed.

Lemma runs_through bt (f : list (string * element) -> element) gs : forall p,
  (forall h p, In h gs -> te bt (f h) p = through bt h p /\ te bt (f h) p = through bt (rev h) p) ->
  through bt (map (fun h => (run_name h, f h)) gs) p = through bt (List.concat gs) p
  /\ through bt (rev (map (fun h => (run_name h, f h)) gs)) p = through bt (rev (List.concat gs)) p.
Proof.
  induction gs as [|h gs IH]; intros p H; [split; reflexivity|].
  assert (H' : forall h p, In h gs -> te bt (f h) p = through bt h p /\ te bt (f h) p = through bt (rev h) p)
    by (intros x q Hx; apply H; now right).
  cbn [map rev List.concat]. rewrite rev_app_distr, !through_app. split.
  - cbn [through fold_left snd]. destruct (H h p (or_introl eq_refl)) as [-> _]. apply IH. exact H'.
  - rewrite (proj2 (IH p H')). destruct (H h (through bt (rev (List.concat gs)) p) (or_introl eq_refl)) as [_ <-]. reflexivity.
Qed.

Definition run_element (h : list (string * element)) : element :=
  match h with y :: r => collapse (snd y) r | [] => EOther 0 end.
Lemma elements_runs d gs : (forall h y r, In h gs -> h = y :: r -> find d (run_name h) = Some (collapse (snd y) r)) ->
  (forall h, In h gs -> h <> []) ->
  elements d (map run_name gs) = Some (map (fun h => (run_name h, run_element h)) gs).
Proof.
  induction gs as [|h gs IH]; intros H N; cbn; [reflexivity|].
  destruct h as [|y r]; [elim (N []); [now left|reflexivity]|].
  rewrite (H (y :: r) y r) by (auto; now left). rewrite IH; [reflexivity| |].
  - intros h' y' r' I. apply H. now right.
  - intros h' I. apply N. now right.
Qed.

Lemma run_plain keep l h y r : In h (runs (mergeable keep) l) -> h = y :: r -> r <> [] ->
  (forall n m, In (n, EMult m) l -> mergeable keep (n, EMult m) = true -> well_formed m /\ aligned m) ->
  Forall good h.
Proof.
  intros I E N H. destruct r as [|z r]; [congruence|].
  pose proof (runs_ok keep l h y z r I E) as O. rewrite Forall_forall in O. apply Forall_forall. intros [n e] X.
  pose proof (O _ X) as Ox. destruct (mergeable_in _ _ _ Ox) as (m & -> & T & H0). exists m. split; [reflexivity|].
  assert (In (n, EMult m) l) as L.
  { rewrite <- (runs_concat (mergeable keep) l). apply in_concat. eauto. }
  destruct (H _ _ L Ox) as [W A]. repeat split; try assumption; apply W.
Qed.

Lemma merge_tracks keep d names l : elements d names = Some l -> fresh_names keep d (runs (mergeable keep) l) ->
  (forall n m, In (n, EMult m) l -> mergeable keep (n, EMult m) = true -> well_formed m /\ aligned m) ->
  forall d' names', merge keep d names = Some (d', names') -> forall bt p,
  track_line other thick synrad bt d' names' p = track_line other thick synrad bt d names p.
Proof.
  intros E F H d' names' M bt p. destruct (merge_ok keep d names l E F) as (d2 & M2 & _ & F3). rewrite M in M2. injection M2 as -> ->.
  rewrite (track_line_through bt d names l p E).
  rewrite (track_line_through bt d2 _ _ p (elements_runs d2 _ F3 (runs_nonempty _ _))).
  destruct (runs_through bt run_element (runs (mergeable keep) l) p) as [A B].
  - intros h q I. destruct h as [|y r] eqn:Eh; [elim (runs_nonempty _ _ _ I); reflexivity|].
    destruct r as [|z r]; [split; reflexivity|].
    assert (Forall good (y :: z :: r)) as G by (eapply run_plain; [exact I|reflexivity|discriminate|exact H]).
    inversion G as [|? ? (m & Em & Pm) G']; subst. destruct y as [n e]. cbn in Em. subst e.
    exact (collapse_through bt (z :: r) n m q Pm G').
  - rewrite runs_concat in A, B. destruct bt; congruence.
Qed.

(** the strengths of a run *)
Lemma collapse_strengths g : forall m, Forall good g -> exists m', collapse (EMult m) g = EMult m' /\
  forall i, normal m' i = sum (map (fun a => normal a i) (m :: mults g)) /\ skew m' i = sum (map (fun a => skew a i) (m :: mults g)).
Proof.
  induction g as [|[k e] g IH]; intros m Hg.
  - exists m. split; [reflexivity|]. intros i. cbn. split; ring.
  - inversion Hg as [|x xs (b & E & Hb) Hg']; subst x xs. cbn in E. subst e. destruct (IH (merged m b) Hg') as (m' & E' & S).
    exists m'. split; [exact E'|]. intros i. destruct (S i) as [-> ->]. cbn [mults flat_map snd map sum fold_right List.app].
    rewrite merged_normal, merged_skew. unfold sum. cbn [fold_right map]. fold (mults g). split; ring.
Qed.
Lemma run_strengths keep d names l d' names' : elements d names = Some l -> fresh_names keep d (runs (mergeable keep) l) ->
  (forall n m, In (n, EMult m) l -> mergeable keep (n, EMult m) = true -> well_formed m /\ aligned m) ->
  merge keep d names = Some (d', names') -> forall h, In h (runs (mergeable keep) l) -> (1 < List.length h)%nat ->
  exists m, find d' (run_name h) = Some (EMult m) /\ List.length (mults h) = List.length h /\
  forall i, normal m i = sum (map (fun a => normal a i) (mults h)) /\ skew m i = sum (map (fun a => skew a i) (mults h)).
Proof.
  intros E F H M h I L. destruct (merge_ok keep d names l E F) as (d2 & M2 & _ & F3). rewrite M in M2. injection M2 as -> ->.
  destruct h as [|y [|z r]]; cbn in L; [lia|lia|].
  assert (Forall good (y :: z :: r)) as G by (eapply run_plain; [exact I|reflexivity|discriminate|exact H]).
  rewrite (F3 _ y (z :: r) I eq_refl). inversion G as [|? ? (m & Em & Pm) G']; subst. destruct y as [n e]. cbn in Em. subst e.
  destruct (collapse_strengths (z :: r) m G') as (m' & E' & S). exists m'. cbn [snd]. rewrite E'. split; [reflexivity|].
  assert (Lm : forall g, Forall good g -> List.length (mults g) = List.length g).
  { induction g as [|[k e] g IHg]; [reflexivity|]. intros Hg. inversion Hg as [|? ? (b & E1 & _) Hg']; subst. cbn in E1. subst e. cbn. f_equal. now apply IHg. }
  split; [now apply Lm|]. exact S.
Qed.
End T.

(** * The first step *)
Lemma find_map d' f n : find (map (fun ne : string * Line.elem => (fst ne, f (snd ne))) d') n = option_map f (Line.find d' n).
Proof. induction d' as [|[m e] r IH]; cbn; [reflexivity|]. destruct (String.eqb n m); [reflexivity|exact IH]. Qed.
Definition own (v : Line.env) : Prop := forall n e, Line.lookup v n = Some e -> exists c q i, e = Line.EOwn c q i.
Lemma own_resolve v n : own v -> Line.resolve v n = option_map (fun e => (n, e)) (Line.lookup v n).
Proof.
  intros O. unfold Line.resolve. destruct (Line.lookup v n) as [e|] eqn:L; [|reflexivity].
  destruct (O _ _ L) as (c & q & i & ->). reflexivity.
Qed.
Lemma own_rename sep nn line : forall v i v' line', own v -> LineEdit.rename sep nn v i line = Some (v', line') -> own v'.
Proof.
  induction line as [|[o c] r IH]; cbn; intros v i v' line' O H; [now injection H as <- <-|].
  destruct (String.eqb o nn).
  - unfold LineEdit.clone_elem in H. rewrite own_resolve in H by exact O.
    destruct (Line.lookup v nn) as [e|] eqn:L; cbn in H; [|discriminate].
    destruct (LineEdit.rename sep nn _ _ r) as [[v1 l1]|] eqn:R in H; [|discriminate]. injection H as <- <-.
    eapply IH; [|exact R]. intros m e' H'. unfold Line.lookup in H'. cbn in H'.
    destruct (String.eqb m _); [injection H' as <-; exact (O _ _ L)|exact (O _ _ H')].
  - destruct (LineEdit.rename sep nn v i r) as [[v1 l1]|] eqn:R; [|discriminate]. injection H as <- <-. eapply IH; eauto.
Qed.
Lemma own_rename_all sep too names order : forall v line v' line', own v ->
  LineEdit.rename_all sep too v order names line = Some (v', line') -> own v'.
Proof.
  induction order as [|nn rest IH]; cbn [LineEdit.rename_all]; intros v line v' line' O H; [now injection H as <- <-|].
  destruct (_ && _); [eauto|]. destruct (1 <? LineEdit.count nn names)%nat; [|eauto].
  destruct (LineEdit.rename sep nn v 0 line) as [[v1 l1]|] eqn:R; [|discriminate].
  eapply IH; [|exact H]. eapply own_rename; eauto.
Qed.
Lemma find_numbered d : forall i n, match find d n with
  | None => Line.find (numbered i d) n = None
  | Some e => exists k m, Line.find (numbered i d) n = Some (Line.EOwn Line.CThin 0%Q (i + k)) /\ nth_error d k = Some (m, e)
  end.
Proof.
  induction d as [|[m e] r IH]; intros i n; cbn; [reflexivity|]. destruct (String.eqb n m).
  - exists 0%nat, m. now rewrite Nat.add_0_r.
  - specialize (IH (S i) n). destruct (find r n); [|exact IH]. destruct IH as (k & m' & F & N).
    exists (S k), m'. rewrite <- Nat.add_succ_comm. auto.
Qed.
Definition coded (d : dict) : Line.env := Line.mkEnv (numbered 0 d) 0 [].
Lemma coded_find d n : option_map (content d) (Line.lookup (coded d) n) = find d n.
Proof.
  unfold Line.lookup, coded. cbn. pose proof (find_numbered d 0 n) as H. destruct (find d n) as [e|].
  - destruct H as (k & m & -> & N). cbn in *. now rewrite N.
  - now rewrite H.
Qed.
Lemma coded_own d : own (coded d).
Proof.
  intros n e. unfold Line.lookup, coded. cbn. pose proof (find_numbered d 0 n) as H. destruct (find d n).
  - destruct H as (k & m & -> & _). intros E. injection E as <-. eauto.
  - rewrite H. discriminate.
Qed.
Lemma elements_some d names : (forall n, In n names -> find d n <> None) -> exists l, elements d names = Some l.
Proof.
  induction names as [|n r IH]; intros H; cbn; [eauto|]. destruct (find d n) eqn:F; [|elim (H n); [now left|exact F]].
  destruct IH as [l ->]; [intros m I; apply H; now right|eauto].
Qed.

Lemma repeated_ok d order names d' names' : NoDup order -> (forall n, In n order <-> In n names) ->
  (forall n, In n names -> find d n <> None) ->
  replace_repeated d order names = Some (d', names') ->
  (forall n e, find d n = Some e -> find d' n = Some e) /\ NoDup names' /\ List.length names' = List.length names /\
  (forall i n n', nth_error names i = Some n -> nth_error names' i = Some n' -> find d' n' = find d n) /\
  (forall i n n', nth_error names i = Some n -> nth_error names' i = Some n' ->
     (count_occ string_dec names n = 1%nat -> n' = n) /\ ((1 < count_occ string_dec names n)%nat -> find d n' = None)).
Proof.
  intros No Ho Hc H. unfold replace_repeated in H. fold (coded d) in H.
  destruct (LineEdit.replace_repeated "." true (coded d) order names) as [[v l]|] eqn:R; [|discriminate]. injection H as <- <-.
  assert (Hr : forall n, In n names -> Line.resolve (coded d) n <> None).
  { intros n I. rewrite own_resolve by apply coded_own. pose proof (coded_find d n) as C. specialize (Hc n I).
    destruct (Line.lookup (coded d) n); [discriminate|]. now elim Hc. }
  destruct (Repeated.repeated_ok "." true (coded d) order names v l No Ho Hr R) as (K & _ & _ & Len & S & U).
  assert (Ov : own v).
  { unfold LineEdit.replace_repeated in R. destruct (LineEdit.rename_all _ _ _ _ _ _) as [[v1 l1]|] eqn:A; [|discriminate].
    injection R as <- <-. eapply own_rename_all; [apply coded_own|exact A]. }
  assert (Fv : forall n, find (map (fun ne => (fst ne, content d (snd ne))) (Line.en_dict v)) n = option_map (content d) (Line.lookup v n)).
  { intros n. apply find_map. }
  split; [|split; [|split; [exact Len|split]]].
  - intros n e F. rewrite Fv. rewrite <- (coded_find d n) in F. destruct (Line.lookup (coded d) n) as [x|] eqn:L; [|discriminate].
    rewrite (K _ _ L). exact F.
  - apply NoDup_nth_error. intros i j Li E.
    destruct (nth_error l i) as [x|] eqn:X; [|apply nth_error_None in X; lia]. symmetry in E.
    destruct (U i j x X E) as [Y|[Y _]]; [exact Y|discriminate].
  - intros i n n' N1 N2. destruct (S i n n' N1 N2) as ((t & t' & e & R1 & R2) & _ & _). rewrite Fv, <- coded_find.
    rewrite own_resolve in R1 by apply coded_own. rewrite own_resolve in R2 by exact Ov.
    destruct (Line.lookup (coded d) n), (Line.lookup v n'); cbn in R1, R2; try discriminate. congruence.
  - intros i n n' N1 N2. destruct (S i n n' N1 N2) as (_ & A & B). split.
    + intros C. apply B. now left.
    + intros C. rewrite <- coded_find, A; auto.
Qed.

Lemma repeated_elements d order names d1 names1 l : NoDup order -> (forall n, In n order <-> In n names) ->
  elements d names = Some l -> replace_repeated d order names = Some (d1, names1) ->
  exists l1, elements d1 names1 = Some l1 /\ map snd l1 = map snd l.
Proof.
  intros No Ho E R.
  assert (Hc : forall n, In n names -> find d n <> None).
  { clear -E. revert l E; induction names as [|m r IH]; cbn; intros l E n I; [tauto|]. destruct (find d m) eqn:F; [|discriminate].
    destruct (elements d r); [|discriminate]. destruct I as [<-|I]; [congruence|]. eapply IH; eauto. }
  destruct (repeated_ok d order names d1 names1 No Ho Hc R) as (_ & _ & Len & S & _). clear -E Len S.
  revert names1 Len S l E; induction names as [|n r IH]; intros [|n1 r1] Len S l E; cbn in Len; try lia.
  - cbn in E. injection E as <-. exists []. auto.
  - cbn in E |- *. destruct (find d n) as [e|] eqn:F; [|discriminate]. destruct (elements d r) as [lr|]; [|discriminate]. injection E as <-.
    rewrite (S 0%nat n n1 eq_refl eq_refl), F. destruct (IH r1 ltac:(lia)) with (l := lr) as (l1 & -> & Es); auto.
    { intros i. exact (S (Datatypes.S i)). }
    exists ((n1, e) :: l1). split; [reflexivity|]. cbn. now rewrite Es.
Qed.

Lemma through_same other thick synrad bt l l1 p : map snd l1 = map snd l ->
  through other thick synrad bt l1 p = through other thick synrad bt l p.
Proof.
  unfold through. revert l1 p; induction l as [|x l IH]; intros [|y l1] p H; try discriminate; [reflexivity|].
  injection H as E H. cbn. rewrite E. now apply IH.
Qed.

Lemma consecutive_tracks other thick synrad keep d order names l : NoDup order -> (forall n, In n order <-> In n names) ->
  elements d names = Some l ->
  forall d1 names1 l1, replace_repeated d order names = Some (d1, names1) -> elements d1 names1 = Some l1 ->
  fresh_names keep d1 (runs (mergeable keep) l1) ->
  (forall n m, In (n, EMult m) l1 -> mergeable keep (n, EMult m) = true -> well_formed m /\ aligned m) ->
  forall d' names', merge_consecutive keep d order names = Some (d', names') -> forall bt p,
  track_line other thick synrad bt d' names' p = track_line other thick synrad bt d names p.
Proof.
  intros No Ho E d1 names1 l1 R E1 F H d' names' M bt p. unfold merge_consecutive in M. rewrite R in M.
  rewrite (merge_tracks other thick synrad keep d1 names1 l1 E1 F H d' names' M bt p).
  destruct (repeated_elements d order names d1 names1 l No Ho E R) as (l2 & E2 & S). rewrite E1 in E2. injection E2 as <-.
  rewrite (track_line_through _ _ _ bt d1 names1 l1 p E1), (track_line_through _ _ _ bt d names l p E). f_equal.
  apply through_same. destruct bt; [|exact S]. rewrite !map_rev. now f_equal.
Qed.

Lemma merge_names keep d names l : elements d names = Some l -> fresh_names keep d (runs (mergeable keep) l) ->
  exists d', merge keep d names = Some (d', map run_name (runs (mergeable keep) l)) /\
    forall n e, find d n = Some e -> find d' n = Some e.
Proof.
  intros E F. destruct (merge_ok keep d names l E F) as (d' & M & K & _). exists d'. split; [exact M|].
  intros n e H. rewrite K; [exact H|]. intros I. destruct F as [_ F]. destruct (F n I) as [N _]. congruence.
Qed.
