From Coq Require Import ZArith List Bool Lia ZifyBool.
From Verif.Model Require Import Kernel Collective.
From Verif.Spec Require Import Collective.
Import ListNotations.
Local Open Scope Z_scope.

Lemma skipn_add {A} (n : nat) : forall m (l : list A), skipn (m + n) l = skipn n (skipn m l).
Proof. induction m as [|m IH]; intros [|x l]; cbn [skipn Nat.add]; auto. now rewrite skipn_nil. Qed.

Section Hold.
Context {S : Type} (o : kops S).
Variable col : Z -> S -> S * option bool.
Variable tdep : S -> S.
Variable L : Z.
Variable parts : list cpart.
Variable ep : list nat.
Variable ei : list (option Z).
Variable skip_end : bool.
Variable fm : Z.
Hypothesis Hfm : fm <> 2.
Variables (i0 : Z) (stop : option Z) (num_turns : Z).

Notation tpart c := (track_part o c L ep ei fm).
Notation ploop c := (parts_loop o c L ep ei fm).
Notation tloop c := (turns_loop o c tdep L parts ep ei skip_end fm).
Notation star k := (col_until k col).

(** Control does not depend on the particles: a part is either a call of a collective element, or
    does not call any. *)
Lemma track_part_kind pp tt ipp :
  (exists i, pp = PCol i /\ forall c s, tpart c pp tt ipp i0 stop num_turns false s = col_track c i false s)
  \/ (forall c1 c2 s, tpart c1 pp tt ipp i0 stop num_turns false s = tpart c2 pp tt ipp i0 stop num_turns false s
      /\ forall s', tpart c1 pp tt ipp i0 stop num_turns false s <> PHold s').
Proof.
  assert (Nt : forall r b s', @non_track S r b <> PHold s') by (intros [r|] b s'; discriminate).
  replace (fm =? 2) with false by lia.
  unfold track_part. replace (fm =? 2) with false by lia.
  destruct ((tt =? 0) && Nat.ltb ipp (elem_part ep i0)).
  { right. split; [reflexivity|discriminate]. }
  destruct ((tt =? 0) && Nat.eqb (elem_part ep i0) ipp).
  { destruct (elem_index ei i0).
    - right. destruct pp; [split; [reflexivity|discriminate]|]. intros c1 c2 s.
      match goal with |- context [if ?b then non_track _ true else _] => destruct b end;
        (split; [reflexivity|apply Nt]).
    - destruct pp as [i|lo hi].
      + left. exists i. split; [reflexivity|]. reflexivity.
      + right. split; [reflexivity|discriminate]. }
  match goal with |- context [if ?b then match _ with Some _ => _ | None => PGo _ true end else _] =>
    destruct b end.
  { right. intros c1 c2 s. destruct (match stop with Some j => elem_index ei j | None => None end);
      destruct pp; (split; [reflexivity|try apply Nt; discriminate]). }
  destruct pp as [i|lo hi].
  - left. exists i. split; reflexivity.
  - right. split; [reflexivity|apply Nt].
Qed.

(** More patience does not change what has been accepted. *)
Lemma star_mono k i : forall s s' r, star k i s = (s', r) -> r <> Some true ->
  forall k', (k <= k')%nat -> star k' i s = (s', r).
Proof.
  induction k as [|k IH]; intros s s' r H Hr k' Hk.
  - cbn [col_until] in H. destruct k'; cbn [col_until];
      destruct (col i s) as [s1 [[|]|]]; congruence.
  - destruct k' as [|k']; [lia|]. cbn [col_until] in *.
    destruct (col i s) as [s1 [[|]|]]; auto. eapply IH; eauto. lia.
Qed.

Lemma ploop_mono k k' : (k <= k')%nat -> forall pps ipp tt s s' b,
  ploop (star k) pps ipp tt i0 stop num_turns false s = TGo s' b ->
  ploop (star k') pps ipp tt i0 stop num_turns false s = TGo s' b.
Proof.
  intros Hk. induction pps as [|pp pps IH]; intros ipp tt s s' b H; [exact H|].
  cbn [parts_loop] in *. destruct (track_part_kind pp tt ipp) as [(i & -> & Ht)|Ht].
  - rewrite Ht in *. unfold col_track in *.
    destruct (star k i s) as [s1 [[|]|]] eqn:E; try discriminate.
    rewrite (star_mono _ _ _ _ _ E ltac:(discriminate) k' Hk). auto.
  - destruct (Ht (star k) (star k') s) as [E _]. rewrite E in H.
    destruct (tpart (star k') pp tt ipp i0 stop num_turns false s); auto.
    destruct stop0; auto.
Qed.

Lemma tloop_mono k k' : (k <= k')%nat -> forall n tt rs s s',
  tloop (star k) n tt rs i0 stop num_turns false false s = Done s' ->
  tloop (star k') n tt rs i0 stop num_turns false false s = Done s'.
Proof.
  intros Hk. induction n as [|n IH]; intros tt rs s s' H; [exact H|].
  cbn [turns_loop andb] in *.
  match goal with |- context [ploop _ ?p ?i ?t _ _ _ _ ?x] =>
    destruct (ploop (star k) p i t i0 stop num_turns false x) eqn:E end; try discriminate.
  rewrite (ploop_mono _ _ Hk _ _ _ _ _ _ E). destruct stop0; [exact H|].
  destruct (end_turn o L skip_end fm stop s0); auto.
Qed.

(** ** Uninterrupted runs *)
Lemma ploop_nohold k : forall pps ipp tt s s' b,
  ploop col pps ipp tt i0 stop num_turns false s = TGo s' b ->
  ploop (star k) pps ipp tt i0 stop num_turns false s = TGo s' b.
Proof.
  induction pps as [|pp pps IH]; intros ipp tt s s' b H; [exact H|].
  cbn [parts_loop] in *. destruct (track_part_kind pp tt ipp) as [(i & -> & Ht)|Ht].
  - rewrite Ht in *. unfold col_track in *.
    assert (E : forall s1 r, col i s = (s1, r) -> r <> Some true -> star k i s = (s1, r)).
    { intros s1 r E Hr. destruct k; cbn [col_until]; rewrite E; destruct r as [[|]|]; congruence. }
    destruct (col i s) as [s1 [[|]|]] eqn:Ec; try discriminate.
    rewrite (E s1 None eq_refl ltac:(discriminate)). auto.
  - destruct (Ht col (star k) s) as [E _]. rewrite E in H.
    destruct (tpart (star k) pp tt ipp i0 stop num_turns false s); auto.
    destruct stop0; auto.
Qed.

(** A hold in the loop over parts. *)
Lemma ploop_hold k : forall pps ipp tt s ih s1,
  ploop col pps ipp tt i0 stop num_turns false s = THold ih s1 ->
  (ipp <= ih)%nat /\ (ih - ipp < length pps)%nat /\
  forall s' b, ploop (star k) (skipn (ih - ipp) pps) ih tt i0 stop num_turns false s1 = TGo s' b ->
  ploop (star (Datatypes.S k)) pps ipp tt i0 stop num_turns false s = TGo s' b.
Proof.
  induction pps as [|pp pps IH]; intros ipp tt s ih s1 H; [discriminate|].
  cbn [parts_loop] in H. destruct (track_part_kind pp tt ipp) as [(i & -> & Ht)|Ht].
  - rewrite Ht in H. unfold col_track in H.
    destruct (col i s) as [s2 [[|]|]] eqn:Ec; try discriminate.
    + injection H as <- <-. split; [lia|]. split; [cbn [length]; lia|]. intros s' b.
      replace (ipp - ipp)%nat with 0%nat by lia. cbn [skipn parts_loop]. rewrite !Ht.
      unfold col_track.
      replace (star (Datatypes.S k) i s) with (star k i s2) by (cbn [col_until]; now rewrite Ec).
      destruct (star k i s2) as [s3 [[|]|]]; try discriminate.
      intros H. eapply ploop_mono; [|exact H]. lia.
    + destruct (IH _ _ _ _ _ H) as (H1 & H2 & H3).
      split; [lia|]. split; [cbn [length]; lia|]. intros s' b.
      replace (ih - ipp)%nat with (Datatypes.S (ih - Datatypes.S ipp)) by lia. cbn [skipn].
      intros H4. specialize (H3 s' b H4). cbn [parts_loop]. rewrite Ht. unfold col_track.
      replace (star (Datatypes.S k) i s) with (s2, @None bool) by (cbn [col_until]; now rewrite Ec).
      exact H3.
  - destruct (Ht col (star (Datatypes.S k)) s) as [E Hn]. 
    destruct (tpart col pp tt ipp i0 stop num_turns false s) as [|s2|s2|s2 b2] eqn:Et;
      try discriminate.
    + exfalso. eapply Hn. reflexivity.
    + destruct (IH _ _ _ _ _ H) as (H1 & H2 & H3).
      split; [lia|]. split; [cbn [length]; lia|]. intros s' b.
      replace (ih - ipp)%nat with (Datatypes.S (ih - Datatypes.S ipp)) by lia. cbn [skipn].
      intros H4. cbn [parts_loop]. rewrite <- E. auto.
    + destruct b2; [discriminate|].
      destruct (IH _ _ _ _ _ H) as (H1 & H2 & H3).
      split; [lia|]. split; [cbn [length]; lia|]. intros s' b.
      replace (ih - ipp)%nat with (Datatypes.S (ih - Datatypes.S ipp)) by lia. cbn [skipn].
      intros H4. cbn [parts_loop]. rewrite <- E. auto.
Qed.

Lemma tloop_done k : forall n tt rs s s',
  tloop col n tt rs i0 stop num_turns false false s = Done s' ->
  tloop (star k) n tt rs i0 stop num_turns false false s = Done s'.
Proof.
  induction n as [|n IH]; intros tt rs s s' H; [exact H|].
  cbn [turns_loop andb] in *.
  match goal with |- context [ploop _ ?p ?i ?t _ _ _ _ ?x] =>
    destruct (ploop col p i t i0 stop num_turns false x) eqn:E end; try discriminate.
  rewrite (ploop_nohold k _ _ _ _ _ _ E). destruct stop0; [exact H|].
  destruct (end_turn o L skip_end fm stop s0); auto.
Qed.

Lemma tloop_hold k : forall n tt rs s h s1, tt + Z.of_nat n = num_turns -> 0 <= tt ->
  tloop col n tt rs i0 stop num_turns false false s = OnHold h s1 ->
  ss_start h = i0 /\ ss_stop h = stop /\ ss_turns h = num_turns /\ 0 <= ss_tt h < num_turns /\
  forall s', tloop (star k) (Z.to_nat (num_turns - ss_tt h)) (ss_tt h) (Some (ss_ipp h)) i0 stop num_turns
       false false s1 = Done s' ->
  tloop (star (Datatypes.S k)) n tt rs i0 stop num_turns false false s = Done s'.
Proof.
  induction n as [|n IH]; intros tt rs s h s1 Hn Htt H; [discriminate|].
  cbn [turns_loop andb] in H.
  match type of H with context [ploop _ ?p ?i ?t _ _ _ _ ?x] =>
    set (ipp0 := i) in *; set (s0 := x) in * end.
  match type of H with context [ploop ?c ?p ?i ?t ?a ?b ?n ?m ?x] =>
    destruct (ploop c p i t a b n m x) as [|ih sh|sg bg] eqn:E end; try discriminate.
  - injection H as <- <-. cbn [ss_start ss_stop ss_turns ss_tt ss_ipp].
    destruct (ploop_hold k _ _ _ _ _ _ E) as (H1 & H2 & H3).
    repeat split; try lia. intros s' Hd.
    replace (Z.to_nat (num_turns - tt)) with (Datatypes.S n) in Hd by lia.
    cbn [turns_loop andb negb] in Hd |- *. rewrite andb_false_r in Hd.
    fold ipp0. fold s0.
    rewrite skipn_length in H2.
    assert (Esk : skipn ih parts = skipn (ih - ipp0) (skipn ipp0 parts)).
    { rewrite <- skipn_add. f_equal. lia. }
    rewrite Esk in Hd.
    destruct (ploop (star k) (skipn (ih - ipp0) (skipn ipp0 parts)) ih tt i0 stop num_turns false sh)
      as [| |sg bg] eqn:E2; try discriminate.
    rewrite (H3 _ _ eq_refl). destruct bg; [exact Hd|].
    destruct (end_turn o L skip_end fm stop sg); [|discriminate].
    eapply tloop_mono; [|exact Hd]. lia.
  - destruct bg; [discriminate|].
    destruct (end_turn o L skip_end fm stop sg) as [se|] eqn:Ee; [|discriminate].
    destruct (IH (tt + 1) None se h s1 ltac:(lia) ltac:(lia) H) as (H1 & H2 & H3 & H4 & H5).
    repeat split; try assumption; try lia. intros s' Hd. specialize (H5 s' Hd).
    cbn [turns_loop andb]. fold ipp0. fold s0. rewrite (ploop_nohold _ _ _ _ _ _ _ E), Ee. exact H5.
Qed.

(** ** Held and resumed runs *)
Lemma drive_done : forall fuel n tt rs s s', tt + Z.of_nat n = num_turns -> 0 <= tt ->
  drive o col tdep L parts ep ei skip_end fm fuel false
    (tloop col n tt rs i0 stop num_turns false false s) = Done s' ->
  exists k, (k <= fuel)%nat /\ tloop (star k) n tt rs i0 stop num_turns false false s = Done s'.
Proof.
  induction fuel as [|fuel IH]; intros n tt rs s s' Hn Htt H.
  - exists 0%nat. split; [lia|]. apply tloop_done.
    cbn [drive] in H. destruct (tloop col n tt rs i0 stop num_turns false false s); congruence.
  - destruct (tloop col n tt rs i0 stop num_turns false false s) as [|h s1|sd] eqn:E; cbn [drive] in H;
      try discriminate.
    + destruct (tloop_hold 0 n tt rs s h s1 Hn Htt E) as (H1 & H2 & H3 & H4 & _).
      unfold resume in H. rewrite H1, H2, H3 in H.
      apply IH in H; try lia. destruct H as (k & Hk & Hd).
      exists (Datatypes.S k). split; [lia|].
      destruct (tloop_hold k n tt rs s h s1 Hn Htt E) as (_ & _ & _ & _ & H5). auto.
    + injection H as <-. exists 0%nat. split; [lia|]. apply tloop_done. exact E.
Qed.

(** ** The converse: if every element eventually accepts, resuming enough times finishes. *)
Notation drv f r := (drive o col tdep L parts ep ei skip_end fm f false r).

Lemma ploop_converse k (n : nat) tt : tt + Z.of_nat (Datatypes.S n) = num_turns -> 0 <= tt ->
  forall pps ipp s s' b, pps = skipn ipp parts ->
  ploop (star k) pps ipp tt i0 stop num_turns false s = TGo s' b ->
  (forall fd sd, (if b then Done s' else match end_turn o L skip_end fm stop s' with
            | None => Failed | Some se => drv fd (tloop col n (tt + 1) None i0 stop num_turns false false se) end)
          = Done sd ->
  exists f, drv f
     (match ploop col pps ipp tt i0 stop num_turns false s with
        | TErr => Failed
        | THold ipp s => OnHold (mkSession i0 stop num_turns tt ipp) s
        | TGo s true => Done s
        | TGo s false =>
            match end_turn o L skip_end fm stop s with
            | None => Failed
            | Some s => tloop col n (tt + 1) None i0 stop num_turns false false s
            end
        end) = Done sd).
Proof.
  intros Hn Htt. induction pps as [|pp pps IH]; intros ipp s s' b Hp H fd sd Hd.
  - cbn [parts_loop] in H |- *. injection H as <- <-. 
    destruct (end_turn o L skip_end fm stop s); [|discriminate]. exists fd. exact Hd.
  - assert (Hp' : pps = skipn (Datatypes.S ipp) parts).
    { rewrite <- Nat.add_1_r, skipn_add, <- Hp. reflexivity. }
    cbn [parts_loop] in H |- *. destruct (track_part_kind pp tt ipp) as [(i & -> & Ht)|Ht].
    + rewrite Ht in *. revert s H. generalize k at 1 as k0.
      induction k0 as [|k0 IHk]; intros s H; unfold col_track in *; cbn [col_until] in H.
      * destruct (col i s) as [s2 [[|]|]] eqn:Ec; try discriminate. eapply IH; eauto.
      * destruct (col i s) as [s2 [[|]|]] eqn:Ec; try discriminate; [|eapply IH; eauto].
        destruct (IHk _ H) as (f & Hf). exists (Datatypes.S f). cbn [drive].
        unfold resume. cbn [ss_start ss_stop ss_turns ss_tt ss_ipp].
        replace (Z.to_nat (num_turns - tt)) with (Datatypes.S n) by lia.
        cbn [turns_loop andb negb]. rewrite andb_false_r. rewrite <- Hp. cbn [parts_loop].
        rewrite Ht. unfold col_track. exact Hf.
    + destruct (Ht col (star k) s) as [E _]. rewrite <- E in H.
      destruct (tpart col pp tt ipp i0 stop num_turns false s) as [|s2|s2|s2 b2] eqn:Et; try discriminate.
      * eapply IH; eauto.
      * destruct b2; [|eapply IH; eauto].
        injection H as <- <-. exists 0%nat. injection Hd as <-. reflexivity.
Qed.

Lemma tloop_converse k : forall n tt rs s sd, tt + Z.of_nat n = num_turns -> 0 <= tt ->
  tloop (star k) n tt rs i0 stop num_turns false false s = Done sd ->
  exists f, drv f (tloop col n tt rs i0 stop num_turns false false s) = Done sd.
Proof.
  induction n as [|n IH]; intros tt rs s sd Hn Htt H.
  - exists 0%nat. exact H.
  - cbn [turns_loop andb] in *.
    match type of H with context [ploop _ ?p ?i ?t _ _ _ _ ?x] =>
      set (ipp0 := i) in *; set (s0 := x) in * end.
    match type of H with context [ploop ?c ?p ?i ?t ?a ?b ?n ?m ?x] =>
      destruct (ploop c p i t a b n m x) as [|ih sh|sg bg] eqn:E end; try discriminate.
    destruct bg.
    + eapply (ploop_converse k n tt Hn Htt _ _ _ _ _ eq_refl E 0%nat). exact H.
    + destruct (end_turn o L skip_end fm stop sg) as [se|] eqn:Ee; [|discriminate].
      destruct (IH (tt + 1) None se sd ltac:(lia) ltac:(lia) H) as (f & Hf).
      eapply (ploop_converse k n tt Hn Htt _ _ _ _ _ eq_refl E f). now rewrite Ee.
Qed.
End Hold.

(** ** Whole calls *)
Lemma prepare_turns L spte a i stop n : prepare_session L spte a = Some (i, stop, n) -> 1 <= n.
Proof.
  unfold prepare_session.
  destruct (if 0 <=? spte then _ else _); [|discriminate].
  destruct (negb _); [discriminate|].
  match goal with |- context [match ?r with Some _ => _ | None => None end] => destruct r as [[st m]|] end;
    [|discriminate].
  destruct (_ && _) eqn:E; [|discriminate]. intros [= <- <- <-]. lia.
Qed.

Lemma hold_resume_ok {S} (o : kops S) col tdep L parts ep ei skip_end fm spte a s s' :
  fm <> 2 ->
  (exists fuel, drive o col tdep L parts ep ei skip_end fm fuel false
    (track_collective o col tdep L parts ep ei skip_end fm spte false false a s) = Done s')
  <-> (exists k, track_collective o (col_until k col) tdep L parts ep ei skip_end fm spte false false a s
                 = Done s').
Proof.
  intros Hfm. unfold track_collective.
  destruct (prepare_session L spte a) as [[[i stop] n]|] eqn:Ep.
  - apply prepare_turns in Ep. split.
    + intros (fuel & H). apply drive_done in H; try lia. destruct H as (k & _ & H). eauto.
    + intros (k & H). apply tloop_converse in H; try lia. exact H.
  - split; intros (k & H); [|discriminate]. destruct k; discriminate.
Qed.

Lemma hold_resume_count {S} (o : kops S) col tdep L parts ep ei skip_end fm spte a s s' fuel :
  fm <> 2 ->
  drive o col tdep L parts ep ei skip_end fm fuel false
    (track_collective o col tdep L parts ep ei skip_end fm spte false false a s) = Done s' ->
  track_collective o (col_until fuel col) tdep L parts ep ei skip_end fm spte false false a s = Done s'.
Proof.
  intros Hfm. unfold track_collective.
  destruct (prepare_session L spte a) as [[[i stop] n]|] eqn:Ep.
  - apply prepare_turns in Ep. intros H. apply drive_done in H; try lia.
    destruct H as (k & Hk & H). eapply tloop_mono; eauto.
  - destruct fuel; discriminate.
Qed.
