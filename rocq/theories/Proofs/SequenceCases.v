(** Cases of sequence definitions *)
From Coq Require Import Reals Lra Lia List Bool String Ascii Arith.
From Verif.Model Require Import Sequence.
From Verif.Spec Require Import Sequence.
From Verif.Proofs Require Import Sequence SequenceNames SequenceBuild.
Import ListNotations.
Local Open Scope R_scope.
Local Open Scope string_scope.

Definition none_elements (_ : string) : option obj := None.
Definition none_sequences (_ : string) : option (list node) := None.
Definition kick : obj := mkObj "kick" false 0.
Definition quad : obj := mkObj "quad" true 2.

(** The default naming scheme: "a" followed by "b" is "ab". *)
Definition clash : list node :=
  [mkNode 0 (inl 0) (Some "ab") (WElem kick);
   mkNode 1 (inl 0) (Some "a") (WSeq [mkNode 1 (inl 0) (Some "b") (WElem quad)])].
Lemma names_clash : exists root flat,
  flatten none_elements none_sequences default_scheme 2 root = inl flat /\ ~ NoDup (map f_name flat).
Proof.
  exists clash. eexists. split; [reflexivity|]. cbn. intros H. inversion H as [|? ? N _]. apply N. right. now left.
Qed.

(** A node named as a drift takes its place. *)
Lemma drift_clash : exists root length l,
  from_sequence none_elements none_sequences default_scheme 1 false Entry root length = Some l /\
  total (line_elements l) <> length.
Proof.
  exists [mkNode 1 (inl 0) (Some "drift") (WElem kick)], 3.
  set (flat := [mkFnode (1 + 0) kick "drift"]).
  assert (Hf : flatten none_elements none_sequences default_scheme 1 [mkNode 1 (inl 0) (Some "drift") (WElem kick)] = inl flat)
    by reflexivity.
  unfold from_sequence. rewrite Hf. unfold build, flat. cbn [add_drifts f_s f_what f_name offset kick o_thick].
  destruct (Rlt_dec (1 + 0 + 0) 0); [lra|]. destruct (Rlt_dec 0 (1 + 0 + 0)); [|lra].
  cbn [next_name mem existsb map fst List.app]. unfold length_of. cbn [kick o_thick].
  destruct (Rlt_dec 3 (1 + 0 + 0 + 0)); [lra|].
  eexists. split; [cbn; reflexivity|]. cbn. lra.
Qed.

(** A sequence with a nested sequence used twice and a node placed from another one *)
Definition dot : ascii := "."%char.
Definition arcs (n : string) : option (list node) :=
  if String.eqb n "arc" then Some [mkNode 1 (inl 0) None (WElem quad); mkNode 4 (inl 0) (Some "k") (WElem kick)] else None.
Definition two_arcs : list node :=
  [mkNode 0 (inl 0) None (WName "arc"); mkNode 10 (inl 0) None (WName "arc"); mkNode 5 (inr "arc.1.k") (Some "m") (WElem kick)].
Lemma arcs_flat : exists flat, flatten none_elements arcs (separator dot) 2 two_arcs = inl flat /\
  map f_name flat = ["arc"; "arc.element"; "arc.k"; "arc.1"; "arc.1.element"; "arc.1.k"; "m"] /\
  map f_s flat = [0; 1; 4; 10; 11; 14; 19].
Proof.
  eexists. split; [cbn; reflexivity|]. split; [reflexivity|]. cbn. repeat f_equal; ring.
Qed.
Lemma arcs_nested l : nested none_elements arcs two_arcs l -> l = two_arcs \/ arcs "arc" = Some l.
Proof.
  induction 1 as [|l n l' H IH Hn Hc]; [now left|]. right. destruct IH as [->|IH].
  - cbn in Hn. destruct Hn as [<-|[<-|[<-|[]]]]; cbn in Hc; try discriminate; cbn; congruence.
  - cbn in IH. assert (E : l = [mkNode 1 (inl 0) None (WElem quad); mkNode 4 (inl 0) (Some "k") (WElem kick)]) by congruence.
    subst l. destruct Hn as [<-|[<-|[]]]; cbn in Hc; discriminate.
Qed.
Lemma dot_not_digit : ~ is_digit dot.
Proof. unfold is_digit, dot. cbn. intuition discriminate. Qed.
Lemma arcs_plain : plain_names none_elements arcs dot two_arcs /\ no_drift_names none_elements arcs two_arcs.
Proof.
  assert (X : forall l n, nested none_elements arcs two_arcs l -> In n l -> In (base_name n) ["arc"; "m"; "element"; "k"]).
  { intros l n H Hn. destruct (arcs_nested l H) as [->|E].
    - cbn in Hn. destruct Hn as [<-|[<-|[<-|[]]]]; cbn; tauto.
    - cbn in E. assert (E' : l = [mkNode 1 (inl 0) None (WElem quad); mkNode 4 (inl 0) (Some "k") (WElem kick)]) by congruence.
      subst l. destruct Hn as [<-|[<-|[]]]; cbn; tauto. }
  split; intros l n H Hn; specialize (X l n H Hn).
  - split.
    + unfold without, dot. repeat (destruct X as [<-|X]; [cbn; intuition discriminate|]). destruct X.
    + intros (i & Ei).
      assert (Y : exists d, In d (list_ascii_of_string (base_name n)) /\ ~ is_digit d).
      { unfold is_digit. destruct X as [<-|[<-|[<-|[<-|[]]]]].
        - exists "a"%char. split; [now left|cbn; intuition discriminate].
        - exists "m"%char. split; [now left|cbn; intuition discriminate].
        - exists "e"%char. split; [now left|cbn; intuition discriminate].
        - exists "k"%char. split; [now left|cbn; intuition discriminate]. }
      destruct Y as (d & Hd & Nd). rewrite Ei in Hd. exact (decimal_without d i Nd Hd).
  - repeat (destruct X as [<-|X]; [discriminate|]). destruct X.
Qed.
Lemma arcs_line : exists l, from_sequence none_elements arcs (separator dot) 2 false Entry two_arcs 20 = Some l.
Proof.
  set (flat := [mkFnode (0 + 0) marker "arc"; mkFnode (0 + 0 + (1 + 0)) quad "arc.element";
    mkFnode (0 + 0 + (4 + 0)) kick "arc.k"; mkFnode (10 + 0) marker "arc.1"; mkFnode (10 + 0 + (1 + 0)) quad "arc.1.element";
    mkFnode (10 + 0 + (4 + 0)) kick "arc.1.k"; mkFnode (5 + (10 + 0 + (4 + 0))) kick "m"]).
  assert (E : flatten none_elements arcs (separator dot) 2 two_arcs = inl flat) by reflexivity.
  unfold from_sequence. rewrite E. apply build_defined. unfold flat. cbn. lra.
Qed.
