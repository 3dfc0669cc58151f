(** Cases in which edits of lines do not do what is expected. *)
From Coq Require Import ZArith QArith Qabs List Bool String Lqa.
From Coq Require Qcanon.
From Verif.Model Require Import Line Slicing LineEdit History.
From Verif.Spec Require Import Line LineEdit History.
From Verif.Proofs Require Import LineBase.
Import ListNotations.
Local Open Scope Q_scope.

Lemma find_pair d n e : Line.find d n = Some e -> In (n, e) d.
Proof. induction d as [|[m x] d IH]; cbn; [discriminate|]. destruct (String.eqb_spec n m) as [->|]; [intros [= ->]; auto|auto]. Qed.

(** a drift that is filtered out becomes a drift of zero length *)
Lemma filter_drift : exists v mask names v' names' L L', line_length v names = Some L /\
  filter_elements v mask names = Some (v', names') /\ line_length v' names' = Some L' /\ ~ L' == L.
Proof.
  exists (mkEnv [("d", EOwn CDrift 2 0); ("q", EOwn (CMagnet true) 4 1)]%string 0 []), [true; false], ["q"; "d"]%string.
  do 4 eexists. split; [vm_compute; reflexivity|]. split; [vm_compute; reflexivity|]. split; [vm_compute; reflexivity|]. vm_compute. discriminate.
Qed.
(** an element that is kept at one place and filtered out at another one is blanked at both *)
Lemma filter_repeated : exists v mask names v' names', filter_elements v mask names = Some (v', names') /\
  nth_error mask 0 = Some true /\ nth_error names 0 = Some "q"%string /\ ~ same_content v v' "q" "q".
Proof.
  exists (mkEnv [("q", EOwn (CMagnet true) 4 1)]%string 0 []), [true; false], ["q"; "q"]%string. do 2 eexists.
  split; [vm_compute; reflexivity|]. split; [reflexivity|]. split; [reflexivity|]. intros (t & t' & e & H1 & H2).
  vm_compute in H1, H2. injection H1 as <- <-. discriminate.
Qed.
(** a replica of an element that is filtered out *)
Lemma filter_replica : exists v mask names v' names', filter_elements v mask names = Some (v', names') /\
  nth_error mask 0 = Some true /\ nth_error names 0 = Some "r"%string /\ ~ In "r"%string (skipn 1 names) /\ ~ same_content v v' "r" "r".
Proof.
  exists (mkEnv [("q", EOwn (CMagnet true) 4 1); ("r", EReplica "q")]%string 0 []), [true; false], ["r"; "q"]%string. do 2 eexists.
  split; [vm_compute; reflexivity|]. split; [reflexivity|]. split; [reflexivity|]. split; [cbn; intuition discriminate|]. intros (t & t' & e & H1 & H2).
  vm_compute in H1, H2. injection H1 as <- <-. discriminate.
Qed.

(** merging changes the length of a replica of a merged drift *)
Lemma merge_replica : exists v names v' names' L L', complete v names /\ line_length v names = Some L /\
  merge_drifts [] v names names = Some (v', names') /\ line_length v' names' = Some L' /\ ~ L' == L.
Proof.
  exists (mkEnv [("a", EOwn CDrift 2 0); ("b", EOwn CDrift 3 0); ("r", EReplica "a"); ("q", EOwn (CMagnet true) 4 1)]%string 0 []), ["a"; "b"; "q"; "r"]%string.
  do 4 eexists. split.
  - split.
    + intros n [<-|[<-|[<-|[<-|[]]]]]; vm_compute; discriminate.
    + assert (G : forall n m, refers (mkEnv [("a", EOwn CDrift 2 0); ("b", EOwn CDrift 3 0); ("r", EReplica "a"); ("q", EOwn (CMagnet true) 4 1)]%string 0 []) n m -> m = "a"%string).
      { assert (F : forall n e, lookup (mkEnv [("a", EOwn CDrift 2 0); ("b", EOwn CDrift 3 0); ("r", EReplica "a"); ("q", EOwn (CMagnet true) 4 1)]%string 0 []) n = Some e ->
           e = EOwn CDrift 2 0 \/ e = EOwn CDrift 3 0 \/ e = EReplica "a" \/ e = EOwn (CMagnet true) 4 1).
        { intros n e H. apply find_pair in H. destruct H as [H|[H|[H|[H|[]]]]]; apply (f_equal snd) in H; cbn [snd] in H; subst; auto. }
        induction 1 as [n p H|n k p w o H|n b p o H|n q p H _ IH]; apply F in H; destruct H as [H|[H|[H|H]]]; try discriminate; [injection H as <-; reflexivity|exact IH]. }
      intros n m _ X. rewrite (G n m X). vm_compute. discriminate.
  - split; [vm_compute; reflexivity|]. split; [vm_compute; reflexivity|]. split; [vm_compute; reflexivity|]. vm_compute. discriminate.
Qed.
(** two slices of a drift in a row: an exception *)
Lemma merge_slices : exists v names L, line_length v names = Some L /\ merge_drifts [] v names names = None.
Proof.
  exists (mkEnv [("a", EOwn CDrift 2 0); ("a..0", ESlice SDrift "a" (1 # 2) 0); ("a..1", ESlice SDrift "a" (1 # 2) 1)]%string 0 []), ["a..0"; "a..1"]%string.
  eexists. split; vm_compute; reflexivity.
Qed.

(** after merging, the environment hands out a drift of the wrong length *)
Lemma merged_drift_reused : exists l v q n v', run l fresh_env = Some v /\ get_drift v q = (v', n) /\
  exists q', s_length v' n = Some q' /\ ~ q' == q.
Proof.
  exists [OGetDrift 2; OGetDrift 3; OMerge [] ["||drift_1"; "||drift_2"]%string ["||drift_1"; "||drift_2"]%string].
  eexists. exists 2. do 2 eexists. split; [vm_compute; reflexivity|]. split; [vm_compute; reflexivity|].
  eexists. split; [vm_compute; reflexivity|]. vm_compute. discriminate.
Qed.

(** generated drifts stay repeated if asked for *)
Lemma repeated_kept : exists v order names v' names', NoDup order /\ (forall n, In n order <-> In n names) /\ complete v names /\
  replace_repeated "." false v order names = Some (v', names') /\ ~ NoDup names'.
Proof.
  exists (mkEnv [("||drift_1", EOwn CDrift 2 0)]%string 0 []), ["||drift_1"%string], ["||drift_1"; "||drift_1"]%string. do 2 eexists.
  split; [repeat constructor; intros []|]. split; [cbn; tauto|]. split.
  - split; [intros n [<-|[<-|[]]]; vm_compute; discriminate|]. intros n m _ X.
    assert (F : forall n e, lookup (mkEnv [("||drift_1", EOwn CDrift 2 0)]%string 0 []) n = Some e -> e = EOwn CDrift 2 0).
    { intros k e H. apply find_pair in H. destruct H as [H|[]]. apply (f_equal snd) in H. cbn [snd] in H. congruence. }
    destruct X as [n p H|n k p w o H|n b p o H|n q p H _]; apply F in H; discriminate.
  - split; [vm_compute; reflexivity|]. intro N. inversion N as [|? ? X _]; subst. apply X. left. reflexivity.
Qed.

(** the element that takes the place of removed thick elements shorter than the tolerance is missing *)
Lemma remove_short : exists v rows v' names' L L', line_length v (map snd rows) = Some L /\
  remove v rows [] ["q"%string] 1 = Some (v', names') /\ line_length v' names' = Some L' /\ ~ L' == L.
Proof.
  exists (mkEnv [("q", EOwn (CMagnet true) 1 1); ("d", EOwn CDrift 2 0)]%string 0 []), [("q", "q"); ("d", "d")]%string. do 4 eexists.
  split; [vm_compute; reflexivity|]. split; [vm_compute; reflexivity|]. split; [vm_compute; reflexivity|]. vm_compute. discriminate.
Qed.

(** * For the examples *)
Lemma complete_own v names : (forall n, In n names -> exists c l t, lookup v n = Some (EOwn c l t)) -> complete v names.
Proof.
  intro O. split.
  - intros n Hn. destruct (O n Hn) as (c & l & t & L). unfold resolve. rewrite L. discriminate.
  - intros n m Hn X. destruct (O n Hn) as (c & l & t & L). destruct X; congruence.
Qed.
Definition ex_history : list op :=
  [ONew "q" (EOwn (CMagnet true) 4 1); OGetDrift 2; OGetDrift 3; OGetDrift 2;
   OCut [("||drift_1", "||drift_1"); ("q", "q"); ("||drift_2", "||drift_2")]%string (1 # 1000) [1; 3];
   ORemove [("||drift_1", "||drift_1"); ("q", "q"); ("||drift_2", "||drift_2")]%string [] ["q"%string] 0;
   OMerge [] ["q"; "||drift_1"]%string ["||drift_1"; "||drift_1"; "q"]%string; OGetDrift 4].
Ltac step := cbn [all_respect]; match goal with |- _ /\ match ?a with _ => _ end => let r := eval vm_compute in a in change a with r; cbn beta iota end; split.
Lemma ex_respects : all_respect fresh_env ex_history.
Proof.
  unfold ex_history. step.
  { split; [intros (l & [])|]. intros m [H|H]; apply (f_equal last_char) in H; rewrite last_append in H by discriminate; discriminate. }
  step; [exact I|]. step; [exact I|]. step; [exact I|]. step.
  { split; [repeat (constructor; [cbn; intuition discriminate|]); constructor|]. split; [discriminate|]. eexists. vm_compute. reflexivity. }
  step; [eexists; vm_compute; reflexivity|]. step.
  { split; [repeat (constructor; [cbn; intuition discriminate|]); constructor|]. split; [cbn; tauto|]. split.
    - apply complete_own. intros n [<-|[<-|[<-|[]]]]; do 3 eexists; vm_compute; reflexivity.
    - intros n (l & Hl). cbn in Hl. repeat destruct Hl as [Hl|Hl]; try contradiction; apply (f_equal snd) in Hl; cbn [snd] in Hl; subst; vm_compute; discriminate. }
  step; exact I.
Qed.
(** drifts on a single coordinate *)
Lemma ex_laws : drift_laws Qcanon.Qc (fun l s => Qcanon.Qcplus s (Qcanon.Q2Qc l)).
Proof.
  split; [|split].
  - intros a b s H. f_equal. apply Qcanon.Q2Qc_eq_iff. exact H.
  - intro s. apply Qcanon.Qc_is_canon. unfold Qcanon.Qcplus, Qcanon.Q2Qc. cbn [Qcanon.this]. rewrite !Qred_correct. ring.
  - intros a b s. apply Qcanon.Qc_is_canon. unfold Qcanon.Qcplus, Qcanon.Q2Qc. cbn [Qcanon.this]. rewrite !Qred_correct. ring.
Qed.
