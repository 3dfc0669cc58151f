(** Small pipelines *)
From Coq Require Import QArith ZArith List Bool String Arith.
From Verif.Model Require Import Line.
From Verif.Model Require Import Pipeline.
From Verif.Spec Require Import Pipeline.
Import ListNotations.
Local Open Scope list_scope.
Local Open Scope string_scope.

(** two beams of two bunches on two processes and two interaction points *)
Definition beams : list registration :=
  [Element "ip1"; Particles "b1" 0; Particles "b2" 1; Element "ip5"; Particles "b1_2" 0; Particles "b2_2" 1].
Definition to (e s r : string) : channel := mkChannel e s r 0.
Definition two_turns : list op :=
  [Write 0 [1%Q]; Write 1 [2%Q]; Write 2 [3%Q]; Write 9 [0%Q];
   ReadyToSend (to "ip1" "b1" "b2") 0; Send 0 (to "ip1" "b1" "b2") 0;
   Send 1 (to "ip5" "b1" "b2") 0; Send 2 (to "ip1" "b1_2" "b2") 0;
   ReadyToSend (to "ip1" "b1" "b2") 0; ReadyToSend (to "ip1" "b1" "b2") 1;
   ReadyToReceive (to "ip1" "b1" "b2"); ReadyToReceive (to "ip1" "b2" "b1");
   Receive 9 (to "ip5" "b1" "b2"); Receive 9 (to "ip1" "b1_2" "b2"); Receive 9 (to "ip1" "b1" "b2");
   ReadyToSend (to "ip1" "b1" "b2") 1; ReadyToReceive (to "ip1" "b1" "b2")].
Definition two_turns_outs : list out :=
  [Done; Done; Done; Done; Bool true; Done; Done; Done; Bool false; Bool false; Bool true; Bool false;
   Data [2%Q]; Data [3%Q]; Data [1%Q]; Bool true; Bool false].

Definition of_registered (l : list registration) (c : channel) : bool :=
  existsb (fun r => match r with Element n => String.eqb n (c_element c) | _ => false end) l
  && existsb (fun r => match r with Particles n _ => String.eqb n (c_sender c) | _ => false end) l
  && existsb (fun r => match r with Particles n _ => String.eqb n (c_receiver c) | _ => false end) l.
Lemma registered_known l c : of_registered l c = true -> known l c.
Proof.
  unfold of_registered. rewrite !andb_true_iff, !existsb_exists. intros [[(x & Ix & X) (y & Iy & Y)] (z & Iz & Z)].
  destruct x as [|n]; [discriminate|]. destruct y as [n1 k1|]; [|discriminate]. destruct z as [n2 k2|]; [|discriminate].
  apply String.eqb_eq in X, Y, Z. subst. repeat split; eauto.
Qed.
Lemma all_registered l ops : forallb (fun o => match op_channel o with Some c => of_registered l c | None => true end) ops = true -> all_known l ops.
Proof. rewrite forallb_forall. intros H o c I E. specialize (H o I). rewrite E in H. now apply registered_known. Qed.

Lemma beams_once : registered_once beams.
Proof.
  unfold registered_once, beams. cbn.
  repeat match goal with |- NoDup (_ :: _) => constructor; [cbn; intuition discriminate|] end. constructor.
Qed.
Lemma beams_known : all_known beams two_turns.
Proof. apply all_registered. vm_compute. reflexivity. Qed.
Lemma run_of md m ops tr : option_map snd (run md m start [] ops) = Some tr -> exists w, run md m start [] ops = Some (w, tr).
Proof. destruct (run md m start [] ops) as [[w t]|]; [|discriminate]. intros H. injection H as <-. eauto. Qed.
Definition sends (b : nat) (tr : trace) : bool := existsb (fun x => match fst x with Send b' _ _ => (b =? b')%nat | _ => false end) tr.
Lemma waits_sent tr c b x : In (b, x) (waiting tr c) -> sends b tr = true.
Proof.
  intros H. assert (I : In (b, x) (sent tr c)).
  { unfold waiting in H. revert H. generalize (List.length (received tr c)). induction (sent tr c) as [|y r IH]; intros [|n]; cbn; auto.
    intros H. right. exact (IH n H). }
  clear H. induction tr as [|[o out] r IH]; [contradiction|]. unfold sends. cbn [existsb fst]. fold (sends b r). destruct o as [b' d|b' c' t|c' t|c'|b' c']; cbn [sent] in I; auto.
  destruct (channel_dec c' c); [|rewrite IH by exact I; apply orb_true_r]. rewrite in_app_iff in I. destruct I as [I|[I|[]]].
  - rewrite IH by exact I. apply orb_true_r.
  - injection I as -> _. now rewrite Nat.eqb_refl.
Qed.
Lemma beams_careful : careful (rev (combine two_turns two_turns_outs)).
Proof.
  cbn -[sends waiting content].
  repeat split; try (intros c x H; apply waits_sent in H; vm_compute in H; discriminate);
    intros b' x r H; vm_compute in H; injection H as <- <- <-; reflexivity.
Qed.
Lemma beams_run : exists w tr, run MPI (fold_left register beams new_manager) start [] two_turns = Some (w, tr) /\ careful tr /\
  map snd (rev tr) = two_turns_outs /\ sent tr (to "ip1" "b1" "b2") = [(0%nat, [1%Q])] /\ received tr (to "ip1" "b1" "b2") = [[1%Q]].
Proof.
  assert (T : option_map snd (run MPI (fold_left register beams new_manager) start [] two_turns) = Some (rev (combine two_turns two_turns_outs)))
    by (vm_compute; reflexivity).
  destruct (run_of _ _ _ _ T) as (w & E). exists w. eexists. split; [exact E|]. split; [exact beams_careful|]. vm_compute. auto.
Qed.

(** with the communicator of the pipeline and two ranks a message which was sent does not arrive *)
Lemma two_ranks_lost : exists l ops w tr c, registered_once l /\ all_known l (ops ++ [ReadyToReceive c])%list /\
  run Default (fold_left register l new_manager) start [] ops = Some (w, tr) /\ careful tr /\
  waiting tr c <> [] /\ option_map snd (step Default (fold_left register l new_manager) w (ReadyToReceive c)) = Some (Bool false).
Proof.
  exists [Element "ip1"; Particles "b1" 0; Particles "b2" 1], [Send 0 (to "ip1" "b1" "b2") 0]. do 2 eexists. exists (to "ip1" "b1" "b2").
  split; [unfold registered_once; cbn; repeat match goal with |- NoDup (_ :: _) => constructor; [cbn; intuition discriminate|] end; constructor|].
  split; [apply all_registered; vm_compute; reflexivity|]. split; [reflexivity|]. split; [cbn; auto|]. split; [vm_compute; discriminate|]. vm_compute. reflexivity.
Qed.
(** an element which is registered twice gets messages of another one *)
Lemma twice_mixed : exists l c c' rs rr tag, one_rank l /\ known l c /\ known l c' /\ c <> c' /\
  message_tag (fold_left register l new_manager) c = Some (rs, rr, tag) /\
  message_tag (fold_left register l new_manager) c' = Some (rs, rr, tag).
Proof.
  exists [Element "ip1"; Element "ip5"; Element "ip5"; Particles "b1" 0; Particles "b2" 0; Particles "b3" 0],
    (to "ip5" "b1" "b3"), (to "ip1" "b2" "b3").
  do 3 eexists. split.
  { intros n k n' k'. cbn. intros H H'.
    repeat destruct H as [H|H]; try contradiction; try discriminate; injection H as <- <-;
      repeat destruct H' as [H'|H']; try contradiction; try discriminate; injection H' as <- <-; reflexivity. }
  split; [apply registered_known; reflexivity|]. split; [apply registered_known; reflexivity|]. split; [discriminate|].
  split; vm_compute; reflexivity.
Qed.
(** a buffer which is filled again before the message is received: the new contents arrive *)
Lemma changed_in_flight : exists l ops w tr c, registered_once l /\ one_rank l /\ all_known l ops /\
  run Default (fold_left register l new_manager) start [] ops = Some (w, tr) /\
  (map snd (sent tr c) <> received tr c ++ map snd (waiting tr c))%list.
Proof.
  exists [Element "ip1"; Particles "b1" 0; Particles "b2" 0],
    [Write 0 [1%Q]; Write 1 [0%Q]; Send 0 (to "ip1" "b1" "b2") 0; Write 0 [5%Q]; Receive 1 (to "ip1" "b1" "b2")].
  match goal with |- context [run ?md ?m start [] ?ops] =>
    let t := eval vm_compute in (match run md m start [] ops with Some x => snd x | None => [] end) in
    assert (T : option_map snd (run md m start [] ops) = Some t) by (vm_compute; reflexivity) end.
  destruct (run_of _ _ _ _ T) as (w & E). exists w. eexists. exists (to "ip1" "b1" "b2").
  split; [unfold registered_once; cbn; repeat match goal with |- NoDup (_ :: _) => constructor; [cbn; intuition discriminate|] end; constructor|].
  split.
  { intros n k n' k'. cbn. intros H H'.
    repeat destruct H as [H|H]; try contradiction; try discriminate; injection H as <- <-;
      repeat destruct H' as [H'|H']; try contradiction; try discriminate; injection H' as <- <-; reflexivity. }
  split; [apply all_registered; vm_compute; reflexivity|]. split; [exact E|]. vm_compute. discriminate.
Qed.
(** an element which is registered after the message was sent: the message is not found *)
Lemma registered_late : exists l r c w x, registered_once (l ++ [r])%list /\ one_rank (l ++ [r])%list /\ known l c /\
  step Default (fold_left register l new_manager) start (Send 0 c 0) = Some (w, x) /\
  option_map snd (step Default (fold_left register (l ++ [r])%list new_manager) w (ReadyToReceive c)) = Some (Bool false).
Proof.
  exists [Element "ip1"; Particles "b1" 0; Particles "b2" 0], (Element "ip5"), (to "ip1" "b1" "b2"). do 2 eexists.
  split; [unfold registered_once; cbn; repeat match goal with |- NoDup (_ :: _) => constructor; [cbn; intuition discriminate|] end; constructor|].
  split.
  { intros n k n' k'. cbn. intros H H'.
    repeat destruct H as [H|H]; try contradiction; try discriminate; injection H as <- <-;
      repeat destruct H' as [H'|H']; try contradiction; try discriminate; injection H' as <- <-; reflexivity. }
  split; [apply registered_known; reflexivity|]. split; [reflexivity|]. vm_compute. reflexivity.
Qed.
