(** C46: messages between pipelined elements. *)
From Coq Require Import QArith ZArith List Bool String.
From Verif.Model Require Import Pipeline.
From Verif.Spec Require Import Pipeline.
From Verif.Proofs Require Pipeline PipelineRun PipelineCases.
Import ListNotations.
Local Open Scope list_scope.

(** Messages between two processes have different tags unless element, sender, receiver and internal tag are the same. *)
Theorem C46_tags l c c' rs rr tag : let m := fold_left register l new_manager in
  registered_once l -> message_tag m c = Some (rs, rr, tag) -> message_tag m c' = Some (rs, rr, tag) -> c = c'.
Proof. exact (Verif.Proofs.PipelineRun.tags_distinct l c c' rs rr tag). Qed.
Print Assumptions C46_tags.

(** After any calls, each further call has the outcome expected from the calls before: receiving gives the first message
    sent over this channel and not received, one can be received exactly if such a message exists, ... *)
Theorem C46_outcome l md ops w tr o : let m := fold_left register l new_manager in
  registered_once l -> md = MPI \/ one_rank l -> all_known l (ops ++ [o]) ->
  run md m start [] ops = Some (w, tr) -> careful tr -> careful_step tr o ->
  option_map snd (step md m w o) = expected md tr o.
Proof. exact (Verif.Proofs.PipelineRun.run_outcome l md ops w tr o). Qed.
Print Assumptions C46_outcome.

(** The messages received over a channel are the first ones sent over it, once each and in order. *)
Theorem C46_history l md ops w tr c : let m := fold_left register l new_manager in
  registered_once l -> md = MPI \/ one_rank l -> all_known l ops ->
  run md m start [] ops = Some (w, tr) -> careful tr ->
  map snd (sent tr c) = received tr c ++ map snd (waiting tr c).
Proof. exact (Verif.Proofs.PipelineRun.run_history l md ops w tr c). Qed.
Print Assumptions C46_history.

(** Particles of two ranks with the default communicator: a message which was sent cannot be received. *)
Theorem C46_two_ranks_refuted : exists l ops w tr c, registered_once l /\ all_known l (ops ++ [ReadyToReceive c]) /\
  run Default (fold_left register l new_manager) start [] ops = Some (w, tr) /\ careful tr /\
  waiting tr c <> [] /\ option_map snd (step Default (fold_left register l new_manager) w (ReadyToReceive c)) = Some (Bool false).
Proof. exact Verif.Proofs.PipelineCases.two_ranks_lost. Qed.
Print Assumptions C46_two_ranks_refuted.

(** An element registered twice shares tags with another one. *)
Theorem C46_registered_twice_refuted : exists l c c' rs rr tag, one_rank l /\ known l c /\ known l c' /\ c <> c' /\
  message_tag (fold_left register l new_manager) c = Some (rs, rr, tag) /\
  message_tag (fold_left register l new_manager) c' = Some (rs, rr, tag).
Proof. exact Verif.Proofs.PipelineCases.twice_mixed. Qed.
Print Assumptions C46_registered_twice_refuted.

(** An element registered while a message waits: the message is not found. *)
Theorem C46_registered_late_refuted : exists l r c w x, registered_once (l ++ [r]) /\ one_rank (l ++ [r]) /\ known l c /\
  step Default (fold_left register l new_manager) start (Send 0 c 0) = Some (w, x) /\
  option_map snd (step Default (fold_left register (l ++ [r]) new_manager) w (ReadyToReceive c)) = Some (Bool false).
Proof. exact Verif.Proofs.PipelineCases.registered_late. Qed.
Print Assumptions C46_registered_late_refuted.

(** A buffer changed while its message waits: other contents are received. *)
Theorem C46_changed_buffer_refuted : exists l ops w tr c, registered_once l /\ one_rank l /\ all_known l ops /\
  run Default (fold_left register l new_manager) start [] ops = Some (w, tr) /\
  map snd (sent tr c) <> received tr c ++ map snd (waiting tr c).
Proof. exact Verif.Proofs.PipelineCases.changed_in_flight. Qed.
Print Assumptions C46_changed_buffer_refuted.

Section Case.
Import Verif.Proofs.PipelineCases.
(** two beams of two bunches on two processes and two interaction points, messages received in another order *)
Example C46_case : registered_once beams /\ all_known beams two_turns /\
  exists w tr, run MPI (fold_left register beams new_manager) start [] two_turns = Some (w, tr) /\ careful tr /\
  map snd (rev tr) = two_turns_outs /\ sent tr (to "ip1" "b1" "b2") = [(0%nat, [1%Q])] /\ received tr (to "ip1" "b1" "b2") = [[1%Q]].
Proof. exact (conj beams_once (conj beams_known beams_run)). Qed.
End Case.
