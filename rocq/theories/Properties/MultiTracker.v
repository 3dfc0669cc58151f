(** C63: tracking several lines together. *)
From Coq Require Import List Bool Arith.
From Verif.Model Require Import MultiTracker.
From Verif.Spec Require Import MultiTracker.
From Verif.Proofs Require MultiTracker MultiTrackerCases.
Import ListNotations.

(** Whatever the branches do to each other: all are started in order, then those on hold are resumed once in each round,
    in order, until each one is finished; none is called after it finished. *)
Theorem C63_round_robin {G : Type} (track resume : nat -> G -> G * bool) fuel n g g' log :
  multitrack track resume fuel n g = Some (g', log) ->
  exists k R, log = round_robin k n R /\ forall i, i < n -> k i < R.
Proof. exact (Verif.Proofs.MultiTracker.multi_robin track resume fuel n g g' log). Qed.
Print Assumptions C63_round_robin.

(** Branches which do not exchange anything end as if each was tracked alone, *)
Theorem C63_alone {B : Type} track resume (own_track own_resume : nat -> B -> B * bool) fuel n g g' log :
  independent track own_track -> independent resume own_resume ->
  multitrack track resume fuel n g = Some (g', log) ->
  (forall i, i < n -> exists k, alone (own_track i) (own_resume i) (g i) k (g' i)) /\ (forall i, n <= i -> g' i = g i).
Proof. exact (fun Ht Hr => Verif.Proofs.MultiTracker.multi_alone track resume own_track own_resume Ht Hr fuel n g g' log). Qed.
Print Assumptions C63_alone.

(** and they end if each one alone does. *)
Theorem C63_ends {B : Type} track resume (own_track own_resume : nat -> B -> B * bool) n fuel g :
  independent track own_track -> independent resume own_resume ->
  (forall i, i < n -> exists k s', k <= fuel /\ alone (own_track i) (own_resume i) (g i) k s') ->
  exists r, multitrack track resume fuel n g = Some r.
Proof. exact (fun Ht Hr => Verif.Proofs.MultiTracker.multi_end track resume own_track own_resume Ht Hr n fuel g). Qed.
Print Assumptions C63_ends.

Section Case.
Import Verif.Proofs.MultiTrackerCases.
Example C63_case : independent branch own /\
  exists g log, multitrack branch branch 5 3 (fun _ => 0) = Some (g, log) /\
  log = [(0, true); (1, false); (2, true); (0, true); (2, false); (0, false)] /\ map g [0; 1; 2; 3] = [3; 1; 2; 0].
Proof. exact (conj branch_own branches_tracked). Qed.
End Case.
