(** What tracking several lines together is expected to do *)
From Coq Require Import List Bool Arith.
Import ListNotations.

(** Branch i is on hold k i times: round r (the first is 0) calls, in order, the branches with at least r holds. *)
Definition round_robin (k : nat -> nat) (n rounds : nat) : list (nat * bool) :=
  flat_map (fun r => map (fun i => (i, (r <? k i)%nat)) (filter (fun i => (r <=? k i)%nat) (seq 0 n))) (seq 0 rounds).

(** Branch i changes only its own part of the state and depends only on this. *)
Definition independent {B : Type} (f : nat -> (nat -> B) -> (nat -> B) * bool) (own : nat -> B -> B * bool) : Prop :=
  forall i g, snd (f i g) = snd (own i (g i)) /\
    forall j, fst (f i g) j = if (j =? i)%nat then fst (own i (g i)) else g j.

(** A branch tracked alone: after [track], [resume] until it is not on hold, k times. *)
Inductive resumed {B : Type} (resume : B -> B * bool) : B -> bool -> nat -> B -> Prop :=
| resumed_done s : resumed resume s false 0 s
| resumed_hold s k s' : resumed resume (fst (resume s)) (snd (resume s)) k s' -> resumed resume s true (S k) s'.
Definition alone {B : Type} (track resume : B -> B * bool) (s : B) (k : nat) (s' : B) : Prop :=
  resumed resume (fst (track s)) (snd (track s)) k s'.
