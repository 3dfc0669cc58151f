(** C17. Internal records written in parallel. *)
From Coq Require Import ZArith List Bool Permutation String.
From Verif.Model Require Import Record.
From Verif.Spec Require Import Record.
From Verif.Proofs Require Record.
Import ListNotations.
Local Open Scope Z_scope.

(** At any moment of any execution: the slots handed out are 0, 1, 2, ... in order, so they
    are distinct and inside the table, and no request is refused before the table is full. *)
Theorem C17_slots :
  forall (D : Type) (cap : Z) (N : nat) (sched : list (nat * D)) s es,
    0 <= cap -> cap + Z.of_nat N < two32 -> run sched (init cap N) = (s, es) ->
    map fst (grants es) = zseq (List.length (grants es))
    /\ Z.of_nat (List.length (grants es)) <= cap
    /\ (refusals es <> [] -> Z.of_nat (List.length (grants es)) = cap).
Proof. exact @Record.slots. Qed.
Print Assumptions C17_slots.

(** When no call is in progress the counter is the minimum of the number of requests and the
    capacity, every request was either granted or refused, and the rows below the counter
    contain the granted records, each in its own row, and nothing else is written. *)
Theorem C17_at_rest :
  forall (D : Type) (cap : Z) (N : nat) (sched : list (nat * D)) s es,
    0 <= cap -> cap + Z.of_nat N < two32 -> run sched (init cap N) = (s, es) -> quiescent s ->
    r_num s = Z.min (Z.of_nat (List.length (requests es))) cap
    /\ Permutation (requests es) (map snd (grants es) ++ refusals es)
    /\ (forall k, r_tab s k = if (0 <=? k) && (k <? r_num s)
                              then nth_error (map snd (grants es)) (Z.to_nat k) else None).
Proof. exact @Record.at_rest. Qed.
Print Assumptions C17_at_rest.

(** A call never waits for another thread: in any state, two further steps of its own thread
    are enough to finish the call, whatever the others do in between. *)
Theorem C17_wait_free :
  forall (D : Type) (i : nat) (sched : list (nat * D)) s t,
    nth_error (r_thr s) i = Some t ->
    (2 <= List.length (filter (fun x => Nat.eqb (fst x) i) sched))%nat ->
    exists pre suf, sched = pre ++ suf /\ nth_error (r_thr (fst (run pre s))) i = Some Idle.
Proof.
  exact (fun D i sched s t H1 H2 => Record.call_ends i sched s t H1 (Nat.le_trans _ _ _ (Record.rank_le t) H2)).
Qed.
Print Assumptions C17_wait_free.

(** The counter has 32 bits and the capacity 64: with a capacity of 2^32 the counter wraps
    around and a slot is given twice. *)
Theorem C17_wrap_refuted :
  exists cap N (sched : list (nat * unit)) s es,
    run sched (init cap N) = (s, es) /\ ~ NoDup (map fst (grants es)).
Proof. exact (Record.wrap_around tt). Qed.
Print Assumptions C17_wrap_refuted.

(** Three threads, room for one record: all pass the first test, two overshoot. *)
Example C17_case :
  let '(s, es) := run [(0,"a");(1,"b");(2,"c");(2,"");(0,"");(1,"");(0,"");(2,"");(1,"")]%nat%string
                      (init 1 3) in
  r_num s = 1 /\ grants es = [(0, "c"%string)] /\ refusals es = ["a"; "b"]%string
  /\ r_tab s 0 = Some "c"%string /\ quiescent s.
Proof. vm_compute. repeat split; repeat constructor. Qed.
