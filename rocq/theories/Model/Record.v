(** Internal records filled by particles tracked in parallel: xtrack/internal_record.py.

    A thread (an OpenMP thread or a GPU work item) calls [RecordIndex_get_slot] and, when
    the answer is a slot, stores its record there
    (e.g. beam_elements/elements_src/electroncooler.h:127-140,
    headers/synrad_spectrum.h:500-520).  The steps of the threads are interleaved in any
    order.  Each read, write and atomicAdd of the counter is one step (sequential
    consistency of the plain read and of the plain write is an abstraction); storing a
    record of several fields is one step, as nobody reads the table during tracking. *)
From Coq Require Import ZArith List Bool.
Import ListNotations.
Local Open Scope Z_scope.

Definition two32 : Z := 2 ^ 32.

Section Rec.
Context {D : Type}.                       (* the content of a record *)

(** Program counter of a thread inside internal_record.py:40-60. *)
Inductive pc :=
| Idle                                   (* outside the function *)
| Passed (d : D)                         (* line 48 passed, about to atomicAdd *)
| Overshoot (d : D)                      (* line 56 true, about to write the counter *)
| Holding (slot : Z) (d : D).            (* slot returned, about to store the record *)

Record rstate := mkR {
  r_cap : Z;                             (* RecordIndex.capacity, int64 *)
  r_num : Z;                             (* RecordIndex.num_recorded, uint32 *)
  r_tab : Z -> option D;                 (* the columns of the record *)
  r_thr : list pc }.

Inductive event :=
| Requested (d : D)                      (* call of RecordIndex_get_slot *)
| Got (slot : Z) (d : D)                 (* a slot is granted *)
| Refused (d : D)                        (* -1 is returned *)
| Stored (slot : Z) (d : D).

Fixpoint upd {A} (i : nat) (x : A) (l : list A) : list A :=
  match l, i with
  | [], _ => []
  | _ :: t, O => x :: t
  | y :: t, S j => y :: upd j x t
  end.

(** One step of thread [i]; [d] is the record it wants to store if the step starts a call. *)
Definition step (i : nat) (d : D) (s : rstate) : rstate * list event :=
  match nth_error (r_thr s) i with
  | None => (s, [])
  | Some Idle =>
      (* internal_record.py:48-50 *)
      if r_num s >=? r_cap s then (s, [Requested d; Refused d])
      else (mkR (r_cap s) (r_num s) (r_tab s) (upd i (Passed d) (r_thr s)), [Requested d])
  | Some (Passed d) =>
      (* internal_record.py:54-56, 60: slot = atomicAdd(num_recorded, 1) *)
      let slot := r_num s in
      let num := (slot + 1) mod two32 in
      if slot >=? r_cap s
      then (mkR (r_cap s) num (r_tab s) (upd i (Overshoot d) (r_thr s)), [])
      else (mkR (r_cap s) num (r_tab s) (upd i (Holding slot d) (r_thr s)), [Got slot d])
  | Some (Overshoot d) =>
      (* internal_record.py:57-58: *num_recorded = capacity; return -1 *)
      (mkR (r_cap s) (r_cap s mod two32) (r_tab s) (upd i Idle (r_thr s)), [Refused d])
  | Some (Holding slot d) =>
      (mkR (r_cap s) (r_num s) (fun k => if k =? slot then Some d else r_tab s k)
           (upd i Idle (r_thr s)), [Stored slot d])
  end.

Fixpoint run (sched : list (nat * D)) (s : rstate) : rstate * list event :=
  match sched with
  | [] => (s, [])
  | (i, d) :: rest =>
      let '(s1, e1) := step i d s in
      let '(s2, e2) := run rest s1 in
      (s2, e1 ++ e2)
  end.

(** init_internal_record (internal_record.py:104-138): empty table of [cap] rows *)
Definition init (cap : Z) (nthreads : nat) : rstate :=
  mkR cap 0 (fun _ => None) (repeat Idle nthreads).

End Rec.
Arguments pc D : clear implicits.
Arguments rstate D : clear implicits.
Arguments event D : clear implicits.
