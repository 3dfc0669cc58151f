(** What a user expects of an internal record. *)
From Coq Require Import ZArith List Bool.
From Verif.Model Require Import Record.
Import ListNotations.
Local Open Scope Z_scope.

Section Spec.
Context {D : Type}.

Definition requests (es : list (event D)) : list D :=
  flat_map (fun e => match e with Requested d => [d] | _ => [] end) es.
Definition grants (es : list (event D)) : list (Z * D) :=
  flat_map (fun e => match e with Got k d => [(k, d)] | _ => [] end) es.
Definition refusals (es : list (event D)) : list D :=
  flat_map (fun e => match e with Refused d => [d] | _ => [] end) es.

(** No call in progress. *)
Definition quiescent (s : rstate D) : Prop := Forall (fun t => t = Idle) (r_thr s).

(** [0, 1, ..., n-1] *)
Definition zseq (n : nat) : list Z := map Z.of_nat (seq 0 n).

End Spec.
