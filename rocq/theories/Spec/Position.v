From Coq Require Import ZArith Reals.
(** Sum of the lengths of the elements 0 .. k-1 of the line. *)
Fixpoint sum_len (len : Z -> R) (k : nat) : R :=
  match k with O => 0%R | S k' => (sum_len len k' + len (Z.of_nat k'))%R end.
