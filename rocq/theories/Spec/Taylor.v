(** What is expected of Taylor maps. *)
From Coq Require Import Reals List Arith.
From Verif.Model Require Import Taylor.
Local Open Scope R_scope.

Definition sum (f : nat -> R) : R := sum_f_R0 f 5.
(** Polynomials of degree two *)
Definition quadratic (k : vec) (A : nat -> vec) (B : nat -> nat -> vec) (z : vec) (i : nat) : R :=
  k i + sum (fun j => A i j * z j) + sum (fun j => sum (fun l => B i j l * z j * z l)).
Definition symmetric (B : nat -> nat -> vec) : Prop := forall i j k, (j < 6)%nat -> (k < 6)%nat -> B i j k = B i k j.
(** Steps are not zero. *)
Definition steps_ok (s : steps) : Prop := (forall j, (j < 5)%nat -> s_d s j <> 0) /\ forall v, 0 < s_up s v /\ 0 < s_down s v.
(** The line only sees the six coordinates. *)
Definition of_six (f : vec -> vec) : Prop := forall z z' i, (forall j, (j < 6)%nat -> z j = z' j) -> f z i = f z' i.
