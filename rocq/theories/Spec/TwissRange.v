(** Optics along a range of elements, possibly across the end of the line. *)
From Coq Require Import List Bool Arith QArith Qcanon.
From Verif.Model Require Import TwissRange.
Import ListNotations.
Local Open Scope nat_scope.
Local Open Scope list_scope.

(** Positions are counted on from the start of the line and go on after its end; the element at a position *)
Definition element_at (n p : nat) : nat := if p <? n then p else p - n.

Section Spec.
Context {X : Type}.
Variables (n : nat) (step : nat -> X -> X) (inc incz : nat -> X -> Qc).

(** Optics that is propagated through [m] elements from position [a] on *)
Definition propagated (Xf : nat -> X) (Cf Zf : nat -> Qc) (a m : nat) : Prop :=
  forall p, a <= p -> p < a + m ->
    Xf (S p) = step (element_at n p) (Xf p) /\
    Cf (S p) = (Cf p + inc (element_at n p) (Xf p))%Qc /\
    Zf (S p) = (Zf p + incz (element_at n p) (Xf p))%Qc.

(** The table of these elements: each one once, in order, then the end *)
Definition expected (Xf : nat -> X) (Cf Zf : nat -> Qc) (a m : nat) : list (row X) :=
  map (fun p => mkRow (Some (element_at n p)) (Xf p) (Cf p) (Zf p)) (seq a m) ++ [mkRow None (Xf (a + m)) (Cf (a + m)) (Zf (a + m))].

(** The optics has the given values at a position *)
Definition starts_from (Xf : nat -> X) (Cf Zf : nat -> Qc) (p : nat) (i : init X) : Prop :=
  i_elem i = element_at n p /\ i_x i = Xf p /\ i_c i = Cf p /\ i_z i = Zf p.

(** An element without effect *)
Definition is_marker (k : nat) : Prop := forall x, step k x = x /\ inc k x = 0%Qc /\ incz k x = 0%Qc.
End Spec.
