(** What refinement of loss locations is expected to do *)
From Coq Require Import QArith ZArith List Bool Arith Permutation.
From Verif.Model Require Import LossRefinement.
Import ListNotations.
Local Open Scope list_scope.

(** Element i is an aperture. *)
Definition is_aperture (l : line) (i : nat) : Prop := exists e, nth_error l i = Some e /\ e_aperture e = true.
(** i0 is the last aperture before i1. *)
Definition previous_aperture (l : line) (i0 i1 : nat) : Prop :=
  is_aperture l i0 /\ is_aperture l i1 /\ (i0 < i1)%nat /\ forall i, (i0 < i < i1)%nat -> ~ is_aperture l i.
(** Only thick elements have a length, which is not negative; apertures are thin. *)
Definition sound (l : line) : Prop := forall e, In e l ->
  (0 <= e_length e)%Q /\ (e_thick e = false -> (e_length e == 0)%Q) /\ (e_aperture e = true -> e_thick e = false).
(** i_start is the first thick element after i0. *)
Definition first_thick (l : line) (i0 i_start : nat) : Prop :=
  (i0 < i_start)%nat /\ (exists e, nth_error l i_start = Some e /\ e_thick e = true) /\
  (forall i e, (i0 <= i < i_start)%nat -> nth_error l i = Some e -> e_thick e = false).

(** The positions of the apertures: from s0 to s1, equidistant. *)
Fixpoint steps (d : Q) (l : list Q) : Prop :=
  match l with
  | a :: ((b :: _) as r) => (b - a == d)%Q /\ steps d r
  | _ => True
  end.

Section Refine.
Context {D : Type}.
Variables (forward back : nat -> D -> D) (fly : nat -> Q -> D -> D) (outside : nat -> nat -> Q -> D -> bool).
(** A particle which enters element a with coordinates p has coordinates [arrive a n p] n elements later. *)
Fixpoint arrive (a n : nat) (p : D) : D := match n with O => p | S n => arrive (S a) n (forward a p) end.
(** (s, d) is where a particle is lost which enters i_start with coordinates p: the aperture at the k-th position of the
    grid is the first which it does not pass, or it passes all of them and s is the last one. *)
Definition lost_first (i0 i1 i_start : nat) (s0 : Q) (p : D) (grid : list Q) (s : Q) (d : D) : Prop :=
  exists k, nth_error grid k = Some s /\ d = fly i_start (s - s0)%Q p /\
    (forall j s', (j < k)%nat -> nth_error grid j = Some s' -> outside i0 i1 s' (fly i_start (s' - s0)%Q p) = false) /\
    (outside i0 i1 s d = true \/ S k = List.length grid).
End Refine.
