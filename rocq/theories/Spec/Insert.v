(** What insertions should do. *)
From Coq Require Import ZArith QArith Qabs List Bool String.
From Verif.Model Require Import Line.
From Verif.Model Require Composer.
From Verif.Spec Require Import Line LineEdit.
Import ListNotations.
Local Open Scope Q_scope.

(** Any two of the positions are the same or more than [2 tol] apart. *)
Definition well_apart (tol : Q) (l : list Q) : Prop := forall a b, In a l -> In b l -> a == b \/ 2 * tol < Qabs (a - b).
(** The intervals have at most end points in common. *)
Definition disjoint (i j : Q * Q) : Prop := snd i <= fst j \/ snd j <= fst i.
(** The [i]-th element of the line is [n], from [a] to [b]. *)
Definition at_place (v : env) (names : list string) (i : nat) (n : string) (a b : Q) : Prop :=
  nth_error names i = Some n /\ spans v names i a b.

(** The names and intervals of the insertions, which start at [starts] (see C20 for these positions). *)
Definition requested (len : string -> Q) (what : list string) (starts : list Q) : list (string * (Q * Q)) :=
  map (fun x => (fst x, (snd x, snd x + len (fst x)))) (combine what starts).

Definition untouched (req : list (string * (Q * Q))) (a b : Q) : Prop := forall x, In x req -> disjoint (a, b) (snd x).

(** [names'] is made exactly of the insertions [req] and of the elements of [names] that overlap with none
    of them, all at their places and the latter in their order. [src] tells where each element of [names']
    comes from: [inl j] is the [j]-th insertion and [inr i] the [i]-th element of [names]. *)
Definition arranged (v : env) (names names' : list string) (req : list (string * (Q * Q))) (src : list (nat + nat)) : Prop :=
  List.length src = List.length names' /\ NoDup src
  /\ (forall j, In (inl j) src <-> (j < List.length req)%nat)
  /\ (forall i, In (inr i) src <-> exists n a b, at_place v names i n a b /\ untouched req a b)
  /\ (forall k j, nth_error src k = Some (inl j) ->
       exists n u w, nth_error req j = Some (n, (u, w)) /\ at_place v names' k n u w)
  /\ (forall k i n a b, nth_error src k = Some (inr i) -> at_place v names i n a b -> at_place v names' k n a b)
  /\ (forall k k' i i', nth_error src k = Some (inr i) -> nth_error src k' = Some (inr i') -> (i < i')%nat -> (k < k')%nat).

(** What the insertion asks of its arguments: the insertions are inside the line and do not overlap, and all
    the ends of elements and insertions are equal or more than twice the tolerance apart. *)
Definition insertable (tol L : Q) (old : list Q) (req : list (string * (Q * Q))) : Prop :=
  (forall n u w, In (n, (u, w)) req -> 0 <= u /\ u <= w /\ w <= L)
  /\ (forall i j x y, nth_error req i = Some x -> nth_error req j = Some y -> i <> j -> disjoint (snd x) (snd y))
  /\ well_apart tol (old ++ map (fun x => fst (snd x)) req ++ map (fun x => snd (snd x)) req).

(** Placed at a position of its own, not relative to another element. *)
Definition absolute (p : Composer.place) : Prop :=
  Composer.pl_from p = None /\ Composer.pl_from_anchor p = None /\ Composer.pl_at p <> None.
