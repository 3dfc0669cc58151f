(** Layout of elements in a buffer. *)
From Coq Require Import ZArith List Bool String.
From Verif.Model Require Import MultiSetter.
Import ListNotations.
Local Open Scope Z_scope.

Definition in_range (t : dtype) (v : Z) : Prop :=
  match t with
  | Float64 => 0 <= v < 2 ^ 64
  | Int64 => - 2 ^ 63 <= v < 2 ^ 63
  | Int32 => - 2 ^ 31 <= v < 2 ^ 31
  end.

(** Where the attribute (or the item of the array) is: type and address *)
Definition located (ob : object) (name : string) (index : option Z) (t : dtype) (a : Z) : Prop :=
  match index with
  | None => exists p, ob_field ob name = Some (Scalar t p) /\ a = ob_base ob + p
  | Some i => exists p n, ob_field ob name = Some (Array t p n) /\ 0 <= i < n /\ a = ob_base ob + p + i * Z.of_nat (width t)
  end.
Definition extent (f : field) : Z * Z :=
  match f with
  | Scalar t p => (p, p + Z.of_nat (width t))
  | Array t p n => (p, p + n * Z.of_nat (width t))
  end.
(** Elements lie in the buffer, attributes in their element, different attributes apart. *)
Definition laid_out (ob : object) : Prop :=
  0 <= ob_base ob /\
  (forall name f, ob_field ob name = Some f ->
     0 <= fst (extent f) /\ fst (extent f) <= snd (extent f) <= ob_size ob) /\
  (forall n1 n2 f1 f2, ob_field ob n1 = Some f1 -> ob_field ob n2 = Some f2 -> n1 <> n2 ->
     snd (extent f1) <= fst (extent f2) \/ snd (extent f2) <= fst (extent f1)).
Definition apart (a b : object) : Prop :=
  ob_base a + ob_size a <= ob_base b \/ ob_base b + ob_size b <= ob_base a.
Definition same_place (a b : object) : Prop := ob_base a = ob_base b.
(** Every two elements of the list occupy different parts of the buffer. *)
Inductive all_apart : list object -> Prop :=
| apart_nil : all_apart []
| apart_cons ob l : (forall ob', In ob' l -> apart ob ob') -> all_apart l -> all_apart (ob :: l).

(** The value of an attribute as read from the element *)
Definition attribute (t : dtype) (m : memory) (ob : object) (name : string) (index : option Z) (v : Z) : Prop :=
  exists a, located ob name index t a /\ load t m a = v.
