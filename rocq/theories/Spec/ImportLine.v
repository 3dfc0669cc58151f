(** What importing a line is expected to do *)
From Coq Require Import QArith List Bool String.
From Verif.Model Require Import Line ImportLine.
Import ListNotations.
Local Open Scope string_scope.

(** The names of a line and of the parents, grandparents, ... of its elements *)
Inductive used (src : elems) (names : list string) : string -> Prop :=
| used_name n : In n names -> used src names n
| used_parent n e p : used src names n -> get src n = Some e -> el_parent e = Some p -> used src names p.

(** The name for an element which cannot keep its own *)
Definition other_name (rename : list (string * string)) (suffix n : string) : string :=
  match get rename n with Some r => r | None => n ++ suffix end.

(** These names are free: not in the environment, not those of other elements of the line nor of
    generated drifts, and different for different elements. *)
Definition free_names (rename : list (string * string)) (suffix : string) (d : elems) (src : elems) (names : list string) : Prop :=
  forall n, used src names n ->
    get d (other_name rename suffix n) = None /\
    generated_name (other_name rename suffix n) = false /\
    (forall m, used src names m -> other_name rename suffix n <> m) /\
    (forall m, used src names m -> other_name rename suffix n = other_name rename suffix m -> n = m).

(** All markers are the same. *)
Definition plain_marker : el := mkEl true true 0 [] None.
Definition markers_plain (d : elems) : Prop := forall n e, get d n = Some e -> el_marker e = true -> e = plain_marker.

(** The elements of [d] which [origin] relates to elements of [src] are copies of these, and the
    parents of copies are copies of the parents. *)
Definition copies (src d : elems) (origin : string -> option string) : Prop :=
  forall k n, origin k = Some n -> exists e e', get src n = Some e /\ get d k = Some e' /\
    el_marker e' = el_marker e /\ el_allowed e' = el_allowed e /\ el_class e' = el_class e /\ el_attrs e' = el_attrs e /\
    match el_parent e with
    | None => el_parent e' = None
    | Some p => exists p', el_parent e' = Some p' /\ origin p' = Some p
    end.

(** Variables in an expression *)
Fixpoint occurs (x : string) (e : expr) : Prop :=
  match e with Num _ => False | Var y => x = y | Plus a b | Times a b => occurs x a \/ occurs x b end.
(** The variables of the element have the same values. *)
Definition same_variables (v w : vars) (e : el) : Prop :=
  forall a t x, In (a, t) (el_attrs e) -> occurs x t -> get v x = get w x.
