(** C50: multisetters. *)
From Coq Require Import ZArith List Bool String Permutation.
From Verif.Model Require Import MultiSetter.
From Verif.Spec Require Import MultiSetter.
From Verif.Proofs Require MultiSetter MultiSetterCases.
Import ListNotations.
Local Open Scope Z_scope.

(** The values set are read back, by the multisetter and from every element, whatever the order in which
    the threads write (byte by byte). *)
Theorem C50_read_back (obs : list object) (name : string) (index : option Z) (t : dtype) (offsets values : list Z)
    (ws : list (Z * Z)) (m : memory) :
  all_apart obs -> Forall laid_out obs -> offsets_of obs name index t false = Some offsets ->
  List.length values = List.length obs -> Forall (in_range t) values ->
  Permutation ws (all_writes t offsets values) ->
  get_values t offsets (perform ws m) = values.
Proof. exact (MultiSetter.set_get_all obs name index t offsets values ws m). Qed.
Print Assumptions C50_read_back.

Theorem C50_attributes (obs : list object) (name : string) (index : option Z) (t : dtype) (skip : bool)
    (offsets values : list Z) :
  all_apart obs -> Forall laid_out obs -> offsets_of obs name index t skip = Some offsets ->
  Forall (in_range t) values ->
  forall (ws : list (Z * Z)) (m : memory), Permutation ws (all_writes t offsets values) ->
  forall i ob v, nth_error obs i = Some ob -> nth_error values i = Some v ->
  (exists a, located ob name index t a) -> attribute t (perform ws m) ob name index v.
Proof. exact (MultiSetter.set_attribute obs name index t skip offsets values). Qed.
Print Assumptions C50_attributes.

(** Nothing else changes: the other attributes and items of the same elements, all attributes of other
    elements. *)
Theorem C50_frame (obs : list object) (name : string) (index : option Z) (t : dtype) (skip : bool)
    (offsets values : list Z) :
  Forall laid_out obs -> offsets_of obs name index t skip = Some offsets ->
  List.length values = List.length obs ->
  forall (ws : list (Z * Z)) (m : memory), Permutation ws (all_writes t offsets values) ->
  forall ob' name' index' t' a, laid_out ob' -> located ob' name' index' t' a ->
  (forall ob, In ob obs -> apart ob' ob \/ (ob' = ob /\ (name', index') <> (name, index))) ->
  load t' (perform ws m) a = load t' m a.
Proof. exact (MultiSetter.set_frame obs name index t skip offsets values). Qed.
Print Assumptions C50_frame.

(** Setting the values just read leaves the memory as it is. *)
Theorem C50_restore (t : dtype) (offsets : list Z) (m : memory) (ws : list (Z * Z)) :
  (forall x, 0 <= m x < 256) ->
  Permutation ws (all_writes t offsets (get_values t offsets m)) -> forall x, perform ws m x = m x.
Proof. exact (MultiSetter.set_what_was_read t offsets m ws). Qed.
Print Assumptions C50_restore.

(** With skip_inconsistent_type_check, elements whose attribute is of another type are not changed at all
    and read as zero; the others are set. *)
Theorem C50_skip (obs : list object) (name : string) (index : option Z) (t : dtype) (offsets values : list Z)
    (ws : list (Z * Z)) (m : memory) (i : nat) (ob : object) (v : Z) :
  all_apart obs -> Forall laid_out obs -> offsets_of obs name index t true = Some offsets ->
  List.length values = List.length obs -> Forall (in_range t) values ->
  Permutation ws (all_writes t offsets values) ->
  nth_error obs i = Some ob -> nth_error values i = Some v ->
  ((exists a, located ob name index t a) -> nth_error (get_values t offsets (perform ws m)) i = Some v) /\
  ((forall a, ~ located ob name index t a) ->
   nth_error (get_values t offsets (perform ws m)) i = Some 0 /\
   forall name' index' t' a, located ob name' index' t' a -> load t' (perform ws m) a = load t' m a).
Proof. exact (MultiSetter.skipped obs name index t offsets values ws m i ob v). Qed.
Print Assumptions C50_skip.

(** An element given twice with different values is not read back. *)
Theorem C50_given_twice_refuted (m : memory) : exists obs values, Forall laid_out obs /\
  offsets_of obs "length"%string None Float64 false = Some [8; 8] /\
  forall ws, Permutation ws (all_writes Float64 [8; 8] values) -> get_values Float64 [8; 8] (perform ws m) <> values.
Proof. exact (MultiSetterCases.twice_lost m). Qed.
Print Assumptions C50_given_twice_refuted.

Example C50_case :
  all_apart [MultiSetterCases.first; MultiSetterCases.second] /\
  Forall laid_out [MultiSetterCases.first; MultiSetterCases.second] /\
  offsets_of [MultiSetterCases.first; MultiSetterCases.second] "knl"%string (Some 1) Float64 false = Some [40; 140].
Proof. exact (conj (proj1 MultiSetterCases.two_apart) (conj (proj2 MultiSetterCases.two_apart) MultiSetterCases.two_offsets)). Qed.
