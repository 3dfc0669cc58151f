(** What a sequence definition means. *)
From Coq Require Import Reals List Bool String Ascii.
From Verif.Model Require Import Sequence.
Import ListNotations.
Local Open Scope R_scope.
Local Open Scope string_scope.

Section Dicts.
Variables (elements : string -> option obj) (sequences : string -> option (list node)).

(** [l] is [root] or a sequence nested in it, at any depth. *)
Inductive nested (root : list node) : list node -> Prop :=
| nested_root : nested root root
| nested_in l n l' : nested root l -> In n l -> content_of elements sequences (n_what n) = inl (CSeq l') ->
                     nested root l'.

(** The element [o] stands at [p] in the sequence: the positions along the nesting are added up.
    (No references to other nodes.) The start of a nested sequence is a marker. *)
Inductive stands : list node -> R -> obj -> Prop :=
| stands_elem l n o from : In n l -> n_from n = inl from ->
    content_of elements sequences (n_what n) = inl (CElem o) -> stands l (n_s n + from) o
| stands_start l n l' from : In n l -> n_from n = inl from ->
    content_of elements sequences (n_what n) = inl (CSeq l') -> stands l (n_s n + from) marker
| stands_in l n l' from p o : In n l -> n_from n = inl from ->
    content_of elements sequences (n_what n) = inl (CSeq l') -> stands l' p o -> stands l (n_s n + from + p) o.

(** No references by name *)
Definition no_references (root : list node) : Prop :=
  forall l n, nested root l -> In n l -> exists from, n_from n = inl from.

(** Names: the character [c] does not occur *)
Definition without (c : ascii) (n : string) : Prop := ~ In c (list_ascii_of_string n).
Definition is_number (n : string) : Prop := exists i, n = decimal i.
(** The names given by the user, at all levels, do not contain the separator and are not numbers. *)
Definition plain_names (c : ascii) (root : list node) : Prop :=
  forall l n, nested root l -> In n l -> without c (base_name n) /\ ~ is_number (base_name n).
Definition no_drift_names (root : list node) : Prop :=
  forall l n, nested root l -> In n l -> base_name n <> "drift".
End Dicts.

(** The naming scheme '{}<c>{}', as '{}.{}' *)
Definition separator (c : ascii) : scheme := mkScheme "" (String c EmptyString) "".
Definition is_digit (c : ascii) : Prop := In c (list_ascii_of_string "0123456789").

(** Sum of the lengths of the elements of a line *)
Definition size (o : option obj) : R := match o with Some o => if o_thick o then o_length o else 0 | None => 0 end.
Definition total (l : list (string * option obj)) : R := fold_right (fun e a => size (snd e) + a) 0 l.
(** Where an element of the line is referred to *)
Definition reference (r : refer) (o : obj) : R :=
  if o_thick o then match r with Entry => 0 | Centre => o_length o / 2 | Exit => o_length o end else 0.
(** The nodes are in order and do not overlap, from [from] to [length]. *)
Fixpoint fits (r : refer) (nodes : list fnode) (from length : R) : Prop :=
  match nodes with
  | [] => from <= length
  | n :: nodes => let start := f_s n - reference r (f_what n) in
                  from <= start /\ fits r nodes (start + size (Some (f_what n))) length
  end.
(** Names which can be given to drifts *)
Definition drift_name (sc : scheme) (n : string) : Prop := n = "drift" \/ exists i, n = format sc "drift" (decimal i).
(** No two elements of the line have the same name and no node is named as a drift *)
Definition distinct (sc : scheme) (nodes : list fnode) : Prop :=
  NoDup (map f_name nodes) /\ forall n, In n nodes -> ~ drift_name sc (f_name n).
