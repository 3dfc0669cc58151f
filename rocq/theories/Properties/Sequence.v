(** C52: flattening of nested sequences. C62: lines from sequence definitions. *)
From Coq Require Import Reals List Bool String Ascii Arith Permutation.
From Verif.Model Require Import Sequence.
From Verif.Spec Require Import Sequence.
From Verif.Proofs Require Sequence SequenceNames SequenceBuild SequenceCases.
Import ListNotations.
Local Open Scope R_scope.
Local Open Scope string_scope.

(** Without references between nodes: the flattened sequence has exactly the elements which stand in
    the nested sequences, each at the sum of the positions along the nesting. *)
Theorem C52_positions elements sequences sc (fuel : nat) (root : list node) (flat : list fnode) :
  flatten elements sequences sc fuel root = inl flat ->
  no_references elements sequences root ->
  forall p o, stands elements sequences root p o <-> exists f, In f flat /\ f_s f = p /\ f_what f = o.
Proof. exact (Sequence.positions elements sequences sc fuel root flat). Qed.
Print Assumptions C52_positions.

(** The order is that of the definition, and the node at any place of the definition, with or without a
    reference, stands where its definition says given what comes before it: relative to the first
    node with the name of the reference. A nested sequence is moved there as a whole. *)
Theorem C52_order elements sequences sc (fuel : nat) (before after : list node) (n : node) (flat : list fnode) :
  flatten elements sequences sc (S fuel) (before ++ n :: after) = inl flat ->
  exists flat_before block rest s name,
    flatten elements sequences sc (S fuel) before = inl flat_before /\ flat = (flat_before ++ block ++ rest)%list /\
    match n_from n with
    | inl from_ => s = n_s n + from_
    | inr from_ => exists a f b, flat_before = (a ++ f :: b)%list /\ f_name f = from_ /\
                                 (forall g, In g a -> f_name g <> from_) /\ s = n_s n + f_s f
    end /\
    ((exists o, content_of elements sequences (n_what n) = inl (CElem o) /\ block = [mkFnode s o name]) \/
     (exists l subs, content_of elements sequences (n_what n) = inl (CSeq l) /\
        flatten elements sequences sc fuel l = inl subs /\
        block = mkFnode s marker name ::
                map (fun sub => mkFnode (s + f_s sub) (f_what sub) (format sc name (f_name sub))) subs)).
Proof. exact (Sequence.order elements sequences sc fuel before after n flat). Qed.
Print Assumptions C52_order.

(** A generated name is free, and is the name itself or the one with the smallest free number. *)
Theorem C52_next_name (sc : scheme) (prefix : string) (names : list string) :
  exists n, next_name sc prefix names = Some n /\ ~ In n names /\
  ((~ In prefix names /\ n = prefix) \/
   (In prefix names /\ exists j, n = format sc prefix (decimal j) /\ (1 <= j)%nat /\
      forall k, (1 <= k < j)%nat -> In (format sc prefix (decimal k)) names)).
Proof. exact (Sequence.next_name_full sc prefix names). Qed.
Print Assumptions C52_next_name.

(** With a naming scheme with a separator, all names are distinct. *)
Theorem C52_names elements sequences (c : ascii) (fuel : nat) (root : list node) (flat : list fnode) :
  ~ is_digit c -> plain_names elements sequences c root ->
  flatten elements sequences (separator c) fuel root = inl flat -> NoDup (map f_name flat).
Proof. exact (SequenceNames.unique_names elements sequences c fuel root flat). Qed.
Print Assumptions C52_names.

(** With the default scheme they are not. *)
Theorem C52_names_refuted : exists root flat,
  flatten SequenceCases.none_elements SequenceCases.none_sequences default_scheme 2 root = inl flat /\
  ~ NoDup (map f_name flat).
Proof. exact SequenceCases.names_clash. Qed.
Print Assumptions C52_names_refuted.

Example C52_case : exists flat,
  flatten SequenceCases.none_elements SequenceCases.arcs (separator SequenceCases.dot) 2 SequenceCases.two_arcs = inl flat /\
  map f_name flat = ["arc"; "arc.element"; "arc.k"; "arc.1"; "arc.1.element"; "arc.1.k"; "m"] /\
  map f_s flat = [0; 1; 4; 10; 11; 14; 19].
Proof. exact SequenceCases.arcs_flat. Qed.

(** The line has the requested length, every element of the flattened sequence under its name with its
    entry, centre or exit at the requested position, and only drifts besides. *)
Theorem C62_positions elements sequences sc (fuel : nat) (reorder : bool) (r : refer) (root : list node)
    (flat : list fnode) (length : R) (l : list entry) :
  flatten elements sequences sc fuel root = inl flat -> distinct sc flat ->
  from_sequence elements sequences sc fuel reorder r root length = Some l ->
  NoDup (map fst l) /\ total (line_elements l) = length /\
  (forall n, In n flat -> exists x y, line_elements l = (x ++ (f_name n, Some (f_what n)) :: y)%list /\
                                      total x + reference r (f_what n) = f_s n) /\
  (forall e, In e (line_elements l) ->
     (exists n, In n flat /\ e = (f_name n, Some (f_what n))) \/ (exists ds, 0 <= ds /\ snd e = Some (drift ds))).
Proof. exact (SequenceBuild.placed_as_requested elements sequences sc fuel reorder r root flat length l). Qed.
Print Assumptions C62_positions.

(** The names are distinct when a separator is used and no node is named drift. *)
Theorem C62_distinct elements sequences (c : ascii) (fuel : nat) (root : list node) (flat : list fnode) :
  ~ is_digit c -> without c "drift" -> plain_names elements sequences c root ->
  no_drift_names elements sequences root ->
  flatten elements sequences (separator c) fuel root = inl flat -> distinct (separator c) flat.
Proof. exact (SequenceBuild.distinct_plain elements sequences c fuel root flat). Qed.
Print Assumptions C62_distinct.

(** The line is built exactly when the elements fit, in the order given. *)
Theorem C62_defined elements sequences sc (fuel : nat) (r : refer) (root : list node) (flat : list fnode) (length : R) :
  flatten elements sequences sc fuel root = inl flat ->
  (fits r flat 0 length <-> exists l, from_sequence elements sequences sc fuel false r root length = Some l).
Proof. exact (SequenceBuild.line_defined elements sequences sc fuel r root flat length). Qed.
Print Assumptions C62_defined.

(** With auto_reorder the line is built when the elements fit in some order, provided that no two
    elements stand at the same position. *)
Theorem C62_reorder elements sequences sc (fuel : nat) (root : list node) (flat flat' : list fnode) (length : R) :
  flatten elements sequences sc fuel root = inl flat ->
  Permutation flat flat' -> fits Entry flat' 0 length -> NoDup (map f_s flat) ->
  (forall f, In f flat -> 0 <= o_length (f_what f)) ->
  exists l, from_sequence elements sequences sc fuel true Entry root length = Some l.
Proof. exact (SequenceBuild.reorder_defined elements sequences sc fuel root flat flat' length). Qed.
Print Assumptions C62_reorder.

(** A node with a name that is also given to a drift replaces the drift and the line gets another
    length. *)
Theorem C62_drift_name_refuted : exists root length l,
  from_sequence SequenceCases.none_elements SequenceCases.none_sequences default_scheme 1 false Entry root length = Some l /\
  total (line_elements l) <> length.
Proof. exact SequenceCases.drift_clash. Qed.
Print Assumptions C62_drift_name_refuted.

Example C62_case :
  (exists l, from_sequence SequenceCases.none_elements SequenceCases.arcs (separator SequenceCases.dot) 2 false Entry
               SequenceCases.two_arcs 20 = Some l) /\
  plain_names SequenceCases.none_elements SequenceCases.arcs SequenceCases.dot SequenceCases.two_arcs /\
  no_drift_names SequenceCases.none_elements SequenceCases.arcs SequenceCases.two_arcs /\ ~ is_digit SequenceCases.dot.
Proof.
  exact (conj SequenceCases.arcs_line (conj (proj1 SequenceCases.arcs_plain)
          (conj (proj2 SequenceCases.arcs_plain) SequenceCases.dot_not_digit))).
Qed.
