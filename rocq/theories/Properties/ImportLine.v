(** C48: importing a line into another environment. *)
From Coq Require Import QArith List Bool String.
From Verif.Model Require Import Line ImportLine.
From Verif.Spec Require Import ImportLine.
From Verif.Proofs Require ImportLine ImportLineCases.
Import ListNotations.
Local Open Scope list_scope.
Local Open Scope string_scope.

(** The import succeeds if all elements, and the parents of slices and replicas, exist and can be copied. *)
Theorem C48_defined suffix rename line_name overwrite v src src_vars names :
  (forall n, used src names n -> exists e, get src n = Some e /\ el_allowed e = true) ->
  exists r, import_line suffix rename line_name overwrite v src src_vars names = Some r.
Proof. exact (Verif.Proofs.ImportLine.import_succeeds suffix rename line_name overwrite v src src_vars names). Qed.
Print Assumptions C48_defined.

(** The element at each position is a copy of the one at this position, expressions included; parents of copies
    are copies of the parents; the elements of the environment stay as they were; variables of one side are there, for
    those of both [overwrite] decides. *)
Theorem C48_contents suffix rename line_name overwrite v src src_vars names v' l :
  let suf := match suffix with Some s => s | None => "/" ++ line_name end in
  free_names rename suf (ev_elems v) src names -> markers_plain src -> markers_plain (ev_elems v) ->
  import_line suffix rename line_name overwrite v src src_vars names = Some (v', l) ->
  (exists origin, map origin l = map Some names /\ copies src (ev_elems v') origin) /\
  (forall n e, get (ev_elems v) n = Some e -> get (ev_elems v') n = Some e) /\
  (forall x, get (ev_vars v') x = if overwrite
     then match get src_vars x with Some q => Some q | None => get (ev_vars v) x end
     else match get (ev_vars v) x with Some q => Some q | None => get src_vars x end).
Proof. exact (Verif.Proofs.ImportLine.import_ok suffix rename line_name overwrite v src src_vars names v' l). Qed.
Print Assumptions C48_contents.

(** The attributes have the values they had: those of the imported elements where the variables agree, those of
    the elements of the environment unless variables are overwritten. *)
Theorem C48_values suffix rename line_name overwrite v src src_vars names v' l :
  let suf := match suffix with Some s => s | None => "/" ++ line_name end in
  free_names rename suf (ev_elems v) src names -> markers_plain src -> markers_plain (ev_elems v) ->
  import_line suffix rename line_name overwrite v src src_vars names = Some (v', l) ->
  (forall i n k, nth_error names i = Some n -> nth_error l i = Some k ->
     exists e e', get src n = Some e /\ get (ev_elems v') k = Some e' /\
       (same_variables (ev_vars v') src_vars e -> values (ev_vars v') e' = values src_vars e)) /\
  (forall n e, get (ev_elems v) n = Some e -> (overwrite = true -> same_variables (ev_vars v') (ev_vars v) e) ->
     (forall a t x, In (a, t) (el_attrs e) -> occurs x t -> get (ev_vars v) x <> None) ->
     get (ev_elems v') n = Some e /\ values (ev_vars v') e = values (ev_vars v) e).
Proof. exact (Verif.Proofs.ImportLine.import_values suffix rename line_name overwrite v src src_vars names v' l). Qed.
Print Assumptions C48_values.

(** Names which are free in the environment are kept. *)
Theorem C48_names suffix line_name overwrite v src src_vars names : NoDup names ->
  (forall n, In n names -> exists e, get src n = Some e /\ el_allowed e = true /\ el_parent e = None /\ generated_name n = false /\
     get (ev_elems v) n = None) ->
  exists v', import_line suffix [] line_name overwrite v src src_vars names = Some (v', names).
Proof. exact (Verif.Proofs.ImportLine.import_kept suffix line_name overwrite v src src_vars names). Qed.
Print Assumptions C48_names.

(** A suffixed name of an element of the environment: that element is lost. *)
Theorem C48_suffix_taken_refuted : exists suffix v src src_vars names v' l n e,
  import_line suffix [] "arc" false v src src_vars names = Some (v', l) /\
  get (ev_elems v) n = Some e /\ get (ev_elems v') n <> Some e.
Proof. exact Verif.Proofs.ImportLineCases.suffix_taken. Qed.
Print Assumptions C48_suffix_taken_refuted.

(** A suffixed name of an element of the line: the new line has other contents. *)
Theorem C48_suffix_in_line_refuted : exists v src src_vars names v' l,
  import_line None [] "arc" false v src src_vars names = Some (v', l) /\
  map (get (ev_elems v')) l <> map (get src) names.
Proof. exact Verif.Proofs.ImportLineCases.suffix_in_line. Qed.
Print Assumptions C48_suffix_in_line_refuted.

(** An element which occurs twice does not stay one element. *)
Theorem C48_repeated_refuted : exists v src src_vars names v' l,
  import_line None [] "arc" false v src src_vars names = Some (v', l) /\
  nth_error names 0 = nth_error names 1 /\ nth_error l 0 <> nth_error l 1.
Proof. exact Verif.Proofs.ImportLineCases.repeated_apart. Qed.
Print Assumptions C48_repeated_refuted.

(** A variable of the environment with the same name and another value changes the strengths. *)
Theorem C48_variables_refuted : exists v src src_vars names v' l n e k e',
  import_line None [] "arc" false v src src_vars names = Some (v', l) /\
  nth_error names 0 = Some n /\ nth_error l 0 = Some k /\ get src n = Some e /\ get (ev_elems v') k = Some e' /\
  values (ev_vars v') e' <> values src_vars e.
Proof. exact Verif.Proofs.ImportLineCases.other_variable. Qed.
Print Assumptions C48_variables_refuted.

Section Case.
Import Verif.Proofs.ImportLineCases.
(** a quadrupole, a marker and a drift with names of the environment, slices with a parent, repeated elements *)
Example C48_case :
  free_names [] "/arc" (ev_elems ring_env) arc arc_names /\ markers_plain arc /\ markers_plain (ev_elems ring_env) /\
  exists v, import_line None [] "arc" false ring_env arc arc_vars arc_names =
    Some (v, ["m"; "q/arc"; "||drift_2"; "b..0"; "b..1"; "q/arc"; "m"]) /\
  get (ev_elems v) "b..1" = Some (slice_of "b") /\ get (ev_elems v) "b" = get arc "b" /\
  get (ev_elems v) "||drift_1" = Some (a_drift_of 5) /\ get (ev_elems v) "||drift_2" = Some (a_drift_of 7).
Proof. exact (conj arc_free (conj arc_markers (conj ring_markers arc_imported))). Qed.
End Case.
