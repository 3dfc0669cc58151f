(** C36: check_aperture. *)
From Coq Require Import QArith List Bool.
From Verif.Model Require Import CheckAperture.
From Verif.Spec Require Import CheckAperture.
From Verif.Proofs Require CheckAperture.
Import ListNotations.

(** * C36. Every active element downstream of an aperture has a problem if and only if no aperture
    stands at its entry, or it is thick and no aperture stands at its exit. *)
Theorem C36_reported : forall rows i r, no_negative rows -> nth_error rows i = Some r -> active r ->
  (r_thick r = true -> 1 # 1000000 < r_len r) -> (exists j, (j < i)%nat /\ aperture_at rows j) ->
  exists p, nth_error (check_aperture rows) i = Some p
    /\ (has_problem p = true <->
         ~ covered_upstream rows i \/ (r_thick r = true /\ ~ covered_downstream rows i (r_len r))).
Proof. exact CheckAperture.reported. Qed.
Print Assumptions C36_reported.
(** Elements of [needs_aperture] without length only need an aperture upstream. *)
Theorem C36_needs_aperture : forall rows i r, no_negative rows -> nth_error rows i = Some r -> active r ->
  r_needs r = true -> r_len r == 0 -> (exists j, (j < i)%nat /\ aperture_at rows j) ->
  exists p, nth_error (check_aperture rows) i = Some p
    /\ (has_problem p = true <-> ~ covered_upstream rows i).
Proof. exact CheckAperture.reported_zero. Qed.
Print Assumptions C36_needs_aperture.
(** Nothing is reported for the other elements. *)
Theorem C36_inactive : forall rows i r, nth_error rows i = Some r -> ~ active r ->
  nth_error (check_aperture rows) i = Some (mkReport false false false).
Proof. exact CheckAperture.not_reported. Qed.
Print Assumptions C36_inactive.
(** There is one report per element, and the two printed lists are the elements with a problem. *)
Theorem C36_length : forall rows, length (check_aperture rows) = length rows.
Proof. exact CheckAperture.check_length. Qed.
Print Assumptions C36_length.
Theorem C36_printed : forall rows i r p,
  nth_error rows i = Some r -> nth_error (check_aperture rows) i = Some p ->
  printed_thin r p || printed_thick r p = has_problem p.
Proof. exact CheckAperture.printed. Qed.
Print Assumptions C36_printed.

(** Upstream of the first aperture, or without any, nothing is ever reported. *)
Theorem C36_before_first : forall rows i, (i < length rows)%nat ->
  (forall j, (j <= i)%nat -> ~ aperture_at rows j) ->
  nth_error (check_aperture rows) i = Some (mkReport false false false).
Proof. exact CheckAperture.before_first. Qed.
Print Assumptions C36_before_first.
Theorem C36_no_aperture_refuted : exists rows i r p, no_negative rows /\ nth_error rows i = Some r /\ active r
  /\ r_thick r = true /\ 1 # 1000000 < r_len r /\ (forall j, ~ aperture_at rows j)
  /\ nth_error (check_aperture rows) i = Some p /\ has_problem p = false.
Proof. exact CheckAperture.no_aperture. Qed.
Print Assumptions C36_no_aperture_refuted.
(** An element shorter than the tolerance can pass with the aperture upstream only. *)
Theorem C36_short_refuted : exists rows i r p, no_negative rows /\ nth_error rows i = Some r /\ active r
  /\ r_thick r = true /\ 0 < r_len r /\ aperture_at rows 0 /\ ~ covered_downstream rows i (r_len r)
  /\ nth_error (check_aperture rows) i = Some p /\ has_problem p = false.
Proof. exact CheckAperture.short_element. Qed.
Print Assumptions C36_short_refuted.

(** aperture, quadrupole, aperture, drift, quadrupole without aperture, aperture *)
Example C36_case : map has_problem (check_aperture
    [mkRow true false 0 true false false; mkRow false true 2 false false false;
     mkRow true false 0 true false false; mkRow false true 1 true false false;
     mkRow false true 3 false false false; mkRow true false 0 true false false])
  = [false; false; false; false; true; false].
Proof. vm_compute. reflexivity. Qed.
