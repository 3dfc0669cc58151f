(** What check_aperture should report. *)
From Coq Require Import QArith List Bool Arith.
From Verif.Model Require Import CheckAperture.
Import ListNotations.

(** Position of the entry of element [k]: the sum of the lengths before. *)
Definition s_entry (rows : list row) (k : nat) : Q :=
  fold_right Qplus 0 (map (fun r => if r_thick r then r_len r else 0) (firstn k rows)).

Definition aperture_at (rows : list row) (j : nat) : Prop :=
  exists a, nth_error rows j = Some a /\ r_aper a = true.
(** An aperture among the preceding elements, at the entry of the element. *)
Definition covered_upstream (rows : list row) (i : nat) : Prop :=
  exists j, (j < i)%nat /\ aperture_at rows j /\ s_entry rows j == s_entry rows i.
(** An aperture among the following elements, not further from the exit than the tolerance. *)
Definition covered_downstream (rows : list row) (i : nat) (len : Q) : Prop :=
  exists j, (i < j)%nat /\ aperture_at rows j /\ s_entry rows j <= s_entry rows i + len + (1 # 1000000).

(** Elements in which losses can be refined (drifts, markers) need no aperture, unless they are in
    [needs_aperture]; nor do the edges of sliced elements. *)
Definition active (r : row) : Prop :=
  r_aper r = false /\ r_edge r = false /\ (r_refine r = false \/ r_needs r = true).
Definition no_negative (rows : list row) : Prop := Forall (fun r => 0 <= r_len r) rows.
