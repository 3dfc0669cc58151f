(** C66: optics in a range of elements with the initial conditions inside of it, or across the end of the line. *)
From Coq Require Import List Arith QArith Qcanon.
From Verif.Model Require Import TwissRange.
From Verif.Spec Require Import TwissRange.
From Verif.Proofs Require TwissRange TwissRangeCases.
Import ListNotations.
Local Open Scope nat_scope.

(** Initial conditions at a marker inside the range: the table is that of the optics with these values there. *)
Theorem C66_inside : forall (X : Type) n (step back : nat -> X -> X) inc incz marker reverse origin,
  (forall k x, back k (step k x) = x) ->
  forall Xf Cf Zf s e c i, s <= c -> c <= e -> e < n -> marker c = true -> is_marker step inc incz c ->
  propagated n step inc incz Xf Cf Zf s (S (e - s)) -> starts_from n Xf Cf Zf c i ->
  inside step back inc incz marker reverse origin s e i = Some (expected n Xf Cf Zf s (S (e - s))).
Proof. exact (@Verif.Proofs.TwissRange.inside_ok). Qed.
Print Assumptions C66_inside.

(** Across the end of the line, with the initial conditions anywhere in the range. *)
Theorem C66_wrap : forall (X : Type) n (step back : nat -> X -> X) inc incz reverse origin,
  (forall k x, back k (step k x) = x) ->
  forall Xf Cf Zf s e p i, e < s -> s < n -> s <= p < n + S e ->
  propagated n step inc incz Xf Cf Zf s (n - s + S e) -> starts_from n Xf Cf Zf p i -> is_marker step inc incz (i_elem i) ->
  (reverse = false -> s = n - 1 -> is_marker step inc incz (n - 1)) -> (reverse = true -> e = 0 -> is_marker step inc incz 0) ->
  wrap n step back inc incz reverse origin s e i = Some (expected n Xf Cf Zf s (n - s + S e)).
Proof. exact (@Verif.Proofs.TwissRange.wrap_ok). Qed.
Print Assumptions C66_wrap.

(** A start without an end is one turn. *)
Theorem C66_one_turn : forall (X : Type) n (step back : nat -> X -> X) inc incz reverse origin,
  (forall k x, back k (step k x) = x) ->
  forall Xf Cf Zf s i, 0 < s -> s < n -> propagated n step inc incz Xf Cf Zf s (S n) ->
  i_elem i = s -> i_x i = Xf s -> i_z i = Zf s -> Cf s = 0%Qc -> (reverse = true -> s = n - 1 -> is_marker step inc incz s) ->
  one_turn n step back inc incz reverse origin s i = Some (expected n Xf Cf Zf s n).
Proof. exact (@Verif.Proofs.TwissRange.one_turn_ok). Qed.
Print Assumptions C66_one_turn.

(** A periodic table from another start has the same optics, counted from there. *)
Theorem C66_periodic : forall (X : Type) n (step : nat -> X -> X) inc incz Xf Cf Zf s, 0 < s -> s < n ->
  propagated n step inc incz Xf Cf Zf 0 (n + s) -> Xf n = Xf 0 ->
  exists t, periodic_start s (expected n Xf Cf Zf 0 n) = Some t /\
    map (fun r => (r_name r, r_x r, r_c r)) t = map (fun r => (r_name r, r_x r, (r_c r - Cf s)%Qc)) (expected n Xf Cf Zf s n).
Proof. exact (@Verif.Proofs.TwissRange.periodic_ok). Qed.
Print Assumptions C66_periodic.

Import Verif.Proofs.TwissRangeCases.
Example C66_case :
  (1 < 2 /\ 2 < 4 /\ 2 <= 4 < 4 + 2) /\ (forall k x, ex_back k (ex_step k x) = x) /\
  propagated 4 ex_step ex_inc ex_incz ex_X ex_C ex_Z 2 (4 - 2 + 2) /\ starts_from 4 ex_X ex_C ex_Z 4 (ex_init 0) /\
  is_marker ex_step ex_inc ex_incz 0 /\
  option_map (map values) (wrap 4 ex_step ex_back ex_inc ex_incz false ex_origin 2 1 (ex_init 0)) =
    Some [(Some 2%nat, 2, 8, 19); (Some 3%nat, 2, 8, 19); (Some 0%nat, 4, 10, 20); (Some 1%nat, 4, 10, 20); (None, 5, 11, 24)]%Q.
Proof. exact wrap_case. Qed.
Example C66_periodic_case :
  propagated 3 (fun _ x => x) per_inc (fun _ _ => 1%Qc) (fun _ => q 1) per_C per_Z 0 5 /\
  option_map (map values) (periodic_start 2 per_table) =
    Some [(Some 2%nat, 1, 0, 2); (Some 0%nat, 1, 3, 0); (Some 1%nat, 1, 4, 1); (None, 1, 6, 2)]%Q.
Proof. exact (conj per_propagated periodic_case). Qed.

(** Across the end of the line, initial conditions inside an element with effect are accepted, and the table is that of no optics. *)
Theorem C66_thick_refuted : exists t, wrap 4 ex_step ex_back ex_inc ex_incz false ex_origin 2 0 (ex_init 3) = Some t /\
  forall Xf Cf Zf, propagated 4 ex_step ex_inc ex_incz Xf Cf Zf 2 3 -> t <> expected 4 Xf Cf Zf 2 3.
Proof. exact thick_refuted. Qed.
Print Assumptions C66_thick_refuted.
(** If the range starts at the last element, and this has an effect, initial conditions after the end of the line are taken at its entry. *)
Theorem C66_single_refuted : exists t, wrap 4 ex_step ex_back ex_inc ex_incz false ex_origin 3 1 (ex_init 0) = Some t /\
  forall Xf Cf Zf, propagated 4 ex_step ex_inc ex_incz Xf Cf Zf 3 3 -> t <> expected 4 Xf Cf Zf 3 3.
Proof. exact single_refuted. Qed.
Print Assumptions C66_single_refuted.
(** One turn from the first element is rejected. *)
Theorem C66_first_refuted : one_turn 4 ex_step ex_back ex_inc ex_incz false ex_origin 0 (ex_init 0) = None /\ periodic_start 0 per_table = None.
Proof. exact (conj first_refuted periodic_first_refuted). Qed.
Print Assumptions C66_first_refuted.
(** One turn starts from zero, not from the values of the initial conditions. *)
Theorem C66_zero_refuted : exists t r, one_turn 4 ex_step ex_back ex_inc ex_incz false ex_origin 2 (ex_init 2) = Some t /\
  first_row t = Some r /\ r_c r <> i_c (ex_init 2).
Proof. exact zero_refuted. Qed.
Print Assumptions C66_zero_refuted.
(** The longitudinal phase of a periodic table from another start does not go on across the end of the line. *)
Theorem C66_longitudinal_refuted : exists t, periodic_start 2 per_table = Some t /\
  forall d, map r_z t <> map (fun r => (r_z r + d)%Qc) (expected 3 (fun _ => q 1) per_C per_Z 2 3).
Proof. exact periodic_z_refuted. Qed.
Print Assumptions C66_longitudinal_refuted.
