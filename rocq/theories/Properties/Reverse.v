(** C51: reversing an element or a line. *)
From Coq Require Import Reals List Bool String Arith.
From Verif.Model Require Import Maps Magnet FeedDown Reverse.
From Verif.Spec Require Import Magnets Reverse.
From Verif.Proofs Require Reverse ReverseTrack ReverseCases.
Import ListNotations.
Local Open Scope R_scope.
Local Open Scope string_scope.

(** Elements of the supported classes are reversed, all others are refused. *)
Theorem C51_defined (pi : R) (e : elem) : In (e_class e) supported <-> exists e', reverse_element pi e = Some e'.
Proof. exact (Reverse.defined pi e). Qed.
Print Assumptions C51_defined.

(** Reversing twice gives the element back. *)
Theorem C51_twice (pi : R) (e : elem) :
  well_formed e ->
  exists e' e'', reverse_element pi e = Some e' /\ reverse_element pi e' = Some e'' /\ same_elem e'' e.
Proof. exact (Reverse.twice pi e). Qed.
Print Assumptions C51_twice.

(** The multipole strengths of order n are multiplied by (-1)^n, the skew ones by -(-1)^n. *)
Theorem C51_strengths (pi : R) (e e' : elem) (n : nat) :
  reverse_element pi e = Some e' ->
  kn e' n = (if Nat.odd n then -1 else 1) * kn e n /\ ks e' n = (if Nat.odd n then 1 else -1) * ks e n.
Proof. exact (Reverse.strengths pi e e' n). Qed.
Print Assumptions C51_strengths.

(** The entry takes the settings of the exit and the exit those of the entry. *)
Theorem C51_edges (pi : R) (e e' : elem) (entry exit : string) :
  reverse_element pi e = Some e' -> two_edges e -> In (entry, exit) edge_keys ->
  e_field e' entry = e_field e exit /\ e_field e' exit = e_field e entry.
Proof. exact (Reverse.edges pi e e' entry exit). Qed.
Print Assumptions C51_edges.

(** Solenoid fields, tilt, lag of a cavity and voltage of a crab cavity change sign; a phase becomes
    its supplement. *)
Theorem C51_opposite (pi : R) (e e' : elem) :
  reverse_element pi e = Some e' ->
  (forall k, is_opposite e k -> e_field e' k = option_map Ropp (e_field e k)) /\
  e_field e' "phase" = option_map (fun phase => pi - phase) (e_field e "phase").
Proof. exact (Reverse.opposites pi e e'). Qed.
Print Assumptions C51_opposite.

(** Class, length, bending angle and all attributes not concerned are kept. *)
Theorem C51_kept (pi : R) (e e' : elem) (k : string) :
  reverse_element pi e = Some e' ->
  ~ is_opposite e k -> k <> "phase" -> other_edge k = None ->
  e_class e' = e_class e /\ e_field e' k = e_field e k.
Proof. exact (Reverse.kept pi e e' k). Qed.
Print Assumptions C51_kept.

(** A reversed thin multipole (with its tilt and vertical shift) acts as the original does on the
    same particle travelling in the opposite direction: x to the other side, the same horizontal
    kick, the opposite vertical kick. *)
Theorem C51_other_way (syn : bool) (pi : R) (e e' : elem) (p : part) :
  reverse_element pi e = Some e' -> value (e_field e "shift_x") = 0 ->
  let q := thin_track syn e (set_x (- p_x p) p) in
  let r := thin_track syn e' p in
  p_x r = p_x p /\ p_y r = p_y p /\
  p_px r - p_px p = p_px q - p_px p /\ p_py r - p_py p = - (p_py q - p_py p).
Proof. exact (ReverseTrack.other_way syn pi e e' p). Qed.
Print Assumptions C51_other_way.

(** A horizontally displaced multipole is not mirrored: shift_x is kept as it is. *)
Theorem C51_shift_refuted (pi : R) : exists e e' p,
  reverse_element pi e = Some e' /\ well_formed e /\
  ~ (p_px (thin_track false e' p) - p_px p = p_px (thin_track false e (set_x (- p_x p) p)) - p_px p).
Proof. exact (ReverseCases.shift_not_mirrored pi). Qed.
Print Assumptions C51_shift_refuted.

(** A line whose names are all different: every element is reversed once, the order is reversed and
    elements not in the line are not touched. *)
Theorem C51_line (pi : R) (d : dict) (names : list string) :
  NoDup names -> known d names ->
  exists d', reverse_line pi d names = Some (d', rev names) /\
    (forall n, In n names -> exists e e', d n = Some e /\ reverse_element pi e = Some e' /\ d' n = Some e') /\
    (forall n, ~ In n names -> d' n = d n).
Proof. exact (Reverse.line_once pi d names). Qed.
Print Assumptions C51_line.

Theorem C51_line_twice (pi : R) (d : dict) (names : list string) :
  NoDup names -> known d names ->
  exists d' d'', reverse_line pi d names = Some (d', rev names) /\
    reverse_line pi d' (rev names) = Some (d'', names) /\
    (forall n, In n names -> exists e e'', d n = Some e /\ d'' n = Some e'' /\ same_elem e'' e) /\
    (forall n, ~ In n names -> d'' n = d n).
Proof. exact (Reverse.line_twice pi d names). Qed.
Print Assumptions C51_line_twice.

(** An element placed twice in the line is reversed twice, hence not reversed. *)
Theorem C51_used_twice_refuted (pi : R) : exists d names, known d names /\ ~ NoDup names /\
  forall d' names', reverse_line pi d names = Some (d', names') ->
  exists n e e', In n names /\ d n = Some e /\ reverse_element pi e = Some e' /\
    (exists e'', d' n = Some e'' /\ same_elem e'' e) /\ ~ same_elem e' e.
Proof. exact (ReverseCases.used_twice pi). Qed.
Print Assumptions C51_used_twice_refuted.

Example C51_case (pi : R) : exists e', reverse_element pi ReverseCases.bend = Some e' /\ well_formed ReverseCases.bend /\
  e_field e' "k1" = Some (- (3)) /\ e_field e' "k0" = Some 1 /\ e_field e' "edge_entry_angle" = Some 7 /\
  e_field e' "edge_exit_angle" = Some 5 /\ kn e' 1 = - (6).
Proof. exact (ReverseCases.bend_case pi). Qed.
