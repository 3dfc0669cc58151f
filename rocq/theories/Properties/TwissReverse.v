(** C74: twiss tables in the reverse frame. *)
From Coq Require Import Reals List Bool String Arith.
From Verif.Model Require Import Lattice TwissReverse.
From Verif.Spec Require Import Lattice TwissReverse.
From Verif.Proofs Require TwissReverse TwissReverseCases.
Import ListNotations.
Local Open Scope R_scope.
Local Open Scope string_scope.

(** Reversing twice gives the table back. *)
Theorem C74_twice : forall t t', complete t -> t_markers t = false -> from_start t -> four_d t ->
  reverse t = Some t' -> reverse t' = Some t.
Proof. exact Verif.Proofs.TwissReverse.twice. Qed.
Print Assumptions C74_twice.
Theorem C74_defined : forall t, complete t -> exists t', reverse t = Some t'.
Proof. exact Verif.Proofs.TwissReverse.reverse_some. Qed.
Print Assumptions C74_defined.

(** The row of an element is the state at its exit, in the reverse frame; the end point is the start of the line. *)
Theorem C74_rows : forall t t' i e o, complete t -> t_markers t = false -> reverse t = Some t' ->
  nth_error (removelast (t_els t)) i = Some e -> nth_error (t_ops t) (S i) = Some o ->
  exists e' o', nth_error (t_els t') (List.length (t_els t) - 2 - i) = Some e' /\ e_name e' = e_name e /\
    nth_error (t_ops t') (List.length (t_els t) - 2 - i) = Some o' /\ mirrored o o'.
Proof. exact Verif.Proofs.TwissReverse.rows. Qed.
Print Assumptions C74_rows.
Theorem C74_end_row : forall t t' o, complete t -> t_markers t = false -> reverse t = Some t' -> hd_error (t_ops t) = Some o ->
  exists e' o', nth_error (t_els t') (List.length (t_els t) - 1) = Some e' /\ e_name e' = "_end_point" /\
    nth_error (t_ops t') (List.length (t_els t) - 1) = Some o' /\ mirrored o o'.
Proof. exact Verif.Proofs.TwissReverse.end_row. Qed.
Print Assumptions C74_end_row.

(** s and the phase advances count from the other end. *)
Theorem C74_advances : forall t t' L i o oe, t_markers t = false -> reverse t = Some t' -> t_length t = Some L ->
  nth_error (t_ops t) i = Some o -> nth_error (t_ops t) (List.length (t_ops t) - 1) = Some oe ->
  exists o', nth_error (t_ops t') (List.length (t_ops t) - 1 - i) = Some o' /\
    o_col o' "s" = L - o_col o "s" /\ o_col o' "mux" = o_col oe "mux" - o_col o "mux" /\ o_col o' "muy" = o_col oe "muy" - o_col o "muy" /\
    (t_4d t = false -> o_col o' "muzeta" = o_col oe "muzeta" - o_col o "muzeta") /\ (t_4d t = true -> o_col o' "muzeta" = 0).
Proof. exact Verif.Proofs.TwissReverse.advances. Qed.
Print Assumptions C74_advances.

(** The lattice functions of the reversed table are those of its W matrices. *)
Theorem C74_lattice : forall t t', t_markers t = false -> reverse t = Some t' ->
  (forall o, In o (t_ops t) -> regular (o_W o) /\ columns_of_W o) -> forall o', In o' (t_ops t') -> columns_of_W o'.
Proof. exact Verif.Proofs.TwissReverse.consistent. Qed.
Print Assumptions C74_lattice.

(** The reversed strengths give the kicks of the element seen in the reverse frame: from (- x, y), the kick in px changes
    sign (px is kept but exit and entry are exchanged) and the kick in py does not. *)
Theorem C74_kicks : forall e x y, kick (reverse_strengths e) (- x) y = (- fst (kick e x y), snd (kick e x y)).
Proof. exact Verif.Proofs.TwissReverse.kicks. Qed.
Print Assumptions C74_kicks.

(** Reversed initial conditions are the initial conditions taken from the reversed table. *)
Theorem C74_init : forall t t' i e e' o, complete t -> t_markers t = false -> reverse t = Some t' ->
  nth_error (t_ops t) i = Some o ->
  exists o', nth_error (t_ops t') (List.length (t_ops t) - 1 - i) = Some o' /\
    same_init (get_init t' e' o') (reverse_init (get_init t e o)).
Proof. exact Verif.Proofs.TwissReverse.inits. Qed.
Print Assumptions C74_init.

(** The frame is switched and the particle on the closed orbit is in it. *)
Theorem C74_orbit : forall t t', t_markers t = false -> reverse t = Some t' ->
  t_reverse t' = negb (t_reverse t) /\ t_co t' "x" = - t_co t "x" /\ t_co t' "py" = - t_co t "py" /\ t_co t' "zeta" = - t_co t "zeta" /\
  (forall k, ~ In k ["x"; "py"; "zeta"] -> t_co t' k = t_co t k).
Proof. exact Verif.Proofs.TwissReverse.orbit_reversed. Qed.
Print Assumptions C74_orbit.
(** The resonance driving terms of the coupling are conjugated. *)
Theorem C74_coupling : forall t t' i o k, t_markers t = false -> reverse t = Some t' -> nth_error (t_ops t) i = Some o ->
  In k ["f1001"; "f1010"; "f0110"; "f0101"] ->
  exists o', nth_error (t_ops t') (List.length (t_ops t) - 1 - i) = Some o' /\ o_cpx o' k = (fst (o_cpx o k), - snd (o_cpx o k)).
Proof. exact Verif.Proofs.TwissReverse.coupling. Qed.
Print Assumptions C74_coupling.
(** Reversing initial conditions twice gives them back, with the advances set to zero. *)
Theorem C74_init_twice : forall i, (forall k, i_part (reverse_init (reverse_init i)) k = i_part i k) /\
  (forall k, i_chrom (reverse_init (reverse_init i)) k = i_chrom i k) /\ i_W (reverse_init (reverse_init i)) = i_W i /\
  i_name (reverse_init (reverse_init i)) = i_name i /\ i_reverse (reverse_init (reverse_init i)) = i_reverse i /\
  forall k, i_adv (reverse_init i) k = 0.
Proof. exact Verif.Proofs.TwissReverse.init_twice. Qed.
Print Assumptions C74_init_twice.
(** Initial conditions taken from a table have the kinetic momenta of the row. *)
Theorem C74_kinetic : forall t e o,
  i_part (get_init t e o) "px" - i_part (get_init t e o) "ax" = o_col o "kin_px" /\
  i_part (get_init t e o) "py" - i_part (get_init t e o) "ay" = o_col o "kin_py".
Proof. exact Verif.Proofs.TwissReverse.kinetic. Qed.
Print Assumptions C74_kinetic.

(** Exceptions. The dispersion of zeta is negated twice: it does not follow zeta. *)
Theorem C74_dzeta : forall t t' i o oe, t_markers t = false -> reverse t = Some t' ->
  nth_error (t_ops t) i = Some o -> nth_error (t_ops t) (List.length (t_ops t) - 1) = Some oe ->
  exists o', nth_error (t_ops t') (List.length (t_ops t) - 1 - i) = Some o' /\ o_col o' "dzeta" = o_col o "dzeta" - o_col oe "dzeta".
Proof. exact Verif.Proofs.TwissReverse.dzeta_row. Qed.
Print Assumptions C74_dzeta.
Theorem C74_dzeta_refuted : exists t t' o oe, complete t /\ t_markers t = false /\ from_start t /\ reverse t = Some t' /\
  nth_error (t_ops t) 0 = Some o /\ nth_error (t_ops t) (List.length (t_ops t) - 1) = Some oe /\
  exists o', nth_error (t_ops t') (List.length (t_ops t) - 1) = Some o' /\ o_col o' "zeta" = - o_col o "zeta" /\
    o_col o' "dzeta" <> o_col oe "dzeta" - o_col o "dzeta".
Proof. exact Verif.Proofs.TwissReverseCases.dzeta_refuted. Qed.
Print Assumptions C74_dzeta_refuted.
(** The columns hkick and vkick do not follow k0l, k0sl and angle. *)
Theorem C74_hkick_refuted : exists t t', complete t /\ t_markers t = false /\ reverse t = Some t' /\
  (forall e, In e (t_els t) -> e_att e "hkick" = e_att e "angle" - e_att e "k0l" /\ e_att e "vkick" = e_att e "k0sl") /\
  exists e, In e (t_els t') /\ e_att e "hkick" <> e_att e "angle" - e_att e "k0l" /\ e_att e "vkick" <> e_att e "k0sl".
Proof. exact Verif.Proofs.TwissReverseCases.kicks_refuted. Qed.
Print Assumptions C74_hkick_refuted.
(** Reversed initial conditions keep the vector potential ay although py changes sign. *)
Theorem C74_potential_refuted : exists t t' e o, complete t /\ t_markers t = false /\ reverse t = Some t' /\
  nth_error (t_ops t) 0 = Some o /\
  exists o', nth_error (t_ops t') (List.length (t_ops t) - 1) = Some o' /\
    i_part (get_init t' e o') "py" = i_part (reverse_init (get_init t e o)) "py" /\
    i_part (get_init t' e o') "ay" <> i_part (reverse_init (get_init t e o)) "ay".
Proof. exact Verif.Proofs.TwissReverseCases.potential_refuted. Qed.
Print Assumptions C74_potential_refuted.
(** Tables with only_markers lose the row of the end point. *)
Theorem C74_markers_refuted : exists t t' t'', complete t /\ t_markers t = true /\ from_start t /\ four_d t /\
  reverse t = Some t' /\ reverse t' = Some t'' /\ t'' <> t.
Proof. exact Verif.Proofs.TwissReverseCases.markers_refuted. Qed.
Print Assumptions C74_markers_refuted.

Example C74_case : complete (TwissReverseCases.t1 false) /\ from_start (TwissReverseCases.t1 false) /\ four_d (TwissReverseCases.t1 false) /\
  (forall o, In o (t_ops (TwissReverseCases.t1 false)) -> regular (o_W o) /\ columns_of_W o).
Proof.
  exact (conj TwissReverseCases.t1_complete (conj TwissReverseCases.t1_start (conj TwissReverseCases.t1_4d TwissReverseCases.t1_columns))).
Qed.
