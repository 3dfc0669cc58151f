(** What placements mean. *)
From Coq Require Import ZArith QArith Qabs List Bool String.
From Verif.Model Require Import Composer.
Import ListNotations.

Section Place.
Variables (len : string -> Q) (refer : anchor).

(** The placement equation of component [i] when component [j] starts at [v j]. *)
Definition holds (ps : list place) (v : nat -> option Q) (i : nat) (p : place) (si : Q) : Prop :=
  match pl_at p with
  | None => match i with
            | O => si == 0
            | S j => exists q sj, nth_error ps j = Some q /\ v j = Some sj /\ si == sj + len (pl_name q)
            end
  | Some a =>
      let here := si + anchor_offset (dflt refer (pl_anchor p)) (len (pl_name p)) in
      match pl_from p with
      | None => here == a
      | Some f => exists j q sj, nth_error ps j = Some q /\ pl_name q = f /\ v j = Some sj
                  /\ here == sj + anchor_offset (dflt refer (pl_from_anchor p)) (len f) + a
      end
  end%Q.

(** [s] places every component as requested. *)
Definition solves (ps : list place) (s : list Q) : Prop :=
  List.length s = List.length ps
  /\ forall i p, nth_error ps i = Some p ->
     exists si, nth_error s i = Some si /\ holds ps (nth_error s) i p si.
End Place.

(** Chains of references that reach an absolute position (or the start of the line). *)
Inductive grounded (ps : list place) : nat -> Prop :=
| g_abs i p a : nth_error ps i = Some p -> pl_at p = Some a -> pl_from p = None -> grounded ps i
| g_first p : nth_error ps 0 = Some p -> pl_at p = None -> grounded ps 0
| g_next i p : nth_error ps (S i) = Some p -> pl_at p = None -> grounded ps i -> grounded ps (S i)
| g_from i p a f j q : nth_error ps i = Some p -> pl_at p = Some a -> pl_from p = Some f ->
    nth_error ps j = Some q -> pl_name q = f -> grounded ps j -> grounded ps i.

(** * Order *)

(** Being within [tol] is an equivalence on the given positions. *)
Definition clear_cut (tol : Q) (l : list Q) : Prop :=
  forall a b c, In a l -> In b l -> In c l ->
    (Qabs (a - b) <= tol -> Qabs (b - c) <= tol -> Qabs (a - c) < tol)%Q.

(** [a] occurs before [b]. *)
Definition before {A} (l : list A) (a b : A) : Prop := exists u v w, l = u ++ a :: v ++ b :: w.

(** * Positions in a line made of pieces *)
Fixpoint pieces_length (l : list piece) : Q :=
  match l with [] => 0 | x :: r => piece_length x + pieces_length r end%Q.

(** Elements of the line with their position. *)
Fixpoint elems_at (s : Q) (l : list piece) : list (nat * Q) :=
  match l with
  | [] => []
  | PElem r n :: t => (r, s) :: elems_at (s + n)%Q t
  | PDrift n :: t => elems_at (s + n)%Q t
  end.

(** Two different thin elements at the same position. *)
Definition tied (tol : Q) (p q : rplace) : Prop :=
  rp_index p <> rp_index q /\ really_thick p = false /\ really_thick q = false
  /\ (Qabs (rp_center p - rp_center q) <= tol)%Q.

(** No thin element is in the middle of a thick one. *)
Definition thick_apart (tol : Q) (ps : list rplace) : Prop :=
  forall p q, In p ps -> In q ps -> really_thick p = true -> rp_index p <> rp_index q ->
    (tol < Qabs (rp_center p - rp_center q))%Q.

(** Every chain of explicit requests between elements at the same place has an end. *)
Inductive settled (tol : Q) (ps : list rplace) : rplace -> Prop :=
| st_base p : In p ps ->
    (forall q, In q ps -> rp_from p = Some (rp_index q) -> rp_from_anchor p <> None -> ~ tied tol p q) -> settled tol ps p
| st_next p q : In p ps -> In q ps -> rp_from p = Some (rp_index q) -> settled tol ps q -> settled tol ps p.

Definition no_self (ps : list rplace) : Prop := forall p, In p ps -> rp_from p <> Some (rp_index p).
Definition refs_exist (ps : list rplace) : Prop :=
  forall p f, In p ps -> rp_from p = Some f -> exists q, In q ps /\ rp_index q = f.

(** Where the reference of an element lies: 0 upstream, 1 nowhere, 2 downstream. *)
Inductive pull (tol : Q) (ps : list rplace) (p : rplace) : nat -> Prop :=
| pull_up u : In u ps -> rp_from p = Some (rp_index u) -> (tol < rp_center p - rp_center u)%Q -> pull tol ps p 0
| pull_none : rp_from p = None -> pull tol ps p 1
| pull_loose u : In u ps -> rp_from p = Some (rp_index u) -> tied tol p u -> rp_from_anchor p = None -> pull tol ps p 1
| pull_down u : In u ps -> rp_from p = Some (rp_index u) -> (tol < rp_center u - rp_center p)%Q -> pull tol ps p 2.

(** Gaps between consecutive elements, the first one after [from]. *)
Fixpoint gaps (from : Q) (ps : list rplace) : list Q :=
  match ps with [] => [] | p :: r => (rp_start p - from)%Q :: gaps (rp_end p) r end.
