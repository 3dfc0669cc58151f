(** Refinement of loss locations: xtrack/loss_location_refinement/loss_location_refinement.py *)
From Coq Require Import QArith Qround ZArith List Bool Arith.
Import ListNotations.
Local Open Scope list_scope.

(** What matters of an element: _is_thick, length, _is_aperture, _skip_in_loss_location_refinement (lines 23-27) and
    whether one can backtrack through it (lines 327-347: _has_backtrack and _allow_loss_refinement, or an allowed type) *)
Record element := mkElement { e_thick : bool; e_length : Q; e_aperture : bool; e_skip : bool; e_back : bool }.
Definition line := list element.

(** element_s_locations[i]: the entrance *)
Definition s_at (l : line) (i : nat) : Q := fold_right Qplus 0%Q (map e_length (firstn i l)).

(** find_apertures (lines 294-302) *)
Fixpoint apertures_from (i : nat) (l : line) : list nat :=
  match l with
  | [] => []
  | e :: r => if e_aperture e then i :: apertures_from (S i) r else apertures_from (S i) r
  end.
Definition find_apertures (l : line) : list nat := apertures_from 0 l.

(** generate_interp_aperture_locations (lines 466-477); np.linspace(s0, s1, n + 1)[1:-1] *)
Definition n_segments (s0 s1 ds : Q) : nat := Z.to_nat (Qceiling ((s1 - s0) / ds)).
Definition locations (s0 s1 ds : Q) : list Q :=
  let n := n_segments s0 s1 ds in
  if (n <=? 1)%nat then []
  else map (fun i => s0 + inject_Z (Z.of_nat i) * ((s1 - s0) / inject_Z (Z.of_nat n)))%Q (seq 1 (n - 1)).

(** indexing of a python list *)
Definition py_get {A} (l : list A) (i : Z) : option A :=
  let n := Z.of_nat (List.length l) in
  if (0 <=? i)%Z then nth_error l (Z.to_nat i)
  else if (- n <=? i)%Z then nth_error l (Z.to_nat (n + i)) else None.
(** find_adjacent_thick (lines 533-551). [None]: IndexError. *)
Fixpoint adjacent (fuel : nat) (l : line) (i increment : Z) : option Z :=
  match fuel with
  | O => None
  | S f => match py_get l i with
           | None => None
           | Some e => if e_thick e then Some i else adjacent f l (i + increment)%Z increment
           end
  end.
Definition find_adjacent_thick (l : line) (i : nat) (upstream : bool) : option Z :=
  adjacent (2 * List.length l + 2) l (Z.of_nat i) (if upstream then -1 else 1)%Z.

(** index of a value in a list *)
Fixpoint index_of (i : nat) (l : list nat) : option nat :=
  match l with
  | [] => None
  | x :: r => if (x =? i)%nat then Some 0%nat else option_map S (index_of i r)
  end.

(** [l[a:b]] *)
Definition between {A} (l : list A) (a b : nat) : list A := skipn a (firstn b l).

Section Refine.
Context {D : Type}.
(** [back i]: backtracking through element i; [fly i d]: tracking over a distance d from the entrance of element i through
    the line with inserted apertures; [outside i0 i1 s]: the aperture which is interpolated between those of elements i0
    and i1 at position s (or copied) loses the particle *)
Variables (back : nat -> D -> D) (fly : nat -> Q -> D -> D) (outside : nat -> nat -> Q -> D -> bool).
(** the order in which particles are after tracking *)
Variable reorder : list (nat * (Q * D)) -> list (nat * (Q * D)).

(** build_interp_line (lines 493-531) and lines 354-358: the particle is tracked until an aperture loses it, or to the last one *)
Fixpoint first_outside (i0 i1 i_start : nat) (s0 : Q) (p : D) (grid : list Q) : Q * D :=
  match grid with
  | [] => (s0, p)
  | [s] => (s, fly i_start (s - s0)%Q p)
  | s :: r => if outside i0 i1 s (fly i_start (s - s0)%Q p) then (s, fly i_start (s - s0)%Q p)
              else first_outside i0 i1 i_start s0 p r
  end.
Definition refine_particle (l : line) (ds : Q) (i0 i1 i_start : nat) (p : D) : Q * D :=
  let s0 := s_at l i0 in
  let s1 := s_at l i1 in
  (* line.track(..., ele_start=i_start, ele_stop=i_aper_1, backtrack='force') *)
  let p := fold_left (fun p i => back i p) (rev (seq i_start (i1 - i_start))) p in
  first_outside i0 i1 i_start s0 p (s0 :: locations s0 s1 ds ++ [s1]).

(** state, at_element, s and the other coordinates *)
Record particle := mkParticle { p_state : Z; p_at : nat; p_s : Q; p_data : D }.
Definition lost_at (i : nat) (p : particle) : bool := (p_state p =? 0)%Z && (p_at p =? i)%nat.

(** np.argsort(particle_id) *)
Fixpoint insert_by (x : nat * (Q * D)) (l : list (nat * (Q * D))) : list (nat * (Q * D)) :=
  match l with
  | [] => [x]
  | y :: r => if (fst x <=? fst y)%nat then x :: l else y :: insert_by x r
  end.
Definition sort_by_id (l : list (nat * (Q * D))) : list (nat * (Q * D)) := fold_right insert_by [] l.

(** lines 363-379: the new values replace those of the selected particles, in their order *)
Fixpoint scatter (i : nat) (ps : list particle) (values : list (Q * D)) : list particle :=
  match ps with
  | [] => []
  | p :: r => if lost_at i p
              then match values with
                   | (s, d) :: vs => mkParticle (p_state p) (p_at p) s d :: scatter i r vs
                   | [] => p :: scatter i r []
                   end
              else p :: scatter i r values
  end.
(** refine_loss_location_single_aperture (lines 305-382) *)
Definition refine_single (l : line) (ds : Q) (i0 i1 i_start : nat) (ps : list particle) : list particle :=
  let selected := filter (lost_at i1) ps in
  let new := combine (seq 0 (List.length selected)) (map (fun p => refine_particle l ds i0 i1 i_start (p_data p)) selected) in
  scatter i1 ps (map snd (sort_by_id (reorder new))).

(** refine_loss_location (lines 110-211). [None]: an exception *)
Fixpoint refine_loop (l : line) (ds : Q) (aps : list nat) (ps : list particle) : option (list particle) :=
  match aps with
  | [] => Some ps
  | i1 :: r =>
      if negb (existsb (lost_at i1) ps) then refine_loop l ds r ps else
      match index_of i1 (find_apertures l) with
      | None => None
      | Some O => refine_loop l ds r ps
      | Some (S j) =>
          let i0 := nth j (find_apertures l) 0%nat in
          if existsb e_skip (between l i0 i1) then Some ps (* return *)
          else if Qle_bool (s_at l i1 - s_at l i0) ds then refine_loop l ds r ps
          else match find_adjacent_thick l i1 true, find_adjacent_thick l i0 false with
               | Some _, Some k =>
                   let i_start := Z.to_nat k in
                   if forallb e_back (between l i_start i1)
                   then refine_loop l ds r (refine_single l ds i0 i1 i_start ps)
                   else None
               | _, _ => None
               end
      end
  end.
Definition refine_loss_location (l : line) (ds : Q) (aps : option (list nat)) (ps : list particle) : option (list particle) :=
  refine_loop l ds (match aps with Some a => a | None => find_apertures l end) ps.
End Refine.
