(** The shapes of the apertures. *)
From Coq Require Import Reals List Bool.
From Verif.Model Require Import Apertures.
Import ListNotations.
Local Open Scope R_scope.

Definition in_rect (min_x max_x min_y max_y x y : R) : Prop := min_x <= x <= max_x /\ min_y <= y <= max_y.
Definition in_ellipse (a b x y : R) : Prop := (x / a) ^ 2 + (y / b) ^ 2 <= 1.
(** A rectangle rounded with ellipses: the points of ellipses centred in the inner rectangle. *)
Definition in_racetrack (min_x max_x min_y max_y a b x y : R) : Prop :=
  exists u v, in_rect (min_x + a) (max_x - a) (min_y + b) (max_y - b) u v /\ in_ellipse a b (x - u) (y - v).

(** * Polygons *)
(** The edges, closed automatically. *)
Definition edges (vs : list point) : list (point * point) :=
  match vs with [] => [] | v :: rest => combine vs (rest ++ [v]) end.
(** The point at the fraction [t] of a segment. *)
Definition along (p q : point) (t : R) : point := (fst p + t * (fst q - fst p), snd p + t * (snd q - snd p)).
Definition on_segment (p q r : point) : Prop := exists t, 0 <= t <= 1 /\ r = along p q t.
Definition on_boundary (vs : list point) (r : point) : Prop :=
  exists e, In e (edges vs) /\ on_segment (fst e) (snd e) r.
(** Two segments without common point; two segments which cross at an interior point of both. *)
Definition apart (p q : point) (e : point * point) : Prop :=
  forall r, on_segment (fst e) (snd e) r -> ~ on_segment p q r.
Definition cross (u v : point) : R := fst u * snd v - snd u * fst v.
Definition diff (p q : point) : point := (fst p - fst q, snd p - snd q).
Definition crosses (p q : point) (e : point * point) : Prop :=
  cross (diff (snd e) (fst e)) (diff q p) <> 0
  /\ exists s t, 0 < s < 1 /\ 0 < t < 1 /\ along (fst e) (snd e) t = along p q s.

(** Strictly on the other side of a line than all the vertices. *)
Definition separated (vs : list point) (p : point) : Prop :=
  exists n, Forall (fun v => fst n * (fst v - fst p) + snd n * (snd v - snd p) < 0) vs.

(** one side of every edge has all the vertices *)
Definition one_side (c : R) (vs : list point) : Prop :=
  forall e v, In e (edges vs) -> In v vs -> 0 <= c * cross (diff (snd e) (fst e)) (diff v (fst e)).

(** Sets of positions without holes or recesses. *)
Definition convex (S : R -> R -> Prop) : Prop :=
  forall x1 y1 x2 y2 t, S x1 y1 -> S x2 y2 -> 0 <= t <= 1 ->
    S (x1 + t * (x2 - x1)) (y1 + t * (y2 - y1)).

(** Changes of an ellipse through its properties and methods, with half axes different from zero. *)
Definition through_api (o : ellipse_op) : Prop :=
  match o with
  | SetA a => a <> 0
  | SetB b => b <> 0
  | SetHalfAxes a b => a <> 0 /\ b <> 0
  | SetHalfAxesSqu a2 b2 => 0 < a2 /\ 0 < b2
  | SetFieldASqu _ | SetFieldBSqu _ => False
  end.
(** The half axes after the change, from those before. *)
Definition new_axes (ab : R * R) (o : ellipse_op) : R * R :=
  match o with
  | SetA a => (Rabs a, snd ab)
  | SetB b => (fst ab, Rabs b)
  | SetHalfAxes a b => (Rabs a, Rabs b)
  | SetHalfAxesSqu a2 b2 => (sqrt a2, sqrt b2)
  | _ => ab
  end.
(** Apertures the constructors accept, with fields that belong together. *)
Definition well_formed (l : limit) : Prop :=
  match l with
  | LimitEllipse e => 0 < a_squ e /\ 0 < b_squ e /\ a_b_squ e = a_squ e * b_squ e
  | LimitRectEllipse _ _ e => 0 <= a_squ e /\ 0 <= b_squ e /\ a_b_squ e = a_squ e * b_squ e
  | LimitRacetrack x0 x1 y0 y1 a b => racetrack_valid x0 x1 y0 y1 a b = true
  | _ => True
  end.
