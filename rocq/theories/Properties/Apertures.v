(** C45 and C61: the shapes of the apertures. *)
From Coq Require Import Reals List Bool.
From Verif.Model Require Import Apertures.
From Verif.Spec Require Import Apertures.
From Verif.Proofs Require Apertures PolygonTest PolygonArea ApertureCases.
Import ListNotations.
Local Open Scope R_scope.

(** * C45. A particle survives an aperture if and only if it is inside the shape. *)
Theorem C45_rect : forall x0 x1 y0 y1 x y,
  alive true (LimitRect x0 x1 y0 y1) x y = true <-> in_rect x0 x1 y0 y1 x y.
Proof. exact Apertures.rect_iff. Qed.
Print Assumptions C45_rect.
(** An ellipse, after any sequence of changes of its half axes. *)
Theorem C45_ellipse : forall u a b a2 b2 e ops x y,
  new_ellipse u a b a2 b2 = Some e -> Forall through_api ops ->
  let ab := fold_left new_axes ops (get_a e, get_b e) in
  alive true (LimitEllipse (fold_left ellipse_set ops e)) x y = true <-> in_ellipse (fst ab) (snd ab) x y.
Proof. exact Apertures.ellipse_history. Qed.
Print Assumptions C45_ellipse.
(** The half axes given to the constructor are accepted and read back. *)
Theorem C45_ellipse_axes : forall u a b e, new_ellipse u (Some a) (Some b) None None = Some e ->
  get_a e = Rabs a /\ get_b e = Rabs b.
Proof. exact Apertures.new_axes_read. Qed.
Print Assumptions C45_ellipse_axes.
Theorem C45_ellipse_defined : forall u a b, a <> 0 -> b <> 0 ->
  exists e, new_ellipse u (Some a) (Some b) None None = Some e.
Proof. exact Apertures.new_defined. Qed.
Print Assumptions C45_ellipse_defined.
(** Assignment of the stored square of a half axis leaves the shape inconsistent. *)
Theorem C45_ellipse_field_refuted : exists u e a2 x y,
  new_ellipse u (Some 1) (Some 1) None None = Some e /\ 0 < a2
  /\ in_ellipse (get_a (ellipse_set e (SetFieldASqu a2))) (get_b (ellipse_set e (SetFieldASqu a2))) x y
  /\ ellipse_alive (ellipse_set e (SetFieldASqu a2)) x y = false.
Proof. exact ApertureCases.stale_ellipse. Qed.
Print Assumptions C45_ellipse_field_refuted.
Theorem C45_rect_ellipse : forall u mx my a b a2 b2 mx' my' e x y,
  new_rect_ellipse u mx my a b a2 b2 = Some (mx', my', e) -> 0 < a_squ e -> 0 < b_squ e ->
  (alive true (LimitRectEllipse mx' my' e) x y = true
   <-> in_rect (- mx') mx' (- my') my' x y /\ in_ellipse (get_a e) (get_b e) x y).
Proof. exact Apertures.rect_ellipse_iff. Qed.
Print Assumptions C45_rect_ellipse.
(** Half axes zero are accepted, and then the ellipse is not checked. *)
Theorem C45_rect_ellipse_zero_refuted : exists u e,
  new_rect_ellipse u (Some 2) (Some 2) (Some 0) (Some 0) None None = Some (2, 2, e)
  /\ forall x y, rect_ellipse_alive 2 2 e x y = rect_alive (- 2) 2 (- 2) 2 x y.
Proof. exact ApertureCases.rect_ellipse_zero. Qed.
Print Assumptions C45_rect_ellipse_zero_refuted.
(** A racetrack is the rectangle with rounded corners, or the rectangle if a radius is zero. *)
Theorem C45_racetrack : forall x0 x1 y0 y1 a b, racetrack_valid x0 x1 y0 y1 a b = true -> forall x y, 0 < a -> 0 < b ->
  (alive true (LimitRacetrack x0 x1 y0 y1 a b) x y = true <-> in_racetrack x0 x1 y0 y1 a b x y).
Proof. exact Apertures.racetrack_iff. Qed.
Print Assumptions C45_racetrack.
Theorem C45_racetrack_square : forall x0 x1 y0 y1 a b, racetrack_valid x0 x1 y0 y1 a b = true -> forall x y, a = 0 \/ b = 0 ->
  (alive true (LimitRacetrack x0 x1 y0 y1 a b) x y = true <-> in_rect x0 x1 y0 y1 x y).
Proof. exact Apertures.racetrack_square. Qed.
Print Assumptions C45_racetrack_square.
(** All these sets are convex. *)
Theorem C45_convex : forall cpu l, well_formed l -> (forall vs, l <> LimitPolygon vs) ->
  convex (fun x y => alive cpu l x y = true).
Proof. exact Apertures.alive_convex. Qed.
Print Assumptions C45_convex.

(** Polygons, of any number of vertices, also concave ones: away from the boundary the test of the
    code counts whether the edges crossed on the way to a point outside are odd in number. *)
Theorem C45_polygon : forall vs p q bs, separated vs q ->
  Forall2 (fun e (b : bool) => if b then crosses p q e else apart p q e) (edges vs) bs ->
  polygon_test vs p = fold_right xorb false bs.
Proof. exact PolygonTest.even_odd. Qed.
Print Assumptions C45_polygon.
Theorem C45_polygon_crossings : forall vs p q bs,
  Forall2 (fun e (b : bool) => if b then crosses p q e else apart p q e) (edges vs) bs ->
  xorb (polygon_test vs p) (polygon_test vs q) = fold_right xorb false bs.
Proof. exact PolygonTest.crossing_parity. Qed.
Print Assumptions C45_polygon_crossings.
(** The answer can only change at the boundary, and it is false outside a half plane with the vertices. *)
Theorem C45_polygon_region : forall vs p q, (forall r, on_segment p q r -> ~ on_boundary vs r) ->
  polygon_test vs p = polygon_test vs q.
Proof. exact PolygonTest.same_region. Qed.
Print Assumptions C45_polygon_region.
Theorem C45_polygon_outside : forall vs p, separated vs p -> polygon_test vs p = false.
Proof. exact PolygonTest.separated_out. Qed.
Print Assumptions C45_polygon_outside.
(** The short cut for particles near the origin does not change the result, on CPU or GPU, if the
    origin is inside. *)
Theorem C45_polygon_shortcut : forall cpu vs p, polygon_test vs (0, 0) = true -> ~ on_boundary vs p ->
  alive cpu (LimitPolygon vs) (fst p) (snd p) = polygon_test vs p.
Proof. intros cpu vs [x y]. exact (PolygonTest.shortcut_exact cpu vs (x, y)). Qed.
Print Assumptions C45_polygon_shortcut.
(** If the origin is outside, particles outside the polygon are accepted: all those nearer to the
    origin than the boundary on CPU, the origin itself otherwise. *)
Theorem C45_polygon_origin_refuted : exists vs p, separated vs p /\ polygon_alive true vs p = true
  /\ exists q, separated vs q /\ polygon_alive false vs q = true.
Proof. exact ApertureCases.origin_outside. Qed.
Print Assumptions C45_polygon_origin_refuted.
Theorem C45_polygon_disc : forall vs p, vs <> [] ->
  (forall r, on_boundary vs r -> fst p ^ 2 + snd p ^ 2 <= fst r ^ 2 + snd r ^ 2) ->
  polygon_alive true vs p = true.
Proof. exact ApertureCases.disc_accepted. Qed.
Print Assumptions C45_polygon_disc.
(** On the boundary itself the answer depends on the side. *)
Theorem C45_polygon_boundary_refuted : forall cpu, exists vs p q, on_boundary vs p /\ on_boundary vs q
  /\ polygon_alive cpu vs p = true /\ polygon_alive cpu vs q = false.
Proof. exact ApertureCases.polygon_edge. Qed.
Print Assumptions C45_polygon_boundary_refuted.

Example C45_case_racetrack : racetrack_valid (- 3) 3 (- 2) 2 1 1 = true
  /\ in_rect (- 3) 3 (- 2) 2 (29 / 10) (19 / 10) /\ racetrack_alive (- 3) 3 (- 2) 2 1 1 (29 / 10) (19 / 10) = false
  /\ racetrack_alive (- 3) 3 (- 2) 2 1 1 (29 / 10) 0 = true.
Proof. exact ApertureCases.racetrack_case. Qed.
Example C45_case_polygon : forall cpu,
  polygon_test ApertureCases.square (0, 0) = true
  /\ polygon_alive cpu ApertureCases.square (9 / 10, 9 / 10) = true
  /\ polygon_alive cpu ApertureCases.square (11 / 10, 0) = false
  /\ Forall2 (fun e (b : bool) => if b then crosses (0, 0) (3, 0) e else apart (0, 0) (3, 0) e)
       (edges ApertureCases.square) [false; true; false; false] /\ separated ApertureCases.square (3, 0).
Proof. exact ApertureCases.square_case. Qed.

(** * C61. The signed area is the one of triangles, added over pieces; it does not depend on the
    first vertex nor on the position, and changes sign with the sense of the vertices. *)
Theorem C61_triangle : forall a b c, signed_area [a; b; c] = / 2 * cross (diff b a) (diff c a).
Proof. exact PolygonArea.area_triangle. Qed.
Print Assumptions C61_triangle.
Theorem C61_cut : forall a l b m, signed_area (a :: l ++ b :: m) = signed_area (a :: l ++ [b]) + signed_area (a :: b :: m).
Proof. exact PolygonArea.area_cut. Qed.
Print Assumptions C61_cut.
Theorem C61_start : forall v vs, signed_area (vs ++ [v]) = signed_area (v :: vs).
Proof. exact PolygonArea.area_start. Qed.
Print Assumptions C61_start.
Theorem C61_reverse : forall vs, signed_area (rev vs) = - signed_area vs.
Proof. exact PolygonArea.area_reverse. Qed.
Print Assumptions C61_reverse.
Theorem C61_shift : forall dx dy vs, signed_area (map (fun v => (fst v + dx, snd v + dy)) vs) = signed_area vs.
Proof. exact PolygonArea.area_shift. Qed.
Print Assumptions C61_shift.
(** The normals have length one, are perpendicular to the edges and, if each edge has all the vertices
    on one side, point to that side. *)
Theorem C61_normals : forall vs i e n,
  nth_error (edges vs) i = Some e -> nth_error (normals vs) i = Some n -> fst e <> snd e ->
  fst n * (fst (snd e) - fst (fst e)) + snd n * (snd (snd e) - snd (fst e)) = 0 /\ fst n ^ 2 + snd n ^ 2 = 1.
Proof. exact PolygonArea.normals_unit. Qed.
Print Assumptions C61_normals.
Theorem C61_inward : forall c vs i e n v, (c = 1 \/ c = - 1) -> one_side c vs ->
  nth_error (edges vs) i = Some e -> nth_error (normals vs) i = Some n -> fst e <> snd e -> In v vs ->
  0 <= fst n * (fst v - fst (fst e)) + snd n * (snd v - snd (fst e)).
Proof. exact PolygonArea.normals_inward. Qed.
Print Assumptions C61_inward.
(** The centroid is reported at the origin for every polygon. *)
Theorem C61_centroid : forall vs, centroid vs = (0, 0).
Proof. exact PolygonArea.centroid_zero. Qed.
Print Assumptions C61_centroid.
Theorem C61_centroid_refuted : exists vs, signed_area vs = 1
  /\ (forall v, In v vs -> 1 <= fst v /\ 1 <= snd v) /\ centroid vs = (0, 0).
Proof. exact ApertureCases.centroid_case. Qed.
Print Assumptions C61_centroid_refuted.
Example C61_case : one_side 1 ApertureCases.square /\ signed_area ApertureCases.square = 4
  /\ hd_error (normals ApertureCases.square) = Some (0, 1).
Proof. exact ApertureCases.square_sides. Qed.
