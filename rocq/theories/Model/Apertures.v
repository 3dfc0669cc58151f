(** Apertures: xtrack/beam_elements/elements_src/limit*.h, xtrack/beam_elements/limit_*.py. *)
From Coq Require Import Reals List Bool.
Import ListNotations.
Local Open Scope R_scope.

(** comparisons of floating point numbers *)
Definition Rleb (a b : R) : bool := if Rle_dec a b then true else false.
Definition Rltb (a b : R) : bool := if Rlt_dec a b then true else false.

(** limitrect.h:27-31 *)
Definition rect_alive (min_x max_x min_y max_y x y : R) : bool :=
  Rleb min_x x && Rleb x max_x && Rleb min_y y && Rleb y max_y.

(** The fields of LimitEllipse: limit_ellipse.py:25-29 *)
Record ellipse := mkEllipse { a_squ : R; b_squ : R; a_b_squ : R }.
(** limitellipse.h:28-30 *)
Definition ellipse_alive (e : ellipse) (x y : R) : bool :=
  let temp := x * x * b_squ e + y * y * a_squ e in
  Rleb temp (a_b_squ e).
(** limit_ellipse.py:43-63; [unlimited]: _aperture_common.py:UNLIMITED. *)
Definition new_ellipse (unlimited : R) (a b a_squ b_squ : option R) : option ellipse :=
  let sq (v w : option R) := match v, w with
                             | Some v, _ => v * v
                             | None, Some w => w
                             | None, None => unlimited * unlimited
                             end in
  let a2 := sq a a_squ in
  let b2 := sq b b_squ in
  if Rltb 0 a2 && Rltb 0 b2 then Some (mkEllipse a2 b2 (a2 * b2)) else None.
(** limit_ellipse.py:65-90; [SetFieldASqu], [SetFieldBSqu]: assignment to the fields a_squ and b_squ *)
Inductive ellipse_op :=
| SetA (a : R) | SetB (b : R) | SetHalfAxes (a b : R) | SetHalfAxesSqu (a2 b2 : R)
| SetFieldASqu (a2 : R) | SetFieldBSqu (b2 : R).
Definition ellipse_set (e : ellipse) (o : ellipse_op) : ellipse :=
  match o with
  | SetA a => mkEllipse (a * a) (b_squ e) (a * a * b_squ e)
  | SetB b => mkEllipse (a_squ e) (b * b) (a_squ e * (b * b))
  | SetHalfAxes a b => mkEllipse (a * a) (b * b) (a * a * (b * b))
  | SetHalfAxesSqu a2 b2 => mkEllipse a2 b2 (a2 * b2)
  | SetFieldASqu a2 => mkEllipse a2 (b_squ e) (a_b_squ e)
  | SetFieldBSqu b2 => mkEllipse (a_squ e) b2 (a_b_squ e)
  end.
(** the properties a and b *)
Definition get_a (e : ellipse) : R := sqrt (a_squ e).
Definition get_b (e : ellipse) : R := sqrt (b_squ e).

(** limitrectellipse.h:29-36; the fields other than max_x and max_y are those of an ellipse *)
Definition rect_ellipse_alive (max_x max_y : R) (e : ellipse) (x y : R) : bool :=
  let temp := x * x * b_squ e + y * y * a_squ e in
  Rleb x max_x && Rleb (- max_x) x && Rleb y max_y && Rleb (- max_y) y && Rleb temp (a_b_squ e).
(** limit_rect_ellipse.py:41-76 *)
Definition new_rect_ellipse (unlimited : R) (max_x max_y a b a_squ b_squ : option R)
    : option (R * R * ellipse) :=
  let sq (v w : option R) := match v, w with
                             | Some v, _ => v * v
                             | None, Some w => w
                             | None, None => unlimited * unlimited
                             end in
  let mx := match max_x with Some m => m | None => unlimited end in
  let my := match max_y with Some m => m | None => unlimited end in
  let a2 := sq a a_squ in
  let b2 := sq b b_squ in
  if Rltb mx 0 || Rltb my 0 || Rltb a2 0 || Rltb b2 0 then None
  else Some (mx, my, mkEllipse a2 b2 (a2 * b2)).

(** limitracetrack.h:33-83 *)
Definition racetrack_alive (min_x max_x min_y max_y a b x y : R) : bool :=
  if Rleb min_x x && Rleb x max_x && Rleb min_y y && Rleb y max_y then
    let rect_min_x := min_x + a in
    let rect_max_x := max_x - a in
    let rect_min_y := min_y + b in
    let rect_max_y := max_y - b in
    let corner dx dy := Rleb (dx * dx * b * b + dy * dy * a * a) (a * a * b * b) in
    if Rltb rect_max_x x && Rltb rect_max_y y then corner (x - rect_max_x) (y - rect_max_y)
    else if Rltb x rect_min_x && Rltb rect_max_y y then corner (x - rect_min_x) (y - rect_max_y)
    else if Rltb x rect_min_x && Rltb y rect_min_y then corner (x - rect_min_x) (y - rect_min_y)
    else if Rltb rect_max_x x && Rltb y rect_min_y then corner (x - rect_max_x) (y - rect_min_y)
    else true
  else false.
(** limit_racetrack.py:62-71: the conditions on the arguments *)
Definition racetrack_valid (min_x max_x min_y max_y a b : R) : bool :=
  Rleb 0 a && Rleb 0 b && Rleb min_x max_x && Rleb min_y max_y
  && negb (Rltb (/ 2 * (max_x - min_x)) a || Rltb (/ 2 * (max_y - min_y)) b).

(** A vertex of a polygon. *)
Definition point := (R * R)%type.
(** limitpolygon.h:75: the condition on an edge, [v] the vertex ii and [w] the vertex jj *)
Definition toggles (v w p : point) : bool :=
  let (x, y) := p in
  negb (Bool.eqb (Rltb y (snd v)) (Rltb y (snd w)))
  && Rltb x ((fst w - fst v) * (y - snd v) / (snd w - snd v) + fst v).
(** limitpolygon.h:64-80: the loop over the vertices; [w]: vertex jj *)
Fixpoint toggle_loop (w : point) (vs : list point) (p : point) (is_alive : bool) : bool :=
  match vs with
  | [] => is_alive
  | v :: vs => toggle_loop v vs p (if toggles v w p then negb is_alive else is_alive)
  end.
Definition polygon_test (vs : list point) (p : point) : bool := toggle_loop (last vs (0, 0)) vs p false.

(** limitpolygon.h:28-58, on CPU: the square of the distance from the origin to an edge, and the least *)
Definition edge_dist_sq (v0 v1 : point) : R :=
  let (x0, y0) := v0 in
  let (x1, y1) := v1 in
  let dx := x1 - x0 in
  let dy := y1 - y0 in
  let seg_len_sq := dx * dx + dy * dy in
  if Rltb 0 seg_len_sq then
    let t := - (x0 * dx + y0 * dy) / seg_len_sq in
    let t := if Rltb t 0 then 0 else if Rltb 1 t then 1 else t in
    let x_proj := x0 + t * dx in
    let y_proj := y0 + t * dy in
    x_proj * x_proj + y_proj * y_proj
  else x0 * x0 + y0 * y0.
(** The loop over the edges (ii, ii + 1), the last one back to [first]; [acc]: value after the edges
    already seen, if any. *)
Fixpoint inner_loop (first : point) (vs : list point) (acc : option R) : option R :=
  match vs with
  | [] => acc
  | v :: rest =>
    let w := match rest with [] => first | w :: _ => w end in
    let dist_sq := edge_dist_sq v w in
    inner_loop first rest
      (Some match acc with
            | None => dist_sq
            | Some r => if Rltb dist_sq r then dist_sq else r
            end)
  end.
Definition inner_radius_sq (vs : list point) : R :=
  match vs with
  | [] => 0
  | first :: _ => match inner_loop first vs None with Some r => r | None => 0 end
  end.
(** limitpolygon.h:62-88. [cpu]: XO_CONTEXT_CPU is defined; otherwise the radius is zero. *)
Definition polygon_alive (cpu : bool) (vs : list point) (p : point) : bool :=
  let r2 := if cpu then inner_radius_sq vs else 0 in
  if Rltb r2 (fst p * fst p + snd p * snd p) then polygon_test vs p else true.

(** * The element *)
Inductive limit :=
| LimitRect (min_x max_x min_y max_y : R)
| LimitEllipse (e : ellipse)
| LimitRectEllipse (max_x max_y : R) (e : ellipse)
| LimitRacetrack (min_x max_x min_y max_y a b : R)
| LimitPolygon (vs : list point).
Definition alive (cpu : bool) (l : limit) (x y : R) : bool :=
  match l with
  | LimitRect x0 x1 y0 y1 => rect_alive x0 x1 y0 y1 x y
  | LimitEllipse e => ellipse_alive e x y
  | LimitRectEllipse mx my e => rect_ellipse_alive mx my e x y
  | LimitRacetrack x0 x1 y0 y1 a b => racetrack_alive x0 x1 y0 y1 a b x y
  | LimitPolygon vs => polygon_alive cpu vs (x, y)
  end.

(** limit_polygon.py:158-168: the arrays closed with the first vertex *)
Definition closed (vs : list point) : list point := match vs with [] => [] | v :: _ => vs ++ [v] end.
(** limit_polygon.py:210-217 *)
Fixpoint area_sum (l : list point) : R :=
  match l with
  | v :: ((w :: _) as rest) => (snd w + snd v) * (fst w - fst v) + area_sum rest
  | _ => 0
  end.
Definition signed_area (vs : list point) : R := - (/ 2) * area_sum (closed vs).
Definition area (vs : list point) : R := Rabs (signed_area vs).
(** limit_polygon.py:219-233 (the sums run over the open arrays; [y] is also read from x_vertices) *)
Fixpoint centroid_sum (f : R -> R -> R -> R -> R) (x y : list R) : R :=
  match x, y with
  | x0 :: ((x1 :: _) as xs), y0 :: ((y1 :: _) as ys) => f x0 x1 y0 y1 + centroid_sum f xs ys
  | _, _ => 0
  end.
Definition centroid (vs : list point) : point :=
  let x := map fst vs in
  let y := map fst vs in
  (1 / (6 * area vs) * centroid_sum (fun x0 x1 y0 y1 => (x0 + x1) * (x0 * y1 - x1 * y0)) x y,
   1 / (6 * area vs) * centroid_sum (fun x0 x1 y0 y1 => (y0 + y1) * (y0 * x1 - y1 * x0)) x y).
(** limit_polygon.py:115-128: the normals *)
Definition normal (area_negative : bool) (v w : point) : point :=
  let nx := - (snd w - snd v) in
  let ny := fst w - fst v in
  let (nx, ny) := if area_negative then (- nx, - ny) else (nx, ny) in
  let norm := sqrt (nx * nx + ny * ny) in
  (nx / norm, ny / norm).
Fixpoint normals_of (neg : bool) (l : list point) : list point :=
  match l with v :: ((w :: _) as rest) => normal neg v w :: normals_of neg rest | _ => [] end.
Definition normals (vs : list point) : list point := normals_of (Rltb (signed_area vs) 0) (closed vs).
