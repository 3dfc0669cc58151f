(** The survey (survey.py) and the way each element moves the reference frame. Floating point
    numbers are real numbers. *)
From Coq Require Import Reals List Bool ZArith.
From Verif.Model Require Import Maps Curved.
Import ListNotations.
Local Open Scope R_scope.

(** Numpy arrays of shape (3,) and (3, 3). *)
Record arr3 := A3 { a0 : R; a1 : R; a2 : R }.
Record arr33 := A33 {
  w00 : R; w01 : R; w02 : R;
  w10 : R; w11 : R; w12 : R;
  w20 : R; w21 : R; w22 : R }.

(** np.dot of a matrix and a vector, and of two matrices *)
Definition dot_v (w : arr33) (r : arr3) : arr3 := A3
  (w00 w * a0 r + w01 w * a1 r + w02 w * a2 r)
  (w10 w * a0 r + w11 w * a1 r + w12 w * a2 r)
  (w20 w * a0 r + w21 w * a1 r + w22 w * a2 r).
Definition dot_m (w s : arr33) : arr33 := A33
  (w00 w * w00 s + w01 w * w10 s + w02 w * w20 s)
  (w00 w * w01 s + w01 w * w11 s + w02 w * w21 s)
  (w00 w * w02 s + w01 w * w12 s + w02 w * w22 s)
  (w10 w * w00 s + w11 w * w10 s + w12 w * w20 s)
  (w10 w * w01 s + w11 w * w11 s + w12 w * w21 s)
  (w10 w * w02 s + w11 w * w12 s + w12 w * w22 s)
  (w20 w * w00 s + w21 w * w10 s + w22 w * w20 s)
  (w20 w * w01 s + w21 w * w11 s + w22 w * w21 s)
  (w20 w * w02 s + w21 w * w12 s + w22 w * w22 s).
Definition add_v (a b : arr3) : arr3 := A3 (a0 a + a0 b) (a1 a + a1 b) (a2 a + a2 b).

(** The pair [v, w]: the position and the orientation of the reference frame. *)
Record frame := Frame { f_v : arr3; f_w : arr33 }.

(** survey.py:18-36 *)
Definition get_E_from_angles (theta phi psi : R) : arr33 := A33
  (cos theta * cos psi - sin theta * sin phi * sin psi)
  (- cos theta * sin psi - sin theta * sin phi * cos psi)
  (sin theta * cos phi)
  (cos phi * sin psi)
  (cos phi * cos psi)
  (sin phi)
  (- sin theta * cos psi - cos theta * sin phi * sin psi)
  (sin theta * sin psi - cos theta * sin phi * cos psi)
  (cos theta * cos phi).

(** survey.py:39-51 and 574-581 (before np.unwrap, which adds multiples of 2 pi) *)
Definition get_theta (w : arr33) : R := atan2 (w02 w) (w22 w).
Definition get_psi (w : arr33) : R := atan2 (w10 w) (w11 w).
Definition get_phi (w : arr33) : R := atan2 (w12 w) (w11 w / cos (get_psi w)).

(** survey.py:54-69 *)
Definition advance_bend (f : frame) (r : arr3) (s : arr33) : frame :=
  Frame (add_v (dot_v (f_w f) r) (f_v f)) (dot_m (f_w f) s).
Definition advance_rotation (f : frame) (s : arr33) : frame := Frame (f_v f) (dot_m (f_w f) s).
Definition advance_drift (f : frame) (r : arr3) : frame :=
  Frame (add_v (dot_v (f_w f) r) (f_v f)) (f_w f).

(** survey.py:72-159 (None: an assertion fails) *)
Definition advance_element (f : frame)
    (length angle tilt ref_shift_x ref_shift_y ref_rot_x ref_rot_y ref_rot_s : R) : option frame :=
  let plain := is0 angle && is0 tilt && is0 length in
  if negb (is0 ref_shift_x) || negb (is0 ref_shift_y) then
    if plain then Some (advance_drift f (A3 ref_shift_x ref_shift_y 0)) else None
  else if negb (is0 ref_rot_x) then
    let cr := cos (- ref_rot_x) in
    let sr := sin (- ref_rot_x) in
    if plain then Some (advance_rotation f (A33 1 0 0  0 cr sr  0 (- sr) cr)) else None
  else if negb (is0 ref_rot_y) then
    let cr := cos ref_rot_y in
    let sr := sin ref_rot_y in
    if plain then Some (advance_rotation f (A33 cr 0 (- sr)  0 1 0  sr 0 cr)) else None
  else if negb (is0 ref_rot_s) then
    let cr := cos ref_rot_s in
    let sr := sin ref_rot_s in
    if plain then Some (advance_rotation f (A33 cr (- sr) 0  sr cr 0  0 0 1)) else None
  else if is0 angle then Some (advance_drift f (A3 0 0 length))
  else
    let ca := cos angle in
    let sa := sin angle in
    let rho := length / angle in
    let r := A3 (rho * (ca - 1)) 0 (rho * sa) in
    let s := A33 ca 0 (- sa)  0 1 0  sa 0 ca in
    if is0 tilt then Some (advance_bend f r s)
    else
      let ct := cos tilt in
      let st := sin tilt in
      let t := A33 ct (- st) 0  st ct 0  0 0 1 in
      let tinv := A33 ct st 0  (- st) ct 0  0 0 1 in
      Some (advance_bend f (dot_v t r) (dot_m t (dot_m s tinv))).

(** The fields of an RBend on which the survey of its slices depends. *)
Record rbend := mkRBend {
  rb_length_straight : R; rb_angle : R; rb_angle_diff : R; rb_shift : R;
  rb_compensate_sagitta : bool; rb_straight_body : bool; rb_tilt : R }.

(** abs(angle) > 1e-10 (rbend.py, slice_elements_edge.py) *)
Definition bends (b : rbend) : bool := if Rlt_dec (/ 10 ^ 10) (Rabs (rb_angle b)) then true else false.
(** rbend.py:237-243 *)
Definition rb_angle_in (b : rbend) : R := / 2 * rb_angle b - rb_angle_diff b / 2.
Definition rb_angle_out (b : rbend) : R := / 2 * rb_angle b + rb_angle_diff b / 2.
(** rbend.py:191-211 *)
Definition rb_h (b : rbend) : R :=
  if Rlt_dec (Rabs (rb_angle b)) (/ 10 ^ 10) then 0
  else if Rlt_dec (Rabs (rb_length_straight b)) (/ 10 ^ 10) then 0
  else (sin (rb_angle_in b) + sin (rb_angle_out b)) / rb_length_straight b.
Definition rb_length (b : rbend) : R :=
  if Rlt_dec (Rabs (rb_angle b)) (/ 10 ^ 10) then rb_length_straight b
  else if Rlt_dec (Rabs (rb_length_straight b)) (/ 10 ^ 10) then 0
  else rb_angle b / rb_h b.
(** rbend.py:245-272 *)
Definition rb_x0_mid (b : rbend) : R :=
  - rb_shift b
  + (if bends b && rb_compensate_sagitta b then / 2 / rb_h b * (1 - cos (rb_angle b / 2)) else 0).
Definition rb_x0_in (b : rbend) : R :=
  rb_x0_mid b - (if bends b then
    let px0_mid := sin (rb_angle_in b) - rb_h b * rb_length_straight b / 2 in
    1 / rb_h b * (sqrt (1 - px0_mid * px0_mid) - cos (rb_angle_in b)) else 0).
Definition rb_x0_out (b : rbend) : R :=
  rb_x0_mid b + (if bends b then
    let px0_mid := sin (rb_angle_out b) - rb_h b * rb_length_straight b / 2 in
    1 / rb_h b * (cos (rb_angle_out b) - sqrt (1 - px0_mid * px0_mid)) else 0).

(** An element of the line with the columns of its table used by the survey. *)
Inductive selem :=
  | Other (drift_length angle tilt : R)                     (* no [_propagate_survey] *)
  | XRot (sin_angle cos_angle : R)
  | YRot (sin_angle cos_angle : R)
  | SRot (sin_z cos_z : R)
  | Rot (rot_x rot_y rot_s : R) (first second third : axis)
  | Shift (dx dy : R)                                       (* XYShift, Translation *)
  | ThickRB (parent : rbend) (weight : R)
  | DriftRB (parent : rbend) (weight : R)
  | EntryRB (parent : rbend)
  | ExitRB (parent : rbend).

(** rotation.py:89-119: one of the rotations *)
Definition rotate_frame (fback rx ry rs : R) (f : option frame) (a : axis) : option frame :=
  match f with
  | None => None
  | Some f =>
      let '(x, y, s) := match a with Ax => (rx, 0, 0) | Ay => (0, ry, 0) | As => (0, 0, rs) end in
      advance_element f 0 0 0 0 0 (fback * x) (- fback * y) (fback * s)
  end.

Definition bind {A B} (o : option A) (k : A -> option B) : option B :=
  match o with None => None | Some a => k a end.

(** The [_propagate_survey] methods, and survey.py:534-556. The rotations about one axis
    (x_rotation.py:101-121, y_rotation.py:113-134, s_rotation.py:92-113) use the angle in degrees
    recovered from the sine and cosine they store; shifts: xy_shift.py:50-72, translation.py:39-61;
    slice_elements_thick.py:40-66, slice_elements_drift.py:51-74,
    slice_elements_edge.py:315-371 and 407-463. *)
Definition propagate (backtrack : bool) (e : selem) (f : frame) : option frame :=
  let fback := if backtrack then -1 else 1 in
  let opp a := if backtrack then - a else a in
  match e with
  | Other ll aa t => advance_element f (opp ll) (opp aa) t 0 0 0 0 0
  | XRot s c => advance_element f 0 0 0 0 0 (fback * atan2 s c) (- fback * 0) (fback * 0)
  | YRot s c => advance_element f 0 0 0 0 0 (fback * 0) (- fback * atan2 s c) (fback * 0)
  | SRot s c => advance_element f 0 0 0 0 0 (fback * 0) (- fback * 0) (fback * atan2 s c)
  | Rot rx ry rs a b c =>
      fold_left (rotate_frame fback rx ry rs) (if backtrack then [c; b; a] else [a; b; c]) (Some f)
  | Shift dx dy => advance_element f 0 0 0 (fback * dx) (fback * dy) 0 0 0
  | ThickRB b wt =>
      let ll := (if rb_straight_body b then rb_length_straight b else rb_length b) * wt in
      let aa := if rb_straight_body b then 0 else rb_angle b * wt in
      advance_element f (opp ll) (opp aa) (rb_tilt b) 0 0 0 0 0
  | DriftRB b wt =>
      let ll := (if rb_straight_body b then rb_length_straight b else rb_length b) * wt in
      advance_element f (opp ll) 0 0 0 0 0 0 0
  | EntryRB b =>
      let shift x f := if bends b
        then advance_element f 0 0 0 (x * cos (rb_tilt b)) (x * sin (rb_tilt b)) 0 0 0 else Some f in
      let turn a f := advance_element f 0 a (rb_tilt b) 0 0 0 0 0 in
      if rb_straight_body b then
        if backtrack then bind (shift (rb_x0_in b) f) (turn (- rb_angle_in b))
        else bind (turn (rb_angle_in b) f) (shift (- rb_x0_in b))
      else Some f
  | ExitRB b =>
      let shift x f := if bends b
        then advance_element f 0 0 0 (x * cos (rb_tilt b)) (x * sin (rb_tilt b)) 0 0 0 else Some f in
      let turn a f := advance_element f 0 a (rb_tilt b) 0 0 0 0 0 in
      if rb_straight_body b then
        if backtrack then bind (turn (- rb_angle_out b) f) (shift (- rb_x0_out b))
        else bind (shift (rb_x0_out b) f) (turn (rb_angle_out b))
      else Some f
  end.

(** survey.py:526-561: the frames at the entry of each element, and after the last one *)
Fixpoint survey_loop (backtrack : bool) (els : list selem) (f : frame) : option (list frame) :=
  match els with
  | [] => Some [f]
  | e :: els =>
      bind (propagate backtrack e f) (fun f' => option_map (cons f) (survey_loop backtrack els f'))
  end.

(** survey.py:460-561 (an [element0] counted from the end is not modelled) *)
Definition get_survey (els : list selem) (X0 Y0 Z0 theta0 phi0 psi0 : R) (element0 : nat)
    (backtrack : bool) : option (list frame) :=
  let f0 := Frame (A3 X0 Y0 Z0) (get_E_from_angles theta0 phi0 psi0) in
  match element0 with
  | O => survey_loop backtrack els f0
  | _ =>
      bind (survey_loop backtrack (skipn element0 els) f0) (fun forward =>
      bind (survey_loop (negb backtrack) (rev (firstn element0 els)) f0) (fun backward =>
      Some (removelast (rev backward) ++ forward)))
  end.

(** survey.py:263-298 (SurveyTable.reverse): the column s and the frames *)
Definition reverse_s (s : list R) : list R :=
  let last_s := last s 0 in
  map (fun a => last_s - a) (match rev (tl s) with r => r ++ [hd 0 s] end).
Definition reverse_frame (f : frame) : frame :=
  let v := f_v f in
  let w := f_w f in
  Frame (A3 (- a0 v) (a1 v) (- a2 v))
        (A33 (w00 w) (- w01 w) (w02 w)  (- w10 w) (w11 w) (- w12 w)  (w20 w) (- w21 w) (w22 w)).
Definition reverse_frames (fs : list frame) : list frame :=
  match fs with
  | [] => []
  | f :: t => map reverse_frame (rev t ++ [f])
  end.

(** survey.py:607-637 (survey_relative_transform) for rows given by their positions in the table
    (not reversed): np.linalg.inv(source) @ destination. The inverse of the matrix of a frame is
    that of a rigid motion. *)
Definition relative_transform (source destination : frame) : frame :=
  let w := f_w source in
  let wt := A33 (w00 w) (w10 w) (w20 w)  (w01 w) (w11 w) (w21 w)  (w02 w) (w12 w) (w22 w) in
  let v := dot_v wt (f_v source) in
  Frame (add_v (dot_v wt (f_v destination)) (A3 (- a0 v) (- a1 v) (- a2 v)))
        (dot_m wt (f_w destination)).
