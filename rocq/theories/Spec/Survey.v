(** What a survey is: the frames follow from one another by the displacements of the elements. *)
From Coq Require Import Reals List Bool ZArith.
From Verif.Model Require Import Maps Curved Survey.
From Verif.Spec Require Import Frames Poses.
Import ListNotations.
Local Open Scope R_scope.

(** A frame of the survey as a position and attitude in the global coordinates. *)
Definition arr_vec (a : arr3) : vec := V3 (a0 a) (a1 a) (a2 a).
Definition arr_mat (w : arr33) : mat :=
  M3 (V3 (w00 w) (w01 w) (w02 w)) (V3 (w10 w) (w11 w) (w12 w)) (V3 (w20 w) (w21 w) (w22 w)).
Definition place (f : frame) : pose := Pose (arr_mat (f_w f)) (arr_vec (f_v f)).

(** The three axes of the frame (the columns ex, ey, ez of the table). *)
Definition ex (f : frame) : vec := V3 (w00 (f_w f)) (w10 (f_w f)) (w20 (f_w f)).
Definition ey (f : frame) : vec := V3 (w01 (f_w f)) (w11 (f_w f)) (w21 (f_w f)).
Definition ez (f : frame) : vec := V3 (w02 (f_w f)) (w12 (f_w f)) (w22 (f_w f)).
Definition cross (a b : vec) : vec :=
  V3 (v_y a * v_z b - v_z a * v_y b) (v_z a * v_x b - v_x a * v_z b) (v_x a * v_y b - v_y a * v_x b).
(** The axes are orthogonal unit vectors forming a right-handed system. *)
Definition orthonormal (f : frame) : Prop :=
  dot (ex f) (ex f) = 1 /\ dot (ey f) (ey f) = 1 /\ dot (ez f) (ez f) = 1
  /\ dot (ex f) (ey f) = 0 /\ dot (ey f) (ez f) = 0 /\ dot (ez f) (ex f) = 0
  /\ cross (ex f) (ey f) = ez f.

(** The end of an arc of length [len] and angle [a] in a plane tilted by [f], seen from its start;
    a kink when [len = 0]. *)
Definition bend_end (len a f : R) : pose :=
  pmul (tilt f) (pmul
    (Pose (M3 (V3 (cos a) 0 (- sin a)) (V3 0 1 0) (V3 (sin a) 0 (cos a)))
          (V3 (len / a * (cos a - 1)) 0 (len / a * sin a)))
    (pinv (tilt f))).
Definition shifted (dx dy : R) : pose := Pose ident (V3 dx dy 0).
(** A frame turned in the way in which a particle sees it ([Spec.Frames]). *)
Definition turned (M : mat) : pose := Pose (transp M) (V3 0 0 0).

(** The exit of an element seen from its entry. *)
Definition exit_of (e : selem) : pose :=
  match e with
  | Other l a f => if is0 a then straight l else bend_end l a f
  | XRot s c => turned (Rot_x (sin (atan2 s c)) (cos (atan2 s c)))
  | YRot s c => turned (Rot_y (sin (atan2 s c)) (cos (atan2 s c)))
  | SRot s c => turned (Rot_s (sin (atan2 s c)) (cos (atan2 s c)))
  | Rot rx ry rs a b c => turned (turns rx ry rs [a; b; c])
  | Shift dx dy => shifted dx dy
  | ThickRB b wt =>
      if rb_straight_body b then straight (rb_length_straight b * wt)
      else if is0 (rb_angle b * wt) then straight (rb_length b * wt)
      else bend_end (rb_length b * wt) (rb_angle b * wt) (rb_tilt b)
  | DriftRB b wt => straight ((if rb_straight_body b then rb_length_straight b else rb_length b) * wt)
  | EntryRB b =>
      if rb_straight_body b then
        pmul (bend_end 0 (rb_angle_in b) (rb_tilt b))
          (if bends b then
             shifted (- rb_x0_in b * cos (rb_tilt b)) (- rb_x0_in b * sin (rb_tilt b)) else pid)
      else pid
  | ExitRB b =>
      if rb_straight_body b then
        pmul (if bends b then
                shifted (rb_x0_out b * cos (rb_tilt b)) (rb_x0_out b * sin (rb_tilt b)) else pid)
          (bend_end 0 (rb_angle_out b) (rb_tilt b))
      else pid
  end.

(** The exit of a line seen from its entry. *)
Definition end_of (els : list selem) : pose := fold_left (fun P e => pmul P (exit_of e)) els pid.

(** Adding multiples of a whole turn (np.unwrap). *)
Definition unwrapped (a b : R) : Prop := exists k : Z, b = a + 2 * IZR k * PI.

(** * Tracking and survey *)
(** The elements without field: what the survey uses, and how particles are tracked. *)
Inductive free_elem :=
  | FDrift (length : R)
  | FArc (length h tilt : R)                              (* a bend without field *)
  | FXRot (s c : R) | FYRot (s c : R) | FSRot (s c : R)
  | FRot (rx ry rs : R) (a b c : axis)
  | FShift (dx dy : R)
  | FTranslation (dx dy : R).
Definition surveyed (e : free_elem) : selem :=
  match e with
  | FDrift l => Other l 0 0
  | FArc l h f => Other l (h * l) f
  | FXRot s c => XRot s c | FYRot s c => YRot s c | FSRot s c => SRot s c
  | FRot rx ry rs a b c => Rot rx ry rs a b c
  | FShift dx dy | FTranslation dx dy => Shift dx dy
  end.
(** The drifts are the exact ones. *)
Definition tracked (sp : bool) (e : free_elem) (p : part) : part :=
  match e with
  | FDrift l => Drift_track true false 0 l p
  | FArc l h f => S_ROTATE sp (- f) (polar_drift l h (S_ROTATE sp f p))
  | FXRot s c => XRotation_track sp false s c (s / c) p
  | FYRot s c => YRotation_track sp false s c (s / c) p
  | FSRot s c => SRotation_track sp false s c p
  | FRot rx ry rs a b c => Rotation_track sp false rx ry rs a b c p
  | FShift dx dy => XYShift_track false dx dy p
  | FTranslation dx dy => Translation_track false dx dy p
  end.
Definition free_length (e : free_elem) : R := match e with FDrift l | FArc l _ _ => l | _ => 0 end.
Definition free_total (els : list free_elem) : R := fold_right (fun e a => free_length e + a) 0 els.
Fixpoint tracked_line (sp : bool) (els : list free_elem) (p : part) : part :=
  match els with [] => p | e :: els => tracked_line sp els (tracked sp e p) end.
(** The rotations are not by right angles and the particle moves forward in the frames it meets. *)
Definition free_ok (sp : bool) (e : free_elem) (p : part) : Prop :=
  match e with
  | FArc l h f => l <> 0 /\ h <> 0 /\ cos (h * l) <> 0
      /\ forward (mmul (Rot_y (- sin (h * l)) (cos (h * l))) (Rot_s (sin f) (cos f))) p
      /\ (sp = true -> spin p = V3 0 0 0)
  | FDrift _ | FShift _ _ | FTranslation _ _ => True
  | FXRot s c => s * s + c * c = 1 /\ c <> 0 /\ forward (Rot_x s c) p
  | FYRot s c => s * s + c * c = 1 /\ c <> 0 /\ forward (Rot_y s c) p
  | FSRot s c => s * s + c * c = 1
  | FRot rx ry rs a b c => cos rx <> 0 /\ cos ry <> 0 /\ forward_all rx ry rs [a; b; c] ident p
  end.
Fixpoint line_ok (sp : bool) (els : list free_elem) (p : part) : Prop :=
  match els with [] => True | e :: els => free_ok sp e p /\ line_ok sp els (tracked sp e p) end.

(** * Slices *)
(** The thick slices of a bend: those of a Bend have no [_propagate_survey], the columns of the table
    being the fraction of the length and of the angle. *)
Definition bend_slices (len a f : R) (ws : list R) : list selem :=
  map (fun w => Other (len * w) (a * w) f) ws.
(** The slices of an RBend: entry, body, exit. In the body: thick slices, or drifts and kicks (the
    column angle of the kicks is zero for a straight body: line.py:8365). *)
Inductive body_slice := BThick (w : R) | BDrift (w : R) | BKick.
Definition body_weight (s : body_slice) : R := match s with BThick w | BDrift w => w | BKick => 0 end.
Definition rbend_slice (b : rbend) (s : body_slice) : selem :=
  match s with BThick w => ThickRB b w | BDrift w => DriftRB b w | BKick => Other 0 0 (rb_tilt b) end.
Definition rbend_slices (b : rbend) (body : list body_slice) : list selem :=
  EntryRB b :: map (rbend_slice b) body ++ [ExitRB b].
(** The whole RBend in the table: line.py:8322-8343. *)
Definition whole_rbend (b : rbend) : selem := Other (rb_length b) (rb_h b * rb_length b) (rb_tilt b).

(** What is needed for the slices of an RBend to make up the RBend: no bending at all, or an angle
    and a length above the thresholds of the code and a curvature. *)
Definition sliceable (b : rbend) : Prop :=
  (rb_angle b = 0 /\ rb_angle_diff b = 0)
  \/ (/ 10 ^ 10 < Rabs (rb_angle b) /\ / 10 ^ 10 <= Rabs (rb_length_straight b)
      /\ sin (rb_angle_in b) + sin (rb_angle_out b) <> 0).

(** * The reversed survey *)
(** The elements met when travelling in the opposite direction, in frames turned by half a turn about
    the vertical axis. *)
Definition reversed (e : selem) : selem :=
  match e with
  | Other l a f => Other l (- a) (- f)
  | XRot s c => XRot s c
  | YRot s c => YRot (- s) c
  | SRot s c => SRot s c
  | Rot rx ry rs a b c => Rot rx (- ry) rs c b a
  | Shift dx dy => Shift dx (- dy)
  | e => e
  end.
(** The elements for which this is stated: all but the slices of RBends. *)
Definition reversible (e : selem) : Prop :=
  match e with
  | XRot s c | YRot s c | SRot s c => s * s + c * c = 1
  | ThickRB _ _ | DriftRB _ _ | EntryRB _ | ExitRB _ => False
  | _ => True
  end.
