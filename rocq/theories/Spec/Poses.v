(** Position and attitude of one reference frame in another. *)
From Coq Require Import Reals.
From Verif.Model Require Import Maps Curved.
From Verif.Spec Require Import Frames.
Local Open Scope R_scope.

(** The point with coordinates [r] in the frame has the coordinates [rotn r + orig] outside. *)
Record pose := Pose { rotn : mat; orig : vec }.

Definition pmul (A B : pose) : pose :=
  Pose (mmul (rotn A) (rotn B)) (vadd (app (rotn A) (orig B)) (orig A)).
Definition pinv (A : pose) : pose :=
  Pose (transp (rotn A)) (vscale (-1) (app (transp (rotn A)) (orig A))).
Definition pid : pose := Pose ident (V3 0 0 0).

(** [sees] for the frame at the pose [A] *)
Definition sees_from (sp : bool) (A : pose) (p q : part) : Prop :=
  sees sp (transp (rotn A)) (app (transp (rotn A)) (orig A)) p q.

(** The end of an arc of angle [a] and curvature [h] (bending towards negative x), seen from its
    start. *)
Definition arc (a h : R) : pose :=
  Pose (M3 (V3 (cos a) 0 (- sin a)) (V3 0 1 0) (V3 (sin a) 0 (cos a)))
       (V3 ((cos a - 1) / h) 0 (sin a / h)).
(** The end of a straight piece. *)
Definition straight (l : R) : pose := Pose ident (V3 0 0 l).
(** A frame turned about s. *)
Definition tilt (f : R) : pose := Pose (transp (Rot_s (sin f) (cos f))) (V3 0 0 0).
(** The same arc in a tilted plane. *)
Definition tilted_arc (a h f : R) : pose := pmul (tilt f) (pmul (arc a h) (pinv (tilt f))).
(** A displaced and turned frame. *)
Definition misplaced (dx dy ds theta phi psi : R) : pose :=
  Pose (transp (attitude theta phi psi 0)) (V3 dx dy ds).

(** The entry of an element displaced at an anchor point: go to the anchor point, displace, come back
    in the displaced frame. *)
Definition moved_entry (to_anchor misplacement : pose) : pose :=
  pmul to_anchor (pmul misplacement (pinv to_anchor)).

(** The conditions under which a particle can be seen from a pose by turning first about y, then
    about x, then about s: the frame is not turned by a right angle and the particle moves forward
    in the frames in between. *)
Definition reachable (A : pose) (p : part) : Prop :=
  let z := m_z (transp (rotn A)) in
  v_z z <> 0 /\ 0 < v_x z * p_px p + v_z z * sqrt (pz2 p) /\ forward (transp (rotn A)) p.

(** * Misaligned bends *)
(** The entry frame of a bend of curvature [h] displaced at the point at [anchor] from its entry. *)
Definition bend_entry (a : align) (anchor h : R) : pose :=
  moved_entry (tilted_arc (anchor * h) h (al_tilt a))
    (misplaced (al_x a) (al_y a) (al_s a) (al_theta a) (al_phi a) (al_psi a)).
(** The nominal exit frame seen from the exit of the displaced bend (without its tilt): the point at
    [anchor] is at [anchor - len] from the exit. *)
Definition bend_exit (a : align) (anchor len h : R) : pose :=
  moved_entry (tilted_arc ((anchor - len) * h) h (al_tilt a))
    (pinv (misplaced (al_x a) (al_y a) (al_s a) (al_theta a) (al_phi a) (al_psi a))).

(** The particle [p] outside enters the frame of the displaced and tilted bend as [q]. *)
Definition enters_bend (sp : bool) (a : align) (anchor h : R) (p q : part) : Prop :=
  sees_from sp (pmul (bend_entry a anchor h) (tilt (al_tilt a))) p q.
(** The particle [q] at the exit of the bend leaves it as [r]. *)
Definition leaves_bend (sp : bool) (a : align) (anchor len h : R) (q r : part) : Prop :=
  sees_from sp (pmul (tilt (- al_tilt a)) (bend_exit a anchor len h)) q r.
Definition enterable_bend (a : align) (anchor h : R) (p : part) : Prop :=
  physical p /\ reachable (bend_entry a anchor h) p.
Definition leavable_bend (sp : bool) (a : align) (anchor len h : R) (q : part) : Prop :=
  physical q /\
  forall q', sees_from sp (tilt (- al_tilt a)) q q' -> reachable (bend_exit a anchor len h) q'.

(** Consecutive pieces of one misaligned bend, each with its own transformations. *)
Fixpoint track_bend_pieces (sp : bool) (a : align) (h offset : R)
    (pieces : list (R * (bool -> part -> part))) (p : part) : part :=
  match pieces with
  | nil => p
  | cons (len, body) t =>
      track_bend_pieces sp a h (offset + len) t
        (track_aligned_curved sp a offset len (h * len) h false body p)
  end.
(** After each piece the particle can leave the frame, and enter it again. *)
Fixpoint bend_joints (sp : bool) (a : align) (h offset : R)
    (pieces : list (R * (bool -> part -> part))) (q : part) : Prop :=
  match pieces with
  | nil => True
  | cons (len, body) t =>
      let q' := body false q in
      len <> 0 /\ leavable_bend sp a (al_anchor a - offset) len h q'
      /\ (forall r, leaves_bend sp a (al_anchor a - offset) len h q' r ->
            reachable (bend_entry a (al_anchor a - (offset + len)) h) r)
      /\ bend_joints sp a h (offset + len) t q'
  end.
