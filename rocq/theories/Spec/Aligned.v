(** Misaligned elements, whole and in pieces. *)
From Coq Require Import Reals List.
From Verif.Model Require Import Maps.
From Verif.Spec Require Import Frames.
Import ListNotations.
Local Open Scope R_scope.

(** The origin of the entry frame of a misaligned straight element: the element is turned about the
    point at [anchor] from its entry, and displaced. *)
Definition entry_origin (a : align) (anchor : R) : vec :=
  vsub (vadd (V3 (al_x a) (al_y a) (al_s a)) (V3 0 0 anchor))
       (app (transp (attitude (al_theta a) (al_phi a) (al_psi a) (al_tilt a))) (V3 0 0 anchor)).

(** The particle [p] outside enters the misaligned frame as [q]. *)
Definition enters (sp : bool) (a : align) (anchor : R) (p q : part) : Prop :=
  let M := attitude (al_theta a) (al_phi a) (al_psi a) (al_tilt a) in
  sees sp M (app M (entry_origin a anchor)) p q.

Definition enterable (a : align) (p : part) : Prop := physical p /\ can_enter (al_theta a) (al_phi a) p.
Definition leavable (a : align) (p : part) : Prop :=
  physical p /\ can_leave (al_theta a) (al_phi a) (al_psi a) (al_tilt a) p.

(** Consecutive pieces (length and body) of one misaligned element, each tracked with its own
    transformations. *)
Fixpoint track_pieces (sp : bool) (a : align) (offset : R)
    (pieces : list (R * (bool -> part -> part))) (p : part) : part :=
  match pieces with
  | [] => p
  | (len, body) :: t => track_pieces sp a (offset + len) t (track_aligned sp a offset len false body p)
  end.
(** The bodies one after the other. *)
Fixpoint bodies (pieces : list (R * (bool -> part -> part))) (p : part) : part :=
  match pieces with
  | [] => p
  | (_, body) :: t => bodies t (body false p)
  end.
Fixpoint total_length (pieces : list (R * (bool -> part -> part))) : R :=
  match pieces with [] => 0 | (len, _) :: t => len + total_length t end.
(** The particle can leave the frame after each piece. *)
Fixpoint leavable_after (a : align) (pieces : list (R * (bool -> part -> part))) (p : part) : Prop :=
  match pieces with
  | [] => True
  | (_, body) :: t => leavable a (body false p) /\ leavable_after a t (body false p)
  end.
