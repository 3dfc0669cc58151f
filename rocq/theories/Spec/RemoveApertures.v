(** Tracking of one particle through a line with apertures. *)
From Coq Require Import Reals ZArith List Bool String.
From Verif.Model Require Import Maps Apertures RemoveApertures.
From Verif.Spec Require Import Frames Apertures.
Import ListNotations.
Local Open Scope R_scope.

Section Track.
(** Switches of the compilation, global limit checked after the drifts, maps of the other elements. *)
Variable synrad cpu use_exact : bool.
Variable within : part -> bool.
Variable other : string -> part -> option part.
Variable elem : string -> kind.

Definition through (n : string) (p : part) : option part :=
  match elem n with
  | KAperture l a => aperture_track synrad cpu l a p
  | KMarker => Some p
  | KDrift model length => let q := Drift_track use_exact false model length p in if within q then Some q else None
  | KActive => other n p
  end.
(** None: lost on the way. *)
Fixpoint track (names : list string) (p : part) : option part :=
  match names with
  | [] => Some p
  | n :: names => match through n p with Some q => track names q | None => None end
  end.

(** Lines to which the result applies: no aperture is used twice, apertures are convex and not tilted,
    drifts do not go backwards. *)
Definition simple_line (names : list string) : Prop :=
  NoDup (filter (fun n => match elem n with KAperture _ _ => true | _ => false end) names)
  /\ (forall n p q, other n p = Some q -> physical p -> physical q)
  /\ forall n, In n names ->
       match elem n with
       | KAperture l a => al_theta a = 0 /\ al_phi a = 0 /\ convex (fun x y => alive cpu l x y = true)
       | KDrift _ length => 0 <= length
       | _ => True
       end.
End Track.
(** What is left after removing some of the names. *)
Inductive sublist {A} : list A -> list A -> Prop :=
| sub_nil : sublist [] []
| sub_keep n l m : sublist l m -> sublist (n :: l) (n :: m)
| sub_drop n l m : sublist l m -> sublist l (n :: m).
