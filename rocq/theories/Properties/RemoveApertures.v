(** C31: remove_redundant_apertures. *)
From Coq Require Import Reals ZArith List Bool String.
From Verif.Model Require Import Maps Apertures RemoveApertures.
From Verif.Spec Require Import Frames Apertures RemoveApertures.
From Verif.Proofs Require RemoveApertures RemoveAperturesCases.
Import ListNotations.
Local Open Scope R_scope.
Local Open Scope string_scope.

(** * C31. The removal succeeds, drops only apertures which are not to be kept, and every particle is
    lost or arrives with the same coordinates as before, whatever the other elements are. *)
Theorem C31_same_losses : forall synrad cpu use_exact within other elem keep need names,
  simple_line cpu other elem names ->
  exists red, remove_redundant_apertures elem keep need names = Some red /\ sublist red names
    /\ (forall p, physical p ->
          track synrad cpu use_exact within other elem red p = track synrad cpu use_exact within other elem names p)
    /\ (forall n, In n names -> In n red \/ (exists l a, elem n = KAperture l a) /\ ~ In n keep).
Proof. exact RemoveApertures.removed_ok. Qed.
Print Assumptions C31_same_losses.

(** If an aperture is used twice, its first occurrence is removed instead of the redundant one: a lost
    particle survives. *)
Theorem C31_used_twice_refuted : exists cpu other elem names red p q,
  (forall n p q, other n p = Some q -> physical p -> physical q)
  /\ (forall n, In n names -> match elem n with
       | KAperture l a => al_theta a = 0 /\ al_phi a = 0 /\ convex (fun x y => alive cpu l x y = true)
       | KDrift _ length => 0 <= length
       | _ => True end)
  /\ physical p
  /\ remove_redundant_apertures elem [] [] names = Some red
  /\ track true cpu false (fun _ => true) other elem names p = None
  /\ track true cpu false (fun _ => true) other elem red p = Some q.
Proof. exact RemoveAperturesCases.used_twice. Qed.
Print Assumptions C31_used_twice_refuted.
(** If a polygon is not convex, a particle lost at the removed aperture survives. *)
Theorem C31_concave_refuted : forall cpu, exists elem names red p q,
  NoDup (filter (fun n => match elem n with KAperture _ _ => true | _ => false end) names)
  /\ (forall n, In n names -> match elem n with
       | KAperture l a => l = LimitPolygon RemoveAperturesCases.cup /\ rot_shift_active a = false
       | KDrift _ length => 0 <= length
       | _ => False end)
  /\ physical p
  /\ remove_redundant_apertures elem [] [] names = Some red
  /\ (forall within, track true cpu false within (fun _ _ => None) elem names p = None)
  /\ track true cpu false (fun _ => true) (fun _ _ => None) elem red p = Some q.
Proof. exact RemoveAperturesCases.not_convex. Qed.
Print Assumptions C31_concave_refuted.

Example C31_case : forall cpu,
  simple_line cpu RemoveAperturesCases.focus RemoveAperturesCases.plain RemoveAperturesCases.plain_names
  /\ remove_redundant_apertures RemoveAperturesCases.plain ["a3"] [] RemoveAperturesCases.plain_names
     = Some ["a1"; "d"; "m"; "a3"; "d"; "d"; "a5"; "q"; "e"].
Proof. exact RemoveAperturesCases.plain_case. Qed.
