(** What merging multipoles is expected to do *)
From Coq Require Import Reals List Bool String Arith.
From Verif.Model Require Import Maps Magnet MergeMultipoles.
From Verif.Model Require LineEdit.
Import ListNotations.
Local Open Scope R_scope.
Local Open Scope list_scope.

(** What the constructor of Multipole ensures: as many skew as normal strengths, at least one. *)
Definition well_formed (m : mp) : Prop :=
  List.length (mp_knl m) = List.length (mp_ksl m) /\ mp_knl m <> [] /\
  List.length (mp_knl_rel m) = List.length (mp_ksl_rel m) /\ mp_knl_rel m <> [].

(** The integrated strengths of order [i], with the relative ones *)
Definition normal (m : mp) (i : nat) : R := nth i (mp_knl m) 0 + main_strength m * nth i (mp_knl_rel m) 0.
Definition skew (m : mp) (i : nat) : R := nth i (mp_ksl m) 0 + main_strength m * nth i (mp_ksl_rel m) 0.

(** Neither shifted nor rotated *)
Definition aligned (m : mp) : Prop := rot_shift_active (mp_align m) = false.

(** Elements which may be merged with a neighbour *)
Definition mergeable (keep : list string) (ne : string * element) : bool :=
  match snd ne with
  | EMult m => negb (LineEdit.sin keep (fst ne)) && negb (mp_thick m) && is0 (mp_hxl m)
               && negb (has_transverse_rotation m)
  | EOther _ => false
  end.

(** A list cut between any two neighbours which are not both [ok] *)
Fixpoint runs {A} (ok : A -> bool) (l : list A) : list (list A) :=
  match l with
  | [] => []
  | a :: r => match runs ok r with
              | (b :: g) :: gs => if ok a && ok b then (a :: b :: g) :: gs else [a] :: (b :: g) :: gs
              | gs => [a] :: gs
              end
  end.

(** The name of a run, and the names given on the way *)
Definition run_name (g : list (string * element)) : string := String.concat "_" (map fst g).
Definition names_on_the_way (g : list (string * element)) : list string :=
  map (fun k => run_name (firstn k g)) (seq 2 (List.length g - 1)).
Definition new_names (gs : list (list (string * element))) : list string := flat_map names_on_the_way gs.

(** The new names are new, and not the same *)
Definition fresh_names (keep : list string) (d : dict) (gs : list (list (string * element))) : Prop :=
  NoDup (new_names gs) /\ forall n, In n (new_names gs) -> find d n = None /\ ~ In n keep.

Definition sum (l : list R) : R := fold_right Rplus 0 l.
Definition mults (g : list (string * element)) : list mp :=
  flat_map (fun ne => match snd ne with EMult m => [m] | EOther _ => [] end) g.

(** All multipoles of a line *)
Definition all_mults (P : mp -> Prop) (l : list (string * element)) : Prop :=
  forall n m, In (n, EMult m) l -> P m.

(** No strength of any order, no curvature, no rotation about a transverse axis, no length if thick *)
Definition does_nothing (m : mp) : Prop :=
  (mp_thick m = true -> mp_length m = 0) /\ mp_hxl m = 0 /\
  al_phi (mp_align m) = 0 /\ al_theta (mp_align m) = 0 /\
  forall i, normal m i = 0 /\ skew m i = 0.
