(** What reversal means. *)
From Coq Require Import Reals List Bool String.
From Verif.Model Require Import Maps Magnet FeedDown Reverse.
From Verif.Spec Require Import Magnets.
Import ListNotations.
Local Open Scope R_scope.
Local Open Scope string_scope.

Definition same_elem (a b : elem) : Prop :=
  e_class a = e_class b /\ (forall k, e_field a k = e_field b k) /\ e_knl a = e_knl b /\ e_ksl a = e_ksl b.
Definition is_supported (e : elem) : Prop := In (e_class e) supported.

(** The edges have both an entry and an exit; a crab cavity has its voltage. *)
Definition edge_keys : list (string * string) :=
  [("edge_entry_model", "edge_exit_model"); ("edge_entry_angle", "edge_exit_angle");
   ("edge_entry_angle_fdown", "edge_exit_angle_fdown"); ("edge_entry_fint", "edge_exit_fint");
   ("edge_entry_hgap", "edge_exit_hgap")].
Definition two_edges (e : elem) : Prop :=
  forall k, In k edge_keys -> (e_field e (fst k) = None <-> e_field e (snd k) = None).
Definition well_formed (e : elem) : Prop := is_supported e /\ two_edges e.

(** Integrated strengths of the multipole of order [n], normal and skew: the field per meter of a
    thick magnet times the length, and the components knl and ksl. *)
Definition value (o : option R) : R := match o with Some v => v | None => 0 end.
Definition component (l : option (list R)) (n : nat) : R := match l with Some l => nth n l 0 | None => 0 end.
Definition key (n : nat) (skew : bool) : option string :=
  match n, skew with
  | 0%nat, false => Some "k0" | 1%nat, false => Some "k1" | 2%nat, false => Some "k2" | 3%nat, false => Some "k3"
  | 0%nat, true => Some "k0s" | 1%nat, true => Some "k1s" | 2%nat, true => Some "k2s" | 3%nat, true => Some "k3s"
  | _, _ => None
  end.
Definition per_meter (e : elem) (n : nat) (skew : bool) : R :=
  match key n skew with Some k => value (e_field e k) | None => 0 end.
Definition kn (e : elem) (n : nat) : R := per_meter e n false * value (e_field e "length") + component (e_knl e) n.
Definition ks (e : elem) (n : nat) : R := per_meter e n true * value (e_field e "length") + component (e_ksl e) n.

(** What happens to a scalar attribute *)
Definition opposite_keys : list string := ["k0s"; "k1"; "k2s"; "k3"; "ks"; "ksi"; "rot_s_rad"; "lag"].
Definition other_edge (k : string) : option string :=
  match find (fun p => String.eqb k (fst p)) edge_keys with
  | Some p => Some (snd p)
  | None => match find (fun p => String.eqb k (snd p)) edge_keys with Some p => Some (fst p) | None => None end
  end.
Definition is_opposite (e : elem) (k : string) : Prop :=
  In k opposite_keys \/ (e_class e = "CrabCavity" /\ k = "crab_voltage").
(** The line is made of known elements of supported classes *)
Definition known (d : dict) (names : list string) : Prop :=
  forall n, In n names -> exists e, d n = Some e /\ well_formed e.

(** A thin multipole with the arrays, the shifts and the tilt of the element, tracked by the particle. *)
Definition array (l : option (list R)) : list R := match l with Some l => l | None => [] end.
Definition thin_track (syn : bool) (e : elem) (p : part) : part :=
  track_aligned syn (mkAlign (value (e_field e "shift_x")) (value (e_field e "shift_y")) 0 0 0 0 0
                             (value (e_field e "rot_s_rad"))) 0 0 false
    (fun bt => track_magnet bt 1 (thin_multipole (List.length (array (e_knl e)) - 1) (array (e_knl e)) (array (e_ksl e)))) p.
