(** Vocabulary for the particle container. *)
From Coq Require Import ZArith List Bool QArith_base.
From Verif.Model Require Import Container.
Import ListNotations.
Local Open Scope Z_scope.

Section S.
Context {C G : Type}.
Notation row := (row C G).

(** Everything in a row except the state of the random generator. *)
Definition content (r : row) : Z * Z * Z * C := (r_id r, r_parent r, r_state r, r_c r).

Definition alive (r : row) : Prop := 0 < r_state r.
Definition dead (r : row) : Prop := -999999999 < r_state r <= 0.
Definition free (r : row) : Prop := r_state r <= -999999999.

(** Alive, then lost, then free slots. *)
Definition grouped (l : list row) : Prop :=
  exists a d f, l = a ++ d ++ f /\ Forall alive a /\ Forall dead d /\ Forall free f.

(** Free slots at the end. *)
Definition compact (l : list row) : Prop :=
  exists u f, l = u ++ f /\ Forall (fun r => ~ free r) u /\ Forall free f.

(** All the alive particles are at the beginning. *)
Definition alive_first (l : list row) : Prop :=
  exists a b, l = a ++ b /\ Forall alive a /\ Forall (fun r => ~ alive r) b.

(** Identifiers increase from one set to the next, starting above [mc] (every set has a particle). *)
Fixpoint increasing (mc : Z) (lst : list (list row)) : Prop :=
  match lst with
  | [] => True
  | pp :: lst' => (forall i, In i (map r_id pp) -> 0 <= i -> mc < i) /\
     exists mx, In mx (map r_id pp) /\ 0 <= mx /\ (forall i, In i (map r_id pp) -> i <= mx) /\ increasing mx lst'
  end.

(** An object whose counters are right. *)
Definition well_grouped (p : @parts C G) : Prop :=
  exists a d f, rows p = a ++ d ++ f /\ Forall alive a /\ Forall dead d /\ Forall free f
    /\ nact p = Z.of_nat (length a) /\ nlost p = Z.of_nat (length d).
End S.

(** The operations a user can do on an object, in any order. *)
Section Steps.
Context {C G : Type} (blank_c : C) (argsort : list QArith_base.Q -> list nat).
Notation row := (row C G).
Notation parts := (@parts C G).

Inductive step : parts -> parts -> Prop :=
| step_reorganize p : step p (reorganize blank_c p)
| step_hide p : step p (hide blank_c p)
| step_unhide p : step p (unhide p)
| step_add p other p' : add_particles blank_c p other = Some p' -> step p p'
| step_filter p mask p' : pfilter blank_c mask p = Some p' -> step p p'
| step_sort p by_ interleave p' : sort blank_c argsort by_ interleave p = Some p' -> step p p'
  (* changes of coordinates, states and identifiers of particles, by the user or by tracking
     without reordering: a slot in use stays in use, a free one stays free *)
| step_change p l na nl :
    Forall2 (fun r r' => free r <-> free r') (rows p) l ->
    step p (mkParts l (hidden p) na nl)
  (* tracking: the used slots are changed and permuted *)
| step_track p u u' f na nl :
    rows p = u ++ f -> Forall (fun r => ~ free r) u -> Forall (fun r => ~ free r) u' ->
    step p (mkParts (u' ++ f) (hidden p) na nl).

Inductive steps : parts -> parts -> Prop :=
| steps_nil p : steps p p
| steps_cons p q r : step p q -> steps q r -> steps p r.

(** An object as made by the constructor: [n] particles, free slots up to the capacity. *)
Definition fresh (p : parts) : Prop :=
  hidden p = false /\ exists u f, rows p = u ++ f /\ Forall (fun r => ~ free r) u /\ Forall free f.
End Steps.
