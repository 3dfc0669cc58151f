(** Laws of lattice functions. *)
From Coq Require Import Reals List Bool Arith.
From Verif.Model Require Import Maps Curved Lattice.
Import ListNotations.
Local Open Scope R_scope.

(** The same mode with another complex factor *)
Definition same_mode (m m' : mode) : Prop := exists k th, 0 < k /\
  forall r, re m' r = k * (re m r * cos th - im m r * sin th) /\ im m' r = k * (re m r * sin th + im m r * cos th).
(** The lattice functions are defined *)
Definition regular_mode (row : nat) (m : mode) : Prop := symp (re m) (im m) <> 0 /\ (re m row <> 0 \/ im m row <> 0).
Definition regular (w : wmat) : Prop := regular_mode 0 (w1 w) /\ regular_mode 2 (w2 w) /\ regular_mode 4 (w3 w).

(** Mode of a plane that is not coupled to the others *)
Definition in_plane (row : nat) (m : mode) : Prop := forall r, r <> row -> r <> S row -> (r < 6)%nat -> re m r = 0 /\ im m r = 0.
(** The mode at the exit of a linear map with matrix a b / c d in its plane *)
Definition transported (row : nat) (a b c d : R) (m m' : mode) : Prop :=
  re m' row = a * re m row + b * re m (S row) /\ im m' row = a * im m row + b * im m (S row) /\
  re m' (S row) = c * re m row + d * re m (S row) /\ im m' (S row) = c * im m row + d * im m (S row).

(** A symplectic pair of modes in the transverse planes *)
Definition symplectic_pair (m n : mode) : Prop :=
  (forall r, (r = 4 \/ r = 5)%nat -> re m r = 0 /\ im m r = 0 /\ re n r = 0 /\ im n r = 0) /\
  symp (re m) (im m) = 1 /\ symp (re n) (im n) = 1 /\
  symp (re m) (re n) = 0 /\ symp (re m) (im n) = 0 /\ symp (im m) (re n) = 0 /\ symp (im m) (im n) = 0.
(** W^T S W = S *)
Definition symplectic (w : wmat) : Prop :=
  symp (re (w1 w)) (im (w1 w)) = 1 /\ symp (re (w2 w)) (im (w2 w)) = 1 /\ symp (re (w3 w)) (im (w3 w)) = 1 /\
  symp (re (w1 w)) (re (w2 w)) = 0 /\ symp (re (w1 w)) (im (w2 w)) = 0 /\ symp (im (w1 w)) (re (w2 w)) = 0 /\ symp (im (w1 w)) (im (w2 w)) = 0 /\
  symp (re (w1 w)) (re (w3 w)) = 0 /\ symp (re (w1 w)) (im (w3 w)) = 0 /\ symp (im (w1 w)) (re (w3 w)) = 0 /\ symp (im (w1 w)) (im (w3 w)) = 0 /\
  symp (re (w2 w)) (re (w3 w)) = 0 /\ symp (re (w2 w)) (im (w3 w)) = 0 /\ symp (im (w2 w)) (re (w3 w)) = 0 /\ symp (im (w2 w)) (im (w3 w)) = 0.
Definition inverse (w inv : mat) : Prop := forall i j, (i < 6)%nat -> (j < 6)%nat ->
  mul w inv i j = (if Nat.eqb i j then 1 else 0) /\ mul inv w i j = (if Nat.eqb i j then 1 else 0).

(** ** Phase advance *)
(** A phase of the mode: its motion is rho (cos psi, sin psi) in the given row *)
Definition has_phase (row : nat) (m : mode) (psi : R) : Prop := exists rho, 0 < rho /\ re m row = rho * cos psi /\ im m row = rho * sin psi.
(** In a group of places with the same s, all but the last have the phase of the first *)
Fixpoint group_start (s : list R) (i : nat) : nat :=
  match i with O => O | S j => if Rlt_dec (nth j s 0) (nth i s 0) then i else group_start s j end.
Definition anchor (s : list R) (i : nat) : nat :=
  if (S i =? List.length s)%nat then i else if Rlt_dec (nth i s 0) (nth (S i) s 0) then i else group_start s i.
