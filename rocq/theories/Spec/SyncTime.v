(** Passages of a coasting particle, without frames *)
From Coq Require Import Reals List Bool Arith.
Import ListNotations.
Local Open Scope R_scope.

Section Free.
Context {D : Type}.
Variables (m : nat) (pos : nat -> R) (dz : nat -> D -> R) (out : nat -> D -> option D).
(** The i-th passage of a particle tracked alone around the ring: stage, arrival time (times the speed of the reference
    particle, from the departure of the reference particle) and data. From a stage to the next one the time grows by the
    distance minus the change of zeta; from the last stage the particle is at the first one again. *)
Fixpoint free (t : R) (d : D) (i : nat) : option (nat * R * D) :=
  match i with
  | O => Some (0%nat, t, d)
  | S i => match free t d i with
           | None => None
           | Some (j, t, d) =>
               if (j =? S m)%nat then Some (0%nat, t, d)
               else match out j d with
                    | None => None
                    | Some d' => Some (S j, t + (pos (S j) - pos j) - dz j d, d')
                    end
           end
  end.
End Free.

(** The time window of turn k at position s: windows last f C, that of the first turn at s = 0 is centered at 0 and windows
    move along the line with the speed of the frame. *)
Definition window_end (C f : R) (k : nat) (s : R) : R := f * (INR k * C + s) + f * C / 2.
Definition in_window (C f : R) (k : nat) (s t : R) : Prop := window_end C f k s - f * C < t <= window_end C f k s.

(** A particle does not overtake the frame. *)
Definition not_too_fast {D : Type} (f : R) (m : nat) (pos : nat -> R) (dz : nat -> D -> R) : Prop :=
  forall j d, (j <= m)%nat -> f * (pos (S j) - pos j) <= pos (S j) - pos j - dz j d.
