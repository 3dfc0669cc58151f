(** Tracking of coasting beams in frames of fixed duration: xtrack/synctime.py *)
From Coq Require Import Reals ZArith List Bool Arith.
Import ListNotations.
Local Open Scope list_scope.
Local Open Scope R_scope.

(** COAST_STATE_RANGE_START (line 3) *)
Definition coast : Z := 1000000.

Section SyncTime.
Context {D : Type}.
(** The state, the position s, zeta, and all other coordinates. Particles with a state that is not positive are not tracked. *)
Record particle := mkParticle { p_state : Z; p_s : R; p_zeta : R; p_data : D }.
Definition alive (p : particle) : bool := (0 <? p_state p)%Z.
Definition with_state (z : Z) (p : particle) : particle := mkParticle z (p_s p) (p_zeta p) (p_data p).
Definition add_zeta (x : R) (p : particle) : particle := mkParticle (p_state p) (p_s p) (p_zeta p + x) (p_data p).

(** circumference and frame_relative_length; beta0 / beta1 is the latter (lines 26-28) *)
Variables (C f : R).
(** lines 32-33 and 48 *)
Definition zeta_min (p : particle) : R := - C / 2 * f + p_s p * (1 - f).

(** lines 35-39; [first]: at_turn[0] == 0; [prepared]: some particle has state -COAST_STATE_RANGE_START *)
Definition sync_start (at_start first prepared : bool) (p : particle) : particle :=
  if (at_start && first && negb prepared && alive p)%bool
  then if Rlt_dec (p_zeta p) (zeta_min p) then with_state (- coast) (add_zeta (C * f) p) else p
  else p.
(** lines 41-65. [None]: ValueError *)
Definition sync_hold (id : Z) (p : particle) : option particle :=
  let p := if (p_state p =? - id)%Z then with_state 1 p else p in
  if alive p then
    if Rlt_dec (zeta_min p + C * f) (p_zeta p) then None
    else if Rlt_dec (p_zeta p) (zeta_min p) then Some (with_state (- id) (add_zeta (f * C) p))
    else Some p
  else Some p.
(** lines 67-73 *)
Definition sync_end (at_end first : bool) (p : particle) : particle :=
  let p := if (at_end && alive p)%bool then add_zeta (- (C * (1 - f))) p else p in
  if (at_end && first && (p_state p =? - coast)%Z)%bool then with_state 1 p else p.

(** SyncTime.track (lines 21-73) on all particles; [reorganize] changes their order, [turn] is at_turn, one
    of the other coordinates *)
Definition at_first (turn : D -> Z) (ps : list particle) : bool :=
  match ps with p :: _ => (turn (p_data p) =? 0)%Z | [] => false end.
Fixpoint all {A B : Type} (g : A -> option B) (l : list A) : option (list B) :=
  match l with
  | [] => Some []
  | x :: r => match g x, all g r with Some y, Some ys => Some (y :: ys) | _, _ => None end
  end.
Definition track (turn : D -> Z) (reorganize : list particle -> list particle)
    (id : Z) (at_start at_end : bool) (ps : list particle) : option (list particle) :=
  let prepared := existsb (fun p => (p_state p =? - coast)%Z) ps in
  let ps1 := map (sync_start at_start (at_first turn ps) prepared) ps in
  let ps2 := reorganize (map (fun p => if (p_state p =? - id)%Z then with_state 1 p else p) ps1) in
  match all (sync_hold id) ps2 with
  | None => None
  | Some ps3 => Some (map (sync_end at_end (at_first turn ps3)) ps3)
  end.

(** prepare_particles_for_sync_time (lines 113-122) *)
Definition prepare (p : particle) : particle :=
  if alive p then if Rlt_dec (p_zeta p) (zeta_min p) then with_state (- coast) (add_zeta (C * f) p) else p else p.

(** install_sync_time_at_collective_elements (lines 75-110): the identifier of the SyncTime at stage j, for m collective
    elements: stage 0 is the start of the line, stage m + 1 its end, the others are the collective elements in order *)
Definition ident (m j : nat) : Z :=
  (coast + (if (j =? 0)%nat then Z.of_nat m + 1 else if (j =? S m)%nat then Z.of_nat m + 2 else Z.of_nat j))%Z.

(** The line with its SyncTimes: [pos j] is the position of stage j; between stages j and j + 1 zeta changes by [dz j],
    the other coordinates become [out j], or the particle is lost. *)
Variables (m : nat) (pos : nat -> R) (dz : nat -> D -> R) (out : nat -> D -> option D).
Definition fly (j : nat) (p : particle) : particle :=
  if alive p then
    match out j (p_data p) with
    | Some d => mkParticle (p_state p) (pos (S j)) (p_zeta p + dz j (p_data p)) d
    | None => with_state 0 p
    end
  else p.

(** One frame for one particle, from stage j on ([n]: stages after j), and the passages of the stages: (stage, zeta, s, data) *)
Definition passage := (nat * R * R * D)%type.
Fixpoint stages (first prepared : bool) (n j : nat) (p : particle) : option (list passage * particle) :=
  let p := sync_start (j =? 0)%nat first prepared p in
  match sync_hold (ident m j) p with
  | None => None
  | Some p =>
      let log := if alive p then [(j, p_zeta p, p_s p, p_data p)] else [] in
      let p := sync_end (j =? S m)%nat first p in
      match n with
      | O => Some (log, p)
      | S n => match stages first prepared n (S j) (fly j p) with
               | None => None
               | Some (log', p) => Some (log ++ log', p)
               end
      end
  end.
(** a turn, at the end of which s is reset (local_particle_custom_api.h lines 76-84) *)
Definition frame (first prepared : bool) (p : particle) : option (list passage * particle) :=
  match stages first prepared (S m) 0 p with
  | None => None
  | Some (log, p) => Some (log, if alive p then mkParticle (p_state p) 0 (p_zeta p) (p_data p) else p)
  end.
(** N turns; passages with the number of the turn; only the first turn has at_turn[0] == 0 *)
Fixpoint run (prepared : bool) (k N : nat) (p : particle) : option (list (nat * passage) * particle) :=
  match N with
  | O => Some ([], p)
  | S N => match frame (k =? 0)%nat prepared p with
           | None => None
           | Some (log, p) => match run prepared (S k) N p with
                              | None => None
                              | Some (log', p) => Some (map (fun x => (k, x)) log ++ log', p)
                              end
           end
  end.
End SyncTime.
Arguments particle : clear implicits.
