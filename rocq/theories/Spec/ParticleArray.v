From Coq Require Import ZArith List Bool.
From Verif.Model Require Import Kernel ParticleArray.
Import ListNotations.

(** What one event of a track call does to one particle: nothing if it is lost. *)
Definition particle_event {C} (eff : Z -> part C -> part C) (reset_s reset_s_back : C -> C) (L : Z)
    (p : part C) (e : ev) : part C :=
  if (0 <? p_state p)%Z then
    match e with
    | Mon | Multi => p
    | Ele i => eff i p
    | Incr k => mkPart (p_id p) (p_turn p) (p_ele p + k)%Z (p_state p) (p_c p)
    | EndTurn => mkPart (p_id p) (p_turn p + 1)%Z 0%Z (p_state p) (reset_s (p_c p))
    | EndTurnBack => mkPart (p_id p) (p_turn p - 1)%Z L (p_state p) (reset_s_back (p_c p))
    end
  else p.

(** A single particle followed through a sequence of events. *)
Definition track_single {C} (eff : Z -> part C -> part C) (reset_s reset_s_back : C -> C) (L : Z)
    (t : list ev) (p : part C) : part C :=
  fold_left (particle_event eff reset_s reset_s_back L) t p.
