(** C64: coasting beams tracked in frames. *)
From Coq Require Import Reals ZArith List Bool Arith Permutation.
From Verif.Model Require Import SyncTime.
From Verif.Spec Require Import SyncTime.
From Verif.Proofs Require SyncTime SyncTimeAll SyncTimeCases.
Import ListNotations.
Local Open Scope list_scope.
Local Open Scope R_scope.

(** Tracking N turns with SyncTimes: the passages of a particle are those of the same particle tracked alone, in order, and
    turn k has exactly those whose arrival time is in the k-th time window. A particle which is not faster than the frame is
    never rejected. *)
Theorem C64_passages {D : Type} (C f : R) (m : nat) (pos : nat -> R) (dz : nat -> D -> R) out (p : particle D) (prepared user : bool) (N : nat) :
  0 < C -> 0 < f -> pos 0%nat = 0 -> pos (S m) = C -> not_too_fast f m pos dz ->
  alive p = true -> p_s p = 0 -> p_zeta p < f * C / 2 ->
  exists log p', run C f m pos dz out prepared 0 N (if user then prepare C f p else p) = Some (log, p') /\
    (forall i k j z s d, nth_error log i = Some (k, (j, z, s, d)) ->
       s = pos j /\ free m pos dz out (- p_zeta p) (p_data p) i = Some (j, INR k * (f * C) + s - z, d) /\
       in_window C f k s (INR k * (f * C) + s - z)) /\
    (forall k j z s d, In (k, (j, z, s, d)) log <->
       (k < N)%nat /\ s = pos j /\ in_window C f k s (INR k * (f * C) + s - z) /\
       exists i, free m pos dz out (- p_zeta p) (p_data p) i = Some (j, INR k * (f * C) + s - z, d)).
Proof. exact (Verif.Proofs.SyncTime.top C f m pos dz out p prepared user N). Qed.
Print Assumptions C64_passages.

(** The time windows of the turns do not overlap. *)
Theorem C64_windows (C f : R) (k k' : nat) (s t : R) : 0 < C -> 0 < f -> in_window C f k s t -> in_window C f k' s t -> k = k'.
Proof. exact (fun HC Hf => Verif.Proofs.SyncTime.window_unique C f HC Hf k k' s t). Qed.
Print Assumptions C64_windows.

(** A SyncTime treats each particle for itself, apart from the checks on the turn of the first particle and on particles
    which have been prepared; it fails if it fails for one of them. *)
Theorem C64_each {D : Type} (C f : R) turn (reorganize : list (particle D) -> list (particle D)) id at_start at_end ps :
  (forall l, Permutation (reorganize l) l) ->
  let prepared := existsb (fun p => (p_state p =? - coast)%Z) ps in
  let one first p := option_map (sync_end C f at_end first) (sync_hold C f id (sync_start C f at_start (at_first turn ps) prepared p)) in
  match track C f turn reorganize id at_start at_end ps with
  | Some ps' => exists first qs, all (one first) ps = Some qs /\ Permutation ps' qs
  | None => forall first, all (one first) ps = None
  end.
Proof. exact (Verif.Proofs.SyncTimeAll.track_each C f turn reorganize id at_start at_end ps). Qed.
Print Assumptions C64_each.

Import Verif.Proofs.SyncTimeCases.
Example C64_case : not_too_fast (1/2) 1 pos1 dz1 /\
  exists log p', run 10 (1/2) 1 pos1 dz1 out1 false 0 2 p1 = Some (log, p') /\
    In (0%nat, (0%nat, 1, 0, 0%nat)) log /\ In (0%nat, (1%nat, 2, 4, 1%nat)) log /\ In (1%nat, (2%nat, 7, 10, 2%nat)) log.
Proof. exact (conj slow_ok case1). Qed.
