(** Model of the particle arrays seen by the kernels, of [check_is_active] in the three kinds
    of contexts, and of the instances of the kernel for one particle (GPU), for the whole array
    (serial CPU) and for a chunk of the array (OpenMP).
    Sources: xtrack/particles/local_particle_custom_api.h, xtrack/headers/track.h,
    xtrack/particles/particles.py (LocalParticle_exchange). *)
From Coq Require Import ZArith List Bool.
From Verif.Model Require Import Kernel.
Import ListNotations.

(** A particle: the counters that the kernel itself handles, the state, the identifier and
    all other per-particle variables (coordinates, s, random generator state, ...) in [p_c].
    (particles.py:49-82) *)
Record part (C : Type) := mkPart {
  p_id : Z; p_turn : Z; p_ele : Z; p_state : Z; p_c : C }.
Arguments mkPart {C}. Arguments p_id {C}. Arguments p_turn {C}. Arguments p_ele {C}.
Arguments p_state {C}. Arguments p_c {C}.

(** state > 0 *)
Definition alive {C} (p : part C) : bool := (0 <? p_state p)%Z.

(** particles.py LAST_INVALID_STATE: slots not allocated *)
Definition LAST_INVALID_STATE : Z := (-999999999)%Z.
Definition allocated {C} (p : part C) : bool := (LAST_INVALID_STATE <? p_state p)%Z.

(** ** Exchange of two particles, particles.py:382-396 (all per-particle variables are
    exchanged). Writing outside the array is an error in C; here it leaves the array
    unchanged, the proofs show that it does not happen. *)
Fixpoint set_nth {A} (l : list A) (n : nat) (x : A) : list A :=
  match l, n with
  | [], _ => []
  | _ :: l', O => x :: l'
  | y :: l', S n' => y :: set_nth l' n' x
  end.

Definition exchange {A} (l : list A) (i j : nat) : list A :=
  match nth_error l i, nth_error l j with
  | Some a, Some b => set_nth (set_nth l j a) i b
  | _, _ => l
  end.

(** ** check_is_active, serial CPU: local_particle_custom_api.h:107-129.
    [while (ipart < num_active) { if (state[ipart] < 1) { exchange with num_active - 1;
    num_active--; num_lost++; } else ipart++; }]. [fuel] is the number of iterations left
    ([None]: out of fuel, or an index outside the array). *)
Record arr (C : Type) := mkArr { a_parts : list (part C); a_nact : nat; a_nlost : nat }.
Arguments mkArr {C}. Arguments a_parts {C}. Arguments a_nact {C}. Arguments a_nlost {C}.

Fixpoint check_serial {C} (fuel : nat) (ipart : nat) (a : arr C) : option (arr C) :=
  if (ipart <? a_nact a)%nat then
    match fuel with
    | O => None
    | S fuel' =>
        match nth_error (a_parts a) ipart with
        | None => None
        | Some p =>
            if (p_state p <? 1)%Z then
              check_serial fuel' ipart
                (mkArr (exchange (a_parts a) ipart (a_nact a - 1)) (a_nact a - 1) (S (a_nlost a)))
            else check_serial fuel' (S ipart) a
        end
    end
  else Some a.

Definition check_is_active_serial {C} (a : arr C) : option (arr C * bool) :=
  match check_serial (a_nact a) 0 a with
  | None => None
  | Some a' => Some (a', negb (a_nact a' =? 0)%nat)
  end.

(** ** check_is_active, OpenMP: local_particle_custom_api.h:133-164, on the particles
    [ipart .. endpart-1] of the array (here [l] is that part of the array, so that
    [left] starts from 0 and [right] from [length l - 1]).
    [right] is kept as [right + 1] ([r1]) to stay in nat when the chunk is empty. *)
Fixpoint check_omp_loop {C} (fuel : nat) (left r1 : nat) (flag : bool) (l : list (part C))
    : option (list (part C) * bool) :=
  if (S left <? r1)%nat then   (* left < right *)
    match fuel with
    | O => None
    | S fuel' =>
        match nth_error l left, nth_error l (r1 - 1) with
        | Some pl, Some pr =>
            if (0 <? p_state pl)%Z then check_omp_loop fuel' (S left) r1 true l
            else if (p_state pr <=? 0)%Z then check_omp_loop fuel' left (r1 - 1) flag l
            else check_omp_loop fuel' (S left) (r1 - 1) true (exchange l left (r1 - 1))
        | _, _ => None
        end
    end
  else Some (l, flag).

Definition check_is_active_omp {C} (l : list (part C)) : option (list (part C) * bool) :=
  if (length l =? 1)%nat then
    match nth_error l 0 with
    | Some p => Some (l, (0 <? p_state p)%Z)
    | None => None
    end
  else check_omp_loop (length l) 0 (length l) false l.

(** count_reorganized_particles, local_particle_custom_api.h:167-183 *)
Fixpoint count_reorganized {C} (l : list (part C)) (nact nlost : nat) : nat * nat :=
  match l with
  | [] => (nact, nlost)
  | p :: l' =>
      if (p_state p <=? LAST_INVALID_STATE)%Z then (nact, nlost)
      else if (0 <? p_state p)%Z then count_reorganized l' (S nact) nlost
      else count_reorganized l' nact (S nlost)
  end.

(** ** Instances of the kernel *)
Section Instances.
Context {C : Type}.
(** Effect of element i on one particle (it may change the state). Elements that act on
    several particles together (collective) are not part of the compiled kernel. *)
Variable eff : Z -> part C -> part C.
(** Reset of s at the end of a turn, and at the start of a backtracked turn. When
    [flag_reset_s] is 0 both are the identity. *)
Variables reset_s reset_s_back : C -> C.
(** number of elements of the line *)
Variable L : Z.

(** increment_at_element, local_particle_custom_api.h:67-71 *)
Definition p_incr (k : Z) (p : part C) : part C :=
  mkPart (p_id p) (p_turn p) (p_ele p + k)%Z (p_state p) (p_c p).
(** increment_at_turn, local_particle_custom_api.h:74-83 *)
Definition p_end (p : part C) : part C :=
  mkPart (p_id p) (p_turn p + 1)%Z 0%Z (p_state p) (reset_s (p_c p)).
(** increment_at_turn_backtrack, local_particle_custom_api.h:86-101 *)
Definition p_end_back (p : part C) : part C :=
  mkPart (p_id p) (p_turn p - 1)%Z L (p_state p) (reset_s_back (p_c p)).

(** GPU: one particle per thread, START_PER_PARTICLE_BLOCK does nothing (track.h:53-73),
    check_is_active is state > 0 (local_particle_custom_api.h:187-190). Monitors are not
    part of this instance (they do not change the particles). *)
Definition gpu_ops : kops (part C) := mkKops
  (fun p => p) (fun p => p) eff (fun p => (p, alive p)) p_incr p_end p_end_back.

(** Serial: START_PER_PARTICLE_BLOCK loops over the first num_active particles
    (track.h:22-35). *)
Definition map_active (f : part C -> part C) (a : arr C) : arr C :=
  mkArr (map f (firstn (a_nact a) (a_parts a)) ++ skipn (a_nact a) (a_parts a))
        (a_nact a) (a_nlost a).

(** The state is an option: [None] if check_is_active went wrong. *)
Definition lift (f : arr C -> arr C) (s : option (arr C)) : option (arr C) := option_map f s.
Definition serial_ops : kops (option (arr C)) := mkKops
  (fun a => a) (fun a => a) (fun i => lift (map_active (eff i)))
  (fun s => match s with
            | None => (None, false)
            | Some a => match check_is_active_serial a with
                        | None => (None, false)
                        | Some (a', b) => (Some a', b)
                        end
            end)
  (fun k => lift (map_active (p_incr k))) (lift (map_active p_end)) (lift (map_active p_end_back)).

(** OpenMP: START_PER_PARTICLE_BLOCK loops over the chunk, skipping particles that are not
    alive (track.h:38-51). *)
Definition map_alive (f : part C -> part C) (l : list (part C)) : list (part C) :=
  map (fun p => if alive p then f p else p) l.
Definition liftl (f : list (part C) -> list (part C)) (s : option (list (part C))) := option_map f s.
Definition omp_ops : kops (option (list (part C))) := mkKops
  (fun a => a) (fun a => a) (fun i => liftl (map_alive (eff i)))
  (fun s => match s with
            | None => (None, false)
            | Some a => match check_is_active_omp a with
                        | None => (None, false)
                        | Some (a', b) => (Some a', b)
                        end
            end)
  (fun k => liftl (map_alive (p_incr k))) (liftl (map_alive p_end)) (liftl (map_alive p_end_back)).

(** Splitting in chunks, tracker.py:574-588: chunk [c] is
    [c * chunk_size, min((c + 1) * chunk_size, num_particles_to_track)), with
    chunk_size = ceil(num / threads). *)
Fixpoint chunks {A} (nthreads chunk_size : nat) (l : list A) : list (list A) :=
  match nthreads with
  | O => []
  | S n => firstn chunk_size l :: chunks n chunk_size (skipn chunk_size l)
  end.

Fixpoint all_some {A} (l : list (option A)) : option (list A) :=
  match l with
  | [] => Some []
  | None :: _ => None
  | Some x :: l' => match all_some l' with None => None | Some r => Some (x :: r) end
  end.

(** The OpenMP kernel, tracker.py:556-749: reorganize, track every chunk of the particles that
    were active (chunks are disjoint parts of the array: the parallel loop is
    modelled as a map), reorganize and count. [nact] is _num_active_particles. *)
Definition track_line_omp (nthreads : nat) (num_turns ele_start num_ele : Z)
    (flag_end bt : bool) (l : list (part C)) (nact : nat)
    : option (list (part C) * (nat * nat)) :=
  match check_is_active_omp l with
  | None => None
  | Some (l1, _) =>
      let chunk_size := ((nact + nthreads - 1) / nthreads)%nat in
      let work := firstn nact l1 in
      let rest := skipn nact l1 in
      let run c := match track_line omp_ops num_turns ele_start num_ele flag_end 0 false bt (Some c) with
                   | Some r => r
                   | None => None
                   end in
      match all_some (map run (chunks nthreads chunk_size work)) with
      | None => None
      | Some cs =>
          match check_is_active_omp (concat cs ++ rest) with
          | None => None
          | Some (l2, _) => Some (l2, count_reorganized l2 0 0)
          end
      end
  end.
End Instances.
