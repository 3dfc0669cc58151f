(** Random number generators of the particles: xtrack/particles/rng_src/base_rng.h,
    xtrack/particles/rng_src/particles_rng.h and xtrack/random/random_src.

    uint32 values are the elements of [N] below 2^32.  The conversion to double and the
    division by a power of two are exact and are written in [Q]; the additions of
    RandomUniformAccurate are given twice, in [Q] and in IEEE double precision ([SpecFloat]).
    Of the particle only the generator state and the [state] flag are kept. *)
From Coq Require Import NArith ZArith QArith List Bool.
From Coq Require Import Floats.SpecFloat.
Import ListNotations.
Local Open Scope N_scope.

Definition MASK : N := 4294967295.                         (* base_rng.h:18 *)

(** base_rng.h:19.  [s << a] is computed in uint32, the masking makes it the same as in
    unbounded arithmetic. *)
Definition TAUSWORTHE (s a b c d : N) : N :=
  N.lxor (N.land (N.shiftl (N.land s c) d) MASK)
         (N.shiftr (N.lxor (N.land (N.shiftl s a) MASK) s) b).

(** base_rng.h:20 *)
Definition LCG (s A C : N) : N := N.land (N.land (A * s) MASK + C) MASK.

Record rng := mkRng { s1 : N; s2 : N; s3 : N; s4 : N }.

(** base_rng.h:22-31 *)
Definition rng_get_int32 (g : rng) : rng * N :=
  let a := TAUSWORTHE (s1 g) 13 19 4294967294 12 in
  let b := TAUSWORTHE (s2 g) 2 25 4294967288 4 in
  let c := TAUSWORTHE (s3 g) 3 11 4294967280 17 in
  let d := LCG (s4 g) 1664525 1013904223 in
  (mkRng a b c d, N.lxor (N.lxor (N.lxor a b) c) d).

Definition Qdiv2 (x : N) (k : positive) : Q := Z.of_N x # k.
Definition two_to_32 : positive := 4294967296.

(** base_rng.h:37-42 *)
Definition rng_get (g : rng) : rng * Q :=
  let '(g', x) := rng_get_int32 g in (g', Qdiv2 x two_to_32).

Definition at_least (m s : N) : N := if s <? m then s + m else s.

(** base_rng.h:44-61 *)
Definition rng_set (s : N) : rng :=
  let a := at_least 2 (LCG s 69069 0) in
  let b := at_least 8 (LCG a 69069 0) in
  let c := at_least 16 (LCG b 69069 0) in
  let d := LCG c 69069 0 in
  let g := mkRng a b c d in
  let w g := fst (rng_get g) in
  w (w (w (w (w (w g))))).

(** A particle. *)
Record part := mkPart { p_id : Z; p_state : Z; p_rng : rng }.

(** particles_rng.h:11-29 with particles.py:1395-1418 *)
Definition initialize_rand_gen (seeds : list N) (ps : list part) : list part :=
  map (fun sp => mkPart (p_id (snd sp)) (p_state (snd sp)) (rng_set (fst sp))) (combine seeds ps).

Definition unset (g : rng) : bool :=
  (s1 g =? 0) && (s2 g =? 0) && (s3 g =? 0) && (s4 g =? 0).

Definition RNG_ERR_SEEDS_NOT_SET : Z := -20.               (* headers/particle_states.h:12 *)

(** random_src/uniform.h:56-77 *)
Definition uniform_uint32 (p : part) : part * N :=
  if unset (p_rng p) then (mkPart (p_id p) RNG_ERR_SEEDS_NOT_SET (p_rng p), 0)
  else let '(g, x) := rng_get_int32 (p_rng p) in (mkPart (p_id p) (p_state p) g, x).

(** random_src/uniform.h:33-54 *)
Definition uniform (p : part) : part * Q :=
  if unset (p_rng p) then (mkPart (p_id p) RNG_ERR_SEEDS_NOT_SET (p_rng p), 0%Q)
  else let '(g, x) := rng_get (p_rng p) in (mkPart (p_id p) (p_state p) g, x).

(** random_src/uniform_accurate.h:21-39, exact arithmetic *)
Definition uniform_accurate (p : part) : part * Q :=
  let t := two_to_32 in
  let '(p, x1) := uniform_uint32 p in
  let '(p, x2) := uniform_uint32 p in
  let '(p, x3) := uniform_uint32 p in
  let '(p, x4) := uniform_uint32 p in
  let '(p, x5) := uniform_uint32 p in
  let '(p, x6) := uniform_uint32 p in
  (p, 0 + Qdiv2 x1 t + Qdiv2 x2 (t * t) + Qdiv2 x3 (t * t * t) + Qdiv2 x4 (t * t * t * t)
      + Qdiv2 x5 (t * t * t * t * t) + Qdiv2 x6 (t * t * t * t * t * t))%Q.

(** The same in IEEE double precision, round to nearest even. *)
Definition fl (z : Z) : spec_float := binary_normalize 53 1024 z 0 false.
Definition fadd := SFadd 53 1024.
Definition fdiv := SFdiv 53 1024.
Definition fmul := SFmul 53 1024.

Definition uniform_accurate_double (p : part) : part * spec_float :=
  let t := fl 4294967296 in
  let '(p, x1) := uniform_uint32 p in
  let '(p, x2) := uniform_uint32 p in
  let '(p, x3) := uniform_uint32 p in
  let '(p, x4) := uniform_uint32 p in
  let '(p, x5) := uniform_uint32 p in
  let '(p, x6) := uniform_uint32 p in
  let f x := fl (Z.of_N x) in
  let t2 := fmul t t in let t3 := fmul t2 t in let t4 := fmul t3 t in
  let t5 := fmul t4 t in let t6 := fmul t5 t in
  (p, fadd (fadd (fadd (fadd (fadd (fadd (fl 0) (fdiv (f x1) t)) (fdiv (f x2) t2))
                             (fdiv (f x3) t3)) (fdiv (f x4) t4)) (fdiv (f x5) t5)) (fdiv (f x6) t6)).

(** random_src/exponential.h:18-25 and random_src/normal.h:18-24: the argument of the
    logarithm.  [None] when the loop has not ended after [fuel] draws. *)
Fixpoint uniform_nonzero (fuel : nat) (p : part) : option (part * Q) :=
  match fuel with
  | O => None
  | S f => let '(p', x) := uniform p in
           if Qeq_bool x 0 then uniform_nonzero f p' else Some (p', x)
  end.

(** random_src/uniform.h:80-93 and the other [_sample] kernels, for the generator [gen]:
    the writes in the [samples] buffer, in order.  The block runs over active particles
    only (headers/track.h). *)
Section Sample.
Context {V : Type} (gen : part -> part * V).

Fixpoint sample_loop (k : nat) (i : Z) (n : Z) (p : part) : part * list (Z * V) :=
  match k with
  | O => (p, [])
  | S k' => let '(p1, v) := gen p in
            let '(p2, ws) := sample_loop k' (i + 1)%Z n p1 in
            (p2, (n * p_id p1 + i, v)%Z :: ws)
  end.

Definition sample (n : nat) (ps : list part) : list (Z * V) :=
  flat_map (fun p => snd (sample_loop n 0 (Z.of_nat n) p)) (filter (fun p => 0 <? p_state p)%Z ps).

(** random_generators.py:39-63: a buffer of zeros receives the writes.  [None]: a write
    outside the buffer. *)
Definition write1 (b : list V) (w : Z * V) : option (list V) :=
  if ((0 <=? fst w) && (fst w <? Z.of_nat (length b)))%Z
  then Some (firstn (Z.to_nat (fst w)) b ++ [snd w] ++ skipn (S (Z.to_nat (fst w))) b)
  else None.
Fixpoint writes (b : list V) (ws : list (Z * V)) : option (list V) :=
  match ws with [] => Some b | w :: r => match write1 b w with Some b' => writes b' r | None => None end end.

Definition generate (zero : V) (n_per_seed : nat) (ps : list part) : option (list V) :=
  writes (repeat zero (length ps * n_per_seed)) (sample n_per_seed ps).

End Sample.
