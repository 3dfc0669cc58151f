(** C18 and C55. Random numbers. *)
From Coq Require Import NArith ZArith QArith List Bool.
From Coq Require Import Floats.SpecFloat.
From Verif.Model Require Import Rng.
From Verif.Spec Require Import Rng.
From Verif.Proofs Require Rng RngSample RngCases.
Import ListNotations.
Local Open Scope N_scope.

(** * C18. States and range. *)

(** Seeding gives a non-degenerate state, for any seed. *)
Theorem C18_seed : forall s, good (rng_set s).
Proof. exact Rng.set_good. Qed.
Print Assumptions C18_seed.

(** A draw keeps the state non-degenerate. *)
Theorem C18_step : forall g, good g -> good (fst (rng_get g)).
Proof. exact (fun g H => eq_ind_r good (Rng.get_good g H) (Rng.get_fst g)). Qed.
Print Assumptions C18_step.

(** After any seeding and any number of draws the state is non-degenerate, the particle has
    not been killed by the generator and the number drawn is in [0, 1). *)
Theorem C18_uniform :
  forall n p s, let q := mkPart (p_id p) (p_state p) (rng_set s) in
    good (p_rng (after uniform n q)) /\ p_state (after uniform n q) = p_state p
    /\ (0 <= draw uniform n q < 1)%Q.
Proof. exact Rng.uniform_draws. Qed.
Print Assumptions C18_uniform.

Theorem C18_accurate :
  forall n p s, let q := mkPart (p_id p) (p_state p) (rng_set s) in
    good (p_rng (after uniform_accurate n q)) /\ p_state (after uniform_accurate n q) = p_state p
    /\ (0 <= draw uniform_accurate n q < 1)%Q.
Proof. exact Rng.accurate_draws. Qed.
Print Assumptions C18_accurate.

(** The argument of the logarithm in the exponential and normal generators is in (0, 1):
    no infinity. *)
Theorem C18_log_argument :
  forall fuel p q x, good (p_rng p) -> uniform_nonzero fuel p = Some (q, x) ->
    good (p_rng q) /\ p_state q = p_state p /\ (0 < x < 1)%Q.
Proof. exact Rng.nonzero_ok. Qed.
Print Assumptions C18_log_argument.

(** Two particles with different ordinary seeds are never in the same state after the same
    number of draws. *)
Theorem C18_distinct_seeds :
  forall s t n id st, ordinary s -> ordinary t -> s <> t ->
    p_rng (after uniform n (mkPart id st (rng_set s)))
    <> p_rng (after uniform n (mkPart id st (rng_set t))).
Proof. exact Rng.distinct_seeds. Qed.
Print Assumptions C18_distinct_seeds.

(** Seeds whose words are replaced by [rng_set] can collide. *)
Theorem C18_distinct_seeds_refuted :
  exists s t, s <> t /\ s < 2 ^ 32 /\ t < 2 ^ 32 /\ rng_set s = rng_set t.
Proof. exact RngCases.colliding_seeds. Qed.
Print Assumptions C18_distinct_seeds_refuted.

(** In double precision RandomUniformAccurate can return exactly 1. *)
Theorem C18_accurate_rounding_refuted :
  exists p, good (p_rng p) /\ snd (uniform_accurate_double p) = fl 1.
Proof. exact RngCases.accurate_one. Qed.
Print Assumptions C18_accurate_rounding_refuted.

(** On a particle whose generator has not been seeded the exponential and normal generators
    never return (the particle is killed again and again inside the loop). *)
Theorem C18_unseeded_loop_refuted :
  forall fuel p, p_rng p = mkRng 0 0 0 0 -> uniform_nonzero fuel p = None.
Proof. exact Rng.nonzero_unset. Qed.
Print Assumptions C18_unseeded_loop_refuted.

Example C18_case : ordinary 12345 /\ ordinary 67890 /\
  draw uniform 2 (mkPart 0 1 (rng_set 12345)) = (1549960137 # 4294967296)%Q.
Proof. split; [repeat split; vm_compute; congruence|]. split; [repeat split; vm_compute; congruence|]. vm_compute. reflexivity. Qed.

(** * C55. Batches of samples. *)

(** Each row of the result is the stream of the particle whose id is the row number,
    whatever the order of the particles in the container. *)
Theorem C55_rows :
  forall n (ps : list part),
    (forall p, In p ps -> (0 < p_state p)%Z) ->
    NoDup (map p_id ps) -> (forall p, In p ps -> (0 <= p_id p < Z.of_nat (length ps))%Z) ->
    exists b, generate uniform 0%Q n ps = Some b /\ length b = (length ps * n)%nat
    /\ forall p j, In p ps -> (j < n)%nat ->
       nth_error b (Z.to_nat (p_id p) * n + j) = Some (draw uniform j p).
Proof. exact (RngSample.generate_ok uniform RngCases.uniform_id 0%Q). Qed.
Print Assumptions C55_rows.

(** Particle ids which are not 0, 1, ... n-1: writes outside the buffer. *)
Theorem C55_ids_refuted :
  exists (ps : list part) n, NoDup (map p_id ps) /\ Forall (fun p => (0 < p_state p)%Z) ps
  /\ Forall (fun p => good (p_rng p)) ps /\ generate uniform 0%Q n ps = None.
Proof. exact RngCases.out_of_buffer. Qed.
Print Assumptions C55_ids_refuted.

Example C55_case :
  exists a b c d, generate uniform 0%Q 2 [mkPart 1 1 (rng_set 7); mkPart 0 1 (rng_set 8)] = Some [a; b; c; d]
  /\ c = draw uniform 0 (mkPart 1 1 (rng_set 7)) /\ c <> a.
Proof. do 4 eexists. split; [vm_compute; reflexivity|]. split; [vm_compute; reflexivity|]. vm_compute. congruence. Qed.
