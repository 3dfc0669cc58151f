(** C08-C11: the Particles container. *)
From Coq Require Import ZArith List Bool Permutation QArith Sorted.
From Verif.Model Require Import Container.
From Verif.Spec Require Import Container.
From Verif.Proofs Require Container ContainerSteps ContainerCases.
Import ListNotations.
Local Open Scope Z_scope.

(** * C08 reorganize. After any history starting from a new object, the alive
    particles come first, then the lost ones, then free slots, in their previous relative order,
    and the counters are right. *)
Theorem C08_reorganize :
  forall C G (blank_c : C) (argsort : list Q -> list nat) (p p' : @parts C G),
  fresh p -> steps blank_c argsort p p' ->
  well_grouped (reorganize blank_c p')
  /\ exists a d f, rows (reorganize blank_c p') = a ++ d ++ f
     /\ map content a = map content (filter is_active (rows p'))
     /\ map content d = map content (filter is_lost (rows p'))
     /\ Forall free f
     /\ length (rows (reorganize blank_c p')) = length (rows p').
Proof. exact @ContainerSteps.reorganize_reachable. Qed.
Print Assumptions C08_reorganize.

(** The arrays for which it works: free slots at the end, or some alive particle after
    a slot which is not alive. *)
Theorem C08_exact :
  forall C G (blank_c : C) (l : list (row C G)),
  grouped (fst (fst (reorganize_rows blank_c l))) <-> (compact l \/ ~ alive_first l).
Proof. exact @Container.reorganize_exact. Qed.
Print Assumptions C08_exact.

(** Merging can make an object that reorganize does not group. *)
Theorem C08_merge_refuted :
  exists (p1 p2 p : @parts Z unit),
    well_grouped p1 /\ well_grouped p2 /\ merge 0 [p1; p2] = Some p
    /\ ~ grouped (rows (reorganize 0 p)).
Proof. exact ContainerCases.merge_not_grouped. Qed.
Print Assumptions C08_merge_refuted.

(** The random generator states stay in their slot and do not follow the particle. *)
Theorem C08_rng_refuted :
  exists (l : list (row Z Z)),
    compact l /\ map (fun r => (r_id r, r_rng r)) (filter is_active (fst (fst (reorganize_rows 0 l))))
                 <> map (fun r => (r_id r, r_rng r)) (filter is_active l).
Proof. exact ContainerCases.reorganize_rng. Qed.
Print Assumptions C08_rng_refuted.

Example C08_case :
  let k i s := mkRow i i s (i * 10) (100 + i) in
  let u n := mkRow LAST_INVALID LAST_INVALID LAST_INVALID 0 n in
  reorganize_rows 0 [k 0 1; k 1 (-2); k 2 1; k 3 0; k 4 3; u 7]
  = ([mkRow 0 0 1 0 100; mkRow 2 2 1 20 101; mkRow 4 4 3 40 102; mkRow 1 1 (-2) 10 103; mkRow 3 3 0 30 104; u 7], 3, 2).
Proof. reflexivity. Qed.

(** * C09 add_particles. After any history: existing particles are unchanged, each
    alive particle of the other object is added once with a new identifier, larger than all existing
    ones, or an error is raised. *)
Theorem C09_add_particles :
  forall C G (blank_c : C) (p other p' : @parts C G),
  compact (rows p) -> hidden p = false ->
  add_particles blank_c p other = Some p' ->
  exists a n d f,
    rows p' = a ++ n ++ d ++ f
    /\ map content a = map content (filter is_active (rows p))
    /\ map content d = map content (filter is_lost (rows p))
    /\ map r_c n = map r_c (filter is_active (visible other))
    /\ map r_state n = map r_state (filter is_active (visible other))
    /\ map r_parent n = map r_parent (filter is_active (visible other))
    /\ (forall i r, In i (map r_id n) -> In r (a ++ d) -> r_id r < i)
    /\ NoDup (map r_id n)
    /\ Forall free f /\ length (rows p') = length (rows p)
    /\ hidden p' = false
    /\ nact p' = Z.of_nat (length (a ++ n)) /\ nlost p' = Z.of_nat (length d).
Proof. exact @Container.add_ok. Qed.
Print Assumptions C09_add_particles.

(** The hypothesis [compact] holds after any history that starts from a new object. *)
Theorem C09_compact_reachable :
  forall C G (blank_c : C) (argsort : list Q -> list nat) (p p' : @parts C G),
  steps blank_c argsort p p' -> compact (rows p) -> compact (rows p').
Proof. exact @ContainerSteps.steps_compact. Qed.
Print Assumptions C09_compact_reachable.

(** After a merge, adding can overwrite a lost particle. *)
Theorem C09_after_merge_refuted :
  exists (p1 p2 p other p' : @parts Z unit),
    well_grouped p1 /\ well_grouped p2 /\ merge 0 [p1; p2] = Some p
    /\ add_particles 0 p other = Some p'
    /\ In 5 (map r_c (rows p)) /\ ~ In 5 (map r_c (rows p')).
Proof. exact ContainerCases.add_after_merge. Qed.
Print Assumptions C09_after_merge_refuted.

(** With lost particles hidden, a single particle is silently not added. *)
Theorem C09_hidden_refuted :
  exists (p other p' : @parts Z unit),
    well_grouped p /\ hidden p = true /\ length (filter is_active (visible other)) = 1%nat
    /\ add_particles 0 p other = Some p' /\ rows p' = rows p.
Proof. exact ContainerCases.add_hidden. Qed.
Print Assumptions C09_hidden_refuted.

Example C09_case :
  let k i s := mkRow i i s (i * 10) tt in
  let u := mkRow LAST_INVALID LAST_INVALID LAST_INVALID 0 tt in
  option_map (fun p => (map (fun r => (r_id r, r_c r)) (rows p), nact p, nlost p))
    (add_particles 0 (mkParts [k 0 1; k 1 0; k 2 1; u; u; u] false 3 0)
                     (mkParts [k 4 0; k 5 1; k 6 1] false 2 1))
  = Some ([(0, 0); (2, 20); (3, 50); (4, 60); (1, 10); (LAST_INVALID, 0)], 4, 1).
Proof. reflexivity. Qed.

(** * C10 merge. Slots with a negative identifier are free; in each set the identifiers of the
    others are distinct. Everything is kept in order and the identifiers are distinct. *)
Theorem C10_merge_ids :
  forall C G (lst : list (list (row C G))) mc l,
  -1 <= mc ->
  Forall (fun pp => NoDup (filter (fun i => 0 <=? i) (map r_id pp))) lst ->
  merge_rows mc lst = Some l ->
  NoDup (filter (fun i => 0 <=? i) (map r_id l))
  /\ (forall i, In i (map r_id l) -> 0 <= i -> mc < i)
  /\ map r_state l = map r_state (concat lst) /\ map r_c l = map r_c (concat lst)
  /\ map r_rng l = map r_rng (concat lst)
  /\ map (fun r => 0 <=? r_id r) l = map (fun r => 0 <=? r_id r) (concat lst).
Proof. exact @Container.merge_rows_ok. Qed.
Print Assumptions C10_merge_ids.

(** Identifiers that increase from one set to the next are kept. *)
Theorem C10_merge_unchanged :
  forall C G (lst : list (list (row C G))) mc,
  increasing mc lst -> merge_rows mc lst = Some (concat lst).
Proof. exact @Container.merge_rows_same. Qed.
Print Assumptions C10_merge_unchanged.

(** Other distinct identifiers are changed. *)
Theorem C10_merge_unchanged_refuted :
  exists (l1 l2 l : list (row Z unit)),
    NoDup (map r_id (l1 ++ l2)) /\ merge_rows (-1) [l1; l2] = Some l /\ map r_id l <> map r_id (l1 ++ l2).
Proof. exact ContainerCases.merge_changes. Qed.
Print Assumptions C10_merge_unchanged_refuted.

Example C10_case :
  let k i := mkRow i i 1 (i * 10) tt in
  let u := mkRow LAST_INVALID LAST_INVALID LAST_INVALID 0 tt in
  option_map (map r_id) (merge_rows (-1) [[k 0; k 3; u]; [k 4; k 6]; [k 1; k 2]])
  = Some [0; 3; LAST_INVALID; 4; 6; 8; 9].
Proof. reflexivity. Qed.

(** * C11 filter and sort. *)
Theorem C11_filter :
  forall C G (blank_c : C) mask (p p' : @parts C G),
  compact (rows p) -> pfilter blank_c mask p = Some p' ->
  exists a d f, rows p' = a ++ d ++ f
  /\ map content a = map content (filter is_active (select mask (visible p)))
  /\ map content d = map content (filter is_lost (select mask (visible p)))
  /\ Forall free f
  /\ hidden p' = false /\ nact p' = Z.of_nat (length a) /\ nlost p' = Z.of_nat (length d)
  /\ length (rows p') = length (select mask (visible p)).
Proof. exact @Container.filter_ok. Qed.
Print Assumptions C11_filter.

Theorem C11_sort_by_id :
  forall C G (blank_c : C) (argsort : list Q -> list nat),
  (forall k, Permutation (argsort k) (seq 0 (length k))) ->
  (forall k, Sorted Qle (map (fun i => nth i k 0%Q) (argsort k))) ->
  forall p p' : @parts C G,
  compact (rows p) ->
  (forall r, In r (rows p) -> dead r -> -10 < r_id r) ->
  sort blank_c argsort (fun r => inject_Z (r_id r)) false p = Some p' ->
  exists a d f, rows p' = a ++ d ++ f
  /\ Permutation (map content a) (map content (filter is_active (rows p)))
  /\ Permutation (map content d) (map content (filter is_lost (rows p)))
  /\ Sorted Z.le (map r_id a) /\ Sorted Z.le (map r_id d)
  /\ Forall free f /\ hidden p' = hidden p
  /\ nact p' = Z.of_nat (length a) /\ nlost p' = Z.of_nat (length d).
Proof. exact @Container.sort_ok. Qed.
Print Assumptions C11_sort_by_id.

(** An argsort as required exists. *)
Theorem C11_argsort_exists :
  (forall k, Permutation (ContainerSteps.argsort_ins k) (seq 0 (length k)))
  /\ (forall k, Sorted Qle (map (fun i => nth i k 0%Q) (ContainerSteps.argsort_ins k))).
Proof. exact (conj ContainerSteps.argsort_ins_perm ContainerSteps.argsort_ins_sorted). Qed.
Print Assumptions C11_argsort_exists.

(** Sorting by another variable mixes lost and alive particles. *)
Theorem C11_sort_other_key_refuted :
  exists (p p' : @parts Z unit),
    well_grouped p
    /\ sort 0 ContainerSteps.argsort_ins (fun r => inject_Z (r_c r)) false p = Some p'
    /\ nact p' = 2 /\ ~ Forall alive (firstn 2 (rows p')).
Proof. exact ContainerCases.sort_other. Qed.
Print Assumptions C11_sort_other_key_refuted.

Example C11_case :
  let k i s := mkRow i i s (i * 10) tt in
  let u := mkRow LAST_INVALID LAST_INVALID LAST_INVALID 0 tt in
  option_map (fun p => map r_id (rows p))
    (sort 0 ContainerSteps.argsort_ins (fun r => inject_Z (r_id r)) false
       (mkParts [k 8 1; k 5 0; k 2 1; k 1 0; u] false 0 0))
  = Some [2; 8; 1; 5; LAST_INVALID]
  /\ option_map (fun p => map r_id (rows p))
       (pfilter 0 [true; true; false; true; false] (mkParts [k 8 0; k 5 1; k 2 1; k 1 0; u] false 0 0))
  = Some [5; 8; 1].
Proof. split; reflexivity. Qed.
