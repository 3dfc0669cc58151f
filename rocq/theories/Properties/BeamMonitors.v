(** C19, C57. Monitors that accumulate sums over the beam. *)
From Coq Require Import ZArith QArith List Bool Permutation.
From Verif.Model Require Import BeamMonitors.
From Verif.Spec Require Import BeamMonitors.
From Verif.Proofs Require BeamMonitors BeamStats BeamCases.
Import ListNotations.
Local Open Scope Q_scope.

(** * C19. Beam position, size and profile monitors *)

(** A passage is counted in sample [k] exactly when the id is wanted and the arrival time is
    within half a sampling period of it. *)
Theorem C19_samples :
  forall cl c p k, ids_ok c ->
    bpm_idx cl c p = Some k <-> (0 <= k < bp_size c)%Z /\ in_slot cl c k p = true.
Proof. exact BeamMonitors.idx_iff. Qed.
Print Assumptions C19_samples.

(** Every array holds, for each sample, the sum over the passages of the sample. *)
Theorem C19_sums :
  forall cl c f ps k, ids_ok c -> (0 <= k < bp_size c)%Z ->
    exists v, entry (bpm_array cl c f ps) k = Some v /\ v == total f (filter (in_slot cl c k) ps).
Proof. exact BeamMonitors.array_entry. Qed.
Print Assumptions C19_sums.

Theorem C19_mean :
  forall cl c f ps k, ids_ok c -> (0 <= k < bp_size c)%Z -> filter (in_slot cl c k) ps <> [] ->
    exists m, bpm_mean cl c f ps k = Some m
    /\ m == total f (filter (in_slot cl c k) ps) / inject_Z (Z.of_nat (length (filter (in_slot cl c k) ps))).
Proof. exact BeamMonitors.mean_ok. Qed.
Print Assumptions C19_mean.

(** An empty sample has no mean (NaN). *)
Theorem C19_empty_sample :
  forall cl c f ps k, ids_ok c -> (0 <= k < bp_size c)%Z -> filter (in_slot cl c k) ps = [] ->
    bpm_mean cl c f ps k = None.
Proof. exact BeamMonitors.mean_nan. Qed.
Print Assumptions C19_empty_sample.

(** The variance of the size monitor is the mean square distance to the mean. *)
Theorem C19_variance :
  forall cl c f ps k, ids_ok c -> (0 <= k < bp_size c)%Z -> filter (in_slot cl c k) ps <> [] ->
    exists m v, bpm_mean cl c f ps k = Some m /\ bsm_var cl c f ps k = Some v
    /\ v == total (fun p => (f p - m) * (f p - m)) (filter (in_slot cl c k) ps)
            / inject_Z (Z.of_nat (length (filter (in_slot cl c k) ps))).
Proof. exact BeamMonitors.var_ok. Qed.
Print Assumptions C19_variance.

(** The order of the particles does not matter. *)
Theorem C19_any_order :
  forall cl c f ps ps' k, ids_ok c -> (0 <= k < bp_size c)%Z -> Permutation ps ps' ->
    exists v v', entry (bpm_array cl c f ps) k = Some v /\ entry (bpm_array cl c f ps') k = Some v' /\ v == v'.
Proof. exact BeamMonitors.order_ok. Qed.
Print Assumptions C19_any_order.

(** With at least one sample a turn, a particle on the reference is recorded at every turn of
    the window. *)
Theorem C19_reference_recorded :
  forall cl start stop frev fs c p,
    0 < frev -> frev <= fs -> bpm_init None None None start stop frev fs = Some c ->
    b_zeta p == 0 -> (start <= b_turn p < stop)%Z -> exists k, bpm_idx cl c p = Some k.
Proof. exact BeamMonitors.reference_ok. Qed.
Print Assumptions C19_reference_recorded.

(** The profile counts the passages between consecutive edges. *)
Theorem C19_profile :
  forall cl c g f ps k i, ids_ok c -> 0 < pf_d g -> (0 <= k < bp_size c)%Z -> (0 <= i < pf_n g)%Z ->
    exists v, prof_intensity cl c g f ps k i = Some v
    /\ v == inject_Z (Z.of_nat (length (filter (fun p => in_slot cl c k p && in_bin g (f p) i)%bool ps))).
Proof. exact BeamStats.profile_ok. Qed.
Print Assumptions C19_profile.

(** Without [ids_ok]: "all particles from id 5" records nothing. *)
Theorem C19_ids_refuted :
  exists c, bpm_init None (Some 5%Z) None 0 10 1 1 = Some c
  /\ id_wanted (bp_id0 c) (bp_num c) 7 = true
  /\ forall cl p, b_zeta p == 0 -> bpm_idx cl c p = None.
Proof. exact BeamCases.ids_from_5. Qed.
Print Assumptions C19_ids_refuted.

(** With less than one sample a turn, the last turn may be lost. *)
Theorem C19_slow_sampling_refuted :
  exists c, bpm_init None None None 0 2 1 (3 # 5) = Some c /\ bp_size c = 1%Z
  /\ forall cl, ~ cl == 0 -> bpm_idx cl c (BeamCases.at_zeta 0 1 0) = None.
Proof. exact BeamCases.slow_sampling. Qed.
Print Assumptions C19_slow_sampling_refuted.

Definition parts19 : list bpart :=
  map (fun q : Z * Z * Q => let '(i, t, x) := q in mkBP i t 1 1 (fun k => if Nat.eqb k 0 then x else 0))
    [(0, 0, 1%Q); (1, 0, 3%Q); (9, 0, 7%Q); (0, 1, 5%Q); (1, 1, 5%Q); (0, 2, 1%Q)]%Z.

Example C19_case :
  match bpm_init (Some (0, 2)%Z) None None 0 2 1 2 with
  | Some c => ids_ok c /\ bp_size c = 4%Z /\ filter (in_slot 300 c 0) parts19 <> []
              /\ option_map Qred (bpm_mean 300 c b_x parts19 0) = Some 2
              /\ option_map Qred (bsm_var 300 c b_x parts19 0) = Some 1
              /\ option_map Qred (bpm_mean 300 c b_x parts19 2) = Some 5
              /\ bpm_mean 300 c b_x parts19 1 = None
              /\ prof_intensity 300 c (prof_init 4 0 8) b_x parts19 0 1 = Some 1
              /\ 0 < pf_d (prof_init 4 0 8)
  | None => False
  end.
Proof.
  vm_compute. split; [left; split; discriminate|]. split; [reflexivity|]. split; [discriminate|].
  repeat split; reflexivity.
Qed.

(** * C57. BeamStatsMonitor *)

(** The cell of a passage: record, bunch and slice determined by turn and zeta. *)
Theorem C57_cell :
  forall m start stop every sel sp nsl lo hi ids c len p k,
    stats_init m start stop every sel sp nsl lo hi ids = Some c -> (st_mode c = Coasting -> 0 < len) ->
    stats_idx len c p = Some k <->
    exists r b s, inside c r b s /\ belongs len c r b s p = true /\ k = ((r * n_bunch c + b) * n_slice c + s)%Z.
Proof. exact (fun m start stop every sel sp nsl lo hi ids c len p k H => BeamStats.cell_iff len c p k (BeamStats.init_ok _ _ _ _ _ _ _ _ _ _ _ H)). Qed.
Print Assumptions C57_cell.

Theorem C57_one_cell :
  forall m start stop every sel sp nsl lo hi ids c len r b s r' b' s' p,
    stats_init m start stop every sel sp nsl lo hi ids = Some c -> (st_mode c = Coasting -> 0 < len) ->
    inside c r b s -> inside c r' b' s' ->
    belongs len c r b s p = true -> belongs len c r' b' s' p = true -> r = r' /\ b = b' /\ s = s'.
Proof. exact (fun m start stop every sel sp nsl lo hi ids c len r b s r' b' s' p H => BeamStats.belongs_unique len c r b s r' b' s' p (BeamStats.init_ok _ _ _ _ _ _ _ _ _ _ _ H)). Qed.
Print Assumptions C57_one_cell.

(** Moments at the level of the monitor or at a coarser one: weighted sums over the passages. *)
Theorem C57_moment :
  forall m start stop every sel sp nsl lo hi ids c len v ps level r b s,
    stats_init m start stop every sel sp nsl lo hi ids = Some c -> (st_mode c = Coasting -> 0 < len) ->
    level_ok c level -> inside c r b s ->
    exists q, stats_get_moment len c v ps level r b s = Some q
    /\ q == total (fun p => b_weight p * v p) (filter (of_level len c level r b s) ps).
Proof. exact (fun m start stop every sel sp nsl lo hi ids c len v ps level r b s H => BeamStats.get_moment_ok len c v ps level r b s (BeamStats.init_ok _ _ _ _ _ _ _ _ _ _ _ H)). Qed.
Print Assumptions C57_moment.

Theorem C57_mean :
  forall m start stop every sel sp nsl lo hi ids c len i ps level r b s,
    stats_init m start stop every sel sp nsl lo hi ids = Some c -> (st_mode c = Coasting -> 0 < len) ->
    level_ok c level -> inside c r b s ->
    0 < total b_weight (filter (of_level len c level r b s) ps) ->
    exists mu, stats_mean len c i ps level r b s = Some mu
    /\ mu == total (fun p => b_weight p * stats_coord len c p i) (filter (of_level len c level r b s) ps)
             / total b_weight (filter (of_level len c level r b s) ps).
Proof. exact (fun m start stop every sel sp nsl lo hi ids c len i ps level r b s H => BeamStats.stats_mean_ok len c i ps level r b s (BeamStats.init_ok _ _ _ _ _ _ _ _ _ _ _ H)). Qed.
Print Assumptions C57_mean.

Theorem C57_covariance :
  forall m start stop every sel sp nsl lo hi ids c len i j ps level r b s,
    stats_init m start stop every sel sp nsl lo hi ids = Some c -> (st_mode c = Coasting -> 0 < len) ->
    level_ok c level -> inside c r b s ->
    0 < total b_weight (filter (of_level len c level r b s) ps) ->
    exists mi mj v, stats_mean len c i ps level r b s = Some mi /\ stats_mean len c j ps level r b s = Some mj
    /\ stats_cov len c i j ps level r b s = Some v
    /\ v == total (fun p => b_weight p * ((stats_coord len c p i - mi) * (stats_coord len c p j - mj)))
              (filter (of_level len c level r b s) ps)
            / total b_weight (filter (of_level len c level r b s) ps).
Proof. exact (fun m start stop every sel sp nsl lo hi ids c len i j ps level r b s H => BeamStats.stats_cov_ok len c i j ps level r b s (BeamStats.init_ok _ _ _ _ _ _ _ _ _ _ _ H)). Qed.
Print Assumptions C57_covariance.

Theorem C57_any_order :
  forall m start stop every sel sp nsl lo hi ids c len v ps ps' level r b s,
    stats_init m start stop every sel sp nsl lo hi ids = Some c -> (st_mode c = Coasting -> 0 < len) ->
    level_ok c level -> inside c r b s -> Permutation ps ps' ->
    exists q q', stats_get_moment len c v ps level r b s = Some q
    /\ stats_get_moment len c v ps' level r b s = Some q' /\ q == q'.
Proof. exact (fun m start stop every sel sp nsl lo hi ids c len v ps ps' level r b s H => BeamStats.moments_order len c v ps ps' level r b s (BeamStats.init_ok _ _ _ _ _ _ _ _ _ _ _ H)). Qed.
Print Assumptions C57_any_order.

(** [slice_index] names the slice in which tracking accumulates the particle. *)
Theorem C57_slice_index :
  forall m start stop every sel sp nsl lo hi ids c len p r b s,
    stats_init m start stop every sel sp nsl lo hi ids = Some c -> st_mode c = Slice ->
    inside c r b s -> belongs len c r b s p = true ->
    slice_index c (b_zeta p) (Some (nth (Z.to_nat b) (st_sel c) 0%Z)) len = Some s.
Proof. exact (fun m start stop every sel sp nsl lo hi ids c len p r b s H => BeamStats.slice_index_kernel len c p r b s (BeamStats.init_ok _ _ _ _ _ _ _ _ _ _ _ H)). Qed.
Print Assumptions C57_slice_index.

(** Conversely if the slices do not reach into the next bucket. *)
Theorem C57_slice_index_recorded :
  forall m start stop every sel sp nsl lo hi ids c len p r b s,
    stats_init m start stop every sel sp nsl lo hi ids = Some c -> st_mode c = Slice ->
    (0 <= r < st_nrec c)%Z -> (0 <= b < n_bunch c)%Z ->
    stats_id c (b_id p) = true -> b_turn p = rec_turn c r ->
    st_sp c == 0 \/ inject_Z (st_nsl c) * st_dz c <= st_sp c ->
    slice_index c (b_zeta p) (Some (nth (Z.to_nat b) (st_sel c) 0%Z)) len = Some s ->
    inside c r b s /\ belongs len c r b s p = true.
Proof. exact (fun m start stop every sel sp nsl lo hi ids c len p r b s H => BeamStats.slice_index_accepted len c p r b s (BeamStats.init_ok _ _ _ _ _ _ _ _ _ _ _ H)). Qed.
Print Assumptions C57_slice_index_recorded.

(** Coasting beams: every passage has a slice, the one of [slice_index], at any turn. *)
Theorem C57_coasting :
  forall m start stop every sel sp nsl lo hi ids c len p,
    stats_init m start stop every sel sp nsl lo hi ids = Some c -> st_mode c = Coasting -> 0 < len ->
    exists s, (0 <= s < st_nsl c)%Z /\ slice_index c (b_zeta p) None len = Some s
    /\ exists turn z, stats_where len c p = Some (turn, z, s).
Proof. exact (fun m start stop every sel sp nsl lo hi ids c len p H => BeamStats.slice_index_coasting len c p (BeamStats.init_ok _ _ _ _ _ _ _ _ _ _ _ H)). Qed.
Print Assumptions C57_coasting.

(** The recorded zeta of a coasting beam is moved by whole turns to within half a length. *)
Theorem C57_folded_zeta :
  forall len c p turn z s,
    st_mode c = Coasting -> 0 < len -> stats_where len c p = Some (turn, z, s) ->
    z == b_zeta p - inject_Z (b_turn p - turn) * len /\ - len * (1 # 2) < z /\ z <= len * (1 # 2).
Proof. exact BeamStats.folded_zeta. Qed.
Print Assumptions C57_folded_zeta.

(** Slices wider than the spacing: [slice_index] gives a slice of slot 1 for a particle that
    is accumulated in slot 0, and a slice of slot 0 for one that is not accumulated at all. *)
Theorem C57_wide_range_refuted :
  exists c, stats_init Slice 0 1 1 [0; 1]%Z (Some 4) 8 (-4) 4 None = Some c
  /\ slice_index c 1 (Some 1%Z) 100 = None /\ slice_index c 1 (Some 0%Z) 100 = Some 5%Z
  /\ stats_idx 100 c (BeamCases.at_zeta 0 0 1) = None
  /\ slice_index c (-1) (Some 0%Z) 100 = Some 3%Z
  /\ stats_idx 100 c (BeamCases.at_zeta 0 0 (-1)) = Some 3%Z
  /\ slice_index c (-1) (Some 1%Z) 100 = Some 7%Z.
Proof. exact BeamCases.wide_range. Qed.
Print Assumptions C57_wide_range_refuted.

Definition parts57 : list bpart :=
  map (fun q : Z * Z * Q * Q * Q => let '(i, t, w, x, z) := q in
        mkBP i t 1 w (fun k => if Nat.eqb k 0 then x else if Nat.eqb k 4 then z else 0))
    [(0, 2, 1%Q, 1%Q, 0%Q); (1, 2, 3%Q, 5%Q, (1 # 2)%Q); (2, 2, 1%Q, 7%Q, (-10)%Q); (3, 2, 2%Q, 4%Q, (-11 # 2)%Q);
     (4, 3, 1%Q, 9%Q, 0%Q)]%Z.

Example C57_case :
  match stats_init Slice 0 10 2 [0; 2]%Z (Some 5) 2 (-1) 1 None with
  | Some c => st_nrec c = 5%Z /\ level_ok c Bunch /\ inside c 1 0 1
              /\ belongs 100 c 1 0 1 (nth 1 parts57 (BeamCases.at_zeta 0 0 0)) = true
              /\ option_map Qred (stats_mean 100 c 0 parts57 Bunch 1 0 0) = Some 4
              /\ option_map Qred (stats_cov 100 c 0 0 parts57 Bunch 1 0 0) = Some 3
              /\ option_map Qred (stats_mean 100 c 0 parts57 Slice 1 1 1) = Some 7
              /\ option_map Qred (stats_get_moment 100 c (fun _ => 1) parts57 Beam 1 0 0) = Some 5
              /\ slice_index c (-10) (Some 2%Z) 100 = Some 1%Z
  | None => False
  end.
Proof. vm_compute. repeat split; discriminate. Qed.

Example C57_coasting_case :
  match stats_init Coasting 0 10 1 [] None 4 0 0 None with
  | Some c => st_mode c = Coasting
              /\ stats_idx 100 c (BeamCases.at_zeta 0 3 60) = Some 11%Z
              /\ stats_idx 100 c (BeamCases.at_zeta 0 2 (-40)) = Some 11%Z
              /\ slice_index c 60 None 100 = Some 3%Z
  | None => False
  end.
Proof. vm_compute. repeat split. Qed.
