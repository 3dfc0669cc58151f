{
 "claims": [
  {
   "property": "C01",
   "status": "proved",
   "theorems": [
    "C01_track_window",
    "C01_track_num_elements",
    "C01_track_elements",
    "C01_stop_at_end_refuted"
   ],
   "note": "Element sequence for every window; full event sequence (monitors, end-of-turn) except an explicit ele_stop=len(line) over several turns, for which the final end-of-turn actions are missing (C01_stop_at_end_refuted)."
  },
  {
   "property": "C02",
   "status": "proved",
   "theorems": [
    "C02_collective_window",
    "C02_collective_num_elements",
    "C02_same_as_non_collective",
    "C02_same_elements",
    "C02_monitor_refuted",
    "C02_zero_elements_refuted"
   ],
   "note": "Elements, counters and end-of-turn actions; monitors differ (C02_monitor_refuted), num_elements=0 differs (C02_zero_elements_refuted)."
  },
  {
   "property": "C03",
   "status": "proved",
   "theorems": [
    "C03_progress_same",
    "C03_stop_zero_refuted",
    "C03_start_tracking_at_element_refuted"
   ],
   "note": "Refuted for ele_stop=0 and for start_tracking_at_element with several batches."
  },
  {
   "property": "C04",
   "status": "proved",
   "theorems": [
    "C04_counters",
    "C04_position"
   ],
   "note": ""
  },
  {
   "property": "C05",
   "status": "proved",
   "theorems": [
    "C05_hold_resume",
    "C05_hold_resume_count",
    "C05_hold_resume_any_monitor",
    "C05_multi_element_monitor_refuted",
    "C05_time_dependent_refuted"
   ],
   "note": "For element-by-element monitors and multi element monitors the records at resume differ (refutation theorem); time dependent variables cannot be resumed."
  },
  {
   "property": "C06",
   "status": "proved",
   "theorems": [
    "C06_reverse_window",
    "C06_reverse_num_elements",
    "C06_reverse_turns",
    "C06_backtrack_window",
    "C06_backtrack_num_elements",
    "C06_backtrack_turns",
    "C06_several_turns_refuted"
   ],
   "note": "Windows inside one turn, and any number of full turns."
  },
  {
   "property": "C07",
   "status": "proved",
   "theorems": [
    "C07_check_is_active_serial",
    "C07_check_is_active_openmp"
   ],
   "note": ""
  },
  {
   "property": "C08",
   "status": "proved",
   "theorems": [
    "C08_reorganize",
    "C08_exact",
    "C08_merge_refuted",
    "C08_rng_refuted"
   ],
   "note": "Objects reached through add_particles, tracking, reorganize; fails after merge (refuted), and seeds may be overwritten (refuted)."
  },
  {
   "property": "C09",
   "status": "proved",
   "theorems": [
    "C09_add_particles",
    "C09_compact_reachable",
    "C09_after_merge_refuted",
    "C09_hidden_refuted"
   ],
   "note": "Fails on the object returned by merge and with hidden lost particles (refuted)."
  },
  {
   "property": "C10",
   "status": "proved",
   "theorems": [
    "C10_merge_ids",
    "C10_merge_unchanged",
    "C10_merge_unchanged_refuted"
   ],
   "note": ""
  },
  {
   "property": "C11",
   "status": "proved",
   "theorems": [
    "C11_filter",
    "C11_sort_by_id",
    "C11_argsort_exists",
    "C11_sort_other_key_refuted"
   ],
   "note": "Sort by particle_id; other keys refuted."
  },
  {
   "property": "C12",
   "status": "proved",
   "theorems": [
    "C12_consistent",
    "C12_no_error",
    "C12_unique",
    "C12_p0c_setter_refuted"
   ],
   "note": "Over the real numbers; physical momenta; refuted for the direct assignment of p0c."
  },
  {
   "property": "C13",
   "status": "proved",
   "theorems": [
    "C13_update_p0c",
    "C13_python_update_p0c",
    "C13_increase_backtrack",
    "C13_add_to_energy",
    "C13_increments",
    "C13_frozen_add",
    "C13_frozen_p0c_refuted"
   ],
   "note": "Over the real numbers, no frozen variables; refuted for frozen energy."
  },
  {
   "property": "C14",
   "status": "proved",
   "theorems": [
    "C14_set_delta",
    "C14_set_ptau",
    "C14_update_pzeta",
    "C14_set_reference",
    "C14_constructor",
    "C14_several_references",
    "C14_several_deviations",
    "C14_kinetic_energy_refuted",
    "C14_mass_ratio_refuted",
    "C14_rigidity_refuted"
   ],
   "note": "Over the real numbers, one particle; three refutations for arguments that the constructor does not check."
  },
  {
   "property": "C15",
   "status": "proved",
   "theorems": [
    "C15_constructor",
    "C15_bounds",
    "C15_distinct",
    "C15_read",
    "C15_turn_by_turn",
    "C15_element_by_element",
    "C15_cpu_break_refuted",
    "C15_backtrack_refuted",
    "C15_continued_tracking_refuted"
   ],
   "note": "Windows start<stop, repetition period > 0. Columns at or beyond the repetition period stay empty. With repetitions on CPU a particle before the window hides the following ones (C15_cpu_break_refuted); no turn-by-turn record when backtracking (C15_backtrack_refuted); monitors made by the tracker assume that turns start from zero (C15_continued_tracking_refuted)."
  },
  {
   "property": "C16",
   "status": "proved",
   "theorems": [
    "C16_last_turns"
   ],
   "note": "For a particle seen at consecutive turns starting from a non-negative one, turns below 2^32."
  },
  {
   "property": "C17",
   "status": "proved",
   "theorems": [
    "C17_slots",
    "C17_at_rest",
    "C17_wait_free",
    "C17_wrap_refuted"
   ],
   "note": "Capacity plus number of threads below 2^32 (C17_wrap_refuted otherwise); sequentially consistent interleavings."
  },
  {
   "property": "C18",
   "status": "proved",
   "theorems": [
    "C18_seed",
    "C18_step",
    "C18_uniform",
    "C18_accurate",
    "C18_log_argument",
    "C18_distinct_seeds",
    "C18_distinct_seeds_refuted",
    "C18_accurate_rounding_refuted",
    "C18_unseeded_loop_refuted"
   ],
   "note": "Exact arithmetic for the conversion to [0,1); in double precision RandomUniformAccurate can return 1 (C18_accurate_rounding_refuted); unseeded generators make the rejection loop endless (C18_unseeded_loop_refuted); 26 exceptional seeds may collide (C18_distinct_seeds_refuted)."
  },
  {
   "property": "C19",
   "status": "proved",
   "theorems": [
    "C19_samples",
    "C19_sums",
    "C19_mean",
    "C19_empty_sample",
    "C19_variance",
    "C19_any_order",
    "C19_reference_recorded",
    "C19_profile",
    "C19_ids_refuted",
    "C19_slow_sampling_refuted"
   ],
   "note": "Exact arithmetic. Id selection as documented except a start id with the default number of particles (C19_ids_refuted); with less than one sample per turn passages may fall outside the window (C19_slow_sampling_refuted). Also covers the profile monitor."
  },
  {
   "property": "C20",
   "status": "proved",
   "theorems": [
    "C20_placement_equations",
    "C20_nested_lines"
   ],
   "note": "Placement equations for all reference graphs, and the placement of nested lines (one level of nesting; deeper lines are flattened first by the environment)."
  },
  {
   "property": "C21",
   "status": "proved",
   "theorems": [
    "C21_terminates",
    "C21_fails_exactly",
    "C21_malformed_rejected",
    "C21_unique_solution",
    "C21_order_independent",
    "C21_failure_order_independent",
    "C21_duplicate_names_refuted"
   ],
   "note": "Termination, exact failure condition, uniqueness and independence of the input order with unique names. With repeated names the result depends on the order (C21_duplicate_names_refuted)."
  },
  {
   "property": "C22",
   "status": "proved",
   "theorems": [
    "C22_permutation",
    "C22_sorted",
    "C22_explicit_requests",
    "C22_other_ties",
    "C22_fails_exactly_on_circular_requests",
    "C22_chains_of_close_elements_refuted"
   ],
   "note": "Permutation always; sortedness, explicit requests, other ties and the exact failure condition when closeness is transitive. Otherwise chains of close elements may be reordered (C22_chains_of_close_elements_refuted)."
  },
  {
   "property": "C23",
   "status": "proved",
   "theorems": [
    "C23_generated_line",
    "C23_exact_positions",
    "C23_overlaps_rejected",
    "C23_validation_agrees",
    "C23_built_line",
    "C23_sequence_of_names",
    "C23_single_tolerance_refuted"
   ],
   "note": "Positions within (k+1) tolerances (exact when gaps are zero or larger than the tolerance); the error of a single tolerance is refuted (C23_single_tolerance_refuted)."
  },
  {
   "property": "C24",
   "status": "proved",
   "theorems": [
    "C24_cut",
    "C24_defined",
    "C24_thin_line_refuted",
    "C24_beyond_end_refuted"
   ],
   "note": "Line.cut_at_s: same length, all old boundaries kept, each requested position is a boundary or within the tolerance of an old one, no other boundary, elements without a cut inside unchanged, all elements of the environment kept. Refuted: KeyError for a line with only thin elements or a position after the end."
  },
  {
   "property": "C25",
   "status": "proved",
   "theorems": [
    "C25_insert",
    "C25_positions",
    "C25_absolute_positions",
    "C25_relative_positions",
    "C25_succeeds",
    "C25_at_tolerance_refuted",
    "C25_after_end_refuted"
   ],
   "note": "Insertion is modelled with the composer (C20-C22), cutting (C24) and gap filling (C23). Ends of elements and insertions are equal or more than 2 s_tol apart. The two corner cases (start exactly s_tol before the end of a magnet; thick insertion at the end of the line) are refuted."
  },
  {
   "property": "C26",
   "status": "proved",
   "theorems": [
    "C26_remove",
    "C26_remove_defined",
    "C26_replace",
    "C26_replace_defined",
    "C26_short_element_refuted"
   ],
   "note": "Positions are kept within the length of the selected elements up to s_tol; an element up to the tolerance is dropped without a drift (C26_short_element_refuted)."
  },
  {
   "property": "C27",
   "status": "proved",
   "theorems": [
    "C27_cycle_rotates",
    "C27_cycle_defined",
    "C27_cycle_order",
    "C27_cycle_inverse",
    "C27_cycle_inverse_name",
    "C27_cycle_length",
    "C27_mirror_twice",
    "C27_mirror_length",
    "C27_mirror_spans",
    "C27_times",
    "C27_times_fails",
    "C27_add",
    "C27_add_length",
    "C27_mirror_add",
    "C27_add_assoc",
    "C27_subtract",
    "C27_compose_mirror"
   ],
   "note": "Names; sum and compose-mode mirror through the composer model."
  },
  {
   "property": "C28",
   "status": "proved",
   "theorems": [
    "C28_weights",
    "C28_defined",
    "C28_positive",
    "C28_custom_positions",
    "C28_element",
    "C28_slice_of_slice",
    "C28_line",
    "C28_line_defined",
    "C28_resliced_offset_refuted",
    "C28_marker_name_refuted",
    "C28_no_cut_refuted",
    "C28_unsorted_refuted"
   ],
   "note": "Weights of the three schemes, slices of elements, of slices and of lines (length, integrated weight, order, offset). Refuted: offsets of slices of slices; an existing element named x_entry is overwritten; Custom with no cut in thick mode fails; unsorted cuts give negative weights. Associated apertures are not modelled."
  },
  {
   "property": "C29",
   "status": "proved",
   "theorems": [
    "C29_last_wins",
    "C29_error",
    "C29_rows"
   ],
   "note": "Last strategy that applies wins, with the rule that drifts need a name or type; error exactly if none applies; thin elements are left in place."
  },
  {
   "property": "C30",
   "status": "proved",
   "theorems": [
    "C30_markers",
    "C30_markers_length",
    "C30_zero_drifts",
    "C30_zero_drifts_length",
    "C30_merge",
    "C30_merge_defined",
    "C30_replica_refuted",
    "C30_slices_refuted",
    "C30_inactive_removed",
    "C30_inactive_tracking"
   ],
   "note": "Markers, zero length drifts and merging for any maps satisfying the drift group law (C37 shows it for the exact map); refuted with replicas of merged drifts and with consecutive slices of drifts. Inactive multipoles: thin ones, shifted or tilted as they may be."
  },
  {
   "property": "C31",
   "status": "proved",
   "theorems": [
    "C31_same_losses",
    "C31_used_twice_refuted",
    "C31_concave_refuted"
   ],
   "note": "False when an aperture name occurs twice (the first occurrence is removed) and for polygons which are not convex: C31_used_twice_refuted, C31_concave_refuted."
  },
  {
   "property": "C32",
   "status": "proved",
   "theorems": [
    "C32_repeated",
    "C32_names",
    "C32_strengths",
    "C32_tracking",
    "C32_shift_refuted",
    "C32_name_taken_refuted"
   ],
   "note": "For aligned multipoles and names which are free; refuted with a shifted multipole (the shift is lost) and when the name of the merged multipole is that of another element of the line."
  },
  {
   "property": "C33",
   "status": "proved",
   "theorems": [
    "C33_drifts",
    "C33_drifts_stay",
    "C33_merge_refuted"
   ],
   "note": "All histories of the modelled operations; merging a generated drift that occurs exactly once makes the environment hand out a drift of the wrong length (C33_merge_refuted)."
  },
  {
   "property": "C34",
   "status": "proved",
   "theorems": [
    "C34_unique",
    "C34_defined",
    "C34_drifts_kept_refuted"
   ],
   "note": "Generated drifts stay repeated if asked for (C34_drifts_kept_refuted)."
  },
  {
   "property": "C35",
   "status": "proved",
   "theorems": [
    "C35_filter",
    "C35_defined",
    "C35_drift_refuted",
    "C35_repeated_refuted",
    "C35_replica_refuted"
   ],
   "note": "Refuted for drifts filtered out, mixed masks of a repeated name, and replicas of elements filtered out."
  },
  {
   "property": "C36",
   "status": "proved",
   "theorems": [
    "C36_reported",
    "C36_needs_aperture",
    "C36_inactive",
    "C36_length",
    "C36_printed",
    "C36_before_first",
    "C36_no_aperture_refuted",
    "C36_short_refuted"
   ],
   "note": "Elements upstream of the first aperture are never reported, and thick elements shorter than the tolerance can pass with the upstream aperture only: C36_no_aperture_refuted, C36_short_refuted."
  },
  {
   "property": "C37",
   "status": "proved",
   "theorems": [
    "C37_kinematic",
    "C37_compose",
    "C37_slices",
    "C37_backtrack",
    "C37_slice_backtrack",
    "C37_free_motion",
    "C37_on_axis"
   ],
   "note": "Real arithmetic. drift_exact is also characterised as free motion; kinematic holds for the variables kept by the particles (C37_kinematic)."
  },
  {
   "property": "C38",
   "status": "proved",
   "theorems": [
    "C38_srotation",
    "C38_xrotation",
    "C38_yrotation",
    "C38_rotation",
    "C38_xyshift",
    "C38_translation",
    "C38_zetashift",
    "C38_srotation_frame",
    "C38_xrotation_frame",
    "C38_yrotation_frame",
    "C38_rotation_frame",
    "C38_xyshift_frame",
    "C38_frame_unique",
    "C38_srotation_add",
    "C38_xrotation_add",
    "C38_yrotation_add"
   ],
   "note": "Real arithmetic; the particle moves forward in the turned frame. The formulas in the docstring of SRotation have the opposite sign of the code for py; the code is modelled."
  },
  {
   "property": "C39",
   "status": "proved",
   "theorems": [
    "C39_backtrack",
    "C39_straight",
    "C39_matrix_refuted"
   ],
   "note": "General theorem under the condition that the drifts of the body are meaningful on the way (square roots of positive numbers, particle not turned back); no condition for straight drift-kick and bend-kick models. Radiation, spin and edges are not modelled."
  },
  {
   "property": "C40",
   "status": "proved",
   "theorems": [
    "C40_totals",
    "C40_kicks",
    "C40_drifts",
    "C40_path",
    "C40_strength",
    "C40_nested",
    "C40_weak_refuted",
    "C40_solenoid_refuted",
    "C40_curvature_refuted"
   ],
   "note": "The decimals of drift model 7 (nested fourth order) add up to 1 + 2e-17, which the statement of C40_path makes explicit."
  },
  {
   "property": "C41",
   "status": "proved",
   "theorems": [
    "C41_entry_frame",
    "C41_no_field",
    "C41_entry_backtrack",
    "C41_exit_backtrack",
    "C41_backtrack",
    "C41_slices",
    "C41_bend_entry_frame",
    "C41_bend_exit_frame",
    "C41_polar_drift",
    "C41_bend_no_field",
    "C41_bend_backtrack",
    "C41_bend_slices"
   ],
   "note": "Real arithmetic; the particle moves forward in the intermediate frames. Straight elements and bends. Spin is excluded for the bend without field (the polar drift does not turn the spin)."
  },
  {
   "property": "C42",
   "status": "proved",
   "theorems": [
    "C42_thin_slices",
    "C42_hxl_refuted"
   ],
   "note": "Slices at the same place (no drift in between)."
  },
  {
   "property": "C43",
   "status": "proved",
   "theorems": [
    "C43_field",
    "C43_tracking",
    "C43_truncated"
   ],
   "note": "The link with tracking is for a thin multipole with transverse shifts and a roll."
  },
  {
   "property": "C44",
   "status": "proved",
   "theorems": [
    "C44_total",
    "C44_orthonormal",
    "C44_start",
    "C44_steps",
    "C44_restart",
    "C44_relative"
   ],
   "note": ""
  },
  {
   "property": "C45",
   "status": "proved",
   "theorems": [
    "C45_rect",
    "C45_ellipse",
    "C45_ellipse_axes",
    "C45_ellipse_defined",
    "C45_ellipse_field_refuted",
    "C45_rect_ellipse",
    "C45_rect_ellipse_zero_refuted",
    "C45_racetrack",
    "C45_racetrack_square",
    "C45_convex",
    "C45_polygon",
    "C45_polygon_crossings",
    "C45_polygon_region",
    "C45_polygon_outside",
    "C45_polygon_shortcut",
    "C45_polygon_origin_refuted",
    "C45_polygon_disc",
    "C45_polygon_boundary_refuted"
   ],
   "note": "A polygon which does not contain the origin accepts the disc around the origin up to its boundary on CPU, and the origin on GPU (C45_polygon_origin_refuted); polygons are half open at their boundary; assignment to a_squ or b_squ leaves the product stale; LimitRectEllipse with zero half axes checks no ellipse."
  },
  {
   "property": "C46",
   "status": "proved",
   "theorems": [
    "C46_tags",
    "C46_outcome",
    "C46_history",
    "C46_two_ranks_refuted",
    "C46_registered_twice_refuted",
    "C46_registered_late_refuted",
    "C46_changed_buffer_refuted"
   ],
   "note": "C46_two_ranks_refuted: the default communicator loses messages between different ranks; C46_registered_twice_refuted and C46_registered_late_refuted: registering a name twice or late mixes or loses messages; C46_changed_buffer_refuted: messages are references"
  },
  {
   "property": "C47",
   "status": "proved",
   "theorems": [
    "C47_resolve",
    "C47_element",
    "C47_unique",
    "C47_not_replica"
   ],
   "note": "Resolution returns the end of the chain exactly when there is one; circular chains and missing names are errors."
  },
  {
   "property": "C48",
   "status": "proved",
   "theorems": [
    "C48_defined",
    "C48_contents",
    "C48_values",
    "C48_names",
    "C48_suffix_taken_refuted",
    "C48_suffix_in_line_refuted",
    "C48_repeated_refuted",
    "C48_variables_refuted"
   ],
   "note": "C48_suffix_taken_refuted and C48_suffix_in_line_refuted: a suffixed name that is already taken replaces an element; C48_repeated_refuted: an element used twice may become two; C48_variables_refuted: common variables with different values"
  },
  {
   "property": "C49",
   "status": "proved",
   "theorems": [
    "C49_spacing",
    "C49_apertures",
    "C49_between",
    "C49_refined",
    "C49_default",
    "C49_skip_refuted"
   ],
   "note": "Tracking, backtracking and the interpolated aperture shapes are arbitrary functions; C49_skip_refuted: an element to be skipped before one aperture with losses makes refine_loss_location return, so that particles lost at later apertures are not refined."
  },
  {
   "property": "C50",
   "status": "proved",
   "theorems": [
    "C50_read_back",
    "C50_attributes",
    "C50_frame",
    "C50_restore",
    "C50_skip",
    "C50_given_twice_refuted"
   ],
   "note": "An element given twice is not read back when the values differ (C50_given_twice_refuted)."
  },
  {
   "property": "C51",
   "status": "proved",
   "theorems": [
    "C51_defined",
    "C51_twice",
    "C51_strengths",
    "C51_edges",
    "C51_opposite",
    "C51_kept",
    "C51_other_way",
    "C51_shift_refuted",
    "C51_line",
    "C51_line_twice",
    "C51_used_twice_refuted"
   ],
   "note": "An element placed twice in the line is reversed twice, so not reversed (C51_used_twice_refuted); shift_x is not mirrored (C51_shift_refuted)."
  },
  {
   "property": "C52",
   "status": "proved",
   "theorems": [
    "C52_positions",
    "C52_order",
    "C52_next_name",
    "C52_names",
    "C52_names_refuted"
   ],
   "note": "With the default scheme two nodes can get the same name (C52_names_refuted)."
  },
  {
   "property": "C53",
   "status": "proved",
   "theorems": [
    "C53_gpu",
    "C53_serial",
    "C53_openmp"
   ],
   "note": ""
  },
  {
   "property": "C54",
   "status": "proved",
   "theorems": [
    "C54_set_xp_yp",
    "C54_set_exact_xp_yp",
    "C54_add_to_exact_xp_yp",
    "C54_scale_exact_xp_yp",
    "C54_set_exact_yp_refuted"
   ],
   "note": "Refuted for the setter of a single exact angle."
  },
  {
   "property": "C55",
   "status": "proved",
   "theorems": [
    "C55_rows",
    "C55_ids_refuted"
   ],
   "note": "Ids must be 0..n-1 (C55_ids_refuted)."
  },
  {
   "property": "C56",
   "status": "proved",
   "theorems": [
    "C56_multi_element",
    "C56_id_below_range_refuted"
   ],
   "note": "An id below the range wraps around (C56_id_below_range_refuted)."
  },
  {
   "property": "C57",
   "status": "proved",
   "theorems": [
    "C57_cell",
    "C57_one_cell",
    "C57_moment",
    "C57_mean",
    "C57_covariance",
    "C57_any_order",
    "C57_slice_index",
    "C57_slice_index_recorded",
    "C57_coasting",
    "C57_folded_zeta",
    "C57_wide_range_refuted"
   ],
   "note": "Exact arithmetic. For slices wider than the bunch spacing slice_index may name a slice in which the particle is not accumulated (C57_wide_range_refuted)."
  },
  {
   "property": "C58",
   "status": "proved",
   "theorems": [
    "C58_track_survey"
   ],
   "note": ""
  },
  {
   "property": "C59",
   "status": "proved",
   "theorems": [
    "C59_replaced",
    "C59_bend",
    "C59_rbend_curved",
    "C59_rbend_straight",
    "C59_angle_diff_refuted"
   ],
   "note": ""
  },
  {
   "property": "C60",
   "status": "proved",
   "theorems": [
    "C60_twice",
    "C60_s_twice",
    "C60_reversed_line"
   ],
   "note": ""
  },
  {
   "property": "C61",
   "status": "proved",
   "theorems": [
    "C61_triangle",
    "C61_cut",
    "C61_start",
    "C61_reverse",
    "C61_shift",
    "C61_normals",
    "C61_inward",
    "C61_centroid",
    "C61_centroid_refuted"
   ],
   "note": "LimitPolygon.centroid is (0, 0) for every polygon, since y is read from x_vertices: C61_centroid, C61_centroid_refuted."
  },
  {
   "property": "C62",
   "status": "proved",
   "theorems": [
    "C62_positions",
    "C62_distinct",
    "C62_defined",
    "C62_reorder",
    "C62_drift_name_refuted"
   ],
   "note": "A node named as a drift replaces the drift (C62_drift_name_refuted)."
  },
  {
   "property": "C63",
   "status": "proved",
   "theorems": [
    "C63_round_robin",
    "C63_alone",
    "C63_ends"
   ],
   "note": ""
  },
  {
   "property": "C64",
   "status": "proved",
   "theorems": [
    "C64_passages",
    "C64_windows",
    "C64_each"
   ],
   "note": "Motion between SyncTimes does not depend on zeta (coasting beam, RF off); that at_turn of the first particle is zero in the first turn only is an assumption of the model of a run (C64_each shows what SyncTime.track does for any set of particles)."
  },
  {
   "property": "C65",
   "status": "proved",
   "theorems": [
    "C65_tunes",
    "C65_actions",
    "C65_area",
    "C65_compose",
    "C65_turns",
    "C65_bunch",
    "C65_flat_refuted",
    "C65_second_refuted"
   ],
   "note": "C65_flat_refuted: the loops that look for chromaticity read coefficient 0 only, so that with both tunes zero the derivatives are ignored. C65_second_refuted: with ddqx given and dqx zero, the constructor stores ddqx as first derivative."
  },
  {
   "property": "C66",
   "status": "proved",
   "theorems": [
    "C66_inside",
    "C66_wrap",
    "C66_one_turn",
    "C66_periodic",
    "C66_thick_refuted",
    "C66_single_refuted",
    "C66_first_refuted",
    "C66_zero_refuted",
    "C66_longitudinal_refuted"
   ],
   "note": "Per-element propagation and its inverse are abstract functions; s, mux, muy, dzeta share one column, muzeta has its own. Refuted corners: thick element as initial position around the end, single thick element away from the initial conditions, one turn from the first element (AssertionError), one turn ignores initial phases, muzeta in periodic tables with another start."
  },
  {
   "property": "C67",
   "status": "proved",
   "theorems": [
    "C67_gauge",
    "C67_courant_snyder",
    "C67_entries",
    "C67_transport",
    "C67_transport_phase",
    "C67_phase_advance",
    "C67_anchor",
    "C67_tune",
    "C67_dispersion",
    "C67_crab_dispersion",
    "C67_inverse",
    "C67_edwards_teng",
    "C67_long_step_refuted"
   ],
   "note": "numpy.unwrap and arctan2 are modelled; numpy.linalg.inv is any inverse. Refuted: a step of three quarters of a turn counts as minus one quarter."
  },
  {
   "property": "C68",
   "status": "proved",
   "theorems": [
    "C68_modes",
    "C68_planes",
    "C68_defined",
    "C68_normal_form",
    "C68_symplectic",
    "C68_gauge",
    "C68_symplectify",
    "C68_symplectify_keeps",
    "C68_half_refuted"
   ],
   "note": "Eigenvectors and inverses are those of numpy, given by their equations. Setting entries below 1e-14 to zero is not modelled. C68_half_refuted: pairs are found from imaginary parts alone, so two tunes with a sum of a half and opposite senses give ValueError for a stable symplectic matrix. The branch of healy_symplectify for det(I - S W) = 0 multiplies by a determinant instead of an inverse and is an error; it is outside the statement."
  },
  {
   "property": "C69",
   "status": "proved",
   "theorems": [
    "C69_element",
    "C69_composer",
    "C69_environment",
    "C69_environment_exact",
    "C69_twice",
    "C69_line",
    "C69_line_copy",
    "C69_strengths",
    "C69_strengths_exact",
    "C69_order",
    "C69_reload",
    "C69_reload_refuted",
    "C69_reference_refuted",
    "C69_compose_refuted",
    "C69_compose_copy_refuted",
    "C69_weak_refuted"
   ],
   "note": "Data written and read by xobjects, xdeps, numpy and pandas are opaque values. Refuted corner cases: the same dictionary cannot be loaded twice if there are functions; a line without reference particle gets the one of the environment on reload; a line in compose mode whose reference particle has t_sim=0 cannot be loaded; a deep copy of a line in compose mode has the letters of __COMPOSE__ as element names; strengths of at most 1e-16 are lost. Orders below 5 become 5 with zero strengths. The end of the compose mode on reload is not modelled."
  },
  {
   "property": "C70",
   "status": "proved",
   "theorems": [
    "C70_ion",
    "C70_spelling",
    "C70_known",
    "C70_alias",
    "C70_case_insensitive",
    "C70_antiparticle",
    "C70_antiparticle_mass",
    "C70_mass",
    "C70_anti_ion_refuted",
    "C70_digits_refuted",
    "C70_isomer_refuted",
    "C70_is_ion_refuted",
    "C70_anti_mass_refuted",
    "C70_neutral_refuted"
   ],
   "note": "Names are lists of code points; masses exact rationals with the decimals of masses.py. The round trip fails for anti-ions, isomers, mass numbers above 999, and neutral antiparticles (refuted theorems); is_ion is false for a nucleus without neutrons."
  },
  {
   "property": "C71",
   "status": "proved",
   "theorems": [
    "C71_energy",
    "C71_thin_slice",
    "C71_no_voltage",
    "C71_backtrack",
    "C71_synchronous",
    "C71_harmonic",
    "C71_crab",
    "C71_multipole",
    "C71_multipole_time_refuted",
    "C71_crab_taper_refuted",
    "C71_crab_charge_refuted",
    "C71_preserve_refuted"
   ],
   "note": "real arithmetic; radiation and frozen variables not modelled; corners refuted: absolute_time of RFMultipole, tapers of CrabCavity, crab deflection with reference charge not one, preserved angles under backtracking"
  },
  {
   "property": "C72",
   "status": "proved",
   "theorems": [
    "C72_drift",
    "C72_drift_slice",
    "C72_shifts",
    "C72_rotation",
    "C72_misaligned",
    "C72_misaligned_bend",
    "C72_magnet",
    "C72_rf",
    "C72_line",
    "C72_multipole_refuted",
    "C72_crab_refuted",
    "C72_preserve_refuted"
   ],
   "note": "Radiation, edges and fringes are not part of the maps. RFMultipoles of order one or more, crab cavities with a reference charge other than one and preserved angles are refuted."
  },
  {
   "property": "C73",
   "status": "proved",
   "theorems": [
    "C73_linear",
    "C73_quad_wedge",
    "C73_wedge",
    "C73_dipole_fringe",
    "C73_potential",
    "C73_multipole_fringe",
    "C73_magnet",
    "C73_wedges_add",
    "C73_wedge_inverse",
    "C73_backtrack",
    "C73_backtrack_element",
    "C73_full_lost",
    "C73_full_lost_element",
    "C73_off",
    "C73_agree",
    "C73_linear_kicks",
    "C73_strength",
    "C73_dipole_edge",
    "C73_wedge_element"
   ],
   "note": "Radiation and tapering are left out. The dipole fringe with the option XTRACK_FRINGE_FROM_PTC is modelled but not covered by the symplecticity theorems. The agreement of linear and nonlinear edges is for edges without gap: with a gap the linear edge corrects by (1 + sin^2 e) / cos e and the nonlinear one by (1 + sin^2 e) / cos^3 e."
  },
  {
   "property": "C74",
   "status": "proved",
   "theorems": [
    "C74_twice",
    "C74_defined",
    "C74_rows",
    "C74_end_row",
    "C74_advances",
    "C74_lattice",
    "C74_kicks",
    "C74_init",
    "C74_orbit",
    "C74_coupling",
    "C74_init_twice",
    "C74_kinetic",
    "C74_dzeta",
    "C74_dzeta_refuted",
    "C74_hkick_refuted",
    "C74_potential_refuted",
    "C74_markers_refuted"
   ],
   "note": "dzeta (negated twice), hkick/vkick (the wrong one flips), ay of TwissInit.reverse and only_markers tables depart from the statement: refuted theorems; the statement excludes them."
  },
  {
   "property": "C75",
   "status": "proved",
   "theorems": [
    "C75_norm",
    "C75_only_spin",
    "C75_backtrack",
    "C75_form",
    "C75_equation",
    "C75_slices",
    "C75_omega",
    "C75_perpendicular",
    "C75_spin_tune",
    "C75_rigidity",
    "C75_field",
    "C75_direction_refuted",
    "C75_perpendicular_refuted",
    "C75_omega_refuted",
    "C75_potential_refuted"
   ],
   "note": "direction_of_motion has the wrong sign for y'^2 and magnet_spin adds the vector potential instead of subtracting it: refuted theorems; the statement for Omega excludes vertical momentum and potential."
  },
  {
   "property": "C76",
   "status": "proved",
   "theorems": [
    "C76_sample",
    "C76_outside",
    "C76_before",
    "C76_before_refuted",
    "C76_undone",
    "C76_undone_element",
    "C76_undone_element_refuted",
    "C76_ac_program",
    "C76_ac_twiss",
    "C76_ac_refuted",
    "C76_elens_hollow",
    "C76_elens_radial",
    "C76_elens_outside",
    "C76_elens_force",
    "C76_elens_profile",
    "C76_elens_edges",
    "C76_elens_undone",
    "C76_elens_refuted"
   ],
   "note": "Findings (refuted theorems): in the sample period before the start the first sample is applied already (conversion toward zero); Exciter.get_backtrack_element forgets the duration; ramp turns of an AC dipole from 65536 on wrap around (uint16_t parameters); backtracking an electron lens adds the residual kick again."
  },
  {
   "property": "C77",
   "status": "proved",
   "theorems": [
    "C77_orbit",
    "C77_expansion",
    "C77_symmetric",
    "C77_exact",
    "C77_exact_refuted",
    "C77_polynomial",
    "C77_scaled",
    "C77_reflected",
    "C77_scaled_refuted",
    "C77_composed",
    "C77_first_second"
   ],
   "note": "Findings (refuted theorems): scale_coordinates multiplies where the inverse factor is needed on the input side, so it is a change of coordinates only for factors 1 and -1; steps in delta are not symmetric in pzeta, so second order terms in pzeta leak into the first order."
  }
 ]
}