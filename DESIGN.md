# Formal model of xtrack in Rocq: design

The properties are listed in `properties.jsonl` (C01, C02, ...). The model and the
proofs are in `rocq/theories`:

* `Model/*.v`      shallow Gallina models of the code, function by function. Every
                   definition cites the file and lines of `/repo` it models. No proofs.
* `Spec/*.v`       small specifications, written without the helpers of the model.
* `Proofs/*.v`     lemmas.
* `Properties/*.v` the property theorems, each closed by `exact lemma`, each followed by
                   `Print Assumptions`, with an `Example` showing that the hypotheses
                   are met by a concrete non trivial case.

## Abstractions used everywhere

* Floating point numbers are exact numbers: `Q` or `Z` for the discrete algorithms
  (positions along s, weights), `R` for the physics. Rounding, NaN and infinities are not
  modelled. Where the code uses a tolerance, the tolerance is an explicit parameter
  of the model.
* Integers are unbounded, except in the random generator (32 bit arithmetic is explicit).
* Python exceptions are values (`option` or `result`).
* Python dictionaries are functions or association lists; object identity is modelled
  (as explicit heap references) only where the property depends on it (C33).
* xobjects buffers, code generation, compilation and GPU contexts are not modelled.

## Plan per property

| Id | Model | Method |
|----|-------|--------|
| C01 | window arithmetic of `_track_no_collective` + loops of `track_line`, as a function returning the trace of (turn, element) visits | trace equals a contiguous segment of the cyclic stream, for all n, i, j (induction on turns) |
| C02 | parts, `_track_part`, `_track_with_collective` | concatenated trace equals trace of C01 model |
| C03 | batches of `_track` | trace equality, by induction on batches; refuted for explicit `ele_stop=0` |
| C04 | particle counters in `track_line` with an arbitrary loss oracle | invariant by induction over elements and turns |
| C05 | collective session with hold/resume | any hold schedule gives the same trace |
| C06 | backtrack loops of `track_line` | trace is the reverse |
| C07 | `check_is_active` serial and OpenMP | permutation + partition + counters, induction on the loop |
| C08 | `reorganize` | theorem under the condition tested by the code, refutation otherwise |
| C09 | `add_particles` | theorem under actives-first layout, refutation for a reachable bad layout |
| C10 | `merge` | NoDup of ids by induction over the list of sets |
| C11 | `filter`, `sort` | list lemmas |
| C12 | energy functions over R | invariant by induction on the list of operations |
| C13 | `update_p0c`, `add_to_energy`, `ReferenceEnergyIncrease` over R | field/sqrt algebra |
| C14 | python setters over R | algebra |
| C15 | slot arithmetic of the monitor | injectivity/range with Z |
| C16 | ring buffer of LastTurnsMonitor | invariant over the history of writes |
| C17 | atomic slot allocation as a small step interleaving semantics | invariant over all schedules |
| C18 | base_rng over Z modulo 2^32 | bit lemmas, invariant |
| C19 | slot arithmetic of BPM | floor arithmetic |
| C20-C21 | `_resolve_s_positions` | invariant of the scan, termination measure, uniqueness |
| C22 | `_sort_places` | permutation, sortedness |
| C23 | `_generate_element_names_with_drifts` | induction over placements |
| C24 | `_elements_intersecting_s`, cuts | induction |
| C25 | insert | induction |
| C26, C27, C35 | list edits | induction |
| C28 | slicing schemes over Q | induction on the slicing order |
| C29 | `_scheme_for_element` | induction on strategies |
| C30, C32 | line as list of maps over R | induction |
| C31 | aperture removal scan + convexity | invariant of scan + convexity of shapes |
| C33 | environment heap with drift cache | refutation of full claim, proof for histories without merging |
| C34 | renaming loop | invariant |
| C36 | interval logic of check_aperture | equivalence to spec |
| C37-C42 | maps over R | field, sqrt, trigonometric identities, induction on the number of kicks |
| C43 | complex polynomials as pairs of R | binomial expansion |
| C44 | 3x3 frames over R | induction over elements |
| C45 | apertures over R | equivalence with set definition |
| C46 | tag arithmetic, mailbox | injectivity, FIFO invariant |
| C47 | replica resolution with visited set | induction on unvisited names |
| C48 | import_line | invariant / refutation |
| C49 | interpolation points | arithmetic |
| C50 | memory with offsets | frame lemmas |
| C51 | _reverse_element | case analysis over R |
| C52 | flatten_sequence | induction over trees |
| C53 | kernels over threads | commutation of per-particle steps |
| C54, C55 | angle setters; batches of samples | algebra; induction over rows |
| C56, C57 | monitors of several elements, statistics | invariant over stored records |
| C58-C60 | survey against tracking, slicing, reversal | induction over elements, matrix algebra |
| C61 | polygon area and normals | sums over vertices |
| C62 | from_sequence | induction over nodes |
| C63 | multi-tracker loop | invariant of the queue, refinement to independent branches |
| C64 | SyncTime state machine | invariant over stages and frames, refinement to the free trajectory |
| C65 | LineSegmentMap constructor and track | factorisation into normal coordinates and a rotation, induction over turns |
| C66 | TwissRange | Twiss over ranges with the initial conditions inside, around the end of the line, one turn from another start |
| C67 | lattice functions from W | explicit form of the rotated eigenvectors, algebra of symplectic forms, induction over the places for unwrapped phases |
| C68 | linear normal form | invariant of the list of unpaired modes, algebra of symplectic forms, Cayley transform |
| C69 | saving and loading of environments, lines, composers and magnets | dictionaries as association lists with the keys of the code; round trip by induction over elements, functions, particles and lines, with the loaded prefix as invariant |
| C70 | particle numbers, names and masses | general lemma on substring search in letter/digit texts with pairwise checks of the element names by computation; integer division; tables by computation |
| C71 | RF elements: energy, deflection, backtracking, absolute time | induction over the kicks of the integrator; complex powers for the multipoles; refuted corners by explicit elements |
| C72 | symplecticity of drifts, frames, magnets, RF elements and lines | derivatives along families of particles, composition, induction over the operations of the integrator; refuted corners by explicit families |
| C73 | edges, fringe fields, wedges and magnets with edges | derivatives along families, second-order jets of the fringe potential, induction over multipole orders, composition; backtracking by commuting the path correction through the body |
| C74 | twiss tables and initial conditions in the reverse frame | explicit image of each row, case analysis on columns, algebra on the modes of W, round trip over lists of any length |
| C75 | precession of the spin | quaternion algebra, formula of Rodrigues, derivatives along the path |
| C76 | exciters, AC dipoles and electron lenses | bounds of the conversion to integers, induction over the orders of the multipole, case analysis on the ramp, Gauss law by algebra |
| C77 | Taylor maps | linearity of finite sums, exchange of sums, exact central differences of polynomials of degree two |

## Trusted base

* Coq 8.16.1 kernel (and `coqchk`).
* Axioms, as reported by `Print Assumptions` under every theorem. All of them come with the standard library's
  `Reals`: F = `ClassicalDedekindReals.sig_forall_dec`, N = `ClassicalDedekindReals.sig_not_dec`,
  E = `FunctionalExtensionality.functional_extensionality_dep`, C = `Classical_Prop.classic`; "none" stands for
  "Closed under the global context". The number of theorems of each file of Properties with each set of axioms:

  | Properties file | axioms (number of theorems) |
  |---|---|
  | Apertures | F E (21); F N E (6) |
  | BeamMonitors | none (21) |
  | CheckAperture | none (8) |
  | Composer | none (22) |
  | Container | none (15) |
  | Edges | F E (3); F N E C (15); F N E (1) |
  | TwissReverse | F E (12); F N E C (5) |
  | Spin | F N E (14); F E (1) |
  | Excite | F N E (10); F E (8) |
  | Taylor | F E (11) |
  | Energy | F N E (23); F E (3) |
  | ImportLine | none (8) |
  | Insert | none (7) |
  | Lattice | F N E C (12); F E (1) |
  | LineEditing | none (41) |
  | LineSegment | F N E (8) |
  | LossRefinement | none (6) |
  | Magnets | F N E C (12); F E (3); F N E (2) |
  | Maps | F E (4); F N E (26); F N E C (5) |
  | MergeMultipoles | none (1); F E (3); F N E C (4) |
  | Monitors | none (12) |
  | MultiSetter | none (6) |
  | MultiTracker | none (3) |
  | NormalForm | F N E (2); F N E C (5); F E (2) |
  | Pdg | none (14) |
  | Pipeline | none (7) |
  | Random | none (11) |
  | Record | none (4) |
  | RemoveApertures | F N E (3) |
  | Reverse | F (5); F E (4); F N E C (2) |
  | Rf | F N E C (12) |
  | Sequence | F (5); none (1); F E (4) |
  | Serialize | none (16) |
  | Slicing | none (23) |
  | Survey | F N E C (13); F E (2) |
  | Symplectic | F N E (4); F E (2); F N E C (6) |
  | SyncTime | F E (3) |
  | Tracking | none (31); F (1) |
  | TwissRange | none (9) |

* The reading of the code: nothing ties the model to /repo except the citations.

## What is modelled, file by file

| Model file | Code modelled | Simplifications / not modelled |
|---|---|---|
| Kernel, Collective, ParticleArray | tracker.py `_track`, `_track_no_collective`, `_track_with_collective`, `_track_part`, `track_line` kernel, base_element.py per element kernel, `check_is_active` | elements are abstract maps with an oracle for losses; I/O buffers, freezing, GPU details not modelled |
| Container | particles.py `reorganize`, `add_particles`, `merge`, `filter`, `sort` | merge of sets with hidden lost particles is not modelled exactly |
| Energy | local_particle_custom_api.h, particles.py energy setters | real numbers, mass0 > 0, one particle, no NaN |
| Record | internal_record.py slot allocation (atomicAdd itself belongs to xobjects and is assumed atomic) | threads interleave with sequential consistency, the 32 bit counter is explicit |
| Rng | random/random_src/*.h | 32 bit arithmetic explicit; conversion to [0,1) in `Q`, and in IEEE doubles (`SpecFloat`) for the accurate generator; log, cos of the exponential and normal generators not modelled |
| Monitors | particles_monitor, last_turns_monitor, multi_element_monitor, `_get_monitor` | stored coordinates are an abstract value |
| BeamMonitors | beam_position_monitor, beam_size_monitor, beam_profile_monitor (one plane), beam_stats_monitor (kernel, index maps, moments, mean, covariance, `slice_index`) | floats are rationals, sums exact; HDF5 export, `filled_slots`, coordinate selection and plotting left out |
| Composer | composer/resolve_positions.py, composer/ordering.py, composer.py `_flatten_components` (one level), `_generate_element_names_with_drifts`, `_validate_geometry`, `build` | positions are rationals, expressions are their values, `sorted` is a stable insertion sort (they agree when closeness is transitive), drift names and the drift cache are left out |
| Line | environment.py drift counter, `_get_a_drift_name`, `_get_drift`; base_element.py `Replica.resolve`; line.py `_length`, `_is_thick`, `get_length`, s positions | lengths are rationals, other attributes of an element are an opaque tag, `while name in dict` loops are bounded by the size of the dictionary (proved sufficient) |
| Slicing | slicing.py schemes, strategies, `Slicer.slice_in_place`, `_slice_element`, `_make_slices`; line.py `_elements_intersecting_s`, `cut_at_s` | rationals for floats; names and regular expressions are predicates; associated apertures, expressions and buffers are left out; custom weights of a zero length element (nan in the code) are an error |
| LineEdit | line.py `remove`, `replace`, `_name_match`, `filter_elements`, `cycle`, `mirror`, `__rmul__`, `__add__`, `__sub__`, `replace_all_repeated_elements`, `remove_markers`, `remove_zero_length_drifts`, `merge_consecutive_drifts` | the rows selected by the table are an argument; the order of `list(set(names))` is an argument; markers are thin elements with tag 0; tracking is any family of maps with the group law for drifts; drifts have no misalignment |
| Insert | line.py `insert` (with the composer, `cut_at_s` and gap filling above) | rationals for floats; the elements exist already (`obj` of a placement is not modelled); the row of a reference in the rebuilt table is an arbitrary function |
| Maps | track_drift.h, drift.h, drift_slice.h, track_srotation.h, track_xrotation.h, track_yrotation.h, rotation.h, track_xyshift.h, translation.h, zetashift.h; track_misalignments.h (straight), track_local_particle_with_transformations.h | real arithmetic: no overflow, no rounding; a particle that turns backward (square root of a negative number or a change of sign of pz) is outside the hypotheses; spin only turns with the frame |
| Curved | track_misalignments.h (curved), track_local_particle_with_transformations.h for CURVED elements, polar drift of track_magnet_drift.h | as above; atan2 written out with the `atan` of the standard library |
| History | sequences of operations that create or change elements of an environment | operations that raise end the history; in-place edits of attributes by the user other than the creation of elements are left out |
| Magnet | track_magnet.h (body, number of kicks), track_magnet_kick.h, track_magnet_drift.h, track_magnet_configure.h, the calls of multipole.h and thin_slice_*.h | real arithmetic; radiation, spin, tapering, edges and rbends with straight body left out |
| FeedDown | feed_down.py | complex numbers are pairs of reals |
| Survey | survey.py `advance_element` and its helpers, `get_survey`, `SurveyTable.reverse`, `get_relative_transform`; `_propagate_survey` of the rotations, shifts, RBend and its slices; rbend angles and offsets of elements.py | real arithmetic; element0 is an index from the start of the line; the unwrapping of the table's angles is any change by multiples of a turn; extraction of the columns length, angle and tilt from the line is an argument |
| CheckAperture | line.py `check_aperture` | rationals for floats; the columns of the table (aperture, thick, length, drift-like, marker-like, needs_aperture) are arguments |
| Apertures | limitrect.h, limitellipse.h, limitrectellipse.h, limitracetrack.h, limitpolygon.h (`LimitPolygon_track_local_particle`); limit_ellipse.py, limit_rect_ellipse.py, limit_racetrack.py (arguments, setters), limit_polygon.py (normals, area, centroid) | real arithmetic; the value UNLIMITED is an argument; the impact point kernel of the polygon, svg paths and the rescaling factor are left out |
| RemoveApertures | line.py `remove_redundant_apertures`, `_apertures_equal`; tracking through a misaligned aperture | replicas are resolved; equality of the dictionaries is equality of shape and placement; the check that no deferred expressions are used is left out |
| Reverse | environment.py `_reverse_element`; mad_parser/loader.py, the loop on `reverse_lines` | an element is its class name, its scalar attributes and the arrays knl and ksl; a deferred expression stands for its value; an attribute None is an attribute which does not exist |
| Sequence | line.py `Node`, `_next_name`, `flatten_sequence`, `Line.from_sequence`, the dictionary built by `Line.__init__` | positions are reals; a naming scheme is two placeholders in order with fixed text around them; copies of elements are the elements; drifts of equal length are not distinguished; fuel bounds the depth of the recursion (RecursionError) |
| MultiSetter | multisetter/multisetter.py and .h | memory is a map from addresses to bytes and threads write byte by byte in any order; a float64 is its bit pattern; where xobjects puts elements and attributes is an assumption (`laid_out`, `all_apart`); indices outside the array are refused |
| MergeMultipoles | line.py: merge_consecutive_multipoles, remove_inactive_multipoles, _trim_common_trailing_zeros; _common.py get_total_knl_ksl; multipole.h for thin multipoles | strengths are reals; the first step of merging is LineEdit.replace_repeated on the positions in the dictionary; other elements and thick multipoles are arbitrary maps; delta_taper (used only with synchrotron radiation) and the radiation of the kicks are left out; deferred expressions (the functions refuse them) are not there |
| ImportLine | environment.py: import_line, _import_element, _copy_element_from, _get_a_drift_name | elements are a class, attributes given by numbers or expressions (sums and products of variables and numbers), and a parent name; markers have no attributes (hypothesis markers_plain); variables have values, expressions between variables are left out; particle_ref, config and metadata are left out |
| Pipeline | pipeline/manager.py: PipelineManager; pipeline/core.py: PipelineCommunicator | the calls of all processes form one list in any order; MPI is modelled by one queue for each source, destination and tag, received in the order of sending, with Test telling whether the message was received (assumption on MPI); messages are references to buffers as in the code; verbose output is left out |
| MultiTracker | pipeline/multitracker.py: PipelineMultiTracker.track | what track and resume do to a branch is an arbitrary function of the common state (C05 is about one branch); the debug log is left out |
| LossRefinement | loss_location_refinement.py: refine_loss_location, find_apertures, generate_interp_aperture_locations, find_adjacent_thick, refine_loss_location_single_aperture, order of build_interp_line | positions are rationals; tracking and backtracking through an element, and whether an interpolated aperture loses a particle, are arbitrary functions; characterize_aperture, the convex hull, the saved lines and the clean-up of temporary elements are left out |
| SyncTime | synctime.py: SyncTime.track, identifiers given by install_sync_time_at_collective_elements, prepare_particles_for_sync_time; end of turn (local_particle_custom_api.h increment_at_turn) | real arithmetic; a run is that of one particle, with the flags at_turn[0] == 0 in the first turn only; motion between SyncTimes is arbitrary but does not depend on zeta; the OpenCL check and insertion in the line are left out |
| LineSegment | beam_elements/line_segment_map.py (derivatives and coefficients in the constructor), elements_src/linesegmentmap.h: transverse motion, frozen and linear_fixed_qs longitudinal motion, orbit, dispersion, length | real arithmetic; delta is a given function of pzeta; no nonlinear and linear_fixed_rf modes, energy increments, damping, noise, nor the flag that freezes energy |
| TwissRange | twiss/handle_init_inside_range_and_line_wrap.py, TwissTable.concatenate and zero_at, the periodic route with another start (twiss.py 448-463) | propagation through an element and its inverse are abstract functions, values are exact; one column stands for s, mux, muy, dzeta and one for muzeta; row slices by name taken as inclusive (xdeps); metadata, dmux and dmuy columns not modelled |
| Lattice | twiss/lattice_functions_from_W.py: renormalisation, rotation, Twiss parameters (direct and with inverse), Edwards-Teng functions, dispersions, phase advance with numpy.unwrap | real arithmetic; coupling RDTs (f1001, f1010) and the replacement of columns for hidden thin groups not modelled |
| NormalForm | linear_normal_form.py | numpy.linalg.eig and inv are given by their results; entries below 1e-14 are not set to zero; responsiveness, determinant and stability checks are not modelled; the branch of healy_symplectify for det = 0 is not modelled |
| Serialize | environment.py to_dict, from_dict, copy, _make_var_management, line names; line.py to_dict, from_dict, copy, setter of particle_ref; base_element.py; composer to_dict, from_dict, Place; functions.py; knl/ksl/order of _common.py | contents of xobjects, xdeps manager, dataframes and particles are opaque values with lossless own serialisation; sharing of mutable values between dictionary and object only as the class keys popped from functions; end_compose on load, energy programs, components that are lines, ancient formats not modelled |
| Pdg | particles/pdg.py: the tables, is_ion, get_name_from_pdg_id, get_pdg_id_from_name, get_properties_from_pdg_id, get_pdg_id_ion, get_pdg_id_from_mass_charge, get_mass_from_pdg_id, _mass_consistent; particles/masses.py | arrays of numbers or names; lower case and numeric characters outside ASCII and Greek; rounding of the masses |
| Rf | track_rf.h (body, kick, drifts, phase from time), cavity.h, crab_cavity.h, rfmultipole.h, thick and thin slices of cavities | real arithmetic; radiation, spin and frozen variables left out |
| Edges | track_magnet_edge.h, track_dipole_fringe.h (both variants), track_mult_fringe.h, track_wedge.h, track_dipole_edge_linear.h, track_magnet.h (edges and frames of rbends), DipoleEdge, MultipoleEdge, Wedge | real arithmetic; radiation and tapering left out; a killed particle is `None` |
| TwissReverse | twiss_table.py `reverse`, `get_twiss_init`; twiss_init.py `reverse`; strengths.py | real arithmetic; columns are functions of their key, absent columns have a meaningless value; deprecated kin_xprime/kin_yprime, removed r11_edw_teng..., R_matrix and the untouched fields of particle_on_co left out; setting x, px... of a particle does not touch other fields |
| Spin | track_magnet_radiation.h: magnet_spin, direction_of_motion, separate_par_perp_components, compute_b_perp_mod, magnet_estimate_field | real arithmetic; QELEM and C_LIGHT are arguments; radiation itself (synrad_*) left out; a particle set to state -33 is `None` |
| Excite | exciter.h, exciter.py, acdipole.h, track_acdipole.h, elens.h | real arithmetic (samples are float in the code); conversions to int64 toward zero without overflow; turns are integers below 2^53; physical constants are arguments; coefficients_polynomial and polynomial_order given as one list |
| Taylor | second_order_taylor_map.py/.h, firstordertaylormap.h, transfer_matrices.py `get_R_matrix`, `get_T_matrix_line` | real arithmetic; tracking from start to end is a function of six coordinates given as argument; what a step in delta changes in pzeta is an argument; element by element matrices and symmetrize left out |
