{"id": "C01", "title": "Track visits exactly the requested window of the element stream", "statement": "line.track(particles, ele_start=i, ele_stop=j, num_turns=n) applies the elements i, i+1, ... of the line cyclically, each exactly once per passage, in order, and stops just before element j on the last requested turn (one extra partial turn is made when j <= i); with num_elements=k it applies exactly k consecutive elements of the cyclic stream starting at ele_start.", "quantifier": "every line length, every ele_start/ele_stop inside the line, every number of turns and every number of elements", "why_tests_cant": "the window arithmetic has first-turn, middle-turn and last-turn branches whose combination is unbounded in the number of turns and of elements", "anchors": ["xtrack/tracker.py:Tracker._track_no_collective", "xtrack/tracker.py:Tracker._build_kernel track_line"]}
{"id": "C02", "title": "Collective tracking applies the same element sequence as non-collective tracking", "statement": "A line containing elements that must be handled in python (collective line) applies to a particle, over the whole call, the same sequence of elements in the same order as the same line tracked with the non-collective tracker with the same ele_start, ele_stop, num_turns.", "quantifier": "every partition of the line in collective and non-collective parts, every window and number of turns", "why_tests_cant": "the collective scheduler works with parts and offsets within parts; the number of partitions and windows is unbounded", "anchors": ["xtrack/tracker.py:Tracker._split_parts_for_collective_mode", "xtrack/tracker.py:Tracker._track_part", "xtrack/tracker.py:Tracker._track_with_collective"]}
{"id": "C03", "title": "Tracking with a progress bar is the same as tracking without", "statement": "line.track(..., with_progress=b) tracks in batches of b turns, but the concatenation of what is applied to the particles is the same element sequence as a single call without progress bar.", "quantifier": "every batch size, number of turns, ele_start, and ele_stop omitted or strictly inside the line (C03_..._refuted theorems show that the statement fails for an explicit ele_stop=0 and for particles.start_tracking_at_element)", "why_tests_cant": "correctness depends on the combination of batch size, number of turns and window; unbounded", "anchors": ["xtrack/tracker.py:Tracker._track"]}
{"id": "C04", "title": "Turn and element counters of surviving particles", "statement": "After tracking, every particle that is still alive has at_turn increased by the number of times the end of the line was crossed, at_element equal to the number of the next element to be applied and s equal to the sum of the lengths of the elements passed since the last start of turn; a lost particle keeps the values it had where it was lost.", "quantifier": "every line, window, number of turns, and every pattern of losses", "why_tests_cant": "losses can happen at any element of any turn for any subset of the particles", "anchors": ["xtrack/tracker.py:track_line", "xtrack/particles/local_particle_custom_api.h:increment_at_element", "xtrack/particles/local_particle_custom_api.h:increment_at_turn"]}
{"id": "C05", "title": "Holding and resuming collective tracking does not change what is applied", "statement": "If an element asks to put tracking on hold, calling the resume API continues exactly where tracking stopped: for any pattern of holds, the sequence of element applications equals the one of an uninterrupted run.", "quantifier": "every schedule of holds (which element visit, how many times) and every line partition", "why_tests_cant": "schedules of suspensions are infinite in number", "anchors": ["xtrack/tracker.py:Tracker._track_with_collective", "xtrack/tracker.py:Tracker.resume", "xtrack/pipeline/multitracker.py"]}
{"id": "C06", "title": "Backtracking visits elements in reverse order and restores counters", "statement": "Backtracking over a window applies precisely the reverse of the element sequence applied by forward tracking over the same window; afterwards at_turn, at_element have the values they had before the forward tracking.", "quantifier": "every line length, every window contained in one turn and every number of full turns (C06_several_turns_refuted shows that it fails for several turns starting in the middle of the line)", "why_tests_cant": "the reverse iteration has its own boundary handling; unbounded number of turns and elements", "anchors": ["xtrack/tracker.py:track_line", "xtrack/tracker.py:Tracker._track_no_collective"]}
{"id": "C07", "title": "Lost particles are separated without losing or duplicating any particle", "statement": "Whenever the tracking kernel compacts the particle set after losses, the set of particles (with all their coordinates) is unchanged as a multiset, all alive particles come before all lost ones, unallocated slots stay in place and the active/lost counters equal the actual numbers.", "quantifier": "every particle array, every loss pattern, both the serial and the multi-threaded variants and any number of threads", "why_tests_cant": "all loss patterns on arrays of any size", "anchors": ["xtrack/particles/local_particle_custom_api.h:check_is_active", "xtrack/particles/local_particle_custom_api.h:count_reorganized_particles"]}
{"id": "C08", "title": "Particles.reorganize groups alive, lost and free slots and keeps all particles", "statement": "After particles.reorganize() alive particles come first, then lost particles, then unallocated slots; the relative order in each group is kept and no particle is dropped or duplicated; the returned counters are right.", "quantifier": "every object reached through add_particles, tracking with losses and reorganize, lost particles not hidden (C08_..._refuted: it fails on the object returned by Particles.merge, and the random generator seeds of the slots can be overwritten)", "why_tests_cant": "needs all state patterns of any length", "anchors": ["xtrack/particles/particles.py:Particles.reorganize"]}
{"id": "C09", "title": "Adding particles never overwrites existing ones", "statement": "particles.add_particles(other) leaves every alive or lost particle already in the object unchanged, adds every particle of other exactly once or raises an error if there is not enough space.", "quantifier": "every content of the two objects and every sequence of preceding operations among add_particles, tracking with losses, reorganize, sort (C09_..._refuted: it fails on the object returned by Particles.merge and while lost particles are hidden)", "why_tests_cant": "depends on the history of losses, merges and reorganizations", "anchors": ["xtrack/particles/particles.py:Particles.add_particles", "xtrack/particles/particles.py:Particles.reorganize"]}
{"id": "C10", "title": "Merged particles have distinct identifiers", "statement": "Particles.merge of any list of sets keeps every allocated particle of every set in order, and the resulting particle_id values are pairwise distinct, being unchanged when they increase from set to set.", "quantifier": "every list of particle sets with arbitrary (clashing) identifiers (C10_merge_unchanged_refuted: distinct identifiers that do not increase from set to set are changed)", "why_tests_cant": "the id remapping depends on the maximal ids of all sets; unbounded list", "anchors": ["xtrack/particles/particles.py:Particles.merge"]}
{"id": "C11", "title": "Sorting and filtering of particles", "statement": "particles.filter(mask) returns exactly the allocated particles selected by the mask in their original order; particles.sort(by) returns a permutation of the set ordered by the key within the alive and within the lost particles.", "quantifier": "every set of particles and every mask, key particle_id (C11_sort_other_key_refuted: with another key the sets are not left in order)", "why_tests_cant": "any size, any mask", "anchors": ["xtrack/particles/particles.py:Particles.filter", "xtrack/particles/particles.py:Particles.sort"]}
{"id": "C12", "title": "Energy variables stay mutually consistent", "statement": "delta, ptau, rvv, rpp, chi, charge_ratio of each particle always describe the same physical momentum: (1+delta)^2 = 1 + 2 ptau/beta0 + ptau^2 (with the per-mass scaling), rpp = 1/(1+delta), rvv = beta/beta0; after any sequence of update_delta, update_ptau, update_pzeta, add_to_energy, update_p0c calls.", "quantifier": "every real-valued state with a physical momentum and every finite sequence of energy operations of the elements and of python (C12_p0c_setter_refuted: assigning particles.p0c alone leaves delta and ptau inconsistent)", "why_tests_cant": "continuum of states, unbounded histories", "anchors": ["xtrack/particles/local_particle_custom_api.h:LocalParticle_update_delta", "xtrack/particles/local_particle_custom_api.h:LocalParticle_update_ptau", "xtrack/particles/local_particle_custom_api.h:LocalParticle_add_to_energy", "xtrack/particles/local_particle_custom_api.h:LocalParticle_update_p0c"]}
{"id": "C13", "title": "Changing the reference energy keeps the physical particle", "statement": "Changing the reference momentum (ReferenceEnergyIncrease, energy program) leaves the physical momenta Px, Py and P, hence the energy, of each particle unchanged; add_to_energy changes the physical energy by exactly the requested amount and, with pz_only=1, leaves Px and Py unchanged, with pz_only=0 it keeps the direction of the momentum.", "quantifier": "every particle and reference energy, no frozen variables (C13_frozen_p0c_refuted: with frozen energy a change of reference changes the momentum)", "why_tests_cant": "continuum of states", "anchors": ["xtrack/particles/local_particle_custom_api.h:LocalParticle_update_p0c", "xtrack/particles/local_particle_custom_api.h:LocalParticle_add_to_energy", "xtrack/beam_elements/elements_src/referenceenergyincrease.h"]}
{"id": "C14", "title": "Setting delta, ptau or pzeta from python round-trips", "statement": "Assigning particles.delta (ptau, pzeta) and reading it back gives the assigned value and the other energy variables describe the same particle; changing p0c, beta0 or gamma0 keeps p0c, beta0, gamma0 mutually consistent for the rest mass.", "quantifier": "every physical value and particle; also the constructor with any choice of arguments (refutations: kinetic_energy0 together with p0c, mass_ratio together with chi and charge_ratio are not checked; rigidity0 with a negative reference charge changes sign)", "why_tests_cant": "continuum of states", "anchors": ["xtrack/particles/particles.py:Particles.update_delta", "xtrack/particles/particles.py:Particles.update_ptau", "xtrack/particles/particles.py:Particles._update_refs"]}
{"id": "C15", "title": "ParticlesMonitor stores each (turn, particle) in its own slot", "statement": "A ParticlesMonitor writes inside its buffers only, never writes two different (frame, turn, particle) records in the same place and records every particle of the configured id range at every turn of the window.", "quantifier": "every monitor configuration and every set of particle ids/turns", "why_tests_cant": "index arithmetic over unbounded configurations", "anchors": ["xtrack/monitors/particles_monitor.h", "xtrack/monitors/particles_monitor.py"]}
{"id": "C16", "title": "LastTurnsMonitor returns the last turns in order", "statement": "Reading a LastTurnsMonitor gives for each particle its last N recorded turns in chronological order, ending with the last recorded turn before loss (or the end of tracking).", "quantifier": "every N, every every_n_turns, every loss turn", "why_tests_cant": "unbounded histories of writes in a ring buffer", "anchors": ["xtrack/monitors/last_turns_monitor.h", "xtrack/monitors/last_turns_monitor.py"]}
{"id": "C17", "title": "Interaction records keep every record until full, under any thread schedule", "statement": "When several particles are tracked in parallel and write in the same interaction record table, each granted slot is given to exactly one writer, slots lie inside the table, slots are granted until the table is full, and the final counter equals min(number of requests, capacity).", "quantifier": "every number of threads, every capacity and every interleaving of the atomic steps", "why_tests_cant": "interleavings cannot be enumerated by tests", "anchors": ["xtrack/internal_record.py:RecordIndex_get_slot"]}
{"id": "C18", "title": "Random generator states stay valid and outputs stay in [0,1)", "statement": "Seeding never gives a degenerate generator state, the state stays non-degenerate for ever, and the uniform generator returns numbers in [0, 1) at each call.", "quantifier": "every seed, every number of calls", "why_tests_cant": "2^32 seeds and unbounded sequences of calls", "anchors": ["xtrack/particles/rng_src/base_rng.h", "xtrack/random/random_src/uniform.h"]}
{"id": "C19", "title": "Beam position/size monitors accumulate in the right slot", "statement": "Each particle passage is accumulated in at most one slot, which lies in the buffer and corresponds to its sampling interval; the mean reported by the monitor is the mean over exactly the recorded passages of the slot.", "quantifier": "every sampling/revolution frequency ratio, turn range and arrival time", "why_tests_cant": "continuum of arrival times, unbounded turns", "anchors": ["xtrack/monitors/beam_position_monitor.h", "xtrack/monitors/beam_size_monitor.h"]}
{"id": "C20", "title": "Placements resolve to the requested positions", "statement": "When env.new_line(components) succeeds in resolving positions, every component specified with at=, from_=, anchor=, from_anchor= satisfies the placement equation it states, and every component without at= starts where the preceding component ends.", "quantifier": "every list of components, every nesting of references, every reference order", "why_tests_cant": "reference graphs of any shape and depth", "anchors": ["xtrack/composer/resolve_positions.py:_resolve_s_positions"]}
{"id": "C21", "title": "Position resolution terminates, is order independent and fails exactly on missing or circular references", "statement": "Resolution always terminates; with unique names the solution is unique, so it does not depend on the order in which the references are processed; an error is raised exactly when some reference chain does not reach an absolutely placed component.", "quantifier": "every list of components", "why_tests_cant": "reference graphs of any shape", "anchors": ["xtrack/composer/resolve_positions.py:_resolve_s_positions"]}
{"id": "C22", "title": "Ordering of placed elements is a permutation sorted along s that honours same-s references", "statement": "The order in which placed elements end up in the line is a permutation of the placements, sorted by position within tolerance, in which elements at the same s respect before/after requests, or an error is raised for circular requests.", "quantifier": "every list of resolved placements in which being within the tolerance of each other is transitive and no thin element sits in the middle of a thick one", "why_tests_cant": "sorting with ties and insertion constraints over lists of any length", "anchors": ["xtrack/composer/ordering.py:_sort_places", "xtrack/composer/ordering.py:_order_elements_at_same_s"]}
{"id": "C23", "title": "Built lines put elements where requested", "statement": "In the line generated from placements each element starts at the requested s (exactly if every gap is zero or larger than the tolerance, and in any case within the tolerance times the number of elements before it), the gaps are filled with drifts of positive length, elements that overlap by more than the tolerance are rejected, and the total length is the requested one.", "quantifier": "every ordered list of placements, any gap pattern", "why_tests_cant": "accumulated tolerance over lines of any length", "anchors": ["xtrack/composer/composer.py:_generate_element_names_with_drifts"]}
{"id": "C24", "title": "Cutting elements at given positions", "statement": "line.cut_at_s(list) gives a line of the same total length, with the same elements outside the cut ones, in which every requested s that lies in the line is within tolerance of an element boundary.", "quantifier": "every line of elements with non-negative lengths of which at least one is thick, every list of positions not after the end of the line, in any order with repetitions; names ending with _entry or _exit belong to markers", "why_tests_cant": "unbounded lines and position lists", "anchors": ["xtrack/line.py:Line.cut_at_s", "xtrack/line.py:Line._elements_intersecting_s"]}
{"id": "C25", "title": "Inserting elements preserves the rest of the line", "statement": "line.insert leaves the line length unchanged, puts every inserted element at the requested position exactly once, keeps every element (or part of an element, after cutting at the ends of the insertions) which does not intersect an insertion at the same position and in the same order, and keeps nothing else.", "quantifier": "every line with elements of non-negative length and every set of insertions inside the line, thin or thick, absolute or relative, that do not overlap and such that any two ends of elements or insertions are equal or more than twice s_tol apart", "why_tests_cant": "unbounded configurations of thin and thick elements at boundaries", "anchors": ["xtrack/line.py:Line.insert"]}
{"id": "C26", "title": "Removing and replacing elements preserve positions", "statement": "line.remove replaces thick elements by drifts of the same length and drops thin ones, so that all other elements stay at the same s; line.replace keeps all positions, and is refused if lengths differ; both up to the tolerance s_tol per selected element.", "quantifier": "every line and selection of names", "why_tests_cant": "repeated names, lines of any length", "anchors": ["xtrack/line.py:Line.remove", "xtrack/line.py:Line.replace"]}
{"id": "C27", "title": "Line algebra: cycling, mirroring, repetition and concatenation", "statement": "Cycling keeps the cyclic order and cycling by the complementary amount restores the line; mirroring twice is the identity, mirrors positions about the line centre; n*line and line1+line2 have the length and element sequence of the concatenation, with (a+b) mirrored equal to mirrored b + mirrored a.", "quantifier": "every line, every starting element", "why_tests_cant": "algebraic laws over all lists", "anchors": ["xtrack/line.py:Line.cycle", "xtrack/line.py:Line.mirror", "xtrack/line.py:Line.__add__", "xtrack/line.py:Line.__rmul__", "xtrack/composer/composer.py:Composer.mirror"]}
{"id": "C28", "title": "Slicing weights sum to one and preserve length", "statement": "For every slicing scheme the element (thin slices) and drift weights each sum to one, the number of kicks equals the slicing order and the sliced element has the same total length and strength as the original, with the slices ordered along s.", "quantifier": "every slicing order and element length, custom cut positions (increasing and inside the element for positive weights); names ending with _entry or _exit belong to markers; slices of slices are included, except for the offsets", "why_tests_cant": "all slicing orders", "anchors": ["xtrack/slicing.py:Uniform", "xtrack/slicing.py:Teapot", "xtrack/slicing.py:Custom", "xtrack/slicing.py:Slicer._make_slices"]}
{"id": "C29", "title": "The last matching slicing strategy wins", "statement": "Each element is sliced with the last strategy in the list which matches it by name and type; elements matched by none raise an error, thin elements are left untouched.", "quantifier": "every list of strategies and elements", "why_tests_cant": "arbitrary strategy lists", "anchors": ["xtrack/slicing.py:Slicer._scheme_for_element", "xtrack/slicing.py:Strategy.match_element"]}
{"id": "C30", "title": "Merging consecutive drifts and removing passive elements preserves tracking", "statement": "merge_consecutive_drifts, remove_zero_length_drifts, remove_markers and remove_inactive_multipoles leave the line length and the transfer of every particle through the line unchanged.", "quantifier": "every line, every particle; for the merging of drifts, every line in which no element is a replica or slice of another one; for the removal of multipoles, every particle moving forward and multipoles which are not thick", "why_tests_cant": "every line composition and continuum of particle states", "anchors": ["xtrack/line.py:Line.merge_consecutive_drifts", "xtrack/line.py:Line.remove_zero_length_drifts", "xtrack/line.py:Line.remove_markers", "xtrack/line.py:Line.remove_inactive_multipoles"]}
{"id": "C31", "title": "Removing redundant apertures does not change which particles are lost", "statement": "remove_redundant_apertures only removes apertures not in keep, and every particle tracked through the reduced line is lost, or arrives with the same coordinates, exactly as through the original line.", "quantifier": "every line and every particle moving forward; apertures used once in the line, convex and not tilted about x or y, drifts of length not negative, any other elements", "why_tests_cant": "continuum of trajectories, aperture shapes and line structures", "anchors": ["xtrack/line.py:Line.remove_redundant_apertures"]}
{"id": "C32", "title": "Merging consecutive multipoles preserves tracking", "statement": "merge_consecutive_multipoles replaces each longest run of neighbouring multipoles which are thin, have no hxl and no transverse rotation and are not in keep by one multipole, named after all of them and having the sums of their strengths at every order; it leaves the other elements of the environment as they are and the transfer of every particle through the line unchanged, forwards and backwards.", "quantifier": "every line, with repeated elements or not, every particle, every multipole order, any relative strengths; the merged multipoles are neither shifted nor tilted, and the names built from theirs are not in use", "why_tests_cant": "continuum of states, unbounded orders", "anchors": ["xtrack/line.py:Line.merge_consecutive_multipoles"]}
{"id": "C33", "title": "Drifts handed out by the environment have the requested length", "statement": "Each drift that the environment generates for a requested length has this length, whatever has been done before with lines of the environment.", "quantifier": "every history of line building, slicing, cutting, removal and renaming, and of merging of drifts on lines in which no generated drift occurs exactly once", "why_tests_cant": "depends on the history of operations sharing the same environment", "anchors": ["xtrack/environment.py:Environment._get_drift", "xtrack/line.py:Line.merge_consecutive_drifts"]}
{"id": "C34", "title": "Making repeated elements unique", "statement": "replace_all_repeated_elements yields a line in which each name occurs once, with unchanged element contents in unchanged order, and never captures a name already in use.", "quantifier": "every line with any repetition pattern and any pre-existing names", "why_tests_cant": "name generation vs. arbitrary pre-existing names", "anchors": ["xtrack/line.py:Line.replace_all_repeated_elements"]}
{"id": "C35", "title": "Filtering elements preserves length and the selected elements", "statement": "filter_elements keeps selected elements unchanged at the same s and the total line length.", "quantifier": "every line and mask, if the elements filtered out are not drifts and are not also used, directly or through replicas and slices, at selected places", "why_tests_cant": "all masks on lines of any length", "anchors": ["xtrack/line.py:Line.filter_elements"]}
{"id": "C36", "title": "check_aperture reports every thick active element without aperture protection", "statement": "line.check_aperture reports a problem for an active element if and only if no aperture stands at its entry, or it is thick and no aperture stands at its exit; nothing is reported for markers, drifts, apertures and other elements which need none, and the printed lists are the elements with a problem.", "quantifier": "every line with lengths not negative; the elements downstream of the first aperture, the thick ones longer than the tolerance of 1e-6 m", "why_tests_cant": "all placements of apertures relative to active elements", "anchors": ["xtrack/line.py:Line.check_aperture"]}
{"id": "C37", "title": "Drifts compose and are undone by backtracking", "statement": "Tracking through two drifts of lengths L1, L2 equals tracking through a drift of length L1+L2 (both drift models), drift slices reproduce the whole drift, and backtracking restores every coordinate.", "quantifier": "every length and every particle with physical momentum", "why_tests_cant": "continuum of states", "anchors": ["xtrack/beam_elements/elements_src/track_drift.h", "xtrack/beam_elements/elements_src/drift.h", "xtrack/beam_elements/elements_src/drift_slice.h"]}
{"id": "C38", "title": "Rotations and shifts are undone by backtracking", "statement": "Backtracking through SRotation, XRotation, YRotation, Rotation, XYShift, ZetaShift, Translation restores every coordinate of the particle; consecutive s-rotations add angles.", "quantifier": "every angle/shift and every particle in the domain where the map is defined", "why_tests_cant": "continuum of states", "anchors": ["xtrack/beam_elements/elements_src/track_srotation.h", "xtrack/beam_elements/elements_src/track_xrotation.h", "xtrack/beam_elements/elements_src/track_yrotation.h", "xtrack/beam_elements/elements_src/rotation.h", "xtrack/beam_elements/elements_src/track_xyshift.h"]}
{"id": "C39", "title": "Magnet integration is undone by backtracking", "statement": "For each integrator (uniform, teapot, yoshida4), model and number of kicks, tracking forward through the body of a magnet (or of a slice of it) and then backtracking restores the particle.", "quantifier": "every number of kicks, weight, multipole content (relative ones included) and curvature; no radiation, no edges; for straight drift-kick and bend-kick models every particle, for curved models, solenoids and the matrix model every particle for which the drifts on the way are meaningful (C39_matrix_refuted: the matrix model does not restore zeta in a bend without curvature and gradient)", "why_tests_cant": "unbounded numbers of kicks, continuum of states", "anchors": ["xtrack/beam_elements/elements_src/track_magnet.h:track_magnet_body_single_particle", "xtrack/beam_elements/elements_src/track_magnet_kick.h"]}
{"id": "C40", "title": "Magnet integrators traverse the full length and apply the full strength", "statement": "For each integrator and number of kicks the drifts add up to the magnet length and the kicks to the integrated strength: s advances by the length (times the weight of a slice), and a straight dipole corrector changes px and py by its integrated strengths whatever the integrator.", "quantifier": "every number of kicks, integrator, weight and drift model (C40_solenoid_refuted: solenoid steps below 1e-9; C40_curvature_refuted: the curvature hxl alone does not make a thick multipole kick)", "why_tests_cant": "unbounded number of kicks", "anchors": ["xtrack/beam_elements/elements_src/track_magnet.h:track_magnet_body_single_particle"]}
{"id": "C41", "title": "Misalignments cancel outside the element and are undone by backtracking", "statement": "Entry and exit transformations of a misaligned element give the same particle seen from the displaced frame; a misaligned element without field (straight, or a bend without spin) acts as the element in place; entry, exit and the whole element are undone by backtracking when the body is; the transformations between consecutive slices of the element cancel.", "quantifier": "every shift, rotation, tilt and anchor, every number and length of slices, every particle which moves forward in the frames in between", "why_tests_cant": "continuum of parameters", "anchors": ["xtrack/beam_elements/elements_src/track_misalignments.h", "xtrack/headers/track_local_particle_with_transformations.h"]}
{"id": "C42", "title": "Thin slices of a multipole add up to the whole", "statement": "Tracking through thin slices of an element one after the other, forwards or backwards, gives the same total kick as one thin slice with the sum of the weights; with weights adding up to one, the kick of the parent element.", "quantifier": "every number of slices and positive weights, every multipole content and curvature h; hxl = 0 (C42_hxl_refuted: every slice of a curved thin multipole applies the whole hxl)", "why_tests_cant": "all slicing orders and orders of multipoles", "anchors": ["xtrack/beam_elements/elements_src/thin_slice_multipole.h", "xtrack/beam_elements/slice_elements_thin.py"]}
{"id": "C43", "title": "Multipole feed-down is the exact re-expansion of the field", "statement": "The multipole strengths given by feed_down for a displaced and rolled multipole and an orbit generate at every offset from the orbit the same field as the displaced original; tracking a particle through the misaligned multipole changes it as the multipole of the feed-down strengths does. Truncating the output only drops the orders above the limit.", "quantifier": "every multipole order, shift and roll", "why_tests_cant": "unbounded orders", "anchors": ["xtrack/feed_down.py"]}
{"id": "C44", "title": "Survey frames stay orthonormal and can be started anywhere", "statement": "Every frame of the survey is orthonormal and right-handed; starting the survey from any element with the frame given by the full survey reproduces the full survey, both downstream and upstream.", "quantifier": "every sequence of bends, RBends, rotations, shifts and slices, any starting element and any frame; restarting from frames whose vertical axis has a component along the global one (not rolled or raised by a right angle)", "why_tests_cant": "induction over lines of any length", "anchors": ["xtrack/survey.py:advance_element", "xtrack/survey.py:get_survey"]}
{"id": "C45", "title": "Aperture checks kill exactly the particles outside the shape", "statement": "A particle survives an aperture if and only if its transverse position is inside the shape: closed rectangle, ellipse (also after changes of its half axes), their intersection, racetrack, or polygon by the even-odd rule, on CPU and GPU.", "quantifier": "every position and every aperture parameter accepted by the constructors, half axes not zero, polygons with any number of vertices containing the origin, positions off the boundary for polygons", "why_tests_cant": "continuum of positions", "anchors": ["xtrack/beam_elements/elements_src/limitrect.h", "xtrack/beam_elements/elements_src/limitellipse.h", "xtrack/beam_elements/elements_src/limitrectellipse.h", "xtrack/beam_elements/elements_src/limitracetrack.h", "xtrack/beam_elements/elements_src/limitpolygon.h"]}
{"id": "C46", "title": "Pipeline messages are delivered once, in order and to the right element", "statement": "In pipeline mode the messages received over a channel (element, sender, receiver, internal tag) are those sent over it, once each and in sending order; different channels never mix. is_ready_to_receive tells whether a message waits, is_ready_to_send whether none was sent at this turn (and, with MPI, the last one was received).", "quantifier": "every registration of elements and particles, each name once and before the first message, and every sequence of sends, probes and receives which leaves buffers unchanged while their message waits; all ranks with MPI, one rank with the default communicator", "why_tests_cant": "histories of any length and any registration order", "anchors": ["xtrack/pipeline/core.py", "xtrack/pipeline/manager.py"]}
{"id": "C47", "title": "Replica resolution terminates", "statement": "Resolving a chain of replicas returns the first non-replica element of the chain, and raises an error on a circular chain, whatever its length.", "quantifier": "every dictionary of elements", "why_tests_cant": "chains and cycles of any length", "anchors": ["xtrack/base_element.py:Replica.resolve"]}
{"id": "C48", "title": "Importing a line in another environment preserves it", "statement": "env.import_line(line) gives a line whose element at each position is a copy, expressions included, of the one at this position, with parents of slices and replicas copied too, and does not change any element already in the environment; common variables keep their values unless overwrite_vars is set.", "quantifier": "every source line and every pre-existing environment content such that the names with the suffix (or the names given for renaming) belong neither to the environment nor to other elements of the line", "why_tests_cant": "arbitrary name clashes", "anchors": ["xtrack/environment.py:Environment.import_line", "xtrack/environment.py:Environment._import_element"]}
{"id": "C49", "title": "Loss location refinement moves each lost particle to the first interpolated aperture it does not pass", "statement": "refine_loss_location places equidistant apertures, not further than ds apart, between an aperture and the one before it, and moves each particle lost there to the first of them which the trajectory of that particle does not pass (or to the last one). Particles which are not lost, which are lost elsewhere or at an aperture without one upstream, or for which the upstream aperture is not further than ds, keep their coordinates, and state and at_element of all particles are kept, whatever the order in which tracking leaves the particles.", "quantifier": "every line in which only thick elements have a length and apertures are thin, every ds > 0, list of distinct apertures, set of particles and invertible tracking, provided that between each listed aperture and the one before it all elements can be tracked back and none is marked to be skipped", "why_tests_cant": "unbounded numbers of apertures, arbitrary spacing", "anchors": ["xtrack/loss_location_refinement/loss_location_refinement.py"]}
{"id": "C50", "title": "MultiSetter reads back what it wrote", "statement": "After ms.set_values(v), ms.get_values() and the attributes of the elements are v and no other attribute of any element changes; ms.set_values(ms.get_values()) changes nothing. With skip_inconsistent_type_check, elements with another type are left alone and read as zero.", "quantifier": "every list of distinct elements, every attribute or array item, every values in the range of the type, every order in which threads write", "why_tests_cant": "aliasing through offsets for arbitrary layouts", "anchors": ["xtrack/multisetter/multisetter.py", "xtrack/multisetter/multisetter.h"]}
{"id": "C51", "title": "Reversing an element twice gives the element back", "statement": "Reversing a line (elements and order) twice is the identity. Reversing it once gives multipole strengths of alternating sign, exchanged edges and, for a multipole with tilt and vertical shift, the kicks that the same particle gets from the original when it travels in the opposite direction.", "quantifier": "every element of a supported class and every parameter value; lines in which every element is placed once; no horizontal shift (shift_x is not mirrored)", "why_tests_cant": "continuum of parameters, all element types", "anchors": ["xtrack/environment.py:_reverse_element", "xtrack/mad_parser/loader.py:load_madx_lattice"]}
{"id": "C52", "title": "Flattening nested sequences keeps positions and gives unique names", "statement": "Flattening nested sequences puts every element at the sum of the positions of the nested sequences (or relative to the node it refers to), in the order of the definition, and the generated names are pairwise distinct.", "quantifier": "every nesting depth, every dictionary of elements and sequences; for the names: every naming scheme with a separator character, given names which do not contain it and are not numbers (the default scheme can give the same name twice)", "why_tests_cant": "trees of any depth and names", "anchors": ["xtrack/line.py:flatten_sequence", "xtrack/line.py:_next_name"]}
{"id": "C53", "title": "Particles are tracked independently in every execution context", "statement": "Tracking a set of particles gives every particle exactly the coordinates, state and counters it gets when tracked alone, on a GPU thread, on a single CPU thread and with OpenMP with any number of threads; only the order of the particles in the object can change.", "quantifier": "every line, track call, set of particles, pattern of losses and number of threads", "why_tests_cant": "all particle arrays, loss patterns and thread partitions", "anchors": ["xtrack/tracker.py:Tracker._build_kernel track_line", "xtrack/headers/track.h"]}
{"id": "C54", "title": "Setting the angles of a particle", "statement": "After setting (adding to, scaling) both transverse angles of a particle, exact or small-angle, reading the angles gives the requested values, and the momentum deviation is unchanged.", "quantifier": "every particle with physical momentum and every pair of angles (C54_set_exact_yp_refuted: the setter of a single exact angle does not set it)", "why_tests_cant": "identity over the reals involving square roots; tests sample a few values with tolerances", "anchors": ["xtrack/particles/particles.py:gen_local_particle_api"]}
{"id": "C55", "title": "Batches of random samples: row i is the stream of particle i", "statement": "RandomUniform.generate(n_samples, particles) returns an array whose row i contains the successive draws of the generator of the particle with id i, independently of the order of the particles in the container.", "quantifier": "every set of alive particles with ids 0..n-1 in any order and every number of samples (C55_ids_refuted: other ids write outside the buffer)", "why_tests_cant": "arbitrary permutations, sizes and numbers of samples", "anchors": ["xtrack/random/random_generators.py:RandomUniform.generate", "xtrack/random/random_src/uniform.h"]}
{"id": "C56", "title": "MultiElementMonitor returns each (turn, particle, observed element)", "statement": "monitor.get(coordinate, obs_name, particle_id, turn) of a monitor created by line.track(multi_element_monitor_at=[...]) returns the coordinate that the particle had at the entrance of the observed element at that turn; the monitor writes inside its array only.", "quantifier": "every list of distinct observed elements in any order, set of active particles, number of turns and history of passages, turns counted from zero; ids of the tracked particles (C56_id_below_range_refuted: a smaller id silently returns another particle)", "why_tests_cant": "arbitrary permutations of observed elements and sparse particle ids", "anchors": ["xtrack/monitors/multi_element_monitor.h", "xtrack/monitors/multi_element_monitor.py", "xtrack/tracker.py:Tracker._get_multi_element_monitor"]}
{"id": "C57", "title": "BeamStatsMonitor statistics are those of the particles of each bunch and slice", "statement": "BeamStatsMonitor accumulates each passage in at most one (record, bunch, slice), given by the turn and by the bucket and slice intervals of zeta (of the effective turn for coasting beams); means and covariances, also at coarser levels, are the weighted mean and covariance over exactly the passages of the entry, and slice_index(zeta, slot) names the slice in which tracking accumulates the particle.", "quantifier": "every monitor mode, turn window, set of selected slots, spacing, slices and any list of passages in any order; slices not wider than the bunch spacing for the converse of slice_index (C57_wide_range_refuted)", "why_tests_cant": "continuum of positions, arbitrary numbers of bunches, slices and turns", "anchors": ["xtrack/monitors/beam_stats_monitor.h", "xtrack/monitors/beam_stats_monitor/beam_stats_monitor.py"]}
{"id": "C58", "title": "Without fields, tracking and survey agree", "statement": "A particle tracked from the start to the end of a line without fields (drifts, reference-frame arcs, rotations, shifts) is the same straight-moving particle described in the surveyed frame at the end: its position, direction and arrival time are those of the free particle seen from the last surveyed frame relative to the first.", "quantifier": "every list of drifts, XRotation, YRotation, SRotation, Rotation, XYShift, Translation and field-free arcs (any tilt), every physical particle moving forward in each frame, any initial frame and starting element of the survey", "why_tests_cant": "relates two independent implementations for lines of any length and all real coordinates", "anchors": ["xtrack/survey.py:advance_element", "xtrack/survey.py:get_survey", "xtrack/beam_elements/elements_src/track_xrotation.h", "xtrack/beam_elements/elements_src/track_yrotation.h"]}
{"id": "C59", "title": "Slicing does not change the survey", "statement": "Replacing a bend or an RBend by its slices leaves every surveyed frame before and after the element unchanged.", "quantifier": "every line and position of the element in it, every weights with sum one, Bend and RBend slices with curved body (thick) or straight body (thick or thin), any tilt, shift and angle difference; for zero angle without angle difference (C59_angle_diff_refuted)", "why_tests_cant": "all slicing schemes and all real angles and lengths", "anchors": ["xtrack/beam_elements/slice_base.py", "xtrack/beam_elements/elements.py:RBend", "xtrack/survey.py:advance_element"]}
{"id": "C60", "title": "The reversed survey is the survey of the reversed line", "statement": "SurveyTable.reverse applied twice gives the original table; the reversed table is the survey of the elements in reversed order, each seen from frames turned by half a turn about the vertical axis, started from the reversed last frame.", "quantifier": "every survey; elements with a survey of their own other than RBend for the second part", "why_tests_cant": "lines of any length", "anchors": ["xtrack/survey.py:SurveyTable.reverse"]}
{"id": "C61", "title": "The area and the normals of a polygonal aperture are those of the polygon", "statement": "The signed area of a LimitPolygon is the area of triangles added over its pieces: independent of the first vertex and of the position, with the sign of the sense of the vertices. The stored normals have length one, are perpendicular to the edges and point to the side with the vertices.", "quantifier": "every number and position of vertices; the sense of the normals for polygons with all the vertices on one side of each edge", "why_tests_cant": "any number of vertices, continuum of positions", "anchors": ["xtrack/beam_elements/limit_polygon.py:LimitPolygon.get_area", "xtrack/beam_elements/limit_polygon.py:LimitPolygon.__init__", "xtrack/beam_elements/limit_polygon.py:LimitPolygon.centroid"]}
{"id": "C62", "title": "Lines from sequence definitions have every element at the requested position", "statement": "Line.from_sequence gives a line of the requested length in which every element of the (nested) sequence definition has its entry, centre or exit at the requested position, with only drifts in between; it is refused exactly when the elements do not fit in the given order, and with auto_reorder it is built whenever they fit in some order.", "quantifier": "every sequence definition, naming scheme, reference point and length; names of nodes distinct and not those given to drifts (a node named drift takes the place of a drift and changes the length); for auto_reorder: positions of entries, all different", "why_tests_cant": "unbounded numbers of nodes, arbitrary positions and names", "anchors": ["xtrack/line.py:Line.from_sequence", "xtrack/line.py:_next_name"]}
{"id": "C63", "title": "Tracking several lines together gives each branch its turns", "statement": "PipelineMultiTracker.track starts every branch in order and then, round after round, resumes in order exactly the branches which are on hold, until none is; branches which exchange nothing end as if each one was tracked alone, and the call ends if each of them alone does.", "quantifier": "every number of branches and every behaviour of them (which may depend on each other)", "why_tests_cant": "any number of rounds and any interaction of the branches", "anchors": ["xtrack/pipeline/multitracker.py:PipelineMultiTracker.track"]}
{"id": "C64", "title": "Coasting beams: every passage of a particle is seen in the turn of its arrival time", "statement": "In a line with SyncTime elements installed at its start, end and collective elements, tracking a coasting particle for N turns makes it pass these places in the same order, at the same arrival times and with the same coordinates as if it was tracked alone without them; turn k has exactly the passages whose arrival time is in the k-th time window of that place; windows do not overlap; no particle which is slower than the frame is rejected.", "quantifier": "every ring, number and position of collective elements, number of turns, particle with zeta below half a frame, and frame length, for motion between these places which does not depend on zeta and is not faster than the frame, with or without preparation of the particles, provided that at_turn of the first particle is zero in the first turn only", "why_tests_cant": "the arrival times and the number of turns a particle is held are unbounded", "anchors": ["xtrack/synctime.py"]}
{"id": "C65", "title": "A linear segment turns each particle by its tune and segments compose", "statement": "Seen in Courant-Snyder coordinates relative to the reference orbit and the dispersion at its two ends, LineSegmentMap turns each particle by 2 pi times the tune at its momentum deviation (the Taylor sum of the derivatives the user gave) plus the given detunings times its two actions. The actions, and the areas between particles of the same momentum when there is no detuning, do not change. Two segments that fit together act as the one segment which has the sum of tunes, derivatives, detunings and lengths, and n turns as the segment with n times these. Linear longitudinal motion keeps a particle on its ellipse.", "quantifier": "every particle, tunes, lists of derivatives of any length, detunings, optics with positive beta functions, dispersion and reference orbit, number of turns, for frozen or linear longitudinal motion without energy increments, damping and noise; not for segments with chromaticity whose tunes and detunings are all zero, nor for a second derivative given without the first, which the code handles wrongly; composition with linear longitudinal motion is for segments without chromaticity and buckets", "why_tests_cant": "optics, tunes and particles are continuous and the number of turns and derivatives unbounded", "anchors": ["xtrack/beam_elements/line_segment_map.py:LineSegmentMap.__init__", "xtrack/beam_elements/elements_src/linesegmentmap.h"]}
{"id": "C66", "title": "Twiss tables over part of a line or around its end are those of one propagated optics", "statement": "A twiss over a range of elements, with open initial conditions at a marker inside the range, at its start or at its end, and also for ranges that go around the end of the line, gives one table with each element of the range once and in order and the end point last; its columns are those of the one optics that is propagated from element to element and has the given values (positions, phase advances included) at the element where they are given. A start without an end gives one full turn, counted from zero. A periodic table asked for from another start has the same optics at each element, with position and phase advance counted on from that start.", "quantifier": "all lines (lengths, maps of the elements), ranges, positions of the initial conditions in the range, values; forward and reverse direction. Initial conditions are at elements without effect, one turn tables do not start at the first element, and a range around the end does not consist of a single non-marker element on the side away from the initial conditions (corner cases where the code fails, stated as separate theorems); the longitudinal phase of a periodic table with another start is excluded", "why_tests_cant": "tests compare a few ranges of one lattice; the table is glued from up to three pieces, each computed in a different direction, and an off by one in a seam shows only for particular ranges", "anchors": ["xtrack/twiss/handle_init_inside_range_and_line_wrap.py", "xtrack/twiss/twiss_table.py:TwissTable.concatenate", "xtrack/twiss/twiss.py:twiss_line"]}
{"id": "C67", "title": "Lattice functions obey the laws of linear optics", "statement": "The lattice functions that a twiss returns for the normal form matrices W along the line do not depend on the phases and norms chosen for the eigenvectors. Without coupling beta gamma - alfa^2 is 1 in each plane and W is returned in the form of Courant and Snyder; across a linear element alpha, beta, gamma and the phase follow from its 2x2 matrix. Phase advances are sums over the steps as long as each step is below half a turn, and after one turn they give the tune up to an integer. Dispersion and crab dispersion are the closed motion per unit of pzeta at zeta zero, and per unit of zeta at pzeta zero. The evaluation with full inverse agrees with the direct one for symplectic W, and Edwards-Teng functions are normalised in both planes.", "quantifier": "all real W matrices for which the quantities are defined (nonzero symplectic norm of each mode and nonzero leading component), all linear maps, all sequences of places, with exact arithmetic; groups of places at the same s have the phase of the first", "why_tests_cant": "tests compare with one other code on a few lattices; identities for coupled lattices, arbitrary eigenvector phases and for steps near half a turn are not settled by samples", "anchors": ["xtrack/twiss/lattice_functions_from_W.py:_get_lattice_functions", "xtrack/twiss/lattice_functions_from_W.py:_renormalize_eigenvectors", "xtrack/twiss/lattice_functions_from_W.py:_extract_twiss_parameters_with_inverse"]}
{"id": "C68", "title": "The linear normal form of a one-turn matrix is a normal form, with modes identified independently of the eigensolver's order", "statement": "get_linear_normal_form picks, whatever the order in which the eigensolver returns the six eigenvectors, exactly the three of positive norm (one of each conjugate pair); the third has the largest pzeta component, the second a larger y component than the first, so that uncoupled planes come out as x, y, zeta. The returned W and R satisfy M W = W R with R the rotation by the angles of the selected eigenvalues; for a symplectic M with eigenvalues that are neither equal nor conjugate W is symplectic; the imaginary column of each mode is zero in the row of its plane and the real one is not negative there. symplectify gives a symplectic matrix whenever the inverse it takes exists, and leaves a symplectic matrix unchanged.", "quantifier": "All real 6x6 matrices on the unit circle with three conjugate pairs of eigenvalues with different imaginary parts (different sin of the tunes), all orders, phases and norms of the eigenvectors; all matrices for symplectify.", "why_tests_cant": "Tests check a few lattices with one order of eigenvectors; the eigensolver's order and phases differ between platforms and lattices.", "anchors": ["xtrack/linear_normal_form.py: get_linear_normal_form, sort_modes, _build_w_matrix_from_eigenvectors, healy_symplectify"]}
{"id": "C69", "title": "Environments and lines survive saving and loading", "statement": "Environment.from_dict(env.to_dict()) (hence env.copy()) gives back the elements (class, fields, associated aperture, extra data, prototype, replicas), the reference particle, the variables, the functions, the expressions, the beam-beam configuration, the metadata, the lines (element names, configuration, mode, names before slicing, reference particle, metadata, composer) and the particles; expressions in composers come back as their texts, and a second copy changes nothing more. Line.from_dict(line.to_dict()) gives back the line, the elements, the variables and the particles of its environment. line.copy() of a line in normal mode keeps the names, the configuration, the reference particle and the metadata. The strengths knl and ksl of magnets are the same after saving and loading.", "quantifier": "every environment with any number of elements, variables, functions, particles and lines in normal mode, whose reference particles have a t_sim different from zero and whose lines have a reference particle if the environment has one; magnets of any order whose lists of strengths are zero or contain a strength above 1e-16", "why_tests_cant": "The tests save and load a few lattices and compare tables; they do not cover all combinations of optional keys, and none loads twice from the same dictionary with functions, saves a composing line with a reference particle, or saves a line without reference particle in an environment that has one.", "anchors": ["xtrack/environment.py: Environment.to_dict, Environment.from_dict, Environment.copy, _make_var_management, _deserialize_elements", "xtrack/line.py: Line.to_dict, Line.from_dict, Line.copy, Line.particle_ref", "xtrack/base_element.py: BeamElement.to_dict, BeamElement.from_dict, Replica", "xtrack/composer/composer.py: Composer.to_dict, Composer.from_dict, Place", "xtrack/functions.py: Functions.to_dict, Functions.from_dict", "xtrack/beam_elements/_common.py: _HasKnlKsl.to_dict, _prepare_multipolar_params"]}
{"id": "C70", "title": "Particle numbers, names, charges and masses agree with each other", "statement": "The functions of the particle data group table are consistent. For an ion with 1 to 118 protons and up to 999 nucleons get_pdg_id_ion gives a number from which get_properties_from_pdg_id reads the same protons and nucleons, and get_pdg_id_from_name finds this number from each of the three names (long, short with superscripts, short without) that get_name_from_pdg_id gives to it. Any writing of an ion is understood: the symbol or the full name of the element in any case, the mass number before or after it, with superscripts or not, with spaces, dashes, dots or underscores anywhere, even where the name of one element is part of the name of another (tin in astatine, anti in antimony). Each particle of the internal table and each of their antiparticles is found from its names and accepted alternatives. The opposite number has the opposite charge and proton number and the same mass number; tabulated masses are the same for particle and antiparticle. A charged particle is found again by get_pdg_id_from_mass_charge from the mass given by get_mass_from_pdg_id and its charge, also when the mass of an ion is the estimate of A atomic mass units.", "quantifier": "all proton and mass numbers, all texts that are a writing of an ion, all integers as particle numbers, all entries of the table of names and of masses", "why_tests_cant": "The names are free text with unboundedly many writings, and elements whose names contain other names are found by order-dependent substring search; tests check a few names. Anti-ions, isomers, mass numbers of four digits, nuclei without neutrons and neutral antiparticles violate the round trip (refuted theorems).", "anchors": ["xtrack/particles/pdg.py:get_pdg_id_from_name", "xtrack/particles/pdg.py:get_properties_from_pdg_id", "xtrack/particles/pdg.py:get_name_from_pdg_id", "xtrack/particles/pdg.py:get_pdg_id_ion", "xtrack/particles/pdg.py:get_pdg_id_from_mass_charge", "xtrack/particles/pdg.py:get_mass_from_pdg_id", "xtrack/particles/masses.py"]}
{"id": "C71", "title": "RF elements give the energy and deflection of their settings", "statement": "Tracking through a Cavity or a slice of it gives a particle of charge q exactly the weighted mean of q*voltage*sin(phase seen) over the places where kicks are given, with weights adding up to one, whatever the integrator and the number of kicks; thin slices change only the energy (and angles accordingly); a cavity without voltage is a drift; tracking backwards undoes any RF element; cavities following the absolute time agree with those following the reference particle when a whole number of RF periods fits in the simulated time of a turn (in particular with a whole harmonic and the revolution time); thin CrabCavities and RFMultipoles of any order give the deflections and energies of their field.", "quantifier": "All RF elements (any length, voltage, frequency or harmonic, lag, phase, taper, number of kicks, known model and integrator, any multipole order), all particles with consistent energy variables that pass the element, all slice weights; backtracking without the option of preserved angles for deflecting elements (refuted with it); absolute_time of RFMultipole, tapering of CrabCavity and reference charges other than one for the crab deflection are excluded (refuted).", "why_tests_cant": "The statement ranges over all real settings, coordinates and numbers of kicks; tests compare a few tracked particles with a reference implementation.", "anchors": ["xtrack/beam_elements/elements_src/track_rf.h:track_rf_particles", "xtrack/beam_elements/elements_src/track_rf.h:track_rf_body_single_particle", "xtrack/beam_elements/elements_src/track_rf.h:track_rf_kick_single_particle", "xtrack/beam_elements/elements_src/cavity.h", "xtrack/beam_elements/elements_src/crab_cavity.h", "xtrack/beam_elements/elements_src/rfmultipole.h", "xtrack/beam_elements/slice_elements_thin.py:ThinSliceCavity"]}
{"id": "C72", "title": "Tracking is symplectic", "statement": "Tracking a particle through an element without radiation, forwards or backwards, is a differentiable map whose derivative leaves the symplectic form of (x, px), (y, py) and (zeta, ptau / beta0) as it is, so that phase-space volumes and actions are kept over any number of turns. This holds for drifts, shifts, rotations, misaligned straight and curved elements, all magnets with every model, integrator and number of kicks, cavities, and lines of them. For crab cavities and the dipole part of an RFMultipole it holds when the reference particle has unit charge; it does not hold for RFMultipoles of order one or more, and not with the option to preserve angles.", "quantifier": "Every element with every length, strength, multipole order, misalignment, model, integrator and number of kicks, every particle with consistent energy variables which goes forward through the element, every direction of tracking, and lines of any length", "why_tests_cant": "The derivative of the map is a limit over particles around each particle; tests compare a finite-difference Jacobian at a few particles within a tolerance, which cannot tell a small violation from rounding.", "anchors": ["xtrack/beam_elements/elements_src/track_magnet.h:track_magnet_body_single_particle", "xtrack/beam_elements/elements_src/track_magnet_drift.h", "xtrack/beam_elements/elements_src/track_magnet_kick.h", "xtrack/beam_elements/elements_src/track_rf.h:track_rf_body_single_particle, track_rf_kick_single_particle", "xtrack/beam_elements/elements_src/track_misalignments.h", "xtrack/beam_elements/elements_src/drift.h, rotation.h, xyshift.h, zetashift.h, translation.h"]}
{"id": "C73", "title": "Edges, fringe fields and wedges", "statement": "The linear edges, the fringe fields of dipoles and multipoles and the wedges of magnet edges are symplectic, and so is tracking through a magnet with its active edges and its body (sector bends, rectangular bends with curved or straight body) for every particle which goes through. The dipole fringe is the canonical transformation generated by its fringe potential. Wedges in the same field add up, and a wedge of the opposite angle takes a particle back. The edges of a magnet without field do nothing, and without gap a linear and a nonlinear dipole edge focus by the same amount. Backtracking through a magnet whose active edges are linear, or suppressed, restores the particle; a particle which is tracked back through a nonlinear edge is lost instead of being tracked wrongly.", "quantifier": "Every edge with every face angle, fringe integral and gap, every magnet with multipoles of any order and every model, integrator and number of kicks, and every particle with consistent energy variables for which the roots and tangents in the maps are defined; for backtracking every magnet without solenoid field and every particle which carries no vector potential", "why_tests_cant": "The derivative of the map is a limit over particles around each particle, and the agreement of the code with the derivatives of the potential must hold at every momentum; tests compare a few particles with another code within a tolerance.", "anchors": ["xtrack/beam_elements/elements_src/track_magnet_edge.h", "xtrack/beam_elements/elements_src/track_dipole_fringe.h", "xtrack/beam_elements/elements_src/track_mult_fringe.h", "xtrack/beam_elements/elements_src/track_wedge.h", "xtrack/beam_elements/elements_src/track_dipole_edge_linear.h, track_dipole_edge_nonlinear.h", "xtrack/beam_elements/elements_src/track_magnet.h:track_magnet_particles", "xtrack/beam_elements/elements_src/dipoleedge.h, multipoleedge.h, wedge.h"]}
{"id": "C74", "title": "Reversed twiss tables describe the same beam in the reverse frame", "statement": "For a twiss table with a row for every element and one for the end point, values at the entry of the elements and advances counted from the first row: tw.reverse() succeeds, and reversing twice gives back the same table, column by column. The row of an element in the reversed table is the state of the beam at the exit of that element with x, zeta, py (and dx, dpy, alfx, alfy, the second order and crab dispersions of odd parity, the chromatic ax and ay, spin_x and spin_z) negated and the others kept; the end point is the former start. s and the phase advances count from the other end. The lattice function columns remain those of the W matrix of their row. The reversed multipole strengths give the kicks of the element as seen in the reverse frame. Initial conditions taken from the reversed table are the reversed initial conditions (TwissInit.reverse).", "quantifier": "all tables with any number of rows and any values of the columns, 4d and 6d, with the length of the line known or not; for the lattice functions, all W matrices whose modes are not degenerate, with or without coupling; all strengths up to order 5 and all positions. Excluded, where the code departs from it (refuted theorems): the longitudinal dispersion dzeta, which is negated twice; the columns hkick and vkick, of which the wrong one changes sign with respect to k0l, k0sl and angle; the vector potential ay of reversed initial conditions; tables with only_markers", "why_tests_cant": "a test compares a few columns for one machine, in practice without coupling, kickers or solenoid fields at the compared places, so a wrong sign of a column that is zero there or that is negated twice goes unnoticed; the agreement of about fifty columns with W for every optics and the association of names with rows need a proof over all tables", "anchors": ["xtrack/twiss/twiss_table.py: TwissTable.reverse, TwissTable.get_twiss_init", "xtrack/twiss/twiss_init.py: TwissInit.reverse", "xtrack/twiss/strengths.py: _reverse_strengths", "xtrack/line.py: Line.attr hkick, vkick"]}
{"id": "C75", "title": "The spin precesses as the equation of Thomas, Bargmann, Michel and Telegdi says", "statement": "Tracking the spin through a step of a magnet changes nothing but the spin and keeps its length. In the frame of the middle of the step the spin solves ds/dl = Omega x s exactly for the path length of the particle, so that steps add up. Without vertical momentum and vector potential, Omega is -1/(B rho) [(1 + G gamma) B_perp + (1 + G) B_par] with the field split along the direction of motion, and the field that makes the particle radiate is the part perpendicular to the motion. On the reference orbit of a bend, with the field estimated from the trajectory, the spin turns by G gamma times the angle of the bend with respect to the reference frame. Particles without spin are not touched, and particles with spin are lost (state -33) when tracked backwards.", "quantifier": "all fields, curvatures, lengths, momenta, spins and beam parameters; precession is exact where |Omega| > 1e-10 (below it the spin is left alone). For Omega and the radiating field: no vertical momentum and no vector potential. Excluded, where the code departs from it (refuted theorems): with vertical momentum the direction of motion is not a unit vector (1 - x'^2 + y'^2 instead of 1 - x'^2 - y'^2), and with a vector potential it is added to the momentum instead of subtracted", "why_tests_cant": "that the length of the spin is kept, that steps of any length add up and that the precession is the solution of a differential equation for every field cannot be sampled; tests use small vertical angles, for which the wrong sign of y'^2 is far below the tolerance", "anchors": ["xtrack/beam_elements/elements_src/track_magnet_radiation.h: magnet_spin, direction_of_motion, separate_par_perp_components, compute_b_perp_mod, magnet_estimate_field"]}
{"id": "C76", "title": "Exciters, AC dipoles and electron lenses follow their program", "statement": "An exciter kicks each particle with its multipole scaled by the sample of the time at which this particle passes, counted from the passage of the reference particle in the start turn; the waveform repeats until the end of the duration, and there is no kick after it nor earlier than one sample period before the start. An AC dipole oscillates with the turn number within the envelope of its four ramp turns (below 65536), and is a gradient in twiss mode. An electron lens gives only its residual kick in its hole, and elsewhere a radial kick, which outside the electrons is that of a line of electrons with the velocity given by the voltage. Backtracking undoes exciters, and electron lenses without residual kick.", "quantifier": "Every exciter with multipoles of any order and samples of any number, every duration, turn and arrival time; every AC dipole with increasing ramp turns and every turn; every electron lens and every particle", "why_tests_cant": "The sample index is a function of a real time over unboundedly many turns, with rounding at each boundary; tests look at a few turns and particles and do not visit the times just before the start or late turns.", "anchors": ["xtrack/beam_elements/elements_src/exciter.h", "xtrack/beam_elements/exciter.py::Exciter", "xtrack/beam_elements/elements_src/acdipole.h", "xtrack/beam_elements/elements_src/track_acdipole.h", "xtrack/beam_elements/elements_src/elens.h"]}
{"id": "C77", "title": "Taylor maps made from a line are the expansion of the line", "statement": "A second order map made from part of a line takes the closed orbit at its start to the closed orbit at its end and is the second order expansion of the line around it, with the first and second order matrices found by finite differences; the second differences are symmetric. If the line is itself a map of second order, the map is the line, for every orbit and all steps that are the same on both sides. Tracking evaluates the polynomial in (x, px, y, py, zeta, pzeta). Changing the sign of coordinates gives the map in the new coordinates. First order maps follow one another as the product of their matrices, and are second order maps without second order.", "quantifier": "Every part of a line seen as a map of six coordinates, every closed orbit, all finite difference steps, all coefficients and all particles", "why_tests_cant": "The feed-down of the orbit into the coefficients must be right for every orbit and every coefficient of a 6x6x6 tensor; tests compare a few particles on one machine within a tolerance, in which errors of the size of the orbit squared disappear.", "anchors": ["xtrack/beam_elements/second_order_taylor_map.py::SecondOrderTaylorMap.from_line", "xtrack/beam_elements/second_order_taylor_map.py::SecondOrderTaylorMap.scale_coordinates", "xtrack/beam_elements/elements_src/second_order_taylor_map.h", "xtrack/beam_elements/elements_src/firstordertaylormap.h", "xtrack/twiss/transfer_matrices.py::get_R_matrix", "xtrack/twiss/transfer_matrices.py::get_T_matrix_line"]}
