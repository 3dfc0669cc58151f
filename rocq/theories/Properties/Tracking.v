(** C01-C07, C53: track calls. *)
From Coq Require Import ZArith List Bool Permutation Reals.
From Verif.Model Require Import Kernel ParticleArray Collective.
From Verif.Spec Require Import Kernel ParticleArray Collective Position.
From Verif.Proofs Require Import Kernel ParticleArray KernelSim Collective HoldResume Counters.
From Verif.Proofs Require TrackingCases TrackingMore.
Import ListNotations.
Local Open Scope Z_scope.

(** * C01. Every track call applies a contiguous window of the periodic line. *)

(** By ele_start, ele_stop, num_turns. [stop <> Some L \/ n = 1] excludes an explicit
    [ele_stop = len(line)] over several turns, see [C01_stop_at_end_refuted]. *)
Theorem C01_track_window :
  forall L skip_end flag_monitor multi start stop turns i n,
  0 < L ->
  i = match start with Some e => e | None => 0 end -> 0 <= i < L ->
  n = match turns with Some n => n | None => 1 end -> 0 < n ->
  (forall j, stop = Some j -> 0 <= j <= L) ->
  stop <> Some L \/ n = 1 ->
  events_no_collective L skip_end (-1) flag_monitor multi false (mkTargs start stop None turns)
  = Some (window_events L i (window_count L i stop n) flag_monitor multi (negb skip_end)).
Proof. exact no_collective_window. Qed.
Print Assumptions C01_track_window.

(** By ele_start, num_elements. *)
Theorem C01_track_num_elements :
  forall L skip_end flag_monitor multi start i k,
  0 < L ->
  i = match start with Some e => e | None => 0 end -> 0 <= i < L -> 0 < k ->
  events_no_collective L skip_end (-1) flag_monitor multi false (mkTargs start None (Some k) None)
  = Some (window_events L i k flag_monitor multi (negb skip_end)).
Proof. exact no_collective_num_elements. Qed.
Print Assumptions C01_track_num_elements.

(** The elements applied are those of the window for every ele_stop. *)
Theorem C01_track_elements :
  forall L skip_end flag_monitor multi start stop turns i n,
  0 < L ->
  i = match start with Some e => e | None => 0 end -> 0 <= i < L ->
  n = match turns with Some n => n | None => 1 end -> 0 < n ->
  (forall j, stop = Some j -> 0 <= j <= L) ->
  option_map elements_of
    (events_no_collective L skip_end (-1) flag_monitor multi false (mkTargs start stop None turns))
  = Some (map (fun k => (i + Z.of_nat k) mod L) (seq 0 (Z.to_nat (window_count L i stop n)))).
Proof. exact no_collective_elements. Qed.
Print Assumptions C01_track_elements.

(** With an explicit ele_stop equal to the number of elements and more than one turn, the
    last turn is tracked to its end but its end-of-turn actions are not done. *)
Theorem C01_stop_at_end_refuted :
  exists L i n,
    0 < L /\ 0 <= i < L /\ 0 < n /\
    events_no_collective L false (-1) 0 false false (mkTargs (Some i) (Some L) None (Some n))
    <> Some (window_events L i (window_count L i (Some L) n) 0 false true).
Proof. exact TrackingCases.stop_at_end. Qed.
Print Assumptions C01_stop_at_end_refuted.

(** ele_start = 1, ele_stop = 1 and two turns in a line of three elements. *)
Example C01_case :
  events_no_collective 3 false (-1) 1 false false (mkTargs (Some 1) (Some 1) None (Some 2))
  = Some [Mon; Ele 1; Incr 1; Ele 2; Incr 1; EndTurn;
          Mon; Ele 0; Incr 1; Ele 1; Incr 1; Ele 2; Incr 1; EndTurn;
          Mon; Ele 0; Incr 1].
Proof. reflexivity. Qed.

(** * C02. Collective tracking applies the same elements and end-of-turn actions. *)
Theorem C02_collective_window :
  forall coll skip_end flag_monitor multi start stop turns i n,
  let L := Z.of_nat (length coll) in
  0 < L ->
  i = match start with Some e => e | None => 0 end -> 0 <= i < L ->
  n = match turns with Some n => n | None => 1 end -> 0 < n ->
  (forall j, stop = Some j -> 0 <= j <= L) ->
  exists t, events_collective coll skip_end (-1) flag_monitor multi (mkTargs start stop None turns) = Some t
  /\ filter not_monitor t = window_events L i (window_count L i stop n) 0 false (negb skip_end).
Proof. exact collective_window. Qed.
Print Assumptions C02_collective_window.

Theorem C02_collective_num_elements :
  forall coll skip_end flag_monitor multi start i k,
  let L := Z.of_nat (length coll) in
  0 < L ->
  i = match start with Some e => e | None => 0 end -> 0 <= i < L -> 0 < k ->
  exists t, events_collective coll skip_end (-1) flag_monitor multi (mkTargs start None (Some k) None) = Some t
  /\ filter not_monitor t = window_events L i k 0 false (negb skip_end).
Proof. exact collective_num_elements. Qed.
Print Assumptions C02_collective_num_elements.

(** Hence: whichever elements are collective, the call does what the non-collective call on
    the same line does, apart from monitor records. *)
Theorem C02_same_as_non_collective :
  forall coll skip_end flag_monitor multi start stop turns t,
  let L := Z.of_nat (length coll) in
  0 < L ->
  0 <= match start with Some e => e | None => 0 end < L ->
  0 < match turns with Some n => n | None => 1 end ->
  (forall j, stop = Some j -> 0 <= j < L) ->
  events_no_collective L skip_end (-1) flag_monitor multi false (mkTargs start stop None turns) = Some t ->
  exists t', events_collective coll skip_end (-1) flag_monitor multi (mkTargs start stop None turns) = Some t'
  /\ filter not_monitor t' = filter not_monitor t.
Proof. exact TrackingCases.same_as_non_collective. Qed.
Print Assumptions C02_same_as_non_collective.

(** The same elements for every ele_stop (including the number of elements of the line). *)
Theorem C02_same_elements :
  forall coll skip_end flag_monitor multi start stop turns t,
  let L := Z.of_nat (length coll) in
  0 < L ->
  0 <= match start with Some e => e | None => 0 end < L ->
  0 < match turns with Some n => n | None => 1 end ->
  (forall j, stop = Some j -> 0 <= j <= L) ->
  events_no_collective L skip_end (-1) flag_monitor multi false (mkTargs start stop None turns) = Some t ->
  exists t', events_collective coll skip_end (-1) flag_monitor multi (mkTargs start stop None turns) = Some t'
  /\ elements_of t' = elements_of t.
Proof. exact TrackingMore.collective_same_elements. Qed.
Print Assumptions C02_same_elements.

(** The turn-by-turn monitor misses the first turn when the start is not the first element. *)
Theorem C02_monitor_refuted :
  exists coll i t t',
    events_no_collective (Z.of_nat (length coll)) false (-1) 1 false false (mkTargs (Some i) None None None) = Some t
    /\ events_collective coll false (-1) 1 false (mkTargs (Some i) None None None) = Some t'
    /\ t <> t'.
Proof. exact TrackingCases.monitor_first_turn. Qed.
Print Assumptions C02_monitor_refuted.

(** num_elements = 0 from a collective element tracks to the end of the turn. *)
Theorem C02_zero_elements_refuted :
  exists coll i t,
    events_no_collective (Z.of_nat (length coll)) false (-1) 0 false false (mkTargs (Some i) None (Some 0) None) = Some []
    /\ events_collective coll false (-1) 0 false (mkTargs (Some i) None (Some 0) None) = Some t
    /\ elements_of t <> [].
Proof. exact TrackingCases.zero_elements. Qed.
Print Assumptions C02_zero_elements_refuted.

Example C02_case :
  option_map (filter not_monitor)
   (events_collective [false; true; false; false; true] false (-1) 2 true (mkTargs (Some 2) (Some 1) None None))
  = Some [Ele 2; Incr 1; Ele 3; Incr 1; Ele 4; Incr 1; EndTurn; Ele 0; Incr 1].
Proof. reflexivity. Qed.

(** * C03. Tracking with a progress indicator is the same as tracking without. *)
Theorem C03_progress_same :
  forall L skip_end flag_monitor multi batch n start stop,
  0 < L -> 0 < batch -> (forall j, stop = Some j -> 0 < j < L) ->
  0 <= match start with Some e => e | None => 0 end < L -> 0 < n ->
  events_progress L skip_end (-1) flag_monitor multi false batch (mkTargs start stop None (Some n))
  = events_no_collective L skip_end (-1) flag_monitor multi false (mkTargs start stop None (Some n)).
Proof. exact TrackingCases.progress_same. Qed.
Print Assumptions C03_progress_same.

(** An explicit ele_stop = 0 tracks one turn too many when there are several batches. *)
Theorem C03_stop_zero_refuted :
  exists L batch n,
    events_progress L false (-1) 0 false false batch (mkTargs (Some 0) (Some 0) None (Some n))
    <> events_no_collective L false (-1) 0 false false (mkTargs (Some 0) (Some 0) None (Some n)).
Proof. exact TrackingCases.progress_stop_zero. Qed.
Print Assumptions C03_stop_zero_refuted.

(** particles.start_tracking_at_element at or after ele_stop: one turn is missing. *)
Theorem C03_start_tracking_at_element_refuted :
  exists L batch n spte j,
    events_progress L false spte 0 false false batch (mkTargs (Some 0) (Some j) None (Some n))
    <> events_no_collective L false spte 0 false false (mkTargs (Some 0) (Some j) None (Some n)).
Proof. exact TrackingCases.progress_spte. Qed.
Print Assumptions C03_start_tracking_at_element_refuted.

Example C03_case :
  events_progress 3 false (-1) 0 false false 2 (mkTargs (Some 2) (Some 1) None (Some 4))
  = events_no_collective 3 false (-1) 0 false false (mkTargs (Some 2) (Some 1) None (Some 4)).
Proof. vm_compute. reflexivity. Qed.

(** * C04. Counters. [eff] is any element map that does not itself touch the
    counters and the identifier; a particle at element [i] is followed over [k] positions. *)
Theorem C04_counters :
  forall C (eff : Z -> part C -> part C) (rs rsb : C -> C) L,
  0 < L ->
  (forall i p, p_turn (eff i p) = p_turn p /\ p_ele (eff i p) = p_ele p /\ p_id (eff i p) = p_id p) ->
  forall i p (k : nat),
  0 <= i < L -> alive p = true -> p_ele p = i ->
  let track k := track_single eff rs rsb L (window_events L i k 0 false true) p in
  let q := track (Z.of_nat k) in
  p_id q = p_id p /\
  (alive q = true -> p_turn q = p_turn p + (i + Z.of_nat k) / L /\ p_ele q = (i + Z.of_nat k) mod L)
  /\ (alive q = false -> exists m, 0 <= m < Z.of_nat k /\
        alive (track m) = true /\ q = eff ((i + m) mod L) (track m)
        /\ p_turn q = p_turn p + (i + m) / L /\ p_ele q = (i + m) mod L).
Proof. exact @counters_window. Qed.
Print Assumptions C04_counters.

(** The position along the line: [sc] is the coordinate s, advanced by every element by its
    length and reset at the end of each turn. *)
Theorem C04_position :
  forall C (eff : Z -> part C -> part C) (rs rsb : C -> C) L (sc : C -> R) (len : Z -> R),
  0 < L ->
  (forall i p, p_turn (eff i p) = p_turn p /\ p_ele (eff i p) = p_ele p /\ p_id (eff i p) = p_id p) ->
  (forall i p, alive p = true -> alive (eff i p) = true ->
     sc (p_c (eff i p)) = (sc (p_c p) + len i)%R) ->
  (forall c, sc (rs c) = 0%R) ->
  forall i p (k : nat),
  0 <= i < L -> alive p = true -> p_ele p = i -> sc (p_c p) = sum_len len (Z.to_nat i) ->
  let q := track_single eff rs rsb L (window_events L i (Z.of_nat k) 0 false true) p in
  alive q = true -> sc (p_c q) = sum_len len (Z.to_nat (p_ele q)).
Proof. exact @TrackingMore.s_window. Qed.
Print Assumptions C04_position.

(** A particle lost in the second element of its second turn. *)
Example C04_case :
  let eff (i : Z) (p : part Z) :=
    mkPart (p_id p) (p_turn p) (p_ele p) (if (i =? 1) && (p_turn p =? 1) then -1 else p_state p) (p_c p) in
  track_single eff (fun c => c) (fun c => c) 3 (window_events 3 2 9 0 false true) (mkPart 7 0 2 1 5)
  = mkPart 7 1 1 (-1) 5.
Proof. reflexivity. Qed.

(** * C05. Hold and resume. [S] is the whole state (particles and elements). With
    [drive] resuming after every hold, the final state is the one of an uninterrupted run in
    which each collective element is called again until it accepts. *)
Theorem C05_hold_resume :
  forall S (o : kops S) col tdep L parts ep ei skip_end flag_monitor spte a s s',
  flag_monitor <> 2 ->
  (exists fuel, drive o col tdep L parts ep ei skip_end flag_monitor fuel false
    (track_collective o col tdep L parts ep ei skip_end flag_monitor spte false false a s) = Done s')
  <-> (exists k, track_collective o (col_until k col) tdep L parts ep ei skip_end flag_monitor spte
                   false false a s = Done s').
Proof. exact @hold_resume_ok. Qed.
Print Assumptions C05_hold_resume.

(** With at most [fuel] resumes. *)
Theorem C05_hold_resume_count :
  forall S (o : kops S) col tdep L parts ep ei skip_end flag_monitor spte a s s' fuel,
  flag_monitor <> 2 ->
  drive o col tdep L parts ep ei skip_end flag_monitor fuel false
    (track_collective o col tdep L parts ep ei skip_end flag_monitor spte false false a s) = Done s' ->
  track_collective o (col_until fuel col) tdep L parts ep ei skip_end flag_monitor spte false false a s
  = Done s'.
Proof. exact @hold_resume_count. Qed.
Print Assumptions C05_hold_resume_count.

(** Whatever the monitors, hold and resume have no influence on the rest of the state (here
    the monitors are operations without effect on it). *)
Theorem C05_hold_resume_any_monitor :
  forall S (o : kops S) col tdep L parts ep ei skip_end flag_monitor spte multi a s s',
  (forall s, k_mon o s = s) -> (forall s, k_multi o s = s) ->
  (exists fuel, drive o col tdep L parts ep ei skip_end flag_monitor fuel false
    (track_collective o col tdep L parts ep ei skip_end flag_monitor spte false multi a s) = Done s')
  <-> (exists k, track_collective o (col_until k col) tdep L parts ep ei skip_end flag_monitor spte
                   false multi a s = Done s').
Proof. exact @TrackingMore.hold_resume_nm. Qed.
Print Assumptions C05_hold_resume_any_monitor.

(** The multi element monitor is lost at the first resume. *)
Theorem C05_multi_element_monitor_refuted :
  exists (col : Z -> list ev -> list ev * option bool) parts ep ei t t',
    drive ev_ops col (fun t => t) 3 parts ep ei false 0 5 false
      (track_collective ev_ops col (fun t => t) 3 parts ep ei false 0 (-1) false true
         (mkTargs None None None None) []) = Done t
    /\ track_collective ev_ops (col_until 5 col) (fun t => t) 3 parts ep ei false 0 (-1) false true
         (mkTargs None None None None) [] = Done t'
    /\ filter not_monitor t = filter not_monitor t' /\ t <> t'.
Proof. exact TrackingCases.resume_multi. Qed.
Print Assumptions C05_multi_element_monitor_refuted.

(** With time dependent variables a session cannot be resumed. *)
Theorem C05_time_dependent_refuted :
  forall S (o : kops S) col tdep L parts ep ei skip_end flag_monitor h s,
  0 <= ss_tt h < ss_turns h ->
  resume o col tdep L parts ep ei skip_end flag_monitor true h s = Failed.
Proof. exact @TrackingCases.resume_tdv. Qed.
Print Assumptions C05_time_dependent_refuted.

(** Three elements, the second is collective and asks twice for hold. *)
Example C05_case :
  let '(parts, ep, ei) := split_parts [false; true; false] in
  let col i (t : list ev) := (Ele i :: t, if Nat.ltb (length t) 4 then Some true else None) in
  drive ev_ops col (fun t => t) 3 parts ep ei false 0 5 false
      (track_collective ev_ops col (fun t => t) 3 parts ep ei false 0 (-1) false false
         (mkTargs None None None None) [])
  = Done (rev [Ele 0; Incr 1; Ele 1; Ele 1; Ele 1; Incr 1; Ele 2; Incr 1; EndTurn]).
Proof. reflexivity. Qed.

(** * C06. Backtracking visits the elements in reverse order. *)
Theorem C06_reverse_window :
  forall L skip_end fm multi fm' multi' i j t tback,
  0 <= i -> i < j -> j <= L ->
  let a := mkTargs (Some i) (Some j) None None in
  events_no_collective L skip_end (-1) fm multi false a = Some t ->
  events_no_collective L skip_end (-1) fm' multi' true a = Some tback ->
  elements_of tback = rev (elements_of t).
Proof. exact TrackingMore.backtrack_reverse_stop. Qed.
Print Assumptions C06_reverse_window.

Theorem C06_reverse_num_elements :
  forall L skip_end fm multi fm' multi' i k t tback,
  0 <= i -> 0 <= k -> i + k <= L ->
  let a := mkTargs (Some i) None (Some k) None in
  events_no_collective L skip_end (-1) fm multi false a = Some t ->
  events_no_collective L skip_end (-1) fm' multi' true a = Some tback ->
  elements_of tback = rev (elements_of t).
Proof. exact TrackingMore.backtrack_reverse_num. Qed.
Print Assumptions C06_reverse_num_elements.

Theorem C06_reverse_turns :
  forall L skip_end fm multi fm' multi' n t tback,
  0 < L -> 0 < n ->
  let a := mkTargs (Some 0) None None (Some n) in
  events_no_collective L skip_end (-1) fm multi false a = Some t ->
  events_no_collective L skip_end (-1) fm' multi' true a = Some tback ->
  elements_of tback = rev (elements_of t).
Proof. exact TrackingMore.backtrack_reverse_turns. Qed.
Print Assumptions C06_reverse_turns.

(** Backtracking undoes tracking. [f i] is the map of element [i] on the coordinates and
    [g i] the map with the backtrack flag; [good i] describes coordinates acceptable
    in front of element [i] (position s and no loss). *)
Theorem C06_backtrack_window :
  forall C (f g : Z -> C -> C) (rs rsb : C -> C) L (good : Z -> C -> Prop),
  (forall i c, 0 <= i < L -> good i c -> good (i + 1) (f i c) /\ g i (f i c) = c) ->
  (forall c, good L c -> good 0 (rs c) /\ rsb (rs c) = c) ->
  forall skip_end fm multi fm' multi' i j p t tback,
  0 <= i -> i < j -> j <= L ->
  alive p = true -> p_ele p = i -> good i (p_c p) ->
  let a := mkTargs (Some i) (Some j) None None in
  events_no_collective L skip_end (-1) fm multi false a = Some t ->
  events_no_collective L skip_end (-1) fm' multi' true a = Some tback ->
  track_single (on_c g) rs rsb L tback (track_single (on_c f) rs rsb L t p) = p.
Proof. exact @TrackingCases.backtrack_stop. Qed.
Print Assumptions C06_backtrack_window.

Theorem C06_backtrack_num_elements :
  forall C (f g : Z -> C -> C) (rs rsb : C -> C) L (good : Z -> C -> Prop),
  (forall i c, 0 <= i < L -> good i c -> good (i + 1) (f i c) /\ g i (f i c) = c) ->
  (forall c, good L c -> good 0 (rs c) /\ rsb (rs c) = c) ->
  forall skip_end fm multi fm' multi' i k p t tback,
  0 <= i -> 0 <= k -> i + k <= L ->
  alive p = true -> p_ele p = i -> good i (p_c p) ->
  let a := mkTargs (Some i) None (Some k) None in
  events_no_collective L skip_end (-1) fm multi false a = Some t ->
  events_no_collective L skip_end (-1) fm' multi' true a = Some tback ->
  track_single (on_c g) rs rsb L tback (track_single (on_c f) rs rsb L t p) = p.
Proof. exact @TrackingCases.backtrack_num. Qed.
Print Assumptions C06_backtrack_num_elements.

Theorem C06_backtrack_turns :
  forall C (f g : Z -> C -> C) (rs rsb : C -> C) L (good : Z -> C -> Prop),
  (forall i c, 0 <= i < L -> good i c -> good (i + 1) (f i c) /\ g i (f i c) = c) ->
  (forall c, good L c -> good 0 (rs c) /\ rsb (rs c) = c) ->
  forall fm multi fm' multi' n p t tback,
  0 < L -> 0 < n ->
  alive p = true -> p_ele p = 0 -> good 0 (p_c p) ->
  let a := mkTargs (Some 0) None None (Some n) in
  events_no_collective L false (-1) fm multi false a = Some t ->
  events_no_collective L false (-1) fm' multi' true a = Some tback ->
  track_single (on_c g) rs rsb L tback (track_single (on_c f) rs rsb L t p) = p.
Proof. exact @backtrack_turns. Qed.
Print Assumptions C06_backtrack_turns.

(** Several turns from another start: the elements are not visited in reverse order. *)
Theorem C06_several_turns_refuted :
  exists L i n t tback,
    0 < i < L /\ 1 < n /\
    events_no_collective L false (-1) 0 false false (mkTargs (Some i) None None (Some n)) = Some t /\
    events_no_collective L false (-1) 0 false true (mkTargs (Some i) None None (Some n)) = Some tback /\
    elements_of tback <> rev (elements_of t).
Proof. exact TrackingCases.backtrack_several_turns. Qed.
Print Assumptions C06_several_turns_refuted.

(** A line of two "drifts" of length 1 and 2, c = (s, x), s reset to 0 at the end of the turn. *)
Example C06_case :
  let len i := if i =? 0 then 1 else 2 in
  let f i (c : Z * Z) := (fst c + len i, snd c * 2 + i) in
  let g i (c : Z * Z) := (fst c - len i, (snd c - i) / 2) in
  let rs (c : Z * Z) := (0, snd c) in
  let rsb (c : Z * Z) := (3, snd c) in
  let p := mkPart 4 0 0 1 (0, 11) in
  match events_no_collective 2 false (-1) 0 false false (mkTargs (Some 0) None None (Some 3)),
        events_no_collective 2 false (-1) 0 false true (mkTargs (Some 0) None None (Some 3)) with
  | Some t, Some tb =>
      let q := track_single (on_c f) rs rsb 2 t p in
      q <> p /\ track_single (on_c g) rs rsb 2 tb q = p
  | _, _ => False
  end.
Proof. vm_compute. split; [discriminate|reflexivity]. Qed.

(** * C07. Compaction of the lost particles. *)
(** Serial: the active particles [M] are followed by [D]. *)
Theorem C07_check_is_active_serial :
  forall C (M D : list (part C)) nlost,
  exists A' M',
    check_is_active_serial (mkArr (M ++ D) (length M) nlost)
    = Some (mkArr (A' ++ M' ++ D) (length A') (nlost + length M'), existsb alive M)
    /\ Permutation M (A' ++ M')
    /\ Forall (fun p => alive p = true) A' /\ Forall (fun p => alive p = false) M'.
Proof. exact @check_active_serial_ok. Qed.
Print Assumptions C07_check_is_active_serial.

(** OpenMP: [U] (not alive) is at the end of the array and is not touched. *)
Theorem C07_check_is_active_openmp :
  forall C (l U : list (part C)),
  Forall (fun p => alive p = false) U ->
  exists A' M',
    check_is_active_omp (l ++ U) = Some (A' ++ M' ++ U, existsb alive l)
    /\ Permutation l (A' ++ M')
    /\ Forall (fun p => alive p = true) A' /\ Forall (fun p => alive p = false) M'.
Proof. exact @check_active_omp_ok. Qed.
Print Assumptions C07_check_is_active_openmp.

Example C07_case :
  let p n s := mkPart n 0 0 s tt in
  check_is_active_serial (mkArr [p 0 1; p 1 (-1); p 2 1; p 3 (-2); p 4 1; p 5 (-3)] 5 1)
  = Some (mkArr [p 0 1; p 4 1; p 2 1; p 3 (-2); p 1 (-1); p 5 (-3)] 3 3, true)
  /\ check_is_active_omp [p 0 1; p 1 (-1); p 2 1; p 3 (-2); p 4 1; p 5 (-3)]
  = Some ([p 0 1; p 4 1; p 2 1; p 3 (-2); p 1 (-1); p 5 (-3)], true).
Proof. split; reflexivity. Qed.

(** * C53. Particles are tracked independently, whatever the context. *)
(** One GPU thread. *)
Theorem C53_gpu :
  forall C (eff : Z -> part C -> part C) (rs rsb : C -> C) L skip_end spte fm multi bt a t p,
  0 <= L ->
  events_no_collective L skip_end spte fm multi bt a = Some t ->
  track_no_collective (gpu_ops eff rs rsb L) L skip_end spte fm multi bt a p
  = Some (track_single eff rs rsb L t p).
Proof. exact @TrackingCases.gpu_all. Qed.
Print Assumptions C53_gpu.

(** Serial CPU: [M] active, [D] lost, [U] any further slots. *)
Theorem C53_serial :
  forall C (eff : Z -> part C -> part C) (rs rsb : C -> C) L skip_end spte fm multi bt a t M D U nlost,
  0 <= L ->
  Forall (fun p => alive p = false) D ->
  events_no_collective L skip_end spte fm multi bt a = Some t ->
  exists M' D' nlost',
    track_no_collective (serial_ops eff rs rsb L) L skip_end spte fm multi bt a
      (Some (mkArr (M ++ D ++ U) (length M) nlost))
    = Some (Some (mkArr (M' ++ D' ++ U) (length M') nlost'))
    /\ Forall (fun p => alive p = true) M' /\ Forall (fun p => alive p = false) D'
    /\ Permutation (M' ++ D') (map (track_single eff rs rsb L t) (M ++ D))
    /\ (length M' + nlost' = length M + nlost)%nat.
Proof. exact @TrackingCases.serial_all. Qed.
Print Assumptions C53_serial.

(** One kernel call with OpenMP: [l] allocated particles, [U] free slots, any number of
    threads. *)
Theorem C53_openmp :
  forall C (eff : Z -> part C -> part C) (rs rsb : C -> C) L nthreads nt bt start n flag_end
         (l U : list (part C)) nact,
  (forall i p, alive p = true -> allocated (eff i p) = true) ->
  0 <= n -> (0 < nthreads)%nat ->
  Forall (fun p => allocated p = true) l ->
  Forall (fun p => allocated p = false) U ->
  (length (filter alive l) <= nact <= length l)%nat ->
  exists A M t,
    track_line ev_ops nt start n flag_end 0 false bt [] = Some (rev t) /\
    track_line_omp eff rs rsb L nthreads nt start n flag_end bt (l ++ U) nact
    = Some (A ++ M ++ U, (length A, length M))
    /\ Forall (fun p => alive p = true) A /\ Forall (fun p => alive p = false) M
    /\ Permutation (A ++ M) (map (track_single eff rs rsb L t) l).
Proof. exact @TrackingCases.omp_all. Qed.
Print Assumptions C53_openmp.

Example C53_case :
  let eff (i : Z) (p : part Z) :=
    mkPart (p_id p) (p_turn p) (p_ele p) (if (i =? 1) && (p_c p =? 4) then -1 else p_state p) (p_c p + 1) in
  let q n c := mkPart n 0 0 1 c in
  let u := mkPart (-1) 0 0 LAST_INVALID_STATE 0 in
  track_line_omp eff (fun c => c) (fun c => c) 2 2 1 0 2 true false [q 0 3; q 1 5; q 2 3; u] 3
  = Some ([mkPart 1 1 0 1 7; mkPart 0 0 1 (-1) 5; mkPart 2 0 1 (-1) 5; u], (1, 2)%nat).
Proof. reflexivity. Qed.
