(** C15, C16, C56. Monitors of individual particles. *)
From Coq Require Import ZArith List Bool Lia.
From Verif.Model Require Import Monitors.
From Verif.Spec Require Import Monitors.
From Verif.Proofs Require Monitors MonitorsCases.
Import ListNotations.
Local Open Scope Z_scope.

(** * C15. ParticlesMonitor *)

(** A monitor built with a non empty window and, if any, sensible repetitions has the
    requested parameters and buffers of the right size. *)
Theorem C15_constructor :
  forall start stop id0 id1 ebe rep c, start < stop ->
    match rep with Some (n, p) => n = 1 \/ (1 < n /\ 0 < p) | None => True end ->
    pm_init start stop id0 id1 ebe (option_map fst rep) (option_map snd rep) = Some c ->
    pm_ok c /\ pm_start c = start /\ pm_stop c = stop /\ pm_id0 c = id0 /\ pm_id1 c = id1
    /\ pm_ebe c = ebe /\ pm_nrep c = match rep with Some (n, _) => n | None => 1 end.
Proof. exact Monitors.init_ok. Qed.
Print Assumptions C15_constructor.

(** It never writes outside its buffers. *)
Theorem C15_bounds :
  forall (D : Type) c bt (p : mpart D) k,
    pm_ok c -> pm_act c bt p = Store k -> 0 <= k < pm_n_records c.
Proof. exact @Monitors.act_bounds. Qed.
Print Assumptions C15_bounds.

(** Different particles or different turns (elements, in element by element mode) are stored
    in different places. *)
Theorem C15_distinct :
  forall (D : Type) c bt (p q : mpart D) k,
    pm_ok c -> pm_act c bt p = Store k -> pm_act c bt q = Store k ->
    m_id p = m_id q /\ time_of c p = time_of c q.
Proof. exact @Monitors.act_inj. Qed.
Print Assumptions C15_distinct.

(** Reading entry (k, id - id0, j): the data of the particle [id] at turn
    start + k * period + j, as seen at its last passage, or the initial zero. *)
Theorem C15_read :
  forall (D : Type) cpu c bt (passes : list (list (mpart D))) k id j,
    pm_ok c -> pm_ebe c = true \/ bt = false ->
    (cpu = false \/ pm_nrep c = 1 \/ forall p, In p (concat passes) -> pm_start c <= time_of c p) ->
    0 <= k < pm_nrep c -> pm_id0 c <= id < pm_id1 c -> 0 <= j < pm_stop c - pm_start c ->
    pm_get c (pm_track cpu c bt passes) k (id - pm_id0 c) j
    = Some (match pm_column c k j with
            | Some t => last_such (fun p => (m_id p =? id) && (time_of c p =? t)) (concat passes)
            | None => None end).
Proof. exact @Monitors.read_back. Qed.
Print Assumptions C15_read.

(** turn_by_turn_monitor=True: every active particle is found at every turn below num_turns. *)
Theorem C15_turn_by_turn :
  forall (D : Type) cpu ids n (passes : list (list (mpart D))) id t,
    ids <> [] -> 0 < n -> In id ids -> 0 <= t < n ->
    exists c, get_monitor ids n = Some c
    /\ pm_get c (pm_track cpu c false passes) 0 (id - pm_id0 c) t
       = Some (last_such (fun p => (m_id p =? id) && (m_turn p =? t)) (concat passes)).
Proof. exact @Monitors.get_monitor_tbt. Qed.
Print Assumptions C15_turn_by_turn.

(** turn_by_turn_monitor='ONE_TURN_EBE', forward and backtracking: every active particle at
    every element and at the end of the line. *)
Theorem C15_element_by_element :
  forall (D : Type) cpu ids L (passes : list (list (mpart D))) id e bt,
    ids <> [] -> 0 <= L -> In id ids -> 0 <= e <= L ->
    exists c, get_monitor_ebe ids L = Some c
    /\ pm_get c (pm_track cpu c bt passes) 0 (id - pm_id0 c) e
       = Some (last_such (fun p => (m_id p =? id) && (m_elem p =? e)) (concat passes)).
Proof. exact @Monitors.get_monitor_ebe_ok. Qed.
Print Assumptions C15_element_by_element.

(** With repetitions, on CPU, a particle which has not reached the first turn hides those
    which follow it in the container. *)
Theorem C15_cpu_break_refuted :
  exists c (ps : list (mpart Z)) p k, pm_ok c /\ pm_init 1 3 0 2 false (Some 2) (Some 10) = Some c
  /\ In p ps /\ pm_act c false p = Store k
  /\ cell (pm_track false c false [ps]) k = Some (m_data p)
  /\ cell (pm_track true c false [ps]) k = None.
Proof. exact MonitorsCases.cpu_break. Qed.
Print Assumptions C15_cpu_break_refuted.

(** Nothing is recorded turn by turn when backtracking. *)
Theorem C15_backtrack_refuted :
  forall (D : Type) cpu c (passes : list (list (mpart D))),
    pm_ebe c = false -> pm_track cpu c true passes = [].
Proof. exact @Monitors.backtrack_empty. Qed.
Print Assumptions C15_backtrack_refuted.

(** The monitor made by the tracker assumes that the turn counter starts from zero. *)
Theorem C15_continued_tracking_refuted :
  exists c (passes : list (list (mpart Z))), get_monitor [0] 2 = Some c /\ length passes = 2%nat
  /\ concat passes <> [] /\ forall i j, cell (pm_track true c false passes) (i * 2 + j) = None.
Proof. exact MonitorsCases.continued. Qed.
Print Assumptions C15_continued_tracking_refuted.

(** Three repetitions of two turns every four turns, two particles. *)
Example C15_case :
  exists c, pm_init 1 3 7 9 false (Some 3) (Some 4) = Some c /\ pm_ok c /\
  let passes := map (fun t => [mkMP 8 t 0 (800 + t); mkMP 7 t 0 (700 + t)]) [1; 2; 3; 4; 5; 6] in
  pm_get c (pm_track true c false passes) 1 1 0 = Some (Some 805)
  /\ pm_get c (pm_track true c false passes) 0 0 1 = Some (Some 702)
  /\ pm_get c (pm_track true c false passes) 2 0 1 = Some None.
Proof.
  eexists. split; [reflexivity|]. split; [|vm_compute; repeat split; reflexivity].
  unfold pm_ok; cbn; lia.
Qed.

(** * C16. LastTurnsMonitor *)

(** A particle seen at the consecutive turns a, a+1, ..., b: column [j] of its row contains
    the record of the turn which is (n_last - 1 - j) sampling periods before the last sampled
    turn, if it is not before [a]; the last column is the last sampled turn. *)
Theorem C16_last_turns :
  forall (D : Type) c (ps : list (mpart D)) id h a j,
    lt_ok c -> lt_id0 c <= id < lt_id0 c + lt_num c -> history id ps = h -> h <> [] ->
    consecutive a h -> 0 <= a -> a + Z.of_nat (length h) <= 2 ^ 32 -> 0 <= j < lt_nlast c ->
    let b := a + Z.of_nat (length h) - 1 in
    let t := (b / lt_every c - (lt_nlast c - 1 - j)) * lt_every c in
    lt_get c (lt_track c ps) (id - lt_id0 c) j
    = if (a <=? t) && (t <=? b)
      then option_map (fun p => (t, m_data p)) (nth_error h (Z.to_nat (t - a))) else None.
Proof. exact @Monitors.lt_read. Qed.
Print Assumptions C16_last_turns.

Example C16_case :
  let c := mkLT 3 10 2 2 in
  let ps := flat_map (fun t => if t <? 7 then [mkMP 10 t 0 (1000 + t); mkMP 11 t 0 (2000 + t)]
                               else [mkMP 11 t 0 (2000 + t)]) [3; 4; 5; 6; 7; 8; 9; 10; 11] in
  lt_ok c /\ consecutive 3 (history 11 ps)
  /\ map (lt_get c (lt_track c ps) 1) [0; 1; 2] = [Some (6, 2006); Some (8, 2008); Some (10, 2010)]
  /\ map (lt_get c (lt_track c ps) 0) [0; 1; 2] = [None; Some (4, 1004); Some (6, 1006)].
Proof. cbn zeta. split; [unfold lt_ok; cbn; lia|]. vm_compute. repeat split; reflexivity. Qed.

(** * C56. MultiElementMonitor *)

(** The monitor made by the tracker for the elements at the positions [obs]: writes stay
    inside the array and the entry (t, id, k) is the data of particle [id] at turn [t] at the
    entrance of the k-th observed element. *)
Theorem C56_multi_element :
  forall (D : Type) ids num_turns len obs (ps : list (mpart D)),
    ids <> [] -> 0 <= num_turns -> NoDup obs -> Forall (fun i => 0 <= i < Z.of_nat len) obs ->
    (forall p, In p ps -> 0 <= m_elem p) ->
    exists c, get_multi_element_monitor ids num_turns len obs = Some c
    /\ (forall p k, @me_act D c p = Some k ->
          0 <= me_index c k < num_turns * (me_id1 c - me_id0 c) * Z.of_nat (length obs))
    /\ forall t id k e, 0 <= t < num_turns -> In id ids -> nth_error obs k = Some e ->
       me_get c (me_track c ps) t id (Z.of_nat k)
       = Some (last_such (fun p => (m_turn p =? t) && (m_id p =? id) && (m_elem p =? e)) ps).
Proof. exact @Monitors.me_read. Qed.
Print Assumptions C56_multi_element.

(** A particle_id below the range gives, without error, the data of another particle. *)
Theorem C56_id_below_range_refuted :
  exists (c : mem) (p : mpart Z), get_multi_element_monitor [5; 6] 3 4 [1; 2] = Some c
  /\ m_id p = 6 /\ me_get c (me_track c [p]) 0 4 0 = Some (Some (m_data p)).
Proof. exact MonitorsCases.negative_index. Qed.
Print Assumptions C56_id_below_range_refuted.

Example C56_case :
  exists c, get_multi_element_monitor [5; 6] 2 4 [2; 0] = Some c /\
  let ps := flat_map (fun t => flat_map (fun e => map (fun i => mkMP i t e (100 * t + 10 * e + i)) [5; 6]) [0; 1; 2; 3]) [0; 1; 2] in
  me_get c (me_track c ps) 1 6 0 = Some (Some 126) /\ me_get c (me_track c ps) 0 5 1 = Some (Some 5).
Proof. eexists. split; [reflexivity|]. vm_compute. split; reflexivity. Qed.
