(** Monitors that store the coordinates of individual particles:
    xtrack/monitors/particles_monitor.{py,h}, last_turns_monitor.{py,h},
    multi_element_monitor.{py,h} and the monitors created by tracker.py:1445-1525.

    A monitor is modelled by the list of writes it performs in its buffers (index, value);
    reading a buffer gives the last value written at the index, or nothing (the initial
    zero).  The coordinates stored are an abstract [D]. *)
From Coq Require Import ZArith List Bool.
Import ListNotations.
Local Open Scope Z_scope.

Section Mon.
Context {D : Type}.

(** The variables of the particle the monitors use. *)
Record mpart := mkMP { m_id : Z; m_turn : Z; m_elem : Z; m_data : D }.

(** Content of a buffer after a list of writes. *)
Fixpoint cell {V} (ws : list (Z * V)) (k : Z) : option V :=
  match ws with
  | [] => None
  | (i, v) :: r => match cell r k with Some x => Some x | None => if i =? k then Some v else None end
  end.

(** * ParticlesMonitor *)
Record pm := mkPM {
  pm_start : Z; pm_stop : Z; pm_id0 : Z; pm_id1 : Z;
  pm_ebe : bool; pm_nrep : Z; pm_period : Z; pm_n_records : Z }.

(** particles_monitor.py:52-92.  [ids] is the pair particle_id_range or (0, num_particles);
    [rep] is n_repetitions and repetition_period, of which both or none must be given.
    [None]: an assertion fails. *)
Definition pm_init (start stop id0 id1 : Z) (ebe : bool) (nrep period : option Z) : option pm :=
  if id1 - id0 <? 0 then None
  else match nrep, period with
  | None, Some _ | Some _, None => None
  | None, None =>
      Some (mkPM start stop id0 id1 ebe 1 (-1) ((stop - start) * (id1 - id0) * 1))
  | Some n, Some p =>
      Some (mkPM start stop id0 id1 ebe n p ((stop - start) * (id1 - id0) * n))
  end.

Inductive act := Skip | Leave | Store (at_ : Z).

(** particles_monitor.h:28-72, one particle.  [Leave]: [return] of line 34 or
    [break]/[return] of lines 51-55. *)
Definition pm_act (c : pm) (backtrack : bool) (p : mpart) : act :=
  if negb (pm_ebe c) && backtrack then Leave
  else
    let at_turn := if pm_ebe c then m_elem p else m_turn p in
    let n_turns := pm_stop c - pm_start c in
    if pm_nrep c =? 1 then
      if (pm_start c <=? at_turn) && (at_turn <? pm_stop c) then
        if (m_id p <? pm_id1 c) && (pm_id0 c <=? m_id p) then
          Store (n_turns * (m_id p - pm_id0 c) + at_turn - pm_start c)
        else Skip
      else Skip
    else if 1 <? pm_nrep c then
      if at_turn <? pm_start c then Leave
      else
        let i_frame := Z.quot (at_turn - pm_start c) (pm_period c) in
        if (i_frame <? pm_nrep c)
           && (pm_start c + i_frame * pm_period c <=? at_turn)
           && (at_turn <? pm_stop c + i_frame * pm_period c) then
          if (m_id p <? pm_id1 c) && (pm_id0 c <=? m_id p) then
            Store (n_turns * (pm_id1 c - pm_id0 c) * i_frame
                   + n_turns * (m_id p - pm_id0 c)
                   + (at_turn - i_frame * pm_period c) - pm_start c)
          else Skip
        else Skip
    else Skip.

(** The loop over the active particles (headers/track.h): on CPU [break] and [return] end
    the loop, on GPU each particle has its own thread. *)
Fixpoint pm_block (cpu : bool) (c : pm) (backtrack : bool) (ps : list mpart) : list (Z * D) :=
  match ps with
  | [] => []
  | p :: r =>
      match pm_act c backtrack p with
      | Skip => pm_block cpu c backtrack r
      | Leave => if cpu then [] else pm_block cpu c backtrack r
      | Store k => (k, m_data p) :: pm_block cpu c backtrack r
      end
  end.

(** Successive passages through the monitor. *)
Definition pm_track (cpu : bool) (c : pm) (backtrack : bool) (passes : list (list mpart)) : list (Z * D) :=
  flat_map (pm_block cpu c backtrack) passes.

(** particles_monitor.py:157-173: [mon.x[i, j]] (one repetition) and [mon.x[k, i, j]].
    [None]: division by zero or index out of range. *)
Definition pm_get (c : pm) (ws : list (Z * D)) (k i j : Z) : option (option D) :=
  let n_cols := pm_stop c - pm_start c in
  if n_cols =? 0 then None
  else
    let n_rows := if pm_nrep c =? 1 then pm_n_records c / n_cols
                  else pm_n_records c / n_cols / pm_nrep c in
    if (0 <=? k) && (k <? pm_nrep c) && (0 <=? i) && (i <? n_rows) && (0 <=? j) && (j <? n_cols)
    then Some (cell ws ((k * n_rows + i) * n_cols + j))
    else None.

(** tracker.py:1445-1470: turn_by_turn_monitor=True.  [ids]: ids of the active particles. *)
Definition get_monitor (ids : list Z) (num_turns : Z) : option pm :=
  match ids with
  | [] => None
  | i :: r => pm_init 0 num_turns (fold_left Z.min r i) (fold_left Z.max r i + 1) false None None
  end.

(** tracker.py:1471-1476: turn_by_turn_monitor='ONE_TURN_EBE' *)
Definition get_monitor_ebe (ids : list Z) (num_elements : Z) : option pm :=
  match get_monitor ids (num_elements + 1) with
  | Some c => Some (mkPM (pm_start c) (pm_stop c) (pm_id0 c) (pm_id1 c) true
                         (pm_nrep c) (pm_period c) (pm_n_records c))
  | None => None
  end.

(** * LastTurnsMonitor *)
Record lt := mkLT { lt_nlast : Z; lt_id0 : Z; lt_num : Z; lt_every : Z }.

Definition u32 (z : Z) : Z := z mod 2 ^ 32.

(** last_turns_monitor.h:20-53: the writes in the rolling buffers (index; turn and data) and
    in lost_at_offset.  Turns are stored on 32 bits. *)
Definition lt_act (c : lt) (p : mpart) : option (Z * Z * (Z * D)) :=
  if (0 <=? m_turn p) && (Z.rem (m_turn p) (lt_every c) =? 0)
     && (lt_id0 c <=? m_id p) && (m_id p <? lt_id0 c + lt_num c)
  then
    let offset := Z.rem (Z.quot (m_turn p) (lt_every c)) (lt_nlast c) in
    let ip := m_id p - lt_id0 c in
    Some (ip, offset, (u32 (m_turn p), m_data p))
  else None.

Fixpoint lt_track (c : lt) (ps : list mpart) : list (Z * Z) * list (Z * (Z * D)) :=
  match ps with
  | [] => ([], [])
  | p :: r =>
      let '(offs, ws) := lt_track c r in
      match lt_act c p with
      | Some (ip, offset, v) => ((ip, u32 offset) :: offs, (lt_nlast c * ip + offset, v) :: ws)
      | None => (offs, ws)
      end
  end.

(** last_turns_monitor.py:104-115: [mon.at_turn[i, j]], [mon.x[i, j]] *)
Definition lt_get (c : lt) (st : list (Z * Z) * list (Z * (Z * D))) (i j : Z) : option (Z * D) :=
  let off := match cell (fst st) i with Some o => o | None => 0 end + 1 in
  cell (snd st) (i * lt_nlast c + (j + off) mod lt_nlast c).

(** * MultiElementMonitor *)
Record mem := mkMEM {
  me_start : Z; me_stop : Z; me_id0 : Z; me_id1 : Z; me_map : list Z; me_nobs : Z }.

(** tracker.py:1503-1505: [obs] are the positions of the observed elements in a line table
    of [len] rows *)
Definition me_mapping (len : nat) (obs : list Z) : list Z :=
  map (fun i => match cell (combine obs (map Z.of_nat (seq 0 (length obs)))) (Z.of_nat i) with
                | Some k => k | None => -1 end) (seq 0 len).

(** multi_element_monitor.h:21-61: cell (turn, particle, location) of the data array, which
    the seven coordinates share *)
Definition me_act (c : mem) (p : mpart) : option (Z * Z * Z) :=
  if (me_start c <=? m_turn p) && (m_turn p <? me_stop c)
     && (me_id0 c <=? m_id p) && (m_id p <? me_id1 c)
  then
    let store_at := if m_elem p <? Z.of_nat (length (me_map c))
                    then nth (Z.to_nat (m_elem p)) (me_map c) (-1) else -1 in
    if 0 <=? store_at then Some (m_turn p - me_start c, m_id p - me_id0 c, store_at) else None
  else None.

Definition me_shape (c : mem) : Z * Z * Z := (me_stop c - me_start c, me_id1 c - me_id0 c, me_nobs c).

(** Position of the cell in the (C ordered) array *)
Definition me_index (c : mem) (k : Z * Z * Z) : Z :=
  let '(t, i, o) := k in (t * (me_id1 c - me_id0 c) + i) * me_nobs c + o.

Definition me_track (c : mem) (ps : list mpart) : list (Z * D) :=
  flat_map (fun p => match me_act c p with Some k => [(me_index c k, m_data p)] | None => [] end) ps.

(** numpy indexing of an axis of length [n] with an integer: negative indices count from the
    end; [None]: IndexError *)
Definition py_index (n i : Z) : option Z :=
  if (- n <=? i) && (i <? n) then Some (if i <? 0 then i + n else i) else None.

(** multi_element_monitor.py:51-70 with scalar selectors; [obs] is the number of the
    observation name (lines 37-39) *)
Definition me_get (c : mem) (ws : list (Z * D)) (turn id obs : Z) : option (option D) :=
  match py_index (me_stop c - me_start c) (turn - me_start c),
        py_index (me_id1 c - me_id0 c) (id - me_id0 c), py_index (me_nobs c) obs with
  | Some t, Some i, Some o => Some (cell ws (me_index c (t, i, o)))
  | _, _, _ => None
  end.

(** tracker.py:1482-1525: [multi_element_monitor_at] are the elements at positions [obs] of a
    line with [len] elements and end point; [ids]: active particles *)
Definition get_multi_element_monitor (ids : list Z) (num_turns : Z) (len : nat) (obs : list Z)
    : option mem :=
  match ids with
  | [] => None
  | i :: r => Some (mkMEM 0 num_turns (fold_left Z.min r i) (fold_left Z.max r i + 1)
                          (me_mapping len obs) (Z.of_nat (length obs)))
  end.

End Mon.
Arguments mpart D : clear implicits.
