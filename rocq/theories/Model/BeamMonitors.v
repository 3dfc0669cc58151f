(** Monitors that accumulate sums over the beam: xtrack/monitors/beam_position_monitor.{h,py},
    beam_size_monitor.{h,py}, beam_profile_monitor.{h,py}, beam_stats_monitor.h and
    beam_stats_monitor/beam_stats_monitor.py.

    Floating point numbers are rationals, sums are exact.  The passages are given as the list
    of particles the kernels see one after the other (parallel execution: in any order). *)
From Coq Require Import ZArith QArith Qround List Bool.
Import ListNotations.
Local Open Scope Z_scope.

(** C [round]: half away from zero. *)
Definition c_round (q : Q) : Z :=
  if Qle_bool 0 q then Qfloor (q + (1 # 2)) else - Qfloor (- q + (1 # 2)).

(** Python [round]: half to even. *)
Definition py_round (q : Q) : Z :=
  let f := Qfloor q in
  let d := (q - inject_Z f)%Q in
  if Qle_bool d (1 # 2) then
    if Qeq_bool d (1 # 2) then (if Z.even f then f else f + 1) else f
  else f + 1.

(** atomicAdd in a buffer; [None]: outside the buffer. *)
Definition bump (b : list Q) (k : Z) (v : Q) : option (list Q) :=
  if (0 <=? k) && (k <? Z.of_nat (length b)) then
    let i := Z.to_nat k in Some (firstn i b ++ [(nth i b 0 + v)%Q] ++ skipn (S i) b)
  else None.

Section Accumulate.
Context {P : Type}.
(** Cell in which a passage is accumulated, and the value added. *)
Variables (idx : P -> option Z) (val : P -> Q).

Fixpoint accumulate (b : list Q) (ps : list P) : option (list Q) :=
  match ps with
  | [] => Some b
  | p :: r => match idx p with
              | None => accumulate b r
              | Some k => match bump b k (val p) with Some b' => accumulate b' r | None => None end
              end
  end.
End Accumulate.

Definition zeros (n : Z) : list Q := repeat 0%Q (Z.to_nat n).

(** The variables of a particle the monitors use; [b_coord]: x, px, y, py, zeta, delta, pzeta
    numbered from 0 (beam_stats_monitor.py _COORDS). *)
Record bpart := mkBP {
  b_id : Z; b_turn : Z; b_beta0 : Q; b_weight : Q; b_coord : nat -> Q }.
Definition b_x p := b_coord p 0.
Definition b_y p := b_coord p 2.
Definition b_zeta p := b_coord p 4.

(** * BeamPositionMonitor and BeamSizeMonitor *)
Record bpm := mkBPM {
  bp_id0 : Z; bp_num : Z; bp_start : Z; bp_stop : Z; bp_frev : Q; bp_fs : Q; bp_size : Z }.

(** beam_position_monitor.py:86-115 (the same in the other two); None: ValueError *)
Definition bpm_init (range : option (Z * Z)) (id0 num : option Z) (start stop : Z) (frev fs : Q)
    : option bpm :=
  let size := py_round (inject_Z (stop - start) * fs / frev) in
  match range with
  | None => Some (mkBPM (match id0 with Some i => i | None => 0 end)
                        (match num with Some n => n | None => -1 end) start stop frev fs size)
  | Some (a, b) => match id0, num with
                   | None, None => Some (mkBPM a (b - a) start stop frev fs size)
                   | _, _ => None
                   end
  end.

(** beam_position_monitor.h:31 *)
Definition bpm_id_ok (c : bpm) (id : Z) : bool :=
  let stop := bp_id0 c + bp_num c in
  (stop <? 0) || ((bp_id0 c <=? id) && (id <? stop)).

(** beam_position_monitor.h:41; [c_light] is the speed of light *)
Definition bpm_slot (c_light : Q) (c : bpm) (p : bpart) : Z :=
  c_round (bp_fs c * (inject_Z (b_turn p - bp_start c) / bp_frev c - b_zeta p / b_beta0 p / c_light)).

(** beam_position_monitor.h:31-43, beam_size_monitor.h:31-43 *)
Definition bpm_idx (c_light : Q) (c : bpm) (p : bpart) : option Z :=
  if bpm_id_ok c (b_id p) then
    let slot := bpm_slot c_light c p in
    if (0 <=? slot) && (slot <? bp_size c) then Some slot else None
  else None.

(** The arrays count, x_sum, y_sum, x2_sum, y2_sum: [bpm_array _ _ f] sums [f]. *)
Definition bpm_array (c_light : Q) (c : bpm) (f : bpart -> Q) (ps : list bpart) : option (list Q) :=
  accumulate (bpm_idx c_light c) f (zeros (bp_size c)) ps.

(** beam_position_monitor.py:127-130, entry [k]; [None] is NaN or IndexError *)
Definition entry (b : option (list Q)) (k : Z) : option Q :=
  match b with Some b => if 0 <=? k then nth_error b (Z.to_nat k) else None | None => None end.
Definition quot (a b : option Q) : option Q :=
  match a, b with Some a, Some b => if Qeq_bool b 0 then None else Some (a / b)%Q | _, _ => None end.
Definition bpm_mean (c_light : Q) (c : bpm) (f : bpart -> Q) (ps : list bpart) (k : Z) : option Q :=
  quot (entry (bpm_array c_light c f ps) k) (entry (bpm_array c_light c (fun _ => 1%Q) ps) k).

(** beam_size_monitor.py:137-140 *)
Definition bsm_var (c_light : Q) (c : bpm) (f : bpart -> Q) (ps : list bpart) (k : Z) : option Q :=
  match bpm_mean c_light c (fun p => f p * f p)%Q ps k, bpm_mean c_light c f ps k with
  | Some m2, Some m => Some (m2 - m ^ 2)%Q
  | _, _ => None
  end.

(** * BeamProfileMonitor: one of the two planes, [f] being x or y *)
Record prof := mkProf { pf_n : Z; pf_min : Q; pf_d : Q }.

(** beam_profile_monitor.py:113-131 with a pair *)
Definition prof_init (n : Z) (lo hi : Q) : prof := mkProf n lo ((hi - lo) / inject_Z n).

(** beam_profile_monitor.h:51-76; the length of the counts is sample_size * n
    (beam_profile_monitor.py:135-140) *)
Definition prof_idx (c_light : Q) (c : bpm) (g : prof) (f : bpart -> Q) (p : bpart) : option Z :=
  if bpm_id_ok c (b_id p) then
    let sample := bpm_slot c_light c p in
    if (0 <=? sample) && (sample <? bp_size c) then
      let bin := Qfloor ((f p - pf_min g) / pf_d g) in
      if (0 <=? bin) && (bin <? pf_n g) then
        let slot := sample * pf_n g + bin in
        if (0 <=? slot) && (slot <? bp_size c * pf_n g) then Some slot else None
      else None
    else None
  else None.

Definition prof_array c_light c g f ps : option (list Q) :=
  accumulate (prof_idx c_light c g f) (fun _ => 1%Q) (zeros (bp_size c * pf_n g)) ps.

(** beam_profile_monitor.py:159-160, 167-173: edges and intensity *)
Definition prof_edge (g : prof) (i : Z) : Q := (pf_min g + pf_d g * inject_Z i)%Q.
Definition prof_intensity c_light c g f ps (k i : Z) : option Q :=
  if (0 <=? i) && (i <? pf_n g) then entry (prof_array c_light c g f ps) (k * pf_n g + i) else None.

(** * BeamStatsMonitor *)
Inductive bmode := Beam | Bunch | Slice | Coasting.

Record stats := mkStats {
  st_mode : bmode; st_start : Z; st_stop : Z; st_every : Z; st_nrec : Z; st_nsel : Z; st_nsl : Z;
  st_zmin : Q; st_dz : Q; st_sp : Q; st_id0 : Z; st_id1 : Z; st_sel : list Z; st_map : list Z }.

(** beam_stats_monitor.py:405-417: dense lookup of the selected slots *)
Definition slot_lookup (sel : list Z) (slot : Z) : Z :=
  match find (fun p => fst p =? slot) (rev (combine sel (map Z.of_nat (seq 0 (length sel))))) with
  | Some (_, i) => i
  | None => -1
  end.
Definition slot_to_selected (sel : list Z) : list Z :=
  map (fun i => slot_lookup sel (Z.of_nat i)) (seq 0 (Z.to_nat (fold_left Z.max sel (-1) + 1))).

(** len(np.arange(start, stop, every)), beam_stats_monitor.py:419-422 *)
Definition arange_len (start stop every : Z) : Z := Z.max 0 ((stop - start + every - 1) / every).

(** beam_stats_monitor.py:307-530 after the choice of the mode.  [sel]: the selected slots;
    [sp]: bunch_spacing_zeta, if given; [lo, hi]: zeta_range; [ids]: particle_id_range *)
Definition stats_init (m : bmode) (start stop every : Z) (sel : list Z) (sp : option Q)
    (nsl : Z) (lo hi : Q) (ids : option (Z * Z)) : option stats :=
  let sel := match m with Beam => [] | Coasting => [0] | _ => sel end in
  let sp := match m with Beam | Coasting => None | _ => sp end in
  let single := match sel with [0] => true | _ => false end in
  let dz := ((hi - lo) / inject_Z nsl)%Q in
  if every <=? 0 then None
  else if negb (forallb (fun s => 0 <=? s) sel) then None
  else if negb (Nat.eqb (length (nodup Z.eq_dec sel)) (length sel)) then None
  else if (match ids with Some (a, b) => (a <? 0) || (b <=? a) | None => false end) then None
  else match m, sel with (Bunch | Slice), [] => None | _, _ =>
  if negb (match m, sp with (Bunch | Slice), None => single | _, Some s => negb (Qle_bool s 0) | _, _ => true end) then None
  else if (match m with Slice | Coasting => nsl <=? 0 | _ => false end) then None
  else if (match m with Slice => Qle_bool dz 0 | _ => false end) then None
  else
    let zsp := match sp with Some s => s | None => 0%Q end in
    Some (mkStats m start stop every (arange_len start stop every)
      (match m with Beam => 0 | Coasting => 1 | _ => Z.of_nat (length sel) end)
      (match m with Beam => 0 | Bunch => 1 | _ => nsl end)
      (match m with Slice => lo | Bunch => match sp with Some s => (- (1 # 2) * s)%Q | None => 0%Q end | _ => 0%Q end)
      (match m with Slice => dz | Coasting => (1 / inject_Z nsl)%Q | _ => 0%Q end)
      zsp (match ids with Some (a, _) => a | None => -1 end) (match ids with Some (_, b) => b | None => -1 end)
      sel (slot_to_selected sel))
  end.

(** beam_stats_monitor.h:203-232: turn, zeta and slice of a particle in a line of length [len]
    ([None]: not accepted) *)
Definition stats_where (len : Q) (c : stats) (p : bpart) : option (Z * Q * Z) :=
  match st_mode c with
  | Coasting =>
      if Qle_bool len 0 then None
      else
        let u := (inject_Z (b_turn p) - b_zeta p / len)%Q in
        let eff := Qfloor (u + (1 # 2)) in
        let frac := (u - inject_Z eff)%Q in
        let sl := Qfloor ((frac + (1 # 2)) * inject_Z (st_nsl c)) in
        if (sl <? 0) || (st_nsl c <=? sl) then None else Some (eff, (- frac * len)%Q, sl)
  | _ => Some (b_turn p, b_zeta p, 0)
  end.

(** beam_stats_monitor.h:254-271: slot and number of the selected slot *)
Definition stats_slot (c : stats) (zeta : Q) : Z * Z :=
  if Qeq_bool (st_sp c) 0 then
    if st_nsel c =? 1 then (nth 0 (st_sel c) 0, 0) else (0, -1)
  else
    let slot := - Qfloor ((zeta - st_zmin c) / st_sp c) in
    (slot, if (0 <=? slot) && (slot <? Z.of_nat (length (st_map c)))
           then nth (Z.to_nat slot) (st_map c) (-1) else -1).

(** beam_stats_monitor.h:192-290: cell of the moments *)
Definition stats_idx (len : Q) (c : stats) (p : bpart) : option Z :=
  if (0 <=? st_id0 c) && ((b_id p <? st_id0 c) || (st_id1 c <=? b_id p)) then None
  else match stats_where len c p with
  | None => None
  | Some (turn, zeta, csl) =>
      let off := turn - st_start c in
      if (st_start c <=? turn) && (turn <? st_stop c) && (Z.rem off (st_every c) =? 0) then
        let rec_ := Z.quot off (st_every c) in
        if (0 <=? rec_) && (rec_ <? st_nrec c) then
          match st_mode c with
          | Beam => Some rec_
          | Coasting => Some ((rec_ * st_nsel c) * st_nsl c + csl)
          | m =>
              let '(slot, sel) := stats_slot c zeta in
              if sel <? 0 then None
              else match m with
              | Bunch => Some (rec_ * st_nsel c + sel)
              | _ =>
                  let zb := (st_zmin c - inject_Z slot * st_sp c)%Q in
                  let sl := Qfloor ((zeta - zb) / st_dz c) in
                  if (sl <? 0) || (st_nsl c <=? sl) then None
                  else Some ((rec_ * st_nsel c + sel) * st_nsl c + sl)
              end
          end
        else None
      else None
  end.

(** Coordinates with the zeta folded in coasting mode (beam_stats_monitor.h:232, 320-370) *)
Definition stats_coord (len : Q) (c : stats) (p : bpart) (i : nat) : Q :=
  if Nat.eqb i 4 then match stats_where len c p with Some (_, z, _) => z | None => b_zeta p end
  else b_coord p i.

(** Size of the moment arrays, beam_stats_monitor.py:424-472 *)
Definition stats_size (c : stats) : Z :=
  match st_mode c with
  | Beam => st_nrec c
  | Bunch => st_nrec c * st_nsel c
  | _ => st_nrec c * st_nsel c * st_nsl c
  end.

(** The moments: num_particles ([v] = 1), sum_a and sum_a_b *)
Definition stats_moment (len : Q) (c : stats) (v : bpart -> Q) (ps : list bpart) : option (list Q) :=
  accumulate (stats_idx len c) (fun p => b_weight p * v p)%Q (zeros (stats_size c)) ps.

(** beam_stats_monitor.py:917-950; [None]: an exception *)
Definition slice_index (c : stats) (zeta : Q) (slot : option Z) (len : Q) : option Z :=
  match st_mode c with
  | Coasting =>
      if Qeq_bool len 0 then None
      else match slot with Some _ => None | None =>
      let f := (- zeta / len)%Q in
      let f := (f - inject_Z (Qfloor (f + (1 # 2))))%Q in
      let i := Qfloor ((f + (1 # 2)) * inject_Z (st_nsl c)) in
      Some (if i =? st_nsl c then 0 else i)
      end
  | Slice =>
      match (match slot, st_sel c with Some s, l => if existsb (Z.eqb s) l then Some s else None
                                  | None, [s] => Some s | None, _ => None end) with
      | None => None
      | Some s =>
          let i := Qfloor ((zeta + inject_Z s * st_sp c - st_zmin c) / st_dz c) in
          if (i <? 0) || (st_nsl c <=? i) then None else Some i
      end
  | _ => None
  end.

(** beam_stats_monitor.py:1019-1062: level of aggregation of the moments.  [stats_level] gives
    the entries of the flat array that are summed in entry (record, bunch, slice). *)
Definition zrange (n : Z) : list Z := map Z.of_nat (seq 0 (Z.to_nat n)).
Definition stats_cells (c : stats) (level : bmode) (r b s : Z) : option (list Z) :=
  match st_mode c, level with
  | Beam, Beam => Some [r]
  | Bunch, Bunch => Some [r * st_nsel c + b]
  | Bunch, Beam => Some (map (fun b => r * st_nsel c + b) (zrange (st_nsel c)))
  | Slice, Slice | Coasting, Slice => Some [(r * st_nsel c + b) * st_nsl c + s]
  | Slice, Bunch => Some (map (fun s => (r * st_nsel c + b) * st_nsl c + s) (zrange (st_nsl c)))
  | Slice, Beam | Coasting, Beam =>
      Some (flat_map (fun b => map (fun s => (r * st_nsel c + b) * st_nsl c + s) (zrange (st_nsl c)))
                     (zrange (st_nsel c)))
  | _, _ => None
  end.

Definition sum_entries (b : list Q) (ks : list Z) : Q :=
  fold_right (fun k a => nth (Z.to_nat k) b 0 + a)%Q 0%Q ks.

Definition stats_get_moment len c v ps level r b s : option Q :=
  match stats_moment len c v ps, stats_cells c level r b s with
  | Some a, Some ks => Some (sum_entries a ks)
  | _, _ => None
  end.

(** beam_stats_monitor.py:1119-1140 *)
Definition np_divide (a w : Q) : Q := if Qle_bool w 0 then 0%Q else (a / w)%Q.
Definition stats_mean len c i ps level r b s : option Q :=
  match stats_get_moment len c (fun p => stats_coord len c p i) ps level r b s,
        stats_get_moment len c (fun _ => 1%Q) ps level r b s with
  | Some a, Some w => Some (np_divide a w)
  | _, _ => None
  end.
Definition stats_cov len c i j ps level r b s : option Q :=
  match stats_get_moment len c (fun p => stats_coord len c p i * stats_coord len c p j)%Q ps level r b s,
        stats_get_moment len c (fun _ => 1%Q) ps level r b s,
        stats_mean len c i ps level r b s, stats_mean len c j ps level r b s with
  | Some a, Some w, Some mi, Some mj => Some (np_divide a w - mi * mj)%Q
  | _, _, _, _ => None
  end.
