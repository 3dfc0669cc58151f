(** Model of tracking with collective elements: the splitting of the line in parts
    ([Tracker._split_parts_for_collective_mode]), the loop over turns and parts
    ([Tracker._track_with_collective], [Tracker._track_part]) and the mechanism that places a
    track session on hold and resumes it.

    Not modelled: moves of the particles between contexts (needs_cpu), hiding of the lost
    particles around elements that ask for it, the [log] option. *)
From Coq Require Import ZArith List Bool.
From Verif.Model Require Import Kernel.
Import ListNotations.
Local Open Scope Z_scope.

(** ** Splitting in parts, tracker.py:162-195 and 224-233 *)

(** A part is a collective element, or a TrackerPartNonCollective with its
    ele_start_in_tracker and ele_stop_in_tracker. *)
Inductive cpart := PCol (idx : Z) | PNon (lo hi : Z).

(** State of the loop: [parts], [_element_part], [_element_index_in_part], first element and
    length of [this_part] ([ii_in_part] is always its length), [i_part], [idx].
    Lists are in order (python appends). *)
Record split_st := mkSplit {
  sp_parts : list cpart; sp_ep : list nat; sp_ei : list (option Z);
  sp_lo : Z; sp_n : Z; sp_ipart : nat; sp_idx : Z }.

(** One iteration of [for nn in line.element_names]; [c] is [_is_collective(ee, line)]. *)
Definition split_step (st : split_st) (c : bool) : split_st :=
  if negb c then
    mkSplit (sp_parts st) (sp_ep st ++ [sp_ipart st]) (sp_ei st ++ [Some (sp_n st)])
            (sp_lo st) (sp_n st + 1) (sp_ipart st) (sp_idx st + 1)
  else
    let '(parts, ipart) :=
      if 0 <? sp_n st then (sp_parts st ++ [PNon (sp_lo st) (sp_lo st + sp_n st)], S (sp_ipart st))
      else (sp_parts st, sp_ipart st) in
    mkSplit (parts ++ [PCol (sp_idx st)]) (sp_ep st ++ [ipart]) (sp_ei st ++ [None])
            (sp_idx st + 1) 0 (S ipart) (sp_idx st + 1).

Definition split_parts (coll : list bool) : list cpart * list nat * list (option Z) :=
  let st := fold_left split_step coll (mkSplit [] [] [] 0 0 0 0) in
  ((if 0 <? sp_n st then sp_parts st ++ [PNon (sp_lo st) (sp_lo st + sp_n st)] else sp_parts st),
   sp_ep st, sp_ei st).

(** ** Preparation of the session, tracker.py:825-875. Returns (ele_start, ele_stop, num_turns).
    (element names are already converted to indices) *)
Definition prepare_session (L spte : Z) (a : targs) : option (Z * option Z * Z) :=
  let ele_start := match a_start a with Some e => e | None => 0 end in
  match (if 0 <=? spte then (if ele_start =? 0 then Some spte else None) else Some ele_start) with
  | None => None
  | Some ele_start =>
      if negb ((0 <=? ele_start) && (ele_start <? L)) then None
      else
        let r :=
          match a_nele a with
          | Some num_elements =>
              match a_stop a, a_turns a with
              | None, None =>
                  let q := (ele_start + num_elements) / L in
                  let m := (ele_start + num_elements) mod L in
                  Some (if m =? 0 then (None, q) else (Some m, q + 1))
              | _, _ => None
              end
          | None =>
              match (match a_turns a with None => Some 1
                     | Some n => if 0 <? n then Some n else None end) with
              | None => None
              | Some n =>
                  match a_stop a with
                  | None => Some (None, n)
                  | Some j =>
                      if j =? 0 then Some (None, n)
                      else if j <=? ele_start then Some (Some j, n + 1) else Some (Some j, n)
                  end
              end
          end in
        match r with
        | None => None
        | Some (stop, n) =>
            let ok := match stop with None => true | Some j => (0 <=? j) && (j <=? L) end in
            if ok && (1 <=? n) then Some (ele_start, stop, n) else None
        end
  end.

(** ** The track loop *)
Section Collective.
Context {S : Type} (o : kops S).
(** [pp.track(particles)] for the collective element of index i. It returns None, or a
    PipelineStatus whose [on_hold] is given. *)
Variable col : Z -> S -> S * option bool.
(** [_handle_time_dependent_vars] *)
Variable tdep : S -> S.

Variable L : Z.
Variable parts : list cpart.
Variable ep : list nat.            (* _element_part *)
Variable ei : list (option Z).     (* _element_index_in_part *)
Variable skip_end : bool.          (* self.skip_end_turn_actions *)
Variable flag_monitor : Z.         (* 0 none, 1 turn by turn, 2 element by element *)

Definition elem_part (e : Z) : nat := nth (Z.to_nat e) ep 0%nat.
Definition elem_index (e : Z) : option Z := nth (Z.to_nat e) ei None.

(** TrackerPartNonCollective.track, tracker.py:1737-1757. The monitor is handed over
    only in element-by-element mode (tracker.py:1114-1117). *)
Definition part_track (lo hi : Z) (ele_start ele_stop num_elements : option Z) (multi : bool) (s : S)
    : option S :=
  let t_start := match ele_start with None => lo | Some e => lo + e end in
  let t_stop := match ele_stop with None => hi | Some e => lo + e end in
  let n := match num_elements with None => t_stop - t_start | Some n => n end in
  track_no_collective o L true (-1) (if flag_monitor =? 2 then 2 else 0) multi false
    (mkTargs (Some t_start) None (Some n) None) s.

(** Result of _track_part. *)
Inductive pres :=
| PErr                        (* an exception *)
| PHold (s : S)               (* the element returned on_hold = True *)
| PSkip (s : S)
| PGo (s : S) (stop : bool).

Definition col_track (i : Z) (stop : bool) (s : S) : pres :=
  match col i s with
  | (s, None) => PGo s stop
  | (s, Some true) => PHold s
  | (s, Some false) => PErr   (* session_on_hold is not defined: UnboundLocalError *)
  end.

Definition non_track (r : option S) (stop : bool) : pres :=
  match r with None => PErr | Some s => PGo s stop end.

(** _track_part, tracker.py:925-985. An index out of range of [_element_part] cannot occur
    (proved). *)
Definition track_part (pp : cpart) (tt : Z) (ipp : nat) (ele_start : Z) (ele_stop : option Z)
    (num_turns : Z) (multi : bool) (s : S) : pres :=
  let in_stop :=
    match ele_stop with
    | None => false
    | Some j => (j <? L) && (tt =? num_turns - 1) && Nat.eqb (elem_part j) ipp
    end in
  let stop_in_part := match ele_stop with Some j => elem_index j | None => None end in
  if (tt =? 0) && Nat.ltb ipp (elem_part ele_start) then PSkip s
  else if (tt =? 0) && Nat.eqb (elem_part ele_start) ipp then
    match elem_index ele_start with
    | None =>
        let s := if multi then k_multi o s else s in
        match pp with PCol i => col_track i false s | PNon _ _ => PErr end
    | Some i_start =>
        match pp with
        | PCol _ => PErr
        | PNon lo hi =>
            if in_stop then
              non_track (part_track lo hi (Some i_start) stop_in_part None multi s) true
            else non_track (part_track lo hi (Some i_start) None None multi s) false
        end
    end
  else if in_stop then
    match stop_in_part, pp with
    | Some i_stop, PNon lo hi => non_track (part_track lo hi None None (Some i_stop) multi s) true
    | Some _, PCol _ => PErr
    | None, _ => PGo s true
    end
  else
    match pp with
    | PNon lo hi => non_track (part_track lo hi None None None multi s) false
    | PCol i =>
        let s := if flag_monitor =? 2 then k_mon o s else s in
        let s := if multi then k_multi o s else s in
        col_track i false s
    end.

(** [_zerodrift.track(particles, increment_at_element=True)], tracker.py:1165-1172 and the
    per-element kernel, base_element.py:191-201. *)
Definition zerodrift (s : S) : S :=
  let '(s, act) := k_check o s in
  let '(s, act) := k_check o s in
  if act then k_incr o 1 s else s.

(** A session on hold, tracker.py:1130-1150 *)
Record session := mkSession {
  ss_start : Z; ss_stop : option Z; ss_turns : Z; ss_tt : Z; ss_ipp : nat }.

Inductive outcome :=
| Failed
| OnHold (h : session) (s : S)
| Done (s : S).

(** Result of the loop over the parts of one turn. *)
Inductive tres := TErr | THold (ipp : nat) (s : S) | TGo (s : S) (stop : bool).

(** The loop over parts, tracker.py:1091-1180, from part number [ipp]. The parts before
    [ipp_resume] are skipped ([continue]) by the caller, see [drop_parts]. *)
Fixpoint parts_loop (pps : list cpart) (ipp : nat) (tt ele_start : Z) (ele_stop : option Z)
    (num_turns : Z) (multi : bool) (s : S) : tres :=
  match pps with
  | [] => TGo s false
  | pp :: pps' =>
      match track_part pp tt ipp ele_start ele_stop num_turns multi s with
      | PErr => TErr
      | PHold s => THold ipp s
      | PSkip s => parts_loop pps' (Datatypes.S ipp) tt ele_start ele_stop num_turns multi s
      | PGo s stop =>
          let s := match pp with PCol _ => if stop then s else zerodrift s | PNon _ _ => s end in
          if stop then TGo s true
          else parts_loop pps' (Datatypes.S ipp) tt ele_start ele_stop num_turns multi s
      end
  end.

(** End of the turn, tracker.py:1186-1194. *)
Definition end_turn (ele_stop : option Z) (s : S) : option S :=
  let s := if (flag_monitor =? 2) && (match ele_stop with None => true | Some j => j =? L end)
           then k_mon o s else s in
  track_no_collective o L skip_end (-1) 0 false false (mkTargs (Some L) None (Some 0) None) s.

(** The loop over turns, tracker.py:1072-1194, from turn [tt]; [resume] is the part from which
    turn [tt] is resumed ([None] for a turn that is started). [n] counts the turns left.
    [tdv] is enable_time_dependent_vars: in a resumed turn the handler is called with
    [particles = None] and raises. *)
Fixpoint turns_loop (n : nat) (tt : Z) (resume : option nat) (ele_start : Z) (ele_stop : option Z)
    (num_turns : Z) (tdv multi : bool) (s : S) : outcome :=
  match n with
  | O => Done s
  | Datatypes.S n' =>
      let within := match resume with Some _ => true | None => false end in
      let s := if negb (flag_monitor =? 0) && ((ele_start =? 0) || (0 <? tt)) && negb within
               then k_mon o s else s in
      if tdv && within then Failed
      else
        let s := if tdv then tdep s else s in
        let ipp0 := match resume with Some i => i | None => O end in
        match parts_loop (skipn ipp0 parts) ipp0 tt ele_start ele_stop num_turns multi s with
        | TErr => Failed
        | THold ipp s => OnHold (mkSession ele_start ele_stop num_turns tt ipp) s
        | TGo s true => Done s
        | TGo s false =>
            match end_turn ele_stop s with
            | None => Failed
            | Some s => turns_loop n' (tt + 1) None ele_start ele_stop num_turns tdv multi s
            end
        end
  end.

(** [Tracker._track_with_collective], tracker.py:995-1197, started by the user. *)
Definition track_collective (spte : Z) (tdv multi : bool) (a : targs) (s : S) : outcome :=
  match prepare_session L spte a with
  | None => Failed
  | Some (ele_start, ele_stop, num_turns) =>
      turns_loop (Z.to_nat num_turns) 0 None ele_start ele_stop num_turns tdv multi s
  end.

(** [Tracker.resume], tracker.py:987-993: the multi element monitor is not passed
    on. *)
Definition resume (tdv : bool) (h : session) (s : S) : outcome :=
  turns_loop (Z.to_nat (ss_turns h - ss_tt h)) (ss_tt h) (Some (ss_ipp h)) (ss_start h) (ss_stop h)
    (ss_turns h) tdv false s.

(** A driver that resumes until the session is finished ([fuel] bounds the number of resumes). *)
Fixpoint drive (fuel : nat) (tdv : bool) (r : outcome) : outcome :=
  match r, fuel with
  | OnHold h s, Datatypes.S fuel' => drive fuel' tdv (resume tdv h s)
  | _, _ => r
  end.
End Collective.
Arguments Failed {S}. Arguments OnHold {S}. Arguments Done {S}.
Arguments PErr {S}. Arguments PHold {S}. Arguments PSkip {S}. Arguments PGo {S}.
Arguments TErr {S}. Arguments THold {S}. Arguments TGo {S}.

(** Tracking a line described by which of its elements are collective. *)
Definition track_collective_line {S} (o : kops S) (col : Z -> S -> S * option bool) (tdep : S -> S)
    (coll : list bool) (skip_end : bool) (spte flag_monitor : Z) (tdv multi : bool)
    (a : targs) (s : S) : outcome :=
  let '(parts, ep, ei) := split_parts coll in
  track_collective o col tdep (Z.of_nat (length coll)) parts ep ei skip_end flag_monitor
    spte tdv multi a s.

(** The events of a call in which no element asks for hold. *)
Definition ev_col (i : Z) (t : list ev) : list ev * option bool := (Ele i :: t, None).
Definition events_collective (coll : list bool) (skip_end : bool) (spte flag_monitor : Z)
    (multi : bool) (a : targs) : option (list ev) :=
  match track_collective_line ev_ops ev_col (fun t => t) coll skip_end spte flag_monitor
          false multi a [] with
  | Done t => Some (rev t)
  | _ => None
  end.
