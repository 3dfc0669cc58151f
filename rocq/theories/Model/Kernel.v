(** Model of the compiled tracking kernel [track_line] and of the python function that
    calls it ([Tracker._track_no_collective]), as control flow over an abstract state.

    The state is a parameter: it is instantiated with event traces (which calls are made, in
    which order), with one particle (GPU contexts) and with particle arrays (CPU contexts). *)
From Coq Require Import ZArith List Bool.
Import ListNotations.
Local Open Scope Z_scope.

(** The calls that [track_line] makes on the particles (tracker.py:619-731). *)
Record kops (S : Type) := mkKops {
  k_mon : S -> S;               (* ParticlesMonitor_track_local_particle(tbt_monitor, ..) *)
  k_multi : S -> S;             (* MultiElementMonitor_track_local_particle(..) *)
  k_ele : Z -> S -> S;          (* switch(elem_type) { ... } for element elem_idx, followed by
                                   global_aperture_check (tracker.py:655-694) *)
  k_check : S -> S * bool;      (* isactive = check_is_active(&lpart) *)
  k_incr : Z -> S -> S;         (* increment_at_element(&lpart, +-1) *)
  k_end : S -> S;               (* increment_at_turn *)
  k_end_back : S -> S           (* increment_at_turn_backtrack *)
}.
Arguments mkKops {S}. Arguments k_mon {S}. Arguments k_multi {S}. Arguments k_ele {S}.
Arguments k_check {S}. Arguments k_incr {S}. Arguments k_end {S}. Arguments k_end_back {S}.

Section Kernel.
Context {S : Type} (o : kops S).

(** The loop over elements, tracker.py:640-717. [fuel] bounds the number of iterations;
    the loop is entered with fuel [num_ele_track], running out of it is the error value [None]
    (shown unreachable in Proofs/Kernel.v). The configuration flag
    DANGER_SKIP_ACTIVE_CHECK_AND_SWAPS is not modelled (not set). *)
Fixpoint elem_loop (fuel : nat) (flag_monitor : Z) (multi bt : bool)
    (ele_start ele_stop increm elem_idx : Z) (isactive : bool) (st : S) : option (S * bool) :=
  if (ele_start <=? elem_idx) && (elem_idx <? ele_stop) then
    match fuel with
    | O => None
    | Datatypes.S fuel' =>
        let st := if flag_monitor =? 2 then k_mon o st else st in
        let st := if multi then k_multi o st else st in
        let st := k_ele o elem_idx st in
        let '(st, isactive) := k_check o st in
        if isactive then
          let st := if bt then k_incr o (-1) st else k_incr o 1 st in
          elem_loop fuel' flag_monitor multi bt ele_start ele_stop increm
            (elem_idx + increm) isactive st
        else Some (st, false)
    end
  else Some (st, isactive).

(** One iteration of the loop over turns, tracker.py:613-734, after the [if (!isactive) break]. *)
Definition one_turn (flag_monitor : Z) (multi bt : bool) (ele_start num_ele_track : Z)
    (flag_end_turn_actions : bool) (isactive : bool) (st : S) : option (S * bool) :=
  let ele_stop := ele_start + num_ele_track in
  let '(elem_idx, increm, st) :=
    if bt then
      (ele_stop - 1, -1, if flag_end_turn_actions then k_end_back o st else st)
    else
      (ele_start, 1, if flag_monitor =? 1 then k_mon o st else st) in
  match elem_loop (Z.to_nat num_ele_track) flag_monitor multi bt ele_start ele_stop increm
          elem_idx isactive st with
  | None => None
  | Some (st, isactive) =>
      let st := if flag_monitor =? 2 then k_mon o st else st in
      if bt then
        Some ((if flag_monitor =? 1 then k_mon o st else st), isactive)
      else if flag_end_turn_actions then
        Some ((if isactive then k_end o st else st), isactive)
      else Some (st, isactive)
  end.

(** The loop over turns, tracker.py:613-734. *)
Fixpoint turn_loop (num_turns : nat) (flag_monitor : Z) (multi bt : bool)
    (ele_start num_ele_track : Z) (flag_end_turn_actions : bool) (isactive : bool) (st : S)
    : option S :=
  match num_turns with
  | O => Some st
  | Datatypes.S num_turns' =>
      if negb isactive then Some st
      else
        match one_turn flag_monitor multi bt ele_start num_ele_track flag_end_turn_actions
                isactive st with
        | None => None
        | Some (st, isactive) =>
            turn_loop num_turns' flag_monitor multi bt ele_start num_ele_track
              flag_end_turn_actions isactive st
        end
  end.

(** [track_line], tracker.py:534-738: initial activity check, then the loop over turns. *)
Definition track_line (num_turns : Z) (ele_start num_ele_track : Z)
    (flag_end_turn_actions : bool) (flag_monitor : Z) (multi bt : bool) (st : S) : option S :=
  let '(st, isactive) := k_check o st in
  turn_loop (Z.to_nat num_turns) flag_monitor multi bt ele_start num_ele_track
    flag_end_turn_actions isactive st.

End Kernel.

(** The arguments with which [_track_no_collective] calls the kernel. *)
Record kcall := mkKcall {
  kc_turns : Z; kc_start : Z; kc_n : Z; kc_end : bool }.

(** The user arguments of a track call. Element names are already converted to indices
    (tracker.py:1259-1260 and 1321-1322). [spte] is [particles.start_tracking_at_element]. *)
Record targs := mkTargs {
  a_start : option Z; a_stop : option Z; a_nele : option Z; a_turns : option Z }.

(** Resolution of the starting element, tracker.py:1252-1266. [None] is an exception.
    Python [ele_start != 0] is true for [None]. *)
Definition resolve_start (L spte : Z) (ele_start : option Z) : option Z :=
  let r :=
    if 0 <=? spte then
      (match ele_start with
       | Some 0 => Some (Some spte)
       | _ => None
       end)
    else Some ele_start in
  match r with
  | None => None
  | Some e =>
      let e := match e with Some e => e | None => 0 end in
      if (0 <=? e) && (e <=? L) then Some e else None
  end.

(** Splitting in first, middle and last turns, tracker.py:1284-1335.
    Returns (num_elements_first_turn, num_middle_turns, num_elements_last_turn). *)
Definition split_turns (L ele_start : Z) (a : targs) : option (Z * Z * Z) :=
  match a_nele a with
  | Some num_elements =>
      if negb (0 <=? num_elements) then None
      else match a_stop a, a_turns a with
      | None, None =>
          if num_elements + ele_start <=? L then Some (num_elements, 0, 0)
          else
            if L =? 0 then None   (* np.divmod by zero: not a usable result *)
            else Some (L - ele_start, (ele_start + num_elements) / L - 1,
                       (ele_start + num_elements) mod L)
      | _, _ => None
      end
  | None =>
      match (match a_turns a with None => Some 1 | Some n => if 0 <? n then Some n else None end) with
      | None => None
      | Some num_turns =>
          match a_stop a with
          | None => Some (L - ele_start, num_turns - 1, 0)
          | Some ele_stop =>
              if negb ((0 <=? ele_stop) && (ele_stop <=? L)) then None
              else
                let num_turns := if ele_stop <=? ele_start then num_turns + 1 else num_turns in
                if num_turns =? 1 then Some (ele_stop - ele_start, 0, 0)
                else Some (L - ele_start, num_turns - 2, ele_stop)
          end
      end
  end.

(** The kernel calls of [_track_no_collective], tracker.py:1337-1437.
    [skip_end] is [self.skip_end_turn_actions or _force_no_end_turn_actions]. *)
Definition plan_no_collective (L : Z) (skip_end : bool) (spte : Z) (a : targs)
    : option (list kcall) :=
  match resolve_start L spte (a_start a) with
  | None => None
  | Some ele_start =>
      match split_turns L ele_start a with
      | None => None
      | Some (n_first, n_middle, n_last) =>
          let flag_first := if skip_end then false else n_first + ele_start =? L in
          let flag_middle := negb skip_end in
          if negb (0 <=? n_first) then None
          else
            Some ([mkKcall 1 ele_start n_first flag_first]
                  ++ (if 0 <? n_middle then [mkKcall n_middle 0 L flag_middle] else [])
                  ++ (if 0 <? n_last then [mkKcall 1 0 n_last false] else []))
      end
  end.

(** Execution of the kernel calls one after the other. *)
Fixpoint run_calls {S} (o : kops S) (flag_monitor : Z) (multi bt : bool)
    (calls : list kcall) (st : S) : option S :=
  match calls with
  | [] => Some st
  | c :: cs =>
      match track_line o (kc_turns c) (kc_start c) (kc_n c) (kc_end c) flag_monitor multi bt st with
      | None => None
      | Some st' => run_calls o flag_monitor multi bt cs st'
      end
  end.

(** [Tracker._track_no_collective] (tracker.py:1198-1440) on an abstract state. *)
Definition track_no_collective {S} (o : kops S) (L : Z) (skip_end : bool) (spte : Z)
    (flag_monitor : Z) (multi bt : bool) (a : targs) (st : S) : option S :=
  match plan_no_collective L skip_end spte a with
  | None => None
  | Some calls => run_calls o flag_monitor multi bt calls st
  end.

(** * Events: the instance of the state that records the calls. *)
Inductive ev :=
| Mon            (* turn-by-turn / element-by-element monitor *)
| Multi          (* multi element monitor *)
| Ele (i : Z)    (* the physics of element i *)
| Incr (k : Z)   (* at_element += k *)
| EndTurn        (* at_turn += 1, at_element = 0, s reset *)
| EndTurnBack.   (* at_turn -= 1, at_element = number of elements, s reset *)

(** The trace is kept in reverse order (newest first). *)
Definition ev_ops : kops (list ev) := mkKops
  (fun t => Mon :: t) (fun t => Multi :: t) (fun i t => Ele i :: t) (fun t => (t, true))
  (fun k t => Incr k :: t) (fun t => EndTurn :: t) (fun t => EndTurnBack :: t).

Definition events_no_collective (L : Z) (skip_end : bool) (spte flag_monitor : Z)
    (multi bt : bool) (a : targs) : option (list ev) :=
  option_map (@rev ev) (track_no_collective ev_ops L skip_end spte flag_monitor multi bt a []).

(** * Tracking with a progress indicator, tracker.py:313-377. *)

(** The arguments of the successive calls for the batches starting at turn [ii].
    [n] is the number of turns after the adjustment for the incomplete turn. *)
Fixpoint progress_batches (fuel : nat) (ii n batch : Z) (a : targs) : option (list targs) :=
  if ii <? n then
    match fuel with
    | O => None
    | Datatypes.S fuel' =>
        let is_first := ii =? 0 in
        let is_last := n <=? ii + batch in
        let a' :=
          if is_first && is_last then a
          else if is_first then mkTargs (a_start a) None (a_nele a) (Some batch)
          else if is_last then
            let r := n mod batch in
            let r := if r =? 0 then batch else r in
            mkTargs None (a_stop a) (a_nele a) (Some r)
          else mkTargs None None (a_nele a) (Some batch) in
        match progress_batches fuel' (ii + batch) n batch a with
        | None => None
        | Some l => Some (a' :: l)
        end
    end
  else Some [].

(** tracker.py:318-356: adjusted number of turns and the list of batches.
    [kwargs['num_turns']] must be present and, to be compared, must be a number. *)
Definition plan_progress (L batch : Z) (a : targs) : option (list targs) :=
  match a_turns a with
  | None => None
  | Some n =>
      let ele_start := match a_start a with Some e => e | None => 0 end in
      let ele_stop := match a_stop a with Some e => e | None => L end in
      let n' := if ele_stop <=? ele_start then n + 1 else n in
      progress_batches (Z.to_nat n') 0 n' batch a
  end.

(** The successive calls share the particle object; [start_tracking_at_element] is reset to -1 by
    the first one (tracker.py:1258). *)
Fixpoint run_batches {S} (o : kops S) (L : Z) (skip_end : bool) (spte : Z) (flag_monitor : Z)
    (multi bt : bool) (l : list targs) (st : S) : option S :=
  match l with
  | [] => Some st
  | a :: l' =>
      match track_no_collective o L skip_end spte flag_monitor multi bt a st with
      | None => None
      | Some st' => run_batches o L skip_end (-1) flag_monitor multi bt l' st'
      end
  end.

Definition track_with_progress {S} (o : kops S) (L : Z) (skip_end : bool) (spte : Z)
    (flag_monitor : Z) (multi bt : bool) (batch : Z) (a : targs) (st : S) : option S :=
  match plan_progress L batch a with
  | None => None
  | Some l => run_batches o L skip_end spte flag_monitor multi bt l st
  end.

Definition events_progress (L : Z) (skip_end : bool) (spte flag_monitor : Z)
    (multi bt : bool) (batch : Z) (a : targs) : option (list ev) :=
  option_map (@rev ev) (track_with_progress ev_ops L skip_end spte flag_monitor multi bt batch a []).
