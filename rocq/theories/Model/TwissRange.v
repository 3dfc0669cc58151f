(** Twiss in ranges with the initial conditions inside, or across the end of the line:
    xtrack/twiss/handle_init_inside_range_and_line_wrap.py, with TwissTable.concatenate (twiss_table.py lines 1149-1232).

    Elements are numbered in the order in which they are traversed, that is from the end of the line if [reverse] is set.
    Optics at an element is an abstract state [X] which an element maps to the state at the next one ([step], undone by [back]).
    A row has the state at the entry of the element, a quantity [r_c] which stands for each of s, mux, muy and dzeta
    (CYCLICAL_QUANTITIES), and a quantity [r_z] which stands for muzeta. *)
From Coq Require Import List Bool Arith QArith Qcanon.
Import ListNotations.
Local Open Scope nat_scope.
Local Open Scope list_scope.

Section Range.
Context {X : Type}.
Variables (n : nat) (step back : nat -> X -> X) (inc incz : nat -> X -> Qc) (marker : nat -> bool) (reverse : bool).
(** the value of [r_c] in the first row of a table: position in the line for s *)
Variable origin : nat -> nat -> Qc.

(** TwissInit; the name [None] is _end_point *)
Record init := mkInit { i_elem : nat; i_x : X; i_c : Qc; i_z : Qc }.
Record row := mkRow { r_name : option nat; r_x : X; r_c : Qc; r_z : Qc }.
Definition table := list row.

(** ** _compute_base_twiss for a range (twiss.py lines 571-640, optics_propagation.py lines 58-73, 104-160) *)
(** states at the entry of the elements from k, and at the end of the last *)
Fixpoint forward (k m : nat) (x : X) : list X :=
  match m with O => [x] | S m => x :: forward (S k) m (step k x) end.
Fixpoint backward (k m : nat) (x : X) : list X :=
  match m with
  | O => [x]
  | S m => match backward (S k) m x with y :: l => back k y :: y :: l | [] => [] end
  end.
Fixpoint fill (k : nat) (l : list X) (c z : Qc) : table :=
  match l with
  | [] => []
  | [x] => [mkRow None x c z]
  | x :: r => mkRow (Some k) x c z :: fill (S k) r (c + inc k x)%Qc (z + incz k x)%Qc
  end.
Definition first_row (t : table) : option row := hd_error t.
Definition last_row (t : table) : option row := hd_error (rev t).
Definition shift_c (d : Qc) (t : table) : table := map (fun r => mkRow (r_name r) (r_x r) (r_c r + d)%Qc (r_z r)) t.
Definition shift_z (d : Qc) (t : table) : table := map (fun r => mkRow (r_name r) (r_x r) (r_c r) (r_z r + d)%Qc) t.
(** the first matching test decides on which side the initial conditions are (optics_propagation.py lines 63-71); [None]: exception *)
Definition at_entry (start stop elem : nat) : option bool :=
  if reverse then (if elem =? stop then Some false else if elem =? start then Some true else None)
  else (if elem =? start then Some true else if elem =? stop then Some false else None).
(** _align_open_twiss_phases_with_init (twiss_postprocess_and_complem_results.py lines 313-332) for muzeta *)
Definition piece (start stop : nat) (i : init) : option table :=
  if stop <? start then None else
  match at_entry start stop (i_elem i) with
  | Some true =>
      let t := fill start (forward start (S (stop - start)) (i_x i)) (origin start stop) 0%Qc in
      match first_row t with Some r => Some (shift_z (i_z i - r_z r)%Qc t) | None => None end
  | Some false =>
      let t := fill start (backward start (S (stop - start)) (i_x i)) (origin start stop) 0%Qc in
      match last_row t with Some r => Some (shift_z (i_z i - r_z r)%Qc t) | None => None end
  | None => None
  end.

(** ** TwissTable.concatenate of two tables *)
Definition same_name (a b : option nat) : bool :=
  match a, b with Some i, Some j => i =? j | None, None => true | _, _ => false end.
Definition kept (t1 t2 : table) : option nat :=
  match last_row t1, first_row t2 with
  | Some l, Some f =>
      let e := if same_name (r_name l) None then List.length t1 - 1 else List.length t1 in
      if existsb (fun r => same_name (r_name r) (r_name f)) t1
      then match nth_error t1 (e - 1) with
           | Some r => if same_name (r_name r) (r_name f) then Some (e - 1) else None (* AssertionError *)
           | None => None
           end
      else Some e
  | _, _ => None
  end.
Definition concatenate (t1 t2 : table) : option table :=
  match kept t1 t2, first_row t1, last_row t1, first_row t2, last_row t2 with
  | Some e, Some f1, Some l1, Some f2, Some l2 =>
      let t1' := shift_c (- r_c f1)%Qc (firstn e t1) in
      (** the row before the first of [t2] in the new table; the last of all if there is none *)
      let before := match last_row t1' with Some r => r_c r | None => (r_c l2 - r_c f2)%Qc end in
      let rest := match last_row (firstn e t1) with Some r => (r_c l1 - r_c r)%Qc | None => 0%Qc end in
      Some (t1' ++ shift_c (- r_c f2 + before + rest)%Qc t2)
  | _, _, _, _, _ => None
  end.

(** ** handle_init_inside_range_and_line_wrap.py *)
Definition find_row (name : option nat) (t : table) : option row := find (fun r => same_name (r_name r) name) t.
(** lines 199-207 and 239-244 *)
Definition align (i : init) (t : table) : option table :=
  match find_row (Some (i_elem i)) t with
  | Some r => Some (shift_z (i_z i - r_z r)%Qc (shift_c (i_c i - r_c r)%Qc t))
  | None => None
  end.
(** _combine_init_inside_range_twiss_tables (lines 233-252) *)
Definition combine_inside (i : init) (t1 t2 : table) : option table :=
  match concatenate t1 t2 with Some t => align i t | None => None end.
(** get_twiss_init, with the name of the element replaced *)
Definition init_from (name : option nat) (elem : nat) (t : table) : option init :=
  match find_row name t with Some r => Some (mkInit elem (r_x r) (r_c r) (r_z r)) | None => None end.
Definition bind {A B} (a : option A) (f : A -> option B) : option B := match a with Some x => f x | None => None end.

(** lines 15-60 *)
Definition inside (start stop : nat) (i : init) : option table :=
  if marker (i_elem i) then
    if (start <=? i_elem i) && (i_elem i <=? stop) then
      bind (piece start (i_elem i) i) (fun t1 => bind (piece (i_elem i) stop i) (fun t2 => combine_inside i t1 t2))
    else None
  else None.

(** name[-1] = '_end_point' *)
Definition rename_end (t : table) : table :=
  firstn (List.length t - 1) t ++ match last_row t with Some r => [mkRow None (r_x r) (r_c r) (r_z r)] | None => [] end.
(** lines 89-106: no end given *)
Definition one_turn (start : nat) (i : init) : option table :=
  bind (piece start (n - 1) i) (fun t1 =>
  bind (init_from None 0 t1) (fun b =>
  bind (piece 0 start b) (fun t2 =>
  concatenate t1 (rename_end (firstn (List.length t2 - 1) t2))))).

(** twiss.py lines 448-463: no end given, periodic; [full] is the table of the whole line. Slices of a table by name include the
    row of the second name. TwissTable.zero_at (twiss_table.py lines 1246-1248) is applied to the first row. *)
Definition periodic_start (start : nat) (full : table) : option table :=
  bind (concatenate (skipn start full) (firstn (S start) full)) (fun t =>
  match first_row t with Some r => Some (rename_end (shift_c (- r_c r)%Qc t)) | None => None end).

(** lines 108-189, then 191-203 *)
Definition wrap (start stop : nat) (i : init) : option table :=
  if start <=? stop then None (* AssertionError *) else
  let e := i_elem i in
  bind
    (if negb ((e =? start) || (e =? stop)) then
       if start <=? e then
         bind (piece start e i) (fun t1 =>
         bind (piece e (n - 1) i) (fun t2 =>
         bind (combine_inside i t1 t2) (fun side =>
         bind (init_from None 0 t2) (fun b =>
         bind (piece 0 stop b) (fun t3 => Some (side, t3))))))
       else
         bind (piece 0 e i) (fun t2 =>
         bind (piece e stop i) (fun t3 =>
         bind (combine_inside i t2 t3) (fun side =>
         bind (init_from (Some 0) (n - 1) t2) (fun b =>
         bind (piece start (n - 1) b) (fun t1 => Some (t1, side))))))
     else if start <=? e then
       bind (piece start (n - 1) i) (fun t1 =>
       bind (init_from None 0 t1) (fun b =>
       bind (piece 0 stop b) (fun t2 => Some (t1, t2))))
     else if e <=? stop then
       bind (piece 0 stop i) (fun t2 =>
       bind (init_from (Some 0) (n - 1) t2) (fun b =>
       bind (piece start (n - 1) b) (fun t1 => Some (t1, t2))))
     else None)
    (fun ts => bind (concatenate (fst ts) (snd ts)) (align i)).
End Range.
Arguments mkInit {X}.
Arguments mkRow {X}.
Arguments row : clear implicits.
Arguments init : clear implicits.
