(** Building lines from placed components: xtrack/composer/resolve_positions.py,
    xtrack/composer/ordering.py and xtrack/composer/composer.py.

    Floating point numbers are rationals; positions given as expressions are their values.
    The unique names of the rows of the table (name::0, name::1...) are the row numbers. *)
From Coq Require Import ZArith QArith Qabs List Bool String Arith.
Import ListNotations.
Local Open Scope nat_scope.

Inductive anchor := AStart | ACenter | AEnd.

(** composer.py:642-735 class Place *)
Record place := mkPlace {
  pl_name : string; pl_at : option Q; pl_from : option string;
  pl_anchor : option anchor; pl_from_anchor : option anchor }.

(** resolve_positions.py:159-167 *)
Definition anchor_offset (a : anchor) (len : Q) : Q :=
  match a with AStart => 0 | ACenter => len / 2 | AEnd => len end%Q.

Definition get {A} (l : list (option A)) (i : nat) : option A :=
  match nth_error l i with Some (Some x) => Some x | _ => None end.
Fixpoint put {A} (l : list A) (i : nat) (x : A) : list A :=
  match l, i with
  | [], _ => []
  | _ :: r, O => x :: r
  | y :: r, S i => y :: put r i x
  end.

(** dictionaries: the last assignment is the first entry *)
Fixpoint dict_get {A} (d : list (string * A)) (k : string) : option A :=
  match d with [] => None | (k', v) :: r => if String.eqb k k' then Some v else dict_get r k end.

Section Resolve.
(** length of the elements, and the [refer] of the composer *)
Variables (len : string -> Q) (refer : anchor).

(** s_start_by_index, from_name_by_index with from_anchor_by_index, resolved_index_by_name *)
Record rstate := mkR {
  r_s : list (option Q); r_from : list (option nat * option anchor); r_idx : list (string * nat) }.

Definition dflt (d : anchor) (a : option anchor) : anchor := match a with Some a => a | None => d end.

(** resolve_positions.py:72-127: position and reference of a place, if they can be known yet *)
Definition resolve_place (places : list place) (st : rstate) (index : nat) (p : place)
    : option (Q * (option nat * option anchor)) :=
  let self_length := len (pl_name p) in
  match pl_at p with
  | None =>
      match index with
      | O => None (* preset *)
      | S previous_index =>
          match get (r_s st) previous_index, nth_error places previous_index with
          | Some ps, Some previous =>
              Some ((ps + len (pl_name previous))%Q,
                    if prefix "||drift" (pl_name previous) then (None, None)
                    else (Some previous_index, Some AEnd))
          | _, _ => None
          end
      end
  | Some at_ =>
      let anchor := dflt refer (pl_anchor p) in
      match pl_from p with
      | None => Some ((at_ - anchor_offset anchor self_length)%Q, (None, None))
      | Some from =>
          match dict_get (r_idx st) from with
          | None => None
          | Some reference_index =>
              match get (r_s st) reference_index, nth_error places reference_index with
              | Some rs, Some reference =>
                  let s_reference := (rs + anchor_offset (dflt refer (pl_from_anchor p)) (len (pl_name reference)))%Q in
                  Some ((s_reference + at_ - anchor_offset anchor self_length)%Q,
                        (Some reference_index, pl_from_anchor p))
              | _, _ => None
              end
          end
      end
  end.

(** resolve_positions.py:68-133: one step of the scan; the boolean is made_progress *)
Definition resolve_step (places : list place) (st : rstate) (index : nat) : rstate * bool :=
  match nth_error places index with
  | None => (st, false)
  | Some p =>
      match get (r_s st) index with
      | Some _ => (st, false)
      | None =>
          match resolve_place places st index p with
          | None => (st, false)
          | Some (s, f) =>
              (mkR (put (r_s st) index (Some s)) (put (r_from st) index f) ((pl_name p, index) :: r_idx st), true)
          end
      end
  end.

Fixpoint resolve_scan (places : list place) (st : rstate) (idx : list nat) : rstate * bool :=
  match idx with
  | [] => (st, false)
  | i :: r => let (st, b) := resolve_step places st i in
              let (st, b') := resolve_scan places st r in (st, b || b')
  end.

(** resolve_positions.py:65-67: repeat until a scan makes no progress *)
Fixpoint resolve_loop (fuel : nat) (places : list place) (st : rstate) : option rstate :=
  match fuel with
  | O => None
  | S f => let (st', progress) := resolve_scan places st (seq 0 (List.length places)) in
           if progress then resolve_loop f places st' else Some st'
  end.

(** resolve_positions.py:52-61 *)
Definition resolve_init (places : list place) : rstate :=
  let n := List.length places in
  let blank := mkR (repeat None n) (repeat (None, None) n) [] in
  match places with
  | p :: _ => match pl_at p with
              | None => mkR (put (r_s blank) 0 (Some 0%Q)) (r_from blank) [(pl_name p, 0)]
              | Some _ => blank
              end
  | [] => blank
  end.

(** resolve_positions.py:16-27 *)
Definition place_ok (p : place) : bool :=
  match pl_from_anchor p, pl_from p, pl_at p with
  | Some _, None, _ => false
  | _, Some _, None => false
  | _, _, _ => true
  end.

Fixpoint all_some {A} (l : list (option A)) : option (list A) :=
  match l with
  | [] => Some []
  | Some x :: r => match all_some r with Some l => Some (x :: l) | None => None end
  | None :: _ => None
  end.

(** resolve_positions.py:12-156: start positions with the reference of each row; [None]: ValueError *)
Definition resolve (places : list place) : option (list Q * list (option nat * option anchor)) :=
  if forallb place_ok places then
    match resolve_loop (S (List.length places)) places (resolve_init places) with
    | Some st => match all_some (r_s st) with Some s => Some (s, r_from st) | None => None end
    | None => None
    end
  else None.

(** * Nested lines: composer.py:762-815 _flatten_components, one level *)
Inductive component :=
| CPlace (p : place)
| CName (n : string)
| CLine (names : list string)                     (* a line without placement *)
| CPlaceLine (names : list string) (p : place).   (* Place(line, ...) *)

Definition plain (n : string) : place := mkPlace n None None None None.

Definition line_length (names : list string) : Q := fold_right (fun n a => len n + a)%Q 0%Q names.

Definition flatten_component (c : component) : list place :=
  match c with
  | CPlace p => [p]
  | CName n => [plain n]
  | CLine names => map plain names
  | CPlaceLine names p =>
      match names with
      | [] => []
      | n :: r =>
          match pl_at p with
          | None => map plain names
          | Some at_ =>
              let at_of_start := (at_ - anchor_offset (dflt refer (pl_anchor p)) (line_length names))%Q in
              mkPlace n (Some at_of_start) (pl_from p) (Some AStart) (pl_from_anchor p) :: map plain r
          end
      end
  end.
Definition flatten_components (cs : list component) : list place := flat_map flatten_component cs.
End Resolve.

(** * Ordering: ordering.py *)

(** ordering.py:11-29 ResolvedPlacement; [from_] is a row number (which may not exist when
    called by Line.insert) *)
Record rplace := mkRP {
  rp_index : nat; rp_length : Q; rp_thick : bool; rp_start : Q;
  rp_from : option nat; rp_from_anchor : option anchor }.
Definition rp_center (p : rplace) : Q := (rp_start p + rp_length p / 2)%Q.
Definition rp_end (p : rplace) : Q := (rp_start p + rp_length p)%Q.

Definition Qltb (a b : Q) : bool := negb (Qle_bool b a).

(** ordering.py:235-240: the comparator is negative *)
Definition cmp_lt (tol : Q) (a b : Q) : bool :=
  negb (Qltb (Qabs (a - b)) tol) && Qltb a b.

(** Python's [sorted] is stable: insertion of each element after those which are not greater.
    (The comparator is an order only if "within tolerance" is transitive on the data; otherwise
    the result of [sorted] depends on its algorithm.) *)
Fixpoint insert_sorted {A} (lt : A -> A -> bool) (x : A) (l : list A) : list A :=
  match l with
  | [] => [x]
  | y :: r => if lt x y then x :: l else y :: insert_sorted lt x r
  end.
Definition stable_sort {A} (lt : A -> A -> bool) (l : list A) : list A :=
  fold_left (fun acc x => insert_sorted lt x acc) l [].

(** ordering.py:122-140 *)
Definition really_thick (p : rplace) : bool := rp_thick p && negb (Qeq_bool (rp_end p - rp_start p) 0).
Definition starts_group (tol : Q) (previous p : rplace) : bool :=
  Qltb tol (Qabs (rp_center p - rp_center previous)) || really_thick previous || really_thick p.
(** groups, the last element of the current group being [previous] *)
Fixpoint group_from (tol : Q) (cur : list rplace) (previous : rplace) (l : list rplace) : list (list rplace) :=
  match l with
  | [] => [cur]
  | p :: r => if starts_group tol previous p then cur :: group_from tol [p] p r
              else group_from tol (cur ++ [p]) p r
  end.
Definition group_same_s (tol : Q) (l : list rplace) : list (list rplace) :=
  match l with [] => [] | p :: r => group_from tol [p] p r end.

(** ordering.py:74-78 group_index_by_name *)
Fixpoint group_index (groups : list (list rplace)) (k : nat) (row : nat) : option nat :=
  match groups with
  | [] => None
  | g :: r => if existsb (fun p => Nat.eqb (rp_index p) row) g then Some k else group_index r (S k) row
  end.

(** ordering.py:165-197: where the reference of a placement lies *)
Inductive kind := Upstream | Free | Downstream | SameS | Missing.
Definition kind_of (gi : nat -> option nat) (k : nat) (allow : bool) (p : rplace) : kind :=
  match rp_from p with
  | None => Free
  | Some f => match gi f with
              | None => if allow then Free else Missing
              | Some g => if g <? k then Upstream else if k <? g then Downstream
                          else match rp_from_anchor p with None => Free | Some _ => SameS end
              end
  end.
Definition is_kind (gi : nat -> option nat) k allow (x : kind) (p : rplace) : bool :=
  match kind_of gi k allow p, x with
  | Upstream, Upstream | Free, Free | Downstream, Downstream | SameS, SameS | Missing, Missing => true
  | _, _ => false
  end.

(** ordering.py:205-223: the two dictionaries of pending insertions; [before] and [after] list
    the pending placements *)
Definition wants (t : nat) (p : rplace) : bool :=
  match rp_from p with Some f => Nat.eqb f t | None => false end.
(** ordering.py:227-233: one walk; pops the pending insertions of each element met *)
Fixpoint walk (order before after : list rplace) : list rplace * list rplace * list rplace :=
  match order with
  | [] => ([], before, after)
  | p :: r =>
      let mb := filter (wants (rp_index p)) before in
      let before := filter (fun q => negb (wants (rp_index p) q)) before in
      let ma := filter (wants (rp_index p)) after in
      let after := filter (fun q => negb (wants (rp_index p) q)) after in
      let '(l, before, after) := walk r before after in
      (mb ++ p :: ma ++ l, before, after)
  end.

(** ordering.py:225-242; [None]: ValueError *)
Fixpoint insert_loop (fuel : nat) (order before after : list rplace) : option (list rplace) :=
  match before, after with
  | [], [] => Some order
  | _, _ =>
      match fuel with
      | O => None
      | S f => let '(new_order, before, after) := walk order before after in
               if List.length new_order =? List.length order then None else insert_loop f new_order before after
      end
  end.

(** ordering.py:143-244 *)
Definition order_group (gi : nat -> option nat) (k : nat) (allow : bool) (g : list rplace) : option (list rplace) :=
  if (List.length g =? 1) || forallb (fun p => match rp_from p with None => true | Some _ => false end) g then Some g
  else if existsb (is_kind gi k allow Missing) g then None
  else
    let order := filter (is_kind gi k allow Upstream) g ++ filter (is_kind gi k allow Free) g
                 ++ filter (is_kind gi k allow Downstream) g in
    let same := filter (is_kind gi k allow SameS) g in
    let is_end p := match rp_from_anchor p with Some AEnd => true | _ => false end in
    insert_loop (List.length g) order (filter (fun p => negb (is_end p)) same) (filter is_end same).

Fixpoint order_groups (gi : nat -> option nat) (allow : bool) (k : nat) (gs : list (list rplace)) : option (list rplace) :=
  match gs with
  | [] => Some []
  | g :: r => match order_group gi k allow g, order_groups gi allow (S k) r with
              | Some a, Some b => Some (a ++ b)
              | _, _ => None
              end
  end.

(** ordering.py:32-119: the placements in the order of the line *)
Definition sort_places (tol : Q) (allow : bool) (ps : list rplace) : option (list rplace) :=
  let sorted := stable_sort (fun a b => cmp_lt tol (rp_center a) (rp_center b)) ps in
  let groups := group_same_s tol sorted in
  order_groups (group_index groups 0) allow 0 groups.

(** * Filling the gaps: composer.py:838-866 *)
Inductive piece := PElem (row : nat) (len : Q) | PDrift (len : Q).
Definition piece_length (x : piece) : Q := match x with PElem _ l => l | PDrift l => l end.

(** [from]: end of the previous element *)
Fixpoint fill_gaps (s_tol : Q) (from : Q) (ps : list rplace) : option (list piece) :=
  match ps with
  | [] => Some []
  | p :: r =>
      let gap := (rp_start p - from)%Q in
      match fill_gaps s_tol (rp_end p) r with
      | None => None
      | Some l =>
          if Qltb s_tol (Qabs gap) then
            if Qltb gap 0 then None else Some (PDrift gap :: PElem (rp_index p) (rp_length p) :: l)
          else Some (PElem (rp_index p) (rp_length p) :: l)
      end
  end.

Definition last_end (ps : list rplace) : Q := match rev ps with p :: _ => rp_end p | [] => 0%Q end.

Definition generate (s_tol : Q) (length : option Q) (ps : list rplace) : option (list piece) :=
  match ps with
  | [] => Some (match length with Some l => if Qltb s_tol l then [PDrift l] else [] | None => [] end)
  | _ =>
      match fill_gaps s_tol 0 ps with
      | None => None
      | Some names =>
          match length with
          | None => Some names
          | Some l =>
              let line_length := last_end ps in
              if Qltb (l + s_tol) line_length then None
              else if Qltb line_length (l - s_tol) then Some (names ++ [PDrift (l - line_length)])
              else Some names
          end
      end
  end.

(** composer.py:869-894; false: ValueError *)
Fixpoint gaps_ok (s_tol from : Q) (ps : list rplace) : bool :=
  match ps with
  | [] => true
  | p :: r => negb (Qltb (rp_start p - from) (- s_tol)) && gaps_ok s_tol (rp_end p) r
  end.
Definition validate_geometry (s_tol : Q) (length : option Q) (check_overlaps : bool) (ps : list rplace) : bool :=
  match ps with
  | [] => true
  | _ => (negb check_overlaps || gaps_ok s_tol 0 ps)
         && match length with Some l => negb (Qltb (l + s_tol) (last_end ps)) | None => true end
  end.

(** * Building: composer.py:313-410 with resolved components *)
Definition rows (len : string -> Q) (thick : string -> bool) (places : list place) (s : list Q)
    (from : list (option nat * option anchor)) : list rplace :=
  map (fun i => let p := nth i places (plain EmptyString) in
                let f := nth i from (None, None) in
                mkRP i (len (pl_name p)) (thick (pl_name p)) (nth i s 0%Q) (fst f) (snd f))
      (seq 0 (List.length places)).

Definition build (len : string -> Q) (thick : string -> bool) (refer : anchor) (tol s_tol : Q)
    (length : option Q) (places : list place) : option (list piece) :=
  match resolve len refer places with
  | None => None
  | Some (s, from) =>
      match sort_places tol false (rows len thick places s from) with
      | None => None
      | Some ps => generate s_tol length ps
      end
  end.

(** composer.py:361-379: only names; the added drift is not taken from the cache *)
Definition build_names (len : string -> Q) (s_tol : Q) (length : option Q) (names : list string) : option (list piece) :=
  let l := map (fun i => PElem i (len (nth i names EmptyString))) (seq 0 (List.length names)) in
  match length with
  | None => Some l
  | Some want =>
      let have := line_length len names in
      if Qltb (want + s_tol) have then None
      else if Qltb have (want - s_tol) then Some (l ++ [PDrift (want - have)])
      else Some l
  end.

(** mirror: composer.py:407-408 *)
Definition build_mirror (mirror : bool) (l : option (list piece)) : option (list piece) :=
  if mirror then option_map (@rev piece) l else l.
