(** Slicing and cutting of lines: xtrack/slicing.py and line.py:3575-3705. *)
From Coq Require Import ZArith QArith Qabs List Bool String Arith.
From Verif.Model Require Import Line.
Import ListNotations.
Local Open Scope nat_scope.

(** * Schemes *)
Inductive smode := MThin | MThick.
Inductive scheme := Uniform (n : nat) (m : smode) | Teapot (n : nat) (m : smode) | Custom (at_s : list Q) (m : smode).
Definition mode_of (c : scheme) : smode := match c with Uniform _ m | Teapot _ m | Custom _ m => m end.

(** slicing.py:24-39 and 136-141: the number given to the constructor *)
Definition requested (c : scheme) : nat :=
  match c with
  | Uniform n _ | Teapot n _ => n
  | Custom l MThin => List.length l
  | Custom l MThick => S (List.length l)
  end.
(** false: ValueError *)
Definition scheme_ok (c : scheme) : bool := negb (requested c <? 1).
Definition order (c : scheme) : nat := match mode_of c with MThin => requested c | MThick => requested c - 1 end.

Definition qnat (n : nat) : Q := inject_Z (Z.of_nat n).

(** slicing.py:82-86, 95-99, 148-149; [None]: ZeroDivisionError *)
Definition element_weights (c : scheme) : option (list Q) :=
  let n := order c in
  match c with
  | Custom _ _ => match n with O => None | _ => Some (repeat (1 / qnat n)%Q n) end
  | _ => match n with
         | O => match mode_of c with MThick => Some [1%Q] | MThin => None end
         | _ => Some (repeat (1 / qnat n)%Q n)
         end
  end.

Fixpoint diffs (from : Q) (l : list Q) : list Q :=
  match l with [] => [] | x :: r => (x - from)%Q :: diffs x r end.

(** slicing.py:88-92, 101-113, 151-157 *)
Definition drift_weights (c : scheme) (element_length : Q) : list Q :=
  match c with
  | Uniform _ _ => let n := order c in
      match n with O => [1%Q] | _ => repeat (1 / qnat (S n))%Q (S n) end
  | Teapot _ _ => let n := order c in
      match n with
      | O => [1%Q]
      | 1 => [(1 # 2)%Q; (1 # 2)%Q]
      | _ => let edge_weight := (1 / (2 * (1 + qnat n)))%Q in
             let middle_weight := (qnat n / (qnat n * qnat n - 1))%Q in
             edge_weight :: repeat middle_weight (n - 1) ++ [edge_weight]
      end
  | Custom at_s _ => map (fun x => (x / element_length)%Q) (diffs 0 (at_s ++ [element_length]))
  end.

(** slicing.py:53-78: weights, with true for drifts *)
Fixpoint weave (m : smode) (d e : list Q) : list (Q * bool) :=
  match d with
  | [] => []
  | w :: d' => match e with
               | [] => [(w, true)]
               | x :: e' => (w, true) :: (match m with MThin => [(x, false)] | MThick => [] end) ++ weave m d' e'
               end
  end.
(** [None] also for the custom scheme on a length of zero, where the weights of the code are nan *)
Definition zero_custom (c : scheme) (element_length : Q) : bool :=
  match c with Custom _ _ => Qeq_bool element_length 0 | _ => false end.
Definition iter_weights (c : scheme) (element_length : Q) : option (list (Q * bool)) :=
  if zero_custom c element_length then None else
  match element_weights c with
  | None => None
  | Some e => Some (weave (mode_of c) (drift_weights c element_length) e)
  end.

(** * Strategies: slicing.py:163-215 *)
Record strategy := mkStrategy {
  st_slicing : option scheme;             (* None: do nothing *)
  st_name : option (string -> bool);      (* exact name or regular expression *)
  st_type : option (elem -> bool) }.
Definition is_drift_elem (e : elem) : bool := match e with EOwn CDrift _ _ => true | _ => false end.

(** slicing.py:180-206; [e] as in the dictionary, [r] after resolving replicas *)
Definition match_element (s : strategy) (name : string) (e r : elem) : bool :=
  if is_drift_elem e then
    match st_name s, st_type s with
    | Some f, None => f name
    | None, Some t => t r
    | Some f, Some t => f name && t r
    | None, None => false
    end
  else match st_name s with Some f => f name | None => true end
       && match st_type s with Some t => t r | None => true end.

(** slicing.py:330-345, 225-232; outer [None]: ValueError *)
Definition drifts_untouched : strategy := mkStrategy None None (Some is_drift_elem).
Definition scheme_for_element (strategies : list strategy) (name : string) (e r : elem) : option (option scheme) :=
  match List.find (fun s => match_element s name e r) (rev (drifts_untouched :: strategies)) with
  | Some s => Some (st_slicing s)
  | None => None
  end.

(** * Slices: slicing.py:347-473 *)
Record sst := mkSst { ss_env : env; ss_drift : nat; ss_elem : nat; ss_offset : Q; ss_names : list string }.

Section Make.
Variables (name : string) (element : elem) (parent_name : string) (elem_len elem_weight : Q) (slice_parent : string)
          (is_drift_slice : bool).

Definition auto_drift : bool := is_drift_elem element && is_prefix "||drift_" name.

Definition add_slice (st : sst) (n : string) (k : skind) (w : Q) (off : Q) (de ee : nat) : sst :=
  mkSst (set_elem (ss_env st) n (ESlice k slice_parent (w * elem_weight)%Q (ss_offset st))) de ee off (ss_names st ++ [n]).

(** slicing.py:398-436: thin mode and drift slices *)
Definition thin_step (st : sst) (x : Q * bool) : sst :=
  let (w, is_drift) := x in
  let next := (ss_offset st + elem_len * w * elem_weight)%Q in
  if is_drift then
    if auto_drift then
      let (v, n) := get_drift (ss_env st) (elem_len * w * elem_weight)%Q in
      mkSst v (ss_drift st) (ss_elem st) next (ss_names st ++ [n])
    else
      let mk i := ((if is_drift_slice then "" else "drift_") ++ name ++ ".." ++ dec i)%string in
      let i := fresh_index (en_dict (ss_env st)) mk (ss_drift st) in
      add_slice st (mk i) SDrift w next i (ss_elem st)
  else if is_drift_slice then st
  else
    let mk i := (name ++ ".." ++ dec i)%string in
    let i := fresh_index (en_dict (ss_env st)) mk (ss_elem st) in
    if is_drift_elem element then mkSst (ss_env st) (ss_drift st) i (ss_offset st) (ss_names st)
    else add_slice st (mk i) SThin w (ss_offset st) (ss_drift st) i.

(** slicing.py:437-456 *)
Definition thick_step (st : sst) (x : Q * bool) : sst :=
  let w := fst x in
  let next := (ss_offset st + elem_len * w * elem_weight)%Q in
  if auto_drift then
    let (v, n) := get_drift (ss_env st) (elem_len * w * elem_weight)%Q in
    mkSst v (ss_drift st) (ss_elem st) next (ss_names st ++ [n])
  else
    let mk i := (name ++ ".." ++ dec i)%string in
    let i := fresh_index (en_dict (ss_env st)) mk (ss_elem st) in
    add_slice st (mk i) (if is_drift_elem element then SDrift else SThick) w next (ss_drift st) i.
End Make.

(** slicing.py:373-383, 458-468: a name for the entry or exit map *)
Definition edge_name (v : env) (name what : string) : string :=
  let nn := (name ++ what)%string in
  if mem (en_dict v) nn then
    let mk i := (nn ++ "_" ++ dec i)%string in mk (fresh_index (en_dict v) mk 0)
  else nn.

Definition has_edges (e : elem) : bool := match e with EOwn (CMagnet b) _ _ => b | _ => false end.

Definition make_slices (v : env) (name : string) (c : scheme) : option (env * list string) :=
  match resolve v name with
  | None => None
  | Some (parent_name, element) =>
      match elem_length v element with
      | None => None
      | Some elem_len =>
          let '(elem_weight, slice_parent, is_drift_slice) :=
            match element with
            | ESlice k p w _ => (w, p, match k with SDrift => true | _ => false end)
            | _ => (1%Q, parent_name, false)
            end in
          let '(v, pre) := if has_edges element then
              let n := edge_name v name "..entry_map" in (set_elem v n (EEdge true parent_name 0), [n]) else (v, []) in
          match iter_weights c elem_len with
          | None => None
          | Some ws =>
              let step := match mode_of c, is_drift_slice with
                          | MThin, _ | _, true => thin_step name element elem_len elem_weight slice_parent is_drift_slice
                          | MThick, false => thick_step name element elem_len elem_weight slice_parent
                          end in
              let st := fold_left step ws (mkSst v 0 0 0%Q pre) in
              let '(v, post) := if has_edges element then
                  let n := edge_name (ss_env st) name "..exit_map" in (set_elem (ss_env st) n (EEdge false parent_name elem_len), [n])
                  else (ss_env st, []) in
              Some (v, ss_names st ++ post)
          end
      end
  end.

(** slicing.py:275-328, without associated apertures *)
Definition starts_drift_slice (e : elem) : bool := match e with ESlice SDrift _ _ _ => true | _ => false end.
Definition slice_element (v : env) (name : string) (c : scheme) (edge_markers : bool) : option (env * list string) :=
  match lookup v name with
  | None => None
  | Some e =>
      let edge_markers := edge_markers && negb (is_drift_elem e || starts_drift_slice e) in
      match make_slices v name c with
      | None => None
      | Some (v, l) =>
          if edge_markers then
            let v := set_elem v (name ++ "_entry") marker in
            let v := set_elem v (name ++ "_exit") marker in
            Some (v, (name ++ "_entry")%string :: l ++ [(name ++ "_exit")%string])
          else Some (v, l)
      end
  end.

(** slicing.py:237-273; a row is the name in the table and the name of the element *)
Definition skip (v : env) (e r : elem) : bool :=
  negb (thick r) || match e with EOwn _ l _ => Qeq_bool l 0 | _ => false end.
Fixpoint slice_rows (strategies : list strategy) (markers : bool) (v : env) (rows : list (string * string))
    : option (env * list string) :=
  match rows with
  | [] => Some (v, [])
  | (nn, n) :: rest =>
      match lookup v n, resolve v n with
      | Some e, Some (_, r) =>
          let this :=
            if skip v e r then Some (v, [n])
            else match scheme_for_element strategies nn e r with
                 | None => None
                 | Some None => Some (v, [n])
                 | Some (Some c) => slice_element v n c markers
                 end in
          match this with
          | None => None
          | Some (v, l) => match slice_rows strategies markers v rest with
                           | Some (v, l') => Some (v, l ++ l')
                           | None => None
                           end
          end
      | _, _ => None
      end
  end.

(** * Cutting: line.py:3575-3638 *)
Definition Qltb (a b : Q) : bool := negb (Qle_bool b a).
Definition isclose (tol a b : Q) : bool := Qle_bool (Qabs (a - b)) tol.

(** rows of the table: name, start, length, thick *)
Record crow := mkRow { cr_name : string; cr_start : Q; cr_len : Q; cr_thick : bool }.
(** [None]: KeyError for the name _end_point of the last row of the table, which is not an element.
    The loop stops when the positions are exhausted. *)
Definition add_cut (x : string * Q) (o : option (list (string * Q))) : option (list (string * Q)) :=
  match o with Some l => Some (x :: l) | None => None end.
Fixpoint cuts (tol : Q) (rows : list crow) (ss : list Q) : option (list (string * Q)) :=
  match rows with
  | [] => match ss with [] => Some [] | _ => None end
  | row :: r =>
      if negb (cr_thick row) then cuts tol r ss
      else
        let start := cr_start row in
        let fin := (cr_start row + cr_len row)%Q in
        (fix go ss := match ss with
         | [] => Some []
         | c :: cs =>
             if isclose tol c start then go cs
             else if isclose tol c fin then go cs
             else if Qltb start c && Qltb c fin then add_cut (cr_name row, (c - start)%Q) (go cs)
             else if Qltb c start then go cs
             else cuts tol r ss
         end) ss
  end.

(** sorted(set(s)) *)
Fixpoint insert_s (x : Q) (l : list Q) : list Q :=
  match l with
  | [] => [x]
  | y :: r => if Qltb x y then x :: l else if Qltb y x then y :: insert_s x r else l
  end.
Definition sorted_set (l : list Q) : list Q := fold_left (fun acc x => insert_s x acc) l [].

Definition cuts_of (n : string) (l : list (string * Q)) : list Q :=
  map snd (filter (fun p => String.eqb n (fst p)) l).

(** the table of a line: [nn] are the unique names of the rows *)
Fixpoint crows (v : env) (s : Q) (rows : list (string * string)) : option (list crow) :=
  match rows with
  | [] => Some []
  | (nn, n) :: rest =>
      match resolve v n, s_length v n with
      | Some (_, e), Some l =>
          match crows v (s + l)%Q rest with Some r => Some (mkRow nn s l (thick e) :: r) | None => None end
      | _, _ => None
      end
  end.

(** line.py:3641-3705; the strategies are in the order of the dictionary of cuts *)
Definition cut_strategies (l : list (string * Q)) : list strategy :=
  mkStrategy None None None
  :: map (fun n => mkStrategy (Some (Custom (cuts_of n l) MThick)) (Some (String.eqb n)) None) (nodup string_dec (map fst l)).
Definition cut_at_s (v : env) (rows : list (string * string)) (tol : Q) (ss : list Q) : option (env * list string) :=
  match crows v 0 rows with
  | None => None
  | Some tab => match cuts tol tab (sorted_set ss) with
                | None => None
                | Some l => slice_rows (cut_strategies l) true v rows
                end
  end.
