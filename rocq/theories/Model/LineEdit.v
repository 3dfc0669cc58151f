(** Editing of lines: line.py:3964-4110 (remove, replace), 4257-4312 (filter_elements), 4318-4412 (cycle),
    5136-5314 (removal of markers and drifts), 5850-5945 (mirror, multiplication, sum),
    6105-6155 (replace_all_repeated_elements). *)
From Coq Require Import ZArith QArith Qabs List Bool String Ascii Arith.
From Verif.Model Require Import Line Slicing.
From Verif.Model Require Composer.
Import ListNotations.
Local Open Scope nat_scope.

Definition inb (l : list nat) (i : nat) : bool := existsb (Nat.eqb i) l.
Definition sin (l : list string) (n : string) : bool := existsb (String.eqb n) l.

(** * Selection of rows: line.py:4086-4110 _name_match *)

(** loop of lines 4100-4103: each index once, in order of first appearance *)
Fixpoint dedup (seen l : list nat) : list nat :=
  match l with
  | [] => []
  | i :: r => if inb seen i then dedup seen r else i :: dedup (i :: seen) r
  end.
(** rows with the given names of elements *)
Fixpoint env_matches (i : nat) (sel : list string) (names : list string) : list nat :=
  match names with
  | [] => []
  | n :: r => if sin sel n then i :: env_matches (S i) sel r else env_matches (S i) sel r
  end.
(** [by_table] are the indices found by the table for the name (or names, or regular expression);
    the table has one more row, _end_point. [None]: ValueError *)
Definition name_match (by_table : list nat) (sel : list string) (names : list string) : option (list nat) :=
  match dedup [] (by_table ++ env_matches 0 sel names) with
  | [] => None
  | l => Some l
  end.

(** * remove: line.py:3998-4026 *)

(** s_end - s_start, and isthick, of the rows *)
Definition row_len (r : crow) : Q := (cr_start r + cr_len r - cr_start r)%Q.
Definition is_thick_row (tol : Q) (tab : list crow) (i : nat) : bool :=
  match nth_error tab i with Some r => cr_thick r && Qltb tol (row_len r) | None => false end.

(** lines 4012-4018: env.new(new_name, 'Drift', length=ll), not the drift cache *)
Definition to_drift (v : env) (names : list string) (tab : list crow) (i : nat) : env * list string :=
  match nth_error tab i with
  | None => (v, names)
  | Some r => let (v, n) := a_drift_name v in (set_elem v n (EOwn CDrift (row_len r) 0), Composer.put names i n)
  end.
Fixpoint to_drifts (v : env) (names : list string) (tab : list crow) (idx : list nat) : env * list string :=
  match idx with
  | [] => (v, names)
  | i :: r => let (v, names) := to_drift v names tab i in to_drifts v names tab r
  end.
Fixpoint drop_idx (i : nat) (idx : list nat) (names : list string) : list string :=
  match names with
  | [] => []
  | n :: r => if inb idx i then drop_idx (S i) idx r else n :: drop_idx (S i) idx r
  end.

Definition remove (v : env) (rows : list (string * string)) (by_table : list nat) (sel : list string) (s_tol : Q)
    : option (env * list string) :=
  let names := map snd rows in
  match crows v 0 rows, name_match by_table sel names with
  | Some tab, Some l =>
      let (v, names) := to_drifts v names tab (filter (is_thick_row s_tol tab) l) in
      Some (v, drop_idx 0 (filter (fun i => negb (is_thick_row s_tol tab i)) l) names)
  | _, _ => None
  end.

(** * replace: line.py:4060-4084 *)
Definition old_length (tab : list crow) (i : nat) : Q :=
  match nth_error tab i with Some r => row_len r | None => 0%Q (* _end_point *) end.
Definition new_length (v : env) (n : string) : option Q := s_length v n.
Fixpoint put_all (names : list string) (n : string) (idx : list nat) : list string :=
  match idx with [] => names | i :: r => put_all (Composer.put names i n) n r end.
(** [None]: ValueError, KeyError, or IndexError for the row _end_point *)
Definition replace (v : env) (rows : list (string * string)) (by_table : list nat) (sel : list string)
    (new_name : string) (s_tol : Q) : option (list string) :=
  let names := map snd rows in
  match crows v 0 rows, name_match by_table sel names, new_length v new_name with
  | Some tab, Some l, Some l_new =>
      if existsb (fun i => Qltb s_tol (Qabs (old_length tab i - l_new))) l then None
      else if forallb (fun i => i <? List.length names) l then Some (put_all names new_name l)
      else None
  | _, _, _ => None
  end.

(** * cycle: line.py:4360-4385 *)

(** Python slices l[i:] and l[:i] *)
Definition slice_index {A} (l : list A) (i : Z) : nat :=
  let n := Z.of_nat (List.length l) in
  Z.to_nat (Z.min n (Z.max 0 (if i <? 0 then i + n else i)))%Z.
Definition rotate {A} (i : Z) (l : list A) : list A :=
  let k := slice_index l i in skipn k l ++ firstn k l.
Inductive first_element := ByIndex (i : Z) | ByName (n : string).
Fixpoint index_of (n : string) (l : list string) : option nat :=
  match l with
  | [] => None
  | m :: r => if String.eqb n m then Some 0 else option_map S (index_of n r)
  end.
Definition count (n : string) (l : list string) : nat := List.length (filter (String.eqb n) l).
Definition cycle (f : first_element) (names : list string) : option (list string) :=
  match f with
  | ByIndex i => Some (rotate i names)
  | ByName n => match count n names with
                | 1 => option_map (fun i => rotate (Z.of_nat i) names) (index_of n names)
                | _ => None
                end
  end.

(** * mirror, multiplication, sum and difference: line.py:5902-5945 *)
Definition mirror (names : list string) : list string := rev names.
Definition times (k : nat) (names : list string) : option (list string) :=
  match k with O => None | _ => Some (List.concat (repeat names k)) end.
(** out.place(self), out.place(other), out.end_compose(): composer.py:762-815 and 361-379 *)
Definition unplaced (names : list string) : Composer.component :=
  Composer.CPlaceLine names (Composer.plain EmptyString).
Definition piece_name (names : list string) (p : Composer.piece) : string :=
  match p with Composer.PElem i _ => nth i names EmptyString | Composer.PDrift _ => EmptyString end.
Definition add (len : string -> Q) (a b : list string) : option (list string) :=
  let flat := map Composer.pl_name (Composer.flatten_components len Composer.ACenter [unplaced a; unplaced b]) in
  match Composer.build_names len 0 None flat with
  | Some l => Some (map (piece_name flat) l)
  | None => None
  end.
Definition subtract (len : string -> Q) (a b : list string) : option (list string) := add len a (mirror b).

(** * replace_all_repeated_elements: line.py:6125-6150 *)

(** nn.replace('||drift_', 'drift_') *)
Fixpoint unbar_skip (k : nat) (s : string) : string :=
  match s with
  | EmptyString => EmptyString
  | String c r => match k with
                  | S k => unbar_skip k r
                  | O => if prefix "||drift_" s then ("drift_" ++ unbar_skip 7 r)%string else String c (unbar_skip 0 r)
                  end
  end.
Definition unbar (s : string) : string := unbar_skip 0 s.
Definition rep_name (sep nn : string) (i : nat) : string := (unbar nn ++ sep ++ dec i)%string.

(** environment.py:462-471, 485-495, 913-914: env.new(new_name, nn, mode='clone'); [None]: exception *)
Definition clone_elem (v : env) (new nn : string) : option env :=
  match resolve v nn with Some (_, e) => Some (set_elem v new e) | None => None end.

(** lines 6144-6150, for the occurrences of [nn]; the line is a list of (original name, name) *)
Fixpoint rename (sep nn : string) (v : env) (i_rep : nat) (line : list (string * string)) : option (env * list (string * string)) :=
  match line with
  | [] => Some (v, [])
  | (o, c) :: r =>
      if String.eqb o nn then
        let i_rep := fresh_index (en_dict v) (rep_name sep nn) i_rep in
        match clone_elem v (rep_name sep nn i_rep) nn with
        | None => None
        | Some v => match rename sep nn v i_rep r with
                    | Some (v, r) => Some (v, (o, rep_name sep nn i_rep) :: r)
                    | None => None
                    end
        end
      else match rename sep nn v i_rep r with Some (v, r) => Some (v, (o, c) :: r) | None => None end
  end.
(** lines 6139-6143; [order] is the order of list(set(...)) *)
Fixpoint rename_all (sep : string) (drifts_too : bool) (v : env) (order : list string) (names : list string)
    (line : list (string * string)) : option (env * list (string * string)) :=
  match order with
  | [] => Some (v, line)
  | nn :: rest =>
      if negb drifts_too && is_prefix "||drift_" nn then rename_all sep drifts_too v rest names line
      else if 1 <? count nn names then
        match rename sep nn v 0 line with
        | Some (v, line) => rename_all sep drifts_too v rest names line
        | None => None
        end
      else rename_all sep drifts_too v rest names line
  end.
Definition replace_repeated (sep : string) (drifts_too : bool) (v : env) (order names : list string) : option (env * list string) :=
  match rename_all sep drifts_too v order names (combine names names) with
  | Some (v, line) => Some (v, map snd line)
  | None => None
  end.

(** * Simplifications *)

(** line.py:7719-7726 *)
Definition is_drift (v : env) (n : string) : bool :=
  match resolve v n with
  | Some (_, EOwn CDrift _ _) | Some (_, ESlice SDrift _ _ _) => true
  | _ => false
  end.
(** isinstance(ee, Marker): the thin elements with tag 0 *)
Definition is_marker (v : env) (n : string) : bool :=
  match lookup v n with Some (EOwn CThin _ 0) => true | _ => false end.

(** line.py:5148-5163 *)
Definition remove_markers (v : env) (keep names : list string) : list string :=
  filter (fun n => negb (is_marker v n && negb (sin keep n))) names.
(** line.py:5240-5256; lengths of drifts are always defined *)
Definition zero_drift (v : env) (n : string) : bool :=
  is_drift v n && match resolve v n with
                  | Some (_, e) => match elem_length v e with Some l => Qeq_bool l 0 | None => false end
                  | None => false
                  end.
Definition remove_zero_drifts (v : env) (keep names : list string) : list string :=
  filter (fun n => negb (zero_drift v n && negb (sin keep n))) names.

(** line.py:5283-5314; [prev]: the last name of the new line. [None]: AttributeError, slices and
    replicas have no length of their own *)
Fixpoint merge_from (keep : list string) (v : env) (prev : string) (names : list string) : option (env * list string) :=
  match names with
  | [] => Some (v, [prev])
  | n :: r =>
      if is_drift v n && negb (sin keep n) && (is_drift v prev && negb (sin keep prev)) then
        match lookup v prev, lookup v n with
        | Some (EOwn CDrift lp tp), Some (EOwn CDrift l _) =>
            merge_from keep (set_elem v prev (EOwn CDrift (lp + l)%Q tp)) prev r
        | _, _ => None
        end
      else match merge_from keep v n r with Some (v, l) => Some (v, prev :: l) | None => None end
  end.
Definition merge_drifts (keep : list string) (v : env) (order names : list string) : option (env * list string) :=
  match replace_repeated "." true v order names with
  | None => None
  | Some (v, []) => Some (v, [])
  | Some (v, n :: r) => merge_from keep v n r
  end.

(** * filter_elements: line.py:4285-4305; the new line has a dictionary of its own *)
Definition blank (v : env) (n : string) : option elem :=
  match resolve v n with
  | None => None
  | Some (_, e) =>
      if thick e && negb (is_drift v n) then match elem_length v e with Some l => Some (EOwn CDrift l 0) | None => None end
      else Some (EOwn CDrift 0 0)
  end.
Fixpoint filter_dict (v new : env) (mask : list bool) (names : list string) : option env :=
  match mask, names with
  | [], [] => Some new
  | b :: mask, n :: names =>
      if b then filter_dict v new mask names
      else match blank v n with Some e => filter_dict v (set_elem new n e) mask names | None => None end
  | _, _ => None
  end.
Definition filter_elements (v : env) (mask : list bool) (names : list string) : option (env * list string) :=
  match filter_dict v (mkEnv (en_dict v) 0 []) mask names with Some v' => Some (v', names) | None => None end.
