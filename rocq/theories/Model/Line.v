(** Environments and lines: xtrack/environment.py, xtrack/line.py, xtrack/base_element.py.

    An environment holds a dictionary of elements by name; a line is a list of names.
    Lengths are rationals. *)
From Coq Require Import ZArith QArith List Bool String Ascii Arith DecimalString.
Import ListNotations.
Local Open Scope nat_scope.

(** Classes of elements, as far as line editing looks at them: [CMagnet edges] is any thick element
    with its own length, [edges] says if it has entry and exit slice classes; [CThin] is any element
    with isthick = False (marker, multipole, cavity...), [CLimit] an aperture. *)
Inductive ecls := CDrift | CMagnet (edges : bool) | CThin | CLimit.
(** slices: slice_elements_thick.py, slice_elements_thin.py, slice_elements_drift.py *)
Inductive skind := SThick | SThin | SDrift.
(** [tag] stands for all other attributes of the element. *)
Inductive elem :=
| EOwn (c : ecls) (len : Q) (tag : nat)
| ESlice (k : skind) (parent : string) (weight offset : Q)
| EEdge (entry : bool) (parent : string) (offset : Q)
| EReplica (parent : string).
Definition marker : elem := EOwn CThin 0 0.

Fixpoint find (d : list (string * elem)) (n : string) : option elem :=
  match d with [] => None | (m, e) :: r => if String.eqb n m then Some e else find r n end.
Definition mem (d : list (string * elem)) (n : string) : bool := match find d n with Some _ => true | None => false end.

(** environment.py:119-131: elements, drift counter and drift cache *)
Record env := mkEnv { en_dict : list (string * elem); en_counter : nat; en_cache : list (Q * string) }.
Definition set_elem (v : env) (n : string) (e : elem) : env := mkEnv ((n, e) :: en_dict v) (en_counter v) (en_cache v).
Definition lookup (v : env) (n : string) : option elem := find (en_dict v) n.

(** base_element.py:638-655 Replica.resolve with get_name; [None]: KeyError or RecursionError *)
Fixpoint resolve_loop (fuel : nat) (v : env) (visited : list string) (target : string) : option string :=
  match fuel with
  | O => None
  | S f => match lookup v target with
           | None => None
           | Some (EReplica p) => if existsb (String.eqb p) visited then None else resolve_loop f v (p :: visited) p
           | Some _ => Some target
           end
  end.
Definition resolve_replica (v : env) (parent : string) : option string :=
  resolve_loop (S (List.length (en_dict v))) v [parent] parent.
(** the element behind a name *)
Definition resolve (v : env) (n : string) : option (string * elem) :=
  match lookup v n with
  | None => None
  | Some (EReplica p) => match resolve_replica v p with
                         | Some t => match lookup v t with Some e => Some (t, e) | None => None end
                         | None => None
                         end
  | Some e => Some (n, e)
  end.

(** line.py:7740-7743 *)
Definition thick (e : elem) : bool :=
  match e with
  | EOwn CDrift _ _ | EOwn (CMagnet _) _ _ => true
  | ESlice SThick _ _ _ | ESlice SDrift _ _ _ => true
  | _ => false
  end.
(** line.py:7711-7717 *)
Definition elem_length (v : env) (e : elem) : option Q :=
  match e with
  | EOwn _ l _ => Some l
  | ESlice _ p w _ => match lookup v p with Some (EOwn _ l _) => Some (l * w)%Q | _ => None end
  | _ => None
  end.
(** line.py:3526-3528: by how much a name advances s *)
Definition s_length (v : env) (n : string) : option Q :=
  match resolve v n with
  | None => None
  | Some (_, e) => if thick e then elem_length v e else Some 0%Q
  end.
(** line.py:3503-3544, 3447: positions and length *)
Fixpoint line_length (v : env) (names : list string) : option Q :=
  match names with
  | [] => Some 0%Q
  | n :: r => match s_length v n, line_length v r with Some a, Some b => Some (a + b)%Q | _, _ => None end
  end.

(** f'{n}' of a natural number *)
Definition dec (n : nat) : string := NilEmpty.string_of_uint (Nat.to_uint n).
Definition is_prefix (p s : string) : bool := prefix p s.

(** [while mk(i) in dict: i += 1] *)
Fixpoint fresh (fuel : nat) (d : list (string * elem)) (mk : nat -> string) (i : nat) : nat :=
  match fuel with
  | O => i
  | S f => if mem d (mk i) then fresh f d mk (S i) else i
  end.
Definition fresh_index (d : list (string * elem)) (mk : nat -> string) (i : nat) : nat :=
  fresh (S (List.length d)) d mk i.

(** environment.py:1034-1039 *)
Definition drift_name (k : nat) : string := ("||drift_" ++ dec k)%string.
Definition a_drift_name (v : env) : env * string :=
  let k := fresh_index (en_dict v) drift_name (S (en_counter v)) in
  (mkEnv (en_dict v) k (en_cache v), drift_name k).

(** environment.py:1041-1047; the cache is a dictionary with the exact lengths as keys *)
Fixpoint cached (c : list (Q * string)) (l : Q) : option string :=
  match c with [] => None | (k, n) :: r => if Qeq_bool k l then Some n else cached r l end.
Definition get_drift (v : env) (l : Q) : env * string :=
  match cached (en_cache v) l with
  | Some n => (v, n)
  | None => let (v, n) := a_drift_name v in
            (mkEnv ((n, EOwn CDrift l 0) :: en_dict v) (en_counter v) ((l, n) :: en_cache v), n)
  end.
