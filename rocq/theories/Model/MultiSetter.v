(** Setting and getting one attribute of several elements through their place in the buffer of the
    line: xtrack/multisetter/multisetter.py, multisetter.h. *)
From Coq Require Import ZArith List Bool String.
Import ListNotations.
Local Open Scope Z_scope.

(** The types of values. A float64 is its pattern of 64 bits: the kernels only copy it. *)
Inductive dtype := Float64 | Int64 | Int32.
Definition width (t : dtype) : nat := match t with Float64 | Int64 => 8 | Int32 => 4 end.
Definition dtype_eqb (a b : dtype) : bool :=
  match a, b with Float64, Float64 | Int64, Int64 | Int32, Int32 => true | _, _ => false end.
Definition signed (t : dtype) : bool := match t with Float64 => false | _ => true end.

(** The buffer: the byte at each address *)
Definition memory := Z -> Z.
Definition write (a b : Z) (m : memory) : memory := fun x => if x =? a then b else m x.
(** Values in memory, least significant byte first *)
Fixpoint bytes_of (w : nat) (v : Z) : list Z :=
  match w with O => [] | S w => v mod 256 :: bytes_of w (v / 256) end.
Fixpoint of_bytes (l : list Z) : Z := match l with [] => 0 | b :: l => b + 256 * of_bytes l end.
Definition decode (t : dtype) (l : list Z) : Z :=
  let u := of_bytes l in
  let full := 2 ^ (8 * Z.of_nat (width t)) in
  if signed t && (full / 2 <=? u) then u - full else u.
Fixpoint load_bytes (w : nat) (m : memory) (a : Z) : list Z :=
  match w with O => [] | S w => m a :: load_bytes w m (a + 1) end.
Definition load (t : dtype) (m : memory) (a : Z) : Z := decode t (load_bytes (width t) m a).
(** The single writes of the store of a value *)
Fixpoint writes_at (a : Z) (l : list Z) : list (Z * Z) :=
  match l with [] => [] | b :: l => (a, b) :: writes_at (a + 1) l end.
Definition store_writes (t : dtype) (a v : Z) : list (Z * Z) := writes_at a (bytes_of (width t) v).

(** multisetter.h:72-88, 90-106, 108-124: what thread ii writes *)
Definition set_thread (t : dtype) (offs v : Z) : list (Z * Z) :=
  if 0 <=? offs then store_writes t offs v else [].
(** The writes of all threads, in the order of the threads *)
Fixpoint all_writes (t : dtype) (offsets values : list Z) : list (Z * Z) :=
  match offsets, values with
  | o :: offsets, v :: values => set_thread t o v ++ all_writes t offsets values
  | _, _ => []
  end.
(** Memory after the writes, in the order in which they happen *)
Definition perform (ws : list (Z * Z)) (m : memory) : memory := fold_left (fun m w => write (fst w) (snd w) m) ws m.
(** multisetter.h:13-29, 31-47, 49-65; out is filled with zeros (multisetter.py:139) *)
Definition get_thread (t : dtype) (m : memory) (offs : Z) : Z := if 0 <=? offs then load t m offs else 0.
(** multisetter.py:133-142 *)
Definition get_values (t : dtype) (offsets : list Z) (m : memory) : list Z := map (get_thread t m) offsets.

(** An element in the buffer: a scalar attribute has a type and a place; an array a type, a place and a
    number of items (with a constant step between items, as in xobjects). *)
Inductive field := Scalar (t : dtype) (place : Z) | Array (t : dtype) (place len : Z).
Record object := mkObject { ob_base : Z; ob_size : Z; ob_field : string -> option field }.

(** multisetter.py:166-196 [_extract_offset]. None: AttributeError, IndexError or AssertionError. *)
Definition extract_offset (ob : object) (name : string) (index : option Z) (t : dtype) (skip : bool) : option Z :=
  match ob_field ob name with
  | None => None
  | Some f =>
    match f, index with
    | Scalar t' place, None =>
        if dtype_eqb t' t then Some (ob_base ob + place) else if skip then Some (-1) else None
    | Array t' place len, Some i =>
        if dtype_eqb t' t then
          if (0 <=? i) && (i <? len) then Some (ob_base ob + place + i * Z.of_nat (width t')) else None
        else if skip then Some (-1) else None
    | Array _ _ _, None => if skip then Some (-1) else None
    | Scalar _ _, Some _ => if skip then Some (-1) else None
    end
  end.
(** multisetter.py:69-123 *)
Fixpoint offsets_of (obs : list object) (name : string) (index : option Z) (t : dtype) (skip : bool) : option (list Z) :=
  match obs with
  | [] => Some []
  | ob :: obs =>
    match extract_offset ob name index t skip, offsets_of obs name index t skip with
    | Some o, Some l => Some (o :: l)
    | _, _ => None
    end
  end.
