(** Lines from sequence definitions: xtrack/line.py:535-668 [Line.from_sequence], 7763-7769
    [_next_name], 7823-7845 [Node], 7851-7908 [flatten_sequence].

    Positions and lengths are real numbers. *)
From Coq Require Import Reals List Bool String Ascii Arith DecimalString.
Import ListNotations.
Local Open Scope R_scope.
Local Open Scope string_scope.

(** A beam element: what identifies it, isthick and length *)
Record obj := mkObj { o_id : string; o_thick : bool; o_length : R }.
(** line.py:7903, a new Marker *)
Definition marker : obj := mkObj "Marker" false 0.

(** line.py:7823-7845. [WOther]: neither a string, nor a BeamElement, nor iterable *)
Inductive node := mkNode (s : R) (from_ : R + string) (name : option string) (w : what)
with what := WElem (o : obj) | WName (n : string) | WSeq (l : list node) | WOther.
Definition n_s (n : node) : R := let (s, _, _, _) := n in s.
Definition n_from (n : node) : R + string := let (_, f, _, _) := n in f.
Definition n_name (n : node) : option string := let (_, _, m, _) := n in m.
Definition n_what (n : node) : what := let (_, _, _, w) := n in w.

(** A naming scheme '<pre>{}<sep>{}<post>' *)
Record scheme := mkScheme { sc_pre : string; sc_sep : string; sc_post : string }.
Definition format (sc : scheme) (a b : string) : string := sc_pre sc ++ a ++ sc_sep sc ++ b ++ sc_post sc.
Definition default_scheme : scheme := mkScheme "" "" "".

Definition decimal (i : nat) : string := NilEmpty.string_of_uint (Nat.to_uint i).
Definition mem (n : string) (names : list string) : bool := existsb (String.eqb n) names.

(** line.py:7763-7769: the loop, from [i]; None: the loop has not ended after [fuel] steps *)
Fixpoint next_number (fuel : nat) (sc : scheme) (prefix : string) (names : list string) (i : nat) : option string :=
  if mem (format sc prefix (decimal i)) names then
    match fuel with O => None | S fuel => next_number fuel sc prefix names (S i) end
  else Some (format sc prefix (decimal i)).
Definition next_name (sc : scheme) (prefix : string) (names : list string) : option string :=
  if mem prefix names then next_number (List.length names) sc prefix names 1 else Some prefix.

(** A node of the flattened sequence *)
Record fnode := mkFnode { f_s : R; f_what : obj; f_name : string }.

(** What can go wrong: unknown from_, unknown element, unknown type, recursion without end, and
    [next_name] not ending (it always ends) *)
Inductive error := EFrom | EWhat | EType | ERecursion | EName.
Definition result (A : Type) : Type := (A + error)%type.

Section Flatten.
(** The dictionaries [elements] and [sequences] *)
Variables (elements : string -> option obj) (sequences : string -> option (list node)) (sc : scheme).

(** 7883-7899 *)
Inductive content := CElem (o : obj) | CSeq (l : list node).
Definition content_of (w : what) : result content :=
  match w with
  | WName n => match elements n with
               | Some o => inl (CElem o)
               | None => match sequences n with Some l => inl (CSeq l) | None => inr EWhat end
               end
  | WElem o => inl (CElem o)
  | WSeq l => inl (CSeq l)
  | WOther => inr EType
  end.

(** 7865-7874 *)
Definition position (flat : list fnode) (n : node) : result R :=
  match n_from n with
  | inr from_ => match find (fun f => String.eqb from_ (f_name f)) flat with
                 | Some f => inl (n_s n + f_s f)
                 | None => inr EFrom
                 end
  | inl from_ => inl (n_s n + from_)
  end.
(** 7877: the name before it is made unique *)
Definition base_name (n : node) : string :=
  let default := match n_what n with WName m => m | _ => "element" end in
  match n_name n with Some m => if String.eqb m "" then default else m | None => default end.

(** 7862-7908, the loop; [rec]: the recursive call *)
Fixpoint place (rec : list node -> result (list fnode)) (nodes : list node) (flat : list fnode)
  : result (list fnode) :=
  match nodes with
  | [] => inl flat
  | n :: nodes =>
    match position flat n with
    | inr e => inr e
    | inl s =>
      match next_name sc (base_name n) (map f_name flat) with
      | None => inr EName
      | Some name =>
        match content_of (n_what n) with
        | inr e => inr e
        | inl (CElem o) => place rec nodes (flat ++ [mkFnode s o name])
        | inl (CSeq l) =>
          match rec l with
          | inr e => inr e
          | inl subs =>
            place rec nodes
              (flat ++ mkFnode s marker name
                    :: map (fun sub => mkFnode (s + f_s sub) (f_what sub) (format sc name (f_name sub))) subs)
          end
        end
      end
    end
  end.
(** 7851-7908; [fuel]: bound on the depth of the recursion *)
Fixpoint flatten (fuel : nat) (nodes : list node) : result (list fnode) :=
  match fuel with
  | O => inr ERecursion
  | S fuel => place (flatten fuel) nodes []
  end.

(** 621-622: sorted(nodes, key=lambda node: node.s) *)
Fixpoint insert (f : fnode) (l : list fnode) : list fnode :=
  match l with
  | [] => [f]
  | g :: l' => if Rlt_dec (f_s g) (f_s f) then g :: insert f l' else f :: l
  end.
Fixpoint sort (l : list fnode) : list fnode :=
  match l with [] => [] | f :: l => insert f (sort l) end.

Inductive refer := Entry | Centre | Exit.
(** 631-642 *)
Definition length_of (o : obj) : R := if o_thick o then o_length o else 0.
Definition offset (r : refer) (o : obj) : R :=
  if o_thick o then match r with Entry => 0 | Centre => - o_length o / 2 | Exit => - o_length o end else 0.

Definition drift (ds : R) : obj := mkObj "Drift" true ds.

(** 624-660: the loop; None: ValueError (or [next_name] not ending). The element objects and names
    so far, and last_s. *)
Definition entry := (string * obj)%type.
Fixpoint add_drifts (r : refer) (nodes : list fnode) (acc : list entry) (last_s : R) : option (list entry * R) :=
  match nodes with
  | [] => Some (acc, last_s)
  | n :: nodes =>
    let node_s := f_s n + offset r (f_what n) in
    if Rlt_dec node_s last_s then None
    else
      match (if Rlt_dec last_s node_s then
               match next_name sc "drift" (map fst acc) with
               | Some name => Some (acc ++ [(name, drift (node_s - last_s))])%list
               | None => None
               end
             else Some acc) with
      | None => None
      | Some acc => add_drifts r nodes (acc ++ [(f_name n, f_what n)]) (node_s + length_of (f_what n))
      end
  end.
(** 624-668, after flattening *)
Definition build (r : refer) (nodes : list fnode) (length : R) : option (list entry) :=
  match add_drifts r nodes [] 0 with
  | None => None
  | Some (acc, last_s) =>
    if Rlt_dec length last_s then None
    else match next_name sc "drift" (map fst acc) with
         | Some name => Some (acc ++ [(name, drift (length - last_s))])%list
         | None => None
         end
  end.
(** 535-668 *)
Definition from_sequence (fuel : nat) (auto_reorder : bool) (r : refer) (nodes : list node) (length : R)
  : option (list entry) :=
  match flatten fuel nodes with
  | inr _ => None
  | inl flat => build r (if auto_reorder then sort flat else flat) length
  end.
End Flatten.

(** line.py:342 dict(zip(element_names, elements)): the last entry with a name wins. The element of the
    line named [n]. *)
Definition lookup (l : list entry) (n : string) : option obj :=
  match find (fun e => String.eqb n (fst e)) (rev l) with Some e => Some (snd e) | None => None end.
(** The elements of the line, in order *)
Definition line_elements (l : list entry) : list (string * option obj) :=
  map (fun e => (fst e, lookup l (fst e))) l.
