(** Insertion of elements in a line: line.py:3862-3961. *)
From Coq Require Import ZArith QArith Qabs List Bool String Arith.
From Verif.Model Require Import Line Slicing.
From Verif.Model Require Composer.
Import ListNotations.
Local Open Scope nat_scope.

(** lengths and thickness of the elements as seen by the composer (composer/resolve_positions.py:30-44) *)
Definition len_of (v : env) (n : string) : Q := match s_length v n with Some l => l | None => 0%Q end.
Definition thick_of (v : env) (n : string) : bool := match resolve v n with Some (_, e) => thick e | None => false end.

(** lines 3893-3897: the elements of the line, placed where they are *)
Definition line_places (names : list string) (tab : list crow) : list Composer.place :=
  map (fun p => Composer.mkPlace (fst p) (Some (cr_start (snd p) + cr_len (snd p) / 2)%Q) None None None) (combine names tab).

(** lines 3899-3904: the insertions, sorted; [None]: ValueError *)
Definition insertions (v : env) (stol : Q) (names : list string) (tab : list crow) (what : list Composer.place)
    : option (list Composer.place * list Composer.rplace) :=
  let places := line_places names tab ++ what in
  if existsb (fun p => match s_length v (Composer.pl_name p) with None => true | _ => false end) what then None else
  match Composer.resolve (len_of v) Composer.ACenter places with
  | None => None
  | Some (s, from) =>
      match Composer.sort_places stol false (Composer.rows (len_of v) (thick_of v) places s from) with
      | None => None
      | Some sorted => Some (places, filter (fun p => List.length names <=? Composer.rp_index p) sorted)
      end
  end.

(** lines 3922-3932 for an element from [a] to [b] and an insertion from [u] to [w] *)
Definition geb (a b : Q) : bool := Qle_bool b a.
Definition removed_by (tol u w a b : Q) : bool :=
  let entry_is_inside := geb a (u - tol) && Qle_bool a (w - tol) in
  let exit_is_inside := geb b (u + tol) && Qle_bool b (w + tol) in
  let thin_at_entry := geb a (u - tol) && Qle_bool b (u + tol) in
  let thin_at_exit := geb a (w - tol) && Qle_bool b (w + tol) in
  (entry_is_inside || exit_is_inside) && negb thin_at_entry && negb thin_at_exit.
Definition removed (tol : Q) (ins : list Composer.rplace) (a b : Q) : bool :=
  existsb (fun p => removed_by tol (Composer.rp_start p) (Composer.rp_end p) a b) ins.

(** lines 3941-3950: first the insertions, then the elements that are kept. [ref] gives for the row of a
    reference its row in the new table, if there is one with this name *)
Definition renumber (ref : nat -> nat) (p : nat * Composer.rplace) : Composer.rplace :=
  let (i, r) := p in
  Composer.mkRP i (Composer.rp_length r) (Composer.rp_thick r) (Composer.rp_start r)
    (option_map ref (Composer.rp_from r)) (Composer.rp_from_anchor r).
Definition kept_row (m : nat) (p : nat * crow) : Composer.rplace :=
  let (i, r) := p in Composer.mkRP (m + i) (cr_len r) (cr_thick r) (cr_start r) None None.
Definition number {A} (l : list A) : list (nat * A) := combine (seq 0 (List.length l)) l.

(** composer.py:846-858, names of the drifts *)
Fixpoint put_names (name : nat -> string) (v : env) (l : list Composer.piece) : env * list string :=
  match l with
  | [] => (v, [])
  | Composer.PElem i _ :: r => let (v, ns) := put_names name v r in (v, name i :: ns)
  | Composer.PDrift d :: r => let (v, n) := get_drift v d in let (v, ns) := put_names name v r in (v, n :: ns)
  end.

(** [None]: an exception; [stol] is 1e-10 *)
Definition insert (v : env) (rows : list (string * string)) (what : list Composer.place) (stol s_tol : Q)
    (ref : nat -> nat) : option (env * list string) :=
  let names := map snd rows in
  match crows v 0 rows with
  | None => None
  | Some tab =>
  match insertions v stol names tab what with
  | None => None
  | Some (places, ins) =>
  match cut_at_s v rows s_tol (map Composer.rp_start ins ++ map Composer.rp_end ins) with
  | None => None
  | Some (v1, names1) =>
  match crows v1 0 (combine names1 names1), line_length v1 names1 with
  | Some tab1, Some L =>
      if removed s_tol ins L L then None (* AssertionError: _end_point *)
      else
        let kept := filter (fun p => negb (removed s_tol ins (cr_start (snd p)) (cr_start (snd p) + cr_len (snd p)))) (combine names1 tab1) in
        let unsorted := map (renumber ref) (number ins) ++ map (kept_row (List.length ins)) (number (map snd kept)) in
        let ins_names := map (fun p => Composer.pl_name (nth (Composer.rp_index p) places (Composer.plain EmptyString))) ins in
        match Composer.sort_places stol true unsorted with
        | None => None
        | Some sorted =>
            match Composer.generate s_tol None sorted with
            | None => None
            | Some pieces => Some (put_names (fun i => nth i (ins_names ++ map fst kept) EmptyString) v1 pieces)
            end
        end
  | _, _ => None
  end end end end.
