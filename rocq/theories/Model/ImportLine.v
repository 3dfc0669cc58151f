(** Importing a line into another environment: xtrack/environment.py, import_line.

    Elements have attributes given by a number or by an expression of variables; a slice or a replica
    has a parent. Variables have values (expressions of variables are copied by xdeps and left out). *)
From Coq Require Import QArith List Bool String Ascii Arith.
From Verif.Model Require Import Line.
Import ListNotations.
Local Open Scope list_scope.
Local Open Scope string_scope.

Inductive expr := Num (q : Q) | Var (v : string) | Plus (a b : expr) | Times (a b : expr).

(** [el_allowed]: the class is one of those _copy_element_from accepts (environment.py:860-870);
    [el_class]: anything that tells classes apart *)
Record el := mkEl {
  el_marker : bool; el_allowed : bool; el_class : nat;
  el_attrs : list (string * expr); el_parent : option string }.

Definition elems := list (string * el).
Fixpoint get {A} (d : list (string * A)) (n : string) : option A :=
  match d with [] => None | (m, e) :: r => if String.eqb n m then Some e else get r n end.
Definition has {A} (d : list (string * A)) (n : string) : bool :=
  match get d n with Some _ => true | None => false end.

Definition vars := list (string * Q).
(** a variable which does not exist counts as zero while a line is imported (environment.py:985-987) *)
Fixpoint eval (v : vars) (e : expr) : Q :=
  match e with
  | Num q => q
  | Var x => match get v x with Some q => q | None => 0%Q end
  | Plus a b => (eval v a + eval v b)%Q
  | Times a b => (eval v a * eval v b)%Q
  end.
Definition values (v : vars) (e : el) : list (string * Q) := map (fun ae => (fst ae, eval v (snd ae))) (el_attrs e).

Record environment := mkEnvi { ev_elems : elems; ev_counter : nat; ev_vars : vars }.

(** re.match(r'^\|\|drift_\d+$', name) *)
Definition is_digit (c : ascii) : bool :=
  let n := nat_of_ascii c in (48 <=? n)%nat && (n <=? 57)%nat.
Fixpoint all_digits (s : string) : bool :=
  match s with EmptyString => true | String c r => is_digit c && all_digits r end.
Definition generated_name (n : string) : bool :=
  prefix "||drift_" n
  && (let r := substring 8 (String.length n - 8) n in negb (String.eqb r "") && all_digits r).
(** line.ref[name].length._expr is None, also when there is no such attribute *)
Definition length_is_number (e : el) : bool :=
  match get (el_attrs e) "length" with Some (Num _) | None => true | _ => false end.

(** environment.py:1034-1039; the loop ends as the environment is finite *)
Fixpoint fresh (fuel : nat) (d : elems) (i : nat) : nat :=
  match fuel with O => i | S f => if has d (drift_name i) then fresh f d (S i) else i end.
Definition a_drift (d : elems) (counter : nat) : nat := fresh (S (List.length d)) d (S counter).

(** the environment, its drift counter and already_imported *)
Definition state := (elems * nat * list (string * string))%type.

Definition set_parent (d : elems) (n p : string) : elems :=
  match get d n with
  | Some e => (n, mkEl (el_marker e) (el_allowed e) (el_class e) (el_attrs e) (Some p)) :: d
  | None => d
  end.

(** environment.py:917-926: the name which an element gets *)
Definition new_name_of (rename : list (string * string)) (suffix : string) (d : elems) (counter : nat)
    (name : string) (e : el) : nat * string :=
  match get rename name with
  | Some r => (counter, r)
  | None =>
      if generated_name name && length_is_number e
      then let k := a_drift d counter in (k, drift_name k)
      else match get d name with
           | None => (counter, name)
           | Some x => if el_marker e && el_marker x then (counter, name) else (counter, name ++ suffix)
           end
  end.

(** environment.py:915-938. [None]: KeyError, ValueError or endless recursion *)
Fixpoint import_element (fuel : nat) (src : elems) (rename : list (string * string)) (suffix : string)
    (st : state) (name : string) : option (state * string) :=
  match fuel with
  | O => None
  | S f =>
      match get src name with
      | None => None
      | Some e =>
          if negb (el_allowed e) then None else
          let '(d, c, already) := st in
          let (c, new) := new_name_of rename suffix d c name e in
          let d := (new, e) :: d in
          let already := (name, new) :: already in
          match el_parent e with
          | None => Some ((d, c, already), new)
          | Some p =>
              let st := if has already p then Some (d, c, already)
                        else match import_element f src rename suffix (d, c, already) p with
                             | Some (st, _) => Some st
                             | None => None
                             end in
              match st with
              | None => None
              | Some (d, c, already) =>
                  match get already p with
                  | Some p' => Some ((set_parent d new p', c, already), new)
                  | None => None
                  end
              end
          end
      end
  end.

(** environment.py:990-997 *)
Fixpoint import_names (src : elems) (rename : list (string * string)) (suffix : string)
    (st : state) (names : list string) : option (state * list string) :=
  match names with
  | [] => Some (st, [])
  | n :: r =>
      match import_element (S (List.length src)) src rename suffix st n with
      | None => None
      | Some (st, new) => match import_names src rename suffix st r with
                          | Some (st, l) => Some (st, new :: l)
                          | None => None
                          end
      end
  end.

(** environment.py:977-981; the first occurrence of a name counts *)
Definition merge_vars (overwrite : bool) (mine theirs : vars) : vars :=
  (if overwrite then theirs ++ mine else mine ++ theirs)%list.

(** environment.py:941-1012: the names of the new line *)
Definition import_line (suffix : option string) (rename : list (string * string)) (line_name : string)
    (overwrite : bool) (v : environment) (src : elems) (src_vars : vars) (names : list string)
    : option (environment * list string) :=
  let suffix := match suffix with Some s => s | None => "/" ++ line_name end in
  match import_names src rename suffix (ev_elems v, ev_counter v, []) names with
  | None => None
  | Some ((d, c, _), l) => Some (mkEnvi d c (merge_vars overwrite (ev_vars v) src_vars), l)
  end.
