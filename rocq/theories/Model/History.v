(** Histories of operations on an environment and its lines. *)
From Coq Require Import ZArith QArith List Bool String.
From Verif.Model Require Import Line Slicing LineEdit.
Import ListNotations.

(** The operations that create or change elements. The rows of a line are pairs of the name in its
    table and the name of the element. *)
Inductive op :=
| OGetDrift (l : Q)                                        (* environment.py:1041-1047, from the composer *)
| ONew (n : string) (e : elem)                             (* environment.py:395-530 *)
| OSlice (st : list strategy) (mk : bool) (rows : list (string * string))    (* line.py:2232 *)
| OCut (rows : list (string * string)) (tol : Q) (ss : list Q)               (* line.py:3641 *)
| ORemove (rows : list (string * string)) (by_table : list nat) (sel : list string) (tol : Q)  (* line.py:3964 *)
| ORepeated (sep : string) (drifts_too : bool) (order names : list string)   (* line.py:6105 *)
| OMerge (keep order names : list string).                                   (* line.py:5264 *)

(** [None]: the operation raises an exception *)
Definition apply (o : op) (v : env) : option env :=
  match o with
  | OGetDrift l => Some (fst (get_drift v l))
  | ONew n e => Some (set_elem v n e)
  | OSlice st mk rows => option_map fst (slice_rows st mk v rows)
  | OCut rows tol ss => option_map fst (cut_at_s v rows tol ss)
  | ORemove rows bt sel tol => option_map fst (remove v rows bt sel tol)
  | ORepeated sep too order names => option_map fst (replace_repeated sep too v order names)
  | OMerge keep order names => option_map fst (merge_drifts keep v order names)
  end.
Fixpoint run (l : list op) (v : env) : option env :=
  match l with
  | [] => Some v
  | o :: r => match apply o v with Some v => run r v | None => None end
  end.
Definition fresh_env : env := mkEnv [] 0 [].
