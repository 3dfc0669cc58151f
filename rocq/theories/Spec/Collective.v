(** What a user expects of hold and resume: a collective element that asks for hold is simply
    called again until it accepts; apart from this the tracking is not affected. *)
From Coq Require Import ZArith.

(** [col] repeated, at most [k] further times, as long as it asks for hold. *)
Fixpoint col_until {S} (k : nat) (col : Z -> S -> S * option bool) (i : Z) (s : S)
    : S * option bool :=
  match col i s with
  | (s', Some true) => match k with O => (s', Some true) | Datatypes.S k' => col_until k' col i s' end
  | r => r
  end.
