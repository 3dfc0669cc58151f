(** What a user expects from a track call: the elements of the line, repeated cyclically,
    form an infinite stream; a track call applies a contiguous window of that stream. *)
From Coq Require Import ZArith List Bool.
From Verif.Model Require Import Kernel.
Import ListNotations.
Local Open Scope Z_scope.

(** Position [p] of the stream is element [p mod L] in a line with [L] elements. The window starts
    at position [i] and has [count] positions; [k] counts from 0.
    - at every position: the element is applied and the element counter advances by one;
    - after the last element of the line: the end-of-turn actions (if enabled);
    - with a turn-by-turn monitor (flag 1), a record at the start and at every start of turn;
    - with an element-by-element monitor (flag 2), a record before every element and one
      after the last element of every turn and of the window;
    - with a multi element monitor, a record before every element. *)
Definition position_events (L i count : Z) (flag_monitor : Z) (multi ends : bool) (k : Z)
    : list ev :=
  let p := i + k in
  let turn_starts := (k =? 0) || (p mod L =? 0) in
  let turn_ends := (p + 1) mod L =? 0 in
  (if (flag_monitor =? 1) && turn_starts then [Mon] else [])
  ++ (if flag_monitor =? 2 then [Mon] else [])
  ++ (if multi then [Multi] else [])
  ++ [Ele (p mod L); Incr 1]
  ++ (if (flag_monitor =? 2) && (turn_ends || (k =? count - 1)) then [Mon] else [])
  ++ (if turn_ends && ends then [EndTurn] else []).

Definition window_events (L i count : Z) (flag_monitor : Z) (multi ends : bool) : list ev :=
  flat_map (fun k => position_events L i count flag_monitor multi ends (Z.of_nat k))
           (seq 0 (Z.to_nat count)).

(** The number of positions of the window asked for by the user.
    Without [ele_stop]: to the end of the [n]-th turn. With [ele_stop = j]: to the first
    passage at [j] (excluded) after [n-1] further complete turns. *)
Definition window_count (L i : Z) (stop : option Z) (n : Z) : Z :=
  match stop with
  | None => n * L - i
  | Some j => (n - 1) * L + (if j <=? i then L + j - i else j - i)
  end.

(** The elements applied, in order. *)
Definition elements_of (t : list ev) : list Z :=
  flat_map (fun e => match e with Ele i => [i] | _ => [] end) t.

Definition not_monitor (e : ev) : bool :=
  match e with Mon | Multi => false | _ => true end.
