(** Several lines tracked together: xtrack/pipeline/multitracker.py, PipelineMultiTracker.track.

    [G] is everything the branches can change (particles, elements, messages); [track i] and [resume i] call
    line.track and tracker.resume for branch i (multitracker.py:51-54 and 78) and tell whether the branch is on hold. *)
From Coq Require Import List Bool Arith.
Import ListNotations.

Section MultiTracker.
Context {G : Type}.
Variables track resume : nat -> G -> G * bool.

(** multitracker.py:51-54; the log has the branch and the outcome of each call *)
Fixpoint first_round (g : G) (branches : list nat) : G * list bool * list (nat * bool) :=
  match branches with
  | [] => (g, [], [])
  | i :: r => let (g, h) := track i g in
              let '(g, hs, log) := first_round g r in (g, h :: hs, (i, h) :: log)
  end.
(** multitracker.py:59-79, the body of the loop; [hs]: on_hold of the branches *)
Fixpoint resume_round (g : G) (branches : list nat) (hs : list bool) : G * list bool * list (nat * bool) :=
  match branches, hs with
  | i :: r, h :: hs =>
      if (h : bool)
      then let (g, h) := resume i g in
           let '(g, hs, log) := resume_round g r hs in (g, h :: hs, (i, h) :: log)
      else let '(g, hs, log) := resume_round g r hs in (g, false :: hs, log)
  | _, _ => (g, [], [])
  end.
(** multitracker.py:56-79; need_resume is set when a branch was on hold. [None]: does not end within [fuel] rounds *)
Fixpoint rounds (fuel : nat) (g : G) (branches : list nat) (hs : list bool) : option (G * list (nat * bool)) :=
  if existsb (fun h => h) hs then
    match fuel with
    | O => None
    | S f => let '(g, hs, log) := resume_round g branches hs in
             match rounds f g branches hs with
             | Some (g, more) => Some (g, log ++ more)
             | None => None
             end
    end
  else Some (g, []).
Definition multitrack (fuel : nat) (n : nat) (g : G) : option (G * list (nat * bool)) :=
  let '(g, hs, log) := first_round g (seq 0 n) in
  match rounds fuel g (seq 0 n) hs with
  | Some (g, more) => Some (g, log ++ more)
  | None => None
  end.
End MultiTracker.
