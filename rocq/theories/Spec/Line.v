(** Positions in a line, and what it means for an environment to keep its elements. *)
From Coq Require Import ZArith QArith List Bool String.
From Verif.Model Require Import Line.
Import ListNotations.

(** [leads v n t]: following the replicas from [n] one arrives at [t], which is not a replica. *)
Inductive leads (v : env) : string -> string -> Prop :=
| leads_here n e : lookup v n = Some e -> (forall p, e <> EReplica p) -> leads v n n
| leads_next n p t : lookup v n = Some (EReplica p) -> leads v p t -> leads v n t.

(** Every element of [v] is in [v'], unchanged. *)
Definition keeps (v v' : env) : Prop := forall n e, lookup v n = Some e -> lookup v' n = Some e.

(** Start of each element of the line, and its end. *)
Fixpoint bounds (v : env) (s : Q) (names : list string) : option (list Q) :=
  match names with
  | [] => Some [s]
  | n :: r => match s_length v n with
              | Some l => match bounds v (s + l)%Q r with Some b => Some (s :: b) | None => None end
              | None => None
              end
  end.

(** The drifts in the cache have the length under which they are stored. *)
Definition cache_ok (v : env) : Prop :=
  forall l n, In (l, n) (en_cache v) -> exists l' t, lookup v n = Some (EOwn CDrift l' t) /\ (l' == l)%Q.

(** Names ending with _entry or _exit are markers. *)
Definition edge_names_ok (v : env) : Prop :=
  forall n e, lookup v (n ++ "_entry") = Some e \/ lookup v (n ++ "_exit") = Some e -> e = marker.
