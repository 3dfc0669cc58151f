(** What edits of lines should do. *)
From Coq Require Import ZArith QArith Qabs List Bool String Arith.
From Verif.Model Require Import Line.
From Verif.Spec Require Import Line.
Import ListNotations.
Local Open Scope Q_scope.

(** The rows selected by the table or by the name of their element. *)
Definition selected (by_table : list nat) (sel names : list string) (i : nat) : Prop :=
  In i by_table \/ exists n, nth_error names i = Some n /\ In n sel.

(** [n] is thick and longer than [tol]. *)
Definition long (v : env) (tol : Q) (n : string) : Prop :=
  exists t e l, resolve v n = Some (t, e) /\ thick e = true /\ s_length v n = Some l /\ tol < l.

(** The first [k] pieces of a line are as long as the first [k] names of another, within [e] each. *)
Definition same_positions (v v' : env) (names : list string) (chunks : list (list string)) (e : Q) : Prop :=
  forall k, exists a b, line_length v (firstn k names) = Some a /\ line_length v' (List.concat (firstn k chunks)) = Some b
    /\ Qabs (b - a) <= inject_Z (Z.of_nat k) * e.

(** Start and end of the [i]-th element. *)
Definition spans (v : env) (names : list string) (i : nat) (a b : Q) : Prop :=
  exists x y, line_length v (firstn i names) = Some x /\ line_length v (firstn (S i) names) = Some y
    /\ (i < List.length names)%nat /\ x == a /\ y == b.

(** The same element: same class and attributes after following replicas. *)
Definition same_content (v v' : env) (n n' : string) : Prop :=
  exists t t' e, resolve v n = Some (t, e) /\ resolve v' n' = Some (t', e).

(** [n] is a replica or a slice of [p], directly or through replicas. *)
Inductive refers (v : env) : string -> string -> Prop :=
| ref_replica n p : lookup v n = Some (EReplica p) -> refers v n p
| ref_slice n k p w o : lookup v n = Some (ESlice k p w o) -> refers v n p
| ref_edge n b p o : lookup v n = Some (EEdge b p o) -> refers v n p
| ref_next n q p : lookup v n = Some (EReplica q) -> refers v q p -> refers v n p.
(** No element of the line is a replica or a slice of another one. *)
Definition independent (v : env) (names : list string) : Prop := forall n m, In n names -> In m names -> ~ refers v n m.

(** The names masked out. *)
Definition masked (mask : list bool) (names : list string) (n : string) : Prop :=
  exists i, nth_error mask i = Some false /\ nth_error names i = Some n.

(** * Tracking through a line, for given maps of drifts and of other elements *)
Section Track.
Variables (state : Type) (drift : Q -> state -> state) (other : elem -> option elem -> state -> state).
Definition drift_laws : Prop :=
  (forall a b s, a == b -> drift a s = drift b s) /\ (forall s, drift 0 s = s) /\ (forall a b s, drift b (drift a s) = drift (a + b) s).
(** map of an element: drifts and slices of drifts by their length, markers do nothing, the others
    by their content and the content of their parent *)
Definition elem_map (v : env) (n : string) : option (state -> state) :=
  match resolve v n with
  | None => None
  | Some (_, e) =>
      match e with
      | EOwn CDrift l _ => Some (drift l)
      | EOwn CThin _ O => Some (fun s => s)
      | ESlice SDrift p w _ => match lookup v p with Some (EOwn _ l _) => Some (drift (l * w)) | _ => None end
      | ESlice _ p _ _ | EEdge _ p _ => match lookup v p with Some q => Some (other e (Some q)) | None => None end
      | _ => Some (other e None)
      end
  end.
Fixpoint track (v : env) (names : list string) (s : state) : option state :=
  match names with
  | [] => Some s
  | n :: r => match elem_map v n with Some f => track v r (f s) | None => None end
  end.
End Track.

(** All elements that the line needs are in the environment. *)
Definition complete (v : env) (names : list string) : Prop :=
  (forall n, In n names -> resolve v n <> None) /\ (forall n m, In n names -> refers v n m -> lookup v m <> None).
