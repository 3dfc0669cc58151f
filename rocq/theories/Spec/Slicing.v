(** What slices of an element should be, which strategy applies, where cuts should be. *)
From Coq Require Import ZArith QArith Qabs List Bool String.
From Verif.Model Require Import Line Slicing.
From Verif.Spec Require Import Line.
Import ListNotations.
Local Open Scope Q_scope.

Fixpoint qsum (l : list Q) : Q := match l with [] => 0 | x :: r => x + qsum r end.
(** weights of the drifts (or thick slices) and of the kicks *)
Definition drifts (ws : list (Q * bool)) : list Q := map fst (filter snd ws).
Definition kicks (ws : list (Q * bool)) : list Q := map fst (filter (fun x => negb (snd x)) ws).

(** increasing positions, after [a] and before [b] *)
Fixpoint increasing (a : Q) (l : list Q) (b : Q) : Prop :=
  match l with [] => a < b | x :: r => a < x /\ increasing x r b end.
(** A scheme that can be used on an element of the given length. *)
Definition usable (c : scheme) (len : Q) : Prop :=
  match c with
  | Uniform n _ | Teapot n _ => (1 <= n)%nat
  | Custom l _ => l <> [] /\ increasing 0 l len
  end.

(** * Pieces of an element *)
Inductive piece := PSlice (k : skind) (weight offset : Q) | PDrift (len : Q).
Definition real (v : env) (parent n : string) (p : piece) : Prop :=
  match p with
  | PSlice k w o => lookup v n = Some (ESlice k parent w o)
  | PDrift l => exists l' t, lookup v n = Some (EOwn CDrift l' t) /\ l' == l
  end.
Definition piece_length (len : Q) (p : piece) : Q :=
  match p with PSlice SThin _ _ => 0 | PSlice _ w _ => len * w | PDrift l => l end.
Definition kick_weight (p : piece) : Q := match p with PSlice SThin w _ => w | _ => 0 end.
Definition body_weight (p : piece) : Q := match p with PSlice SThin _ _ => 0 | PSlice _ w _ => w | _ => 0 end.
(** Each slice has the offset at which it starts in the parent. *)
Fixpoint offsets_ok (len from : Q) (l : list piece) : Prop :=
  match l with
  | [] => True
  | PSlice SThin _ o :: r => o == from /\ offsets_ok len from r
  | PSlice _ w o :: r => o == from /\ offsets_ok len (from + len * w) r
  | PDrift d :: r => offsets_ok len (from + d) r
  end.

(** The pieces for given weights; [auto]: an unnamed drift, which is split in unnamed drifts;
    [dr]: a drift or a slice of a drift. *)
Fixpoint layout (auto dr : bool) (m : smode) (len w0 from : Q) (ws : list (Q * bool)) : list piece :=
  match ws with
  | [] => []
  | (w, true) :: r =>
      (if auto then PDrift (len * w * w0)
       else PSlice (match m with MThin => SDrift | MThick => if dr then SDrift else SThick end) (w * w0) from)
      :: layout auto dr m len w0 (from + len * w * w0) r
  | (w, false) :: r => (if dr then [] else [PSlice SThin (w * w0) from]) ++ layout auto dr m len w0 from r
  end.

(** Elements of zero length around the pieces. *)
Definition zero_length (v : env) (n : string) : Prop := s_length v n = Some 0.

(** The pieces in this order, with elements of zero length before and after. *)
Definition framed (v' : env) (p : string) (chunk : list string) (pcs : list piece) : Prop :=
  exists pre body post, chunk = pre ++ body ++ post /\ (forall n, In n (pre ++ post) -> zero_length v' n) /\ Forall2 (real v' p) body pcs.

(** * Strategies *)
Definition applies (s : strategy) (name : string) (e r : elem) : Prop :=
  (forall f, st_name s = Some f -> f name = true) /\ (forall t, st_type s = Some t -> t r = true)
  /\ (is_drift_elem e = true -> st_name s <> None \/ st_type s <> None).

(** * Cuts *)
Definition near (tol a b : Q) : Prop := Qabs (a - b) <= tol.
Definition at_boundary (c : Q) (l : list Q) : Prop := exists b, In b l /\ b == c.
(** [c] is inside the element from [a] to [b], not close to its ends *)
Definition inside (tol c a b : Q) : Prop := a < c /\ c < b /\ ~ near tol c a /\ ~ near tol c b.
