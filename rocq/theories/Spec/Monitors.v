(** What a user expects to read from a monitor. *)
From Coq Require Import ZArith List Bool.
From Verif.Model Require Import Monitors.
Import ListNotations.
Local Open Scope Z_scope.

Section Spec.
Context {D : Type}.

(** Last passage satisfying [sel]. *)
Definition last_such (sel : mpart D -> bool) (ps : list (mpart D)) : option D :=
  match rev (filter sel ps) with [] => None | p :: _ => Some (m_data p) end.

(** Coordinate along which a ParticlesMonitor orders its columns. *)
Definition time_of (c : pm) (p : mpart D) : Z := if pm_ebe c then m_elem p else m_turn p.

(** Monitors whose parameters make sense. *)
Definition pm_ok (c : pm) : Prop :=
  pm_start c < pm_stop c /\ pm_id0 c <= pm_id1 c
  /\ pm_n_records c = (pm_stop c - pm_start c) * (pm_id1 c - pm_id0 c) * pm_nrep c
  /\ (pm_nrep c = 1 \/ (1 < pm_nrep c /\ 0 < pm_period c)).

(** Column [j] of repetition [k] is observed at this turn, if at all: the window of a
    repetition ends when the next one starts. *)
Definition pm_column (c : pm) (k j : Z) : option Z :=
  if pm_nrep c =? 1 then Some (pm_start c + j)
  else if j <? pm_period c then Some (pm_start c + k * pm_period c + j) else None.

(** Consecutive turns [a, a+1, ...] of one particle. *)
Definition history (id : Z) (ps : list (mpart D)) : list (mpart D) := filter (fun p => m_id p =? id) ps.
Fixpoint consecutive (a : Z) (ps : list (mpart D)) : Prop :=
  match ps with [] => True | p :: r => m_turn p = a /\ consecutive (a + 1) r end.

Definition lt_ok (c : lt) : Prop :=
  0 < lt_nlast c < 2 ^ 32 /\ 0 < lt_every c /\ 0 <= lt_num c.

Definition me_ok (c : mem) : Prop :=
  me_start c <= me_stop c /\ me_id0 c <= me_id1 c /\ Forall (fun k => -1 <= k < me_nobs c) (me_map c).

End Spec.
