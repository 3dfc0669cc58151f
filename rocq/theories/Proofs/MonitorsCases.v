(** Concrete runs of the monitors. *)
From Coq Require Import ZArith List Bool Lia.
From Verif.Model Require Import Monitors.
From Verif.Spec Require Import Monitors.
Import ListNotations.
Local Open Scope Z_scope.

(** Two repetitions of two turns, starting at turn 1; on CPU the first particle, still at
    turn 0, hides the second one, at turn 1. *)
Lemma cpu_break :
  exists c (ps : list (mpart Z)) p k, pm_ok c /\ pm_init 1 3 0 2 false (Some 2) (Some 10) = Some c
  /\ In p ps /\ pm_act c false p = Store k
  /\ cell (pm_track false c false [ps]) k = Some (m_data p)
  /\ cell (pm_track true c false [ps]) k = None.
Proof.
  exists (mkPM 1 3 0 2 false 2 10 8), [mkMP 0 0 0 100; mkMP 1 1 0 200], (mkMP 1 1 0 200), 2.
  repeat split; try reflexivity; try (cbn; lia). right; left; reflexivity.
Qed.

(** Tracking continued for two turns from turn 2, as after a first call: the monitor made by
    the tracker for turns 0 and 1 stays empty. *)
Lemma continued :
  exists c (passes : list (list (mpart Z))), get_monitor [0] 2 = Some c /\ length passes = 2%nat
  /\ concat passes <> [] /\ forall i j, cell (pm_track true c false passes) (i * 2 + j) = None.
Proof.
  eexists. exists [[mkMP 0 2 0 100]; [mkMP 0 3 0 200]].
  split; [reflexivity|]. repeat split; discriminate.
Qed.

Lemma negative_index :
  exists (c : mem) (p : mpart Z), get_multi_element_monitor [5; 6] 3 4 [1; 2] = Some c
  /\ m_id p = 6 /\ me_get c (me_track c [p]) 0 4 0 = Some (Some (m_data p)).
Proof. eexists. exists (mkMP 6 0 1 42). split; [reflexivity|]. split; reflexivity. Qed.
