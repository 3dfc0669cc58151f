(** Cases of tracking of coasting beams *)
From Coq Require Import Reals ZArith List Bool Arith Lia Lra.
From Verif.Model Require Import SyncTime.
From Verif.Spec Require Import SyncTime.
From Verif.Proofs Require Import SyncTime.
Import ListNotations.
Local Open Scope list_scope.
Local Open Scope R_scope.

(** a ring of 10 m with one collective element at 4 m, frames of half a turn *)
Definition pos1 (j : nat) : R := match j with O => 0 | 1%nat => 4 | _ => 10 end.
Definition dz1 (j : nat) (d : nat) : R := match j with O => 1 | _ => 0 end.
Definition out1 (j : nat) (d : nat) : option nat := Some (S d).
Definition p1 : particle nat := mkParticle 1 0 1 0%nat.

Lemma slow_ok : not_too_fast (1/2) 1 pos1 dz1.
Proof. intros [|[|j]] d H; cbn; lra. Qed.

(** the particle passes the start and the collective element in the first frame, and the end of the line in the second *)
Lemma case1 : exists log p', run 10 (1/2) 1 pos1 dz1 out1 false 0 2 p1 = Some (log, p') /\
  In (0%nat, (0%nat, 1, 0, 0%nat)) log /\ In (0%nat, (1%nat, 2, 4, 1%nat)) log /\ In (1%nat, (2%nat, 7, 10, 2%nat)) log.
Proof.
  destruct (top 10 (1/2) 1 pos1 dz1 out1 p1 false false 2 ltac:(lra) ltac:(lra) eq_refl eq_refl slow_ok eq_refl eq_refl ltac:(cbn; lra)) as (log & p' & E & _ & I).
  exists log, p'. split; [exact E|]. rewrite !I. unfold in_window, window_end. cbn [pos1 INR p_zeta p_data p1]. split; [|split].
  - split; [lia|]. split; [reflexivity|]. split; [lra|]. exists 0%nat. cbn. match goal with |- Some (_, ?x, _) = Some (_, ?y, _) => replace x with y by lra; reflexivity end.
  - split; [lia|]. split; [reflexivity|]. split; [lra|]. exists 1%nat. cbn. match goal with |- Some (_, ?x, _) = Some (_, ?y, _) => replace x with y by lra; reflexivity end.
  - split; [lia|]. split; [reflexivity|]. split; [lra|]. exists 2%nat. cbn. match goal with |- Some (_, ?x, _) = Some (_, ?y, _) => replace x with y by lra; reflexivity end.
Qed.
