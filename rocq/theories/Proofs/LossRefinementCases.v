(** Cases of the refinement of loss locations *)
From Coq Require Import QArith Qcanon Qround ZArith List Bool Arith Lia Lqa Permutation.
From Verif.Model Require Import LossRefinement.
From Verif.Spec Require Import LossRefinement.
From Verif.Proofs Require Import LossRefinement.
Import ListNotations.
Local Open Scope Q_scope.
Local Open Scope list_scope.

(** a particle with a slope of one: x grows with s; apertures lose x > 2 *)
Definition thin := mkElement false 0 false false true.
Definition aper := mkElement false 0 true false true.
Definition drift (len : Q) := mkElement true len false false true.
Definition solid := mkElement false 0 false true true.
Definition line1 : line := [aper; thin; drift 1; thin; drift 3; aper; drift (1#2); aper; drift 2; aper].
Definition len (l : line) (i : nat) : Qc := match nth_error l i with Some e => Q2Qc (e_length e) | None => Q2Qc 0 end.
Definition fwd (l : line) (i : nat) (x : Qc) : Qc := (x + len l i)%Qc.
Definition bwd (l : line) (i : nat) (x : Qc) : Qc := (x - len l i)%Qc.
Definition flight (i : nat) (d : Q) (x : Qc) : Qc := (x + Q2Qc d)%Qc.
Definition wide (i0 i1 : nat) (s : Q) (x : Qc) : bool := negb (Qle_bool (this x) 2).
Definition show (r : option (list (@particle Qc))) := option_map (map (fun p => (p_at p, Qred (p_s p), this (p_data p)))) r.
Definition lost (i : nat) (s x : Q) := mkParticle 0 i s (Q2Qc x).
Lemma bwd_fwd l i x : bwd l i (fwd l i x) = x.
Proof. unfold bwd, fwd. ring. Qed.

Lemma case1 : show (refine_loss_location (bwd line1) flight wide (@rev _) line1 (3#4) None
    [lost 5 4 4; mkParticle 1 5 4 (Q2Qc 1); lost 7 (9#2) (5#2); lost 5 4 (9#4); lost 9 (13#2) (17#8); lost 0 0 3]) =
  Some [(5%nat, (8#3), (8#3)); (5%nat, 4, 1); (7%nat, (9#2), (5#2)); (5%nat, 4, (9#4)); (9%nat, (13#2), (17#8)); (0%nat, 0, 3)].
Proof. vm_compute. reflexivity. Qed.

Lemma sound1 : sound line1.
Proof. intros e I. cbn in I. repeat (destruct I as [<-|I]; [cbn; repeat split; try (intros; discriminate); try lra; reflexivity|]). contradiction. Qed.

(** an element to skip before aperture 2 *)
Definition line2 : line := [aper; solid; aper; drift 4; aper].
Lemma skip_refuted : sound line2 /\
  previous_aperture line2 2%nat 4%nat /\ (1 < s_at line2 4%nat - s_at line2 2%nat)%Q /\ existsb e_skip (between line2 2%nat 4%nat) = false /\
  show (refine_loss_location (bwd line2) flight wide (fun l => l) line2 1 None [lost 4 4 4]) = Some [(4%nat, 3, 3)] /\
  show (refine_loss_location (bwd line2) flight wide (fun l => l) line2 1 None [lost 2 0 3; lost 4 4 4]) = Some [(2%nat, 0, 3); (4%nat, 4, 4)].
Proof.
  split; [|split; [|split; [reflexivity|split; [reflexivity|split; vm_compute; reflexivity]]]].
  - intros e I. cbn in I. repeat (destruct I as [<-|I]; [cbn; repeat split; try (intros; discriminate); try lra; reflexivity|]). contradiction.
  - change 4%nat with (fst (4%nat, 0%nat)). repeat split.
    + now exists aper.
    + now exists aper.
    + cbn. lia.
    + cbn [fst]. intros i Hi (e & N & A). replace i with 3%nat in N by lia. cbn in N. injection N as <-. discriminate.
Qed.
