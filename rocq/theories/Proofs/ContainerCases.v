(** Counterexamples used by Properties/Container.v *)
From Coq Require Import ZArith List Bool Lia Permutation QArith Sorted.
From Verif.Model Require Import Container.
From Verif.Spec Require Import Container.
From Verif.Proofs Require Import Container ContainerSteps.
Import ListNotations.
Local Open Scope Z_scope.

Definition mk (id st : Z) : row Z unit := mkRow id id st id tt.
Definition fr : row Z unit := mkRow (-999999999) (-999999999) (-999999999) (-999999999) tt.

Lemma merge_not_grouped :
  exists (p1 p2 p : @parts Z unit),
    well_grouped p1 /\ well_grouped p2 /\ merge 0 [p1; p2] = Some p
    /\ ~ grouped (rows (reorganize 0 p)).
Proof.
  exists (mkParts [mk 0 1; fr] false 1 0), (mkParts [mk 5 0] false 0 1). eexists.
  split; [exists [mk 0 1], [], [fr]; repeat split; repeat constructor; unfold alive, free; cbn; lia|].
  split; [exists [], [mk 5 0], []; repeat split; repeat constructor; unfold dead; cbn; lia|].
  split; [vm_compute; reflexivity|].
  intros H. apply grouped_compact in H as [_ (u & f & E & Hu & Hf)].
  vm_compute in E.
  destruct u as [|x0 [|x1 [|x2 u]]]; cbn in E.
  - rewrite <- E in Hf. inversion Hf; subst. unfold free in *. cbn in *. lia.
  - injection E as _ E. rewrite <- E in Hf. inversion Hf; subst. inversion H2; subst. unfold free in *. cbn in *. lia.
  - injection E as _ <- E. inversion Hu; subst. inversion H2; subst. apply H3. unfold free. cbn. lia.
  - injection E as _ <- _ E. inversion Hu; subst. inversion H2; subst. apply H3. unfold free. cbn. lia.
Qed.

(** The lost particle with identifier 5 disappears. *)
Lemma add_after_merge :
  exists (p1 p2 p other p' : @parts Z unit),
    well_grouped p1 /\ well_grouped p2 /\ merge 0 [p1; p2] = Some p
    /\ add_particles 0 p other = Some p'
    /\ In 5 (map r_c (rows p)) /\ ~ In 5 (map r_c (rows p')).
Proof.
  exists (mkParts [mk 0 1; fr] false 1 0), (mkParts [mk 5 0] false 0 1). eexists.
  exists (mkParts [mk 7 1] false 1 0). eexists.
  split; [exists [mk 0 1], [], [fr]; repeat split; repeat constructor; unfold alive, free; cbn; lia|].
  split; [exists [], [mk 5 0], []; repeat split; repeat constructor; unfold dead; cbn; lia|].
  split; [vm_compute; reflexivity|]. split; [vm_compute; reflexivity|].
  vm_compute. split; [auto|]. intros [H|[H|[H|[]]]]; discriminate.
Qed.

(** Adding one particle while lost particles are hidden: no error and nothing is added. *)
Lemma add_hidden :
  exists (p other p' : @parts Z unit),
    well_grouped p /\ hidden p = true /\ length (filter is_active (visible other)) = 1%nat
    /\ add_particles 0 p other = Some p' /\ rows p' = rows p.
Proof.
  exists (mkParts [mk 0 1; mk 1 1; mk 2 0; fr; fr] true 2 1), (mkParts [mk 7 1] false 1 0). eexists.
  split.
  { exists [mk 0 1; mk 1 1], [mk 2 0], [fr; fr]. repeat split; repeat constructor; unfold alive, dead, free; cbn; lia. }
  split; [reflexivity|]. split; [reflexivity|]. split; vm_compute; reflexivity.
Qed.

(** The random generator states do not follow the particles. *)
Lemma reorganize_rng :
  exists (l : list (row Z Z)),
    compact l /\ map (fun r => (r_id r, r_rng r)) (filter is_active (fst (fst (reorganize_rows 0 l))))
                 <> map (fun r => (r_id r, r_rng r)) (filter is_active l).
Proof.
  exists [mkRow 0 0 0 0 10; mkRow 1 1 1 1 11]. split.
  - exists [mkRow 0 0 0 0 10; mkRow 1 1 1 1 11], []. repeat split; repeat constructor; unfold free; cbn; lia.
  - vm_compute. discriminate.
Qed.

(** Distinct identifiers that do not increase from set to set are changed. *)
Lemma merge_changes :
  exists (l1 l2 l : list (row Z unit)),
    NoDup (map r_id (l1 ++ l2)) /\ merge_rows (-1) [l1; l2] = Some l /\ map r_id l <> map r_id (l1 ++ l2).
Proof.
  exists [mk 5 1], [mk 0 1]. eexists. split; [repeat constructor; cbn; intuition lia|].
  split; [vm_compute; reflexivity|]. discriminate.
Qed.

(** Sorting by another variable can put a lost particle before an alive one, while the counters
    still announce the alive ones at the beginning. *)
Lemma sort_other :
  exists (p p' : @parts Z unit),
    well_grouped p /\ sort 0 argsort_ins (fun r => inject_Z (r_c r)) false p = Some p'
    /\ nact p' = 2 /\ ~ Forall alive (firstn 2 (rows p')).
Proof.
  exists (mkParts [mkRow 0 0 1 50 tt; mkRow 1 1 1 60 tt; mkRow 2 2 0 (-100) tt] false 2 1). eexists.
  split.
  { exists [mkRow 0 0 1 50 tt; mkRow 1 1 1 60 tt], [mkRow 2 2 0 (-100) tt], [].
    repeat split; repeat constructor; unfold alive, dead; cbn; lia. }
  split; [vm_compute; reflexivity|]. split; [reflexivity|].
  vm_compute. intros H. inversion H; subst. discriminate.
Qed.
