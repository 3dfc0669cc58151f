(** C49: refinement of loss locations. *)
From Coq Require Import QArith Qcanon ZArith List Bool Arith Permutation.
From Verif.Model Require Import LossRefinement.
From Verif.Spec Require Import LossRefinement.
From Verif.Proofs Require LossRefinement LossRefinementCases.
Import ListNotations.
Local Open Scope Q_scope.
Local Open Scope list_scope.

(** The interpolated apertures are equidistant between the two given ones and not further than ds from each other. *)
Theorem C49_spacing (s0 s1 ds : Q) : (0 < ds)%Q -> (s0 <= s1)%Q ->
  exists d, (0 <= d <= ds)%Q /\ steps d (s0 :: locations s0 s1 ds ++ [s1]).
Proof. exact (Verif.Proofs.LossRefinement.grid_ok s0 s1 ds). Qed.
Print Assumptions C49_spacing.

(** All apertures of the line are found, *)
Theorem C49_apertures (l : line) (i : nat) : In i (find_apertures l) <-> is_aperture l i.
Proof. exact (Verif.Proofs.LossRefinement.apertures_ok l i). Qed.
Print Assumptions C49_apertures.

(** and between two apertures at some distance are thick elements which begin at the first and end at the second one. *)
Theorem C49_between (l : line) (i0 i1 : nat) : sound l -> previous_aperture l i0 i1 -> (s_at l i0 < s_at l i1)%Q ->
  exists a b, first_thick l i0 a /\ (a <= b < i1)%nat /\ (s_at l a == s_at l i0)%Q /\ (s_at l (S b) == s_at l i1)%Q /\
    (exists e, nth_error l b = Some e /\ e_thick e = true) /\
    (forall i e, (b < i <= i1)%nat -> nth_error l i = Some e -> e_thick e = false).
Proof. exact (Verif.Proofs.LossRefinement.between_thick l i0 i1). Qed.
Print Assumptions C49_between.

(** Each particle lost at an aperture which has another one upstream further than ds is moved to the first of the
    interpolated apertures which its own trajectory does not pass. Nothing else is changed, whatever the order in which
    tracking leaves the particles. *)
Theorem C49_refined {D : Type} (forward back : nat -> D -> D) fly outside reorder (l : line) (ds : Q) aps ps :
  (forall l, Permutation (reorder l) l) ->
  sound l -> (0 < ds)%Q -> (forall i q, back i (forward i q) = q) ->
  NoDup aps -> (forall i, In i aps -> is_aperture l i) ->
  (forall i0 i1, In i1 aps -> previous_aperture l i0 i1 ->
     existsb e_skip (between l i0 i1) = false /\ forallb e_back (between l i0 i1) = true) ->
  exists ps', refine_loss_location back fly outside reorder l ds (Some aps) ps = Some ps' /\ List.length ps' = List.length ps /\
  forall n p p', nth_error ps n = Some p -> nth_error ps' n = Some p' ->
    p_state p' = p_state p /\ p_at p' = p_at p /\
    (forall i0 i_start q, p_state p = 0%Z -> In (p_at p) aps -> previous_aperture l i0 (p_at p) ->
       (ds < s_at l (p_at p) - s_at l i0)%Q -> first_thick l i0 i_start ->
       p_data p = arrive forward i_start (p_at p - i_start) q ->
       lost_first fly outside i0 (p_at p) i_start (s_at l i0) q
         (s_at l i0 :: locations (s_at l i0) (s_at l (p_at p)) ds ++ [s_at l (p_at p)]) (p_s p') (p_data p')) /\
    (p_state p <> 0%Z \/ ~ In (p_at p) aps \/
     (forall i0, previous_aperture l i0 (p_at p) -> (s_at l (p_at p) - s_at l i0 <= ds)%Q) -> p' = p).
Proof. exact (fun Hr => Verif.Proofs.LossRefinement.refine_ok forward back fly outside reorder Hr l ds aps ps). Qed.
Print Assumptions C49_refined.

(** By default the apertures are all those of the line. *)
Theorem C49_default {D : Type} back fly outside reorder (l : line) (ds : Q) (ps : list (@particle D)) :
  refine_loss_location back fly outside reorder l ds None ps =
    refine_loss_location back fly outside reorder l ds (Some (find_apertures l)) ps /\ NoDup (find_apertures l).
Proof. exact (Verif.Proofs.LossRefinement.default_ok back fly outside reorder l ds ps). Qed.
Print Assumptions C49_default.

(** An element to be skipped before one aperture with losses leaves the particles lost at later ones as they were,
    although there is nothing to skip before those. *)
Import Verif.Proofs.LossRefinementCases.
Theorem C49_skip_refuted : exists l, sound l /\ previous_aperture l 2%nat 4%nat /\ (1 < s_at l 4%nat - s_at l 2%nat)%Q /\ existsb e_skip (between l 2%nat 4%nat) = false /\
  show (refine_loss_location (bwd l) flight wide (fun l => l) l 1 None [lost 4 4 4]) = Some [(4%nat, 3, 3)] /\
  show (refine_loss_location (bwd l) flight wide (fun l => l) l 1 None [lost 2 0 3; lost 4 4 4]) = Some [(2%nat, 0, 3); (4%nat, 4, 4)].
Proof. exact (ex_intro _ line2 skip_refuted). Qed.
Print Assumptions C49_skip_refuted.

Example C49_case : sound line1 /\ (forall i x, bwd line1 i (fwd line1 i x) = x) /\
  show (refine_loss_location (bwd line1) flight wide (@rev _) line1 (3#4) None
    [lost 5 4 4; mkParticle 1 5 4 (Q2Qc 1); lost 7 (9#2) (5#2); lost 5 4 (9#4); lost 9 (13#2) (17#8); lost 0 0 3]) =
  Some [(5%nat, (8#3), (8#3)); (5%nat, 4, 1); (7%nat, (9#2), (5#2)); (5%nat, 4, (9#4)); (9%nat, (13#2), (17#8)); (0%nat, 0, 3)].
Proof. exact (conj sound1 (conj (bwd_fwd line1) case1)). Qed.
