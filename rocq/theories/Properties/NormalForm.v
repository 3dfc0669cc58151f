(** C68: linear normal form of the one-turn matrix. *)
From Coq Require Import Reals List Arith.
From Verif.Model Require Import Lattice NormalForm.
From Verif.Spec Require Import Lattice NormalForm.
From Verif.Proofs Require NormalForm Symplectify NormalFormCases.
Import ListNotations.
Local Open Scope R_scope.

(** From three pairs of eigenvalues, in any order, exactly those of positive norm are taken. The third one has the largest
    component in pzeta, and the second one a larger component in y than the first. *)
Theorem C68_modes : forall e other, three_pairs e other -> exists a b c, sort_modes e = Some (a, b, c) /\
  (forall i, (i < 6)%nat /\ 0 < norm_sign e i <-> i = a \/ i = b \/ i = c) /\
  magnitude e a 5 <= magnitude e c 5 /\ magnitude e b 5 <= magnitude e c 5 /\ magnitude e a 2 <= magnitude e b 2.
Proof. exact Verif.Proofs.NormalForm.modes_ok. Qed.
Print Assumptions C68_modes.
Theorem C68_planes : forall e other x y z, three_pairs e other ->
  (x < 6 /\ y < 6 /\ z < 6)%nat -> 0 < norm_sign e x -> 0 < norm_sign e y -> 0 < norm_sign e z ->
  (forall i, (i < 6)%nat -> 0 < norm_sign e i -> i = x \/ i = y \/ i = z) ->
  magnitude e x 5 < magnitude e z 5 -> magnitude e y 5 < magnitude e z 5 -> magnitude e x 2 < magnitude e y 2 ->
  sort_modes e = Some (x, y, z).
Proof. exact Verif.Proofs.NormalForm.uncoupled_modes. Qed.
Print Assumptions C68_planes.
Theorem C68_defined : forall only4d e other, three_pairs e other -> exists w R, normal_form only4d e = Some (w, R).
Proof. exact Verif.Proofs.NormalForm.normal_form_defined. Qed.
Print Assumptions C68_defined.

(** M W = W R, with R the rotation by the angles of the eigenvalues. *)
Theorem C68_normal_form : forall only4d m e a b c w R, normal_form only4d e = Some (w, R) -> sort_modes e = Some (a, b, c) ->
  (forall i, i = a \/ i = b \/ i = c -> eigenpair m (e i) /\ stable (e i)) ->
  (forall i j, (i < 6)%nat -> (j < 6)%nat -> mul m (entries w) i j = mul (entries w) R i j) /\
  R = rot_blocks (angle_of (e a)) (angle_of (e b)) (angle_of (e c)).
Proof. exact Verif.Proofs.NormalForm.normal_form_turn. Qed.
Print Assumptions C68_normal_form.

(** W of a symplectic matrix is symplectic, and has the phases of Courant and Snyder. *)
Theorem C68_symplectic : forall m e a b c w R, normal_form false e = Some (w, R) -> sort_modes e = Some (a, b, c) -> symplectic_map m ->
  (forall i, i = a \/ i = b \/ i = c -> eigenpair m (e i) /\ stable (e i)) ->
  apart (e a) (e b) -> apart (e a) (e c) -> apart (e b) (e c) -> symplectic w.
Proof. exact Verif.Proofs.NormalForm.normal_form_symplectic. Qed.
Print Assumptions C68_symplectic.
Theorem C68_gauge : forall only4d e w R, normal_form only4d e = Some (w, R) ->
  im (w1 w) 0%nat = 0 /\ 0 <= re (w1 w) 0%nat /\ im (w2 w) 2%nat = 0 /\ 0 <= re (w2 w) 2%nat /\ im (w3 w) 4%nat = 0 /\ 0 <= re (w3 w) 4%nat.
Proof. exact Verif.Proofs.NormalForm.normal_form_gauge. Qed.
Print Assumptions C68_gauge.

(** Symplectification gives a symplectic matrix, and keeps a symplectic matrix. *)
Theorem C68_symplectify : forall m p q, inverses (mminus unit6 (mul S_mat (healy_w m p))) q -> symplectic_map (healy m p q).
Proof. exact Verif.Proofs.Symplectify.healy_symplectic. Qed.
Print Assumptions C68_symplectify.
Theorem C68_symplectify_keeps : forall m p q, symplectic_map m -> inverses (mplus unit6 m) p -> inverses (mminus unit6 (mul S_mat (healy_w m p))) q ->
  forall i j, (i < 6)%nat -> (j < 6)%nat -> healy m p q i j = m i j.
Proof. exact Verif.Proofs.Symplectify.healy_fixed. Qed.
Print Assumptions C68_symplectify_keeps.

(** A ring, with the modes in the order z- x+ y- y+ x- z+ *)
Import Verif.Proofs.NormalFormCases.
Example C68_case : three_pairs ring_e ring_other /\ sort_modes ring_e = Some (1, 3, 5)%nat /\ symplectic_map ring_m /\
  (forall i, (i < 6)%nat -> eigenpair ring_m (ring_e i) /\ stable (ring_e i)) /\
  apart (ring_e 1) (ring_e 3) /\ apart (ring_e 1) (ring_e 5) /\ apart (ring_e 3) (ring_e 5) /\
  exists w R, normal_form false ring_e = Some (w, R) /\ symplectic w /\
    (forall i j, (i < 6)%nat -> (j < 6)%nat -> mul ring_m (entries w) i j = mul (entries w) R i j).
Proof. exact ring_case. Qed.
(** A matrix that is not symplectic *)
Example C68_symplectify_case : inverses (mplus unit6 twice_m) twice_p /\ inverses (mminus unit6 (mul S_mat (healy_w twice_m twice_p))) twice_q /\
  ~ symplectic_map twice_m /\
  forall i j, (i < 6)%nat -> (j < 6)%nat -> healy twice_m twice_p twice_q i j = (9 * unit6 i j + 40 * S_mat i j) / 41.
Proof. exact twice_case. Qed.

(** Pairs are found from the imaginary parts alone: with two tunes whose sum is a half, and motion in opposite senses, there
    is no result although the matrix is symplectic and stable with six different eigenvalues. *)
Theorem C68_half_refuted : exists m e, symplectic_map m /\ (forall i, (i < 6)%nat -> eigenpair m (e i) /\ stable (e i) /\ norm_sign e i <> 0) /\
  (forall i j, (i < 6)%nat -> (j < 6)%nat -> i <> j -> lam_re (e i) <> lam_re (e j) \/ lam_im (e i) <> lam_im (e j)) /\
  normal_form false e = None.
Proof. exact half_refuted. Qed.
Print Assumptions C68_half_refuted.
