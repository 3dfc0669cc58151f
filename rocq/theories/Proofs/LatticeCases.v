From Coq Require Import Reals List Bool Arith Lra Lia Psatz.
From Verif.Model Require Import Maps Curved Lattice.
From Verif.Spec Require Import Lattice.
From Verif.Proofs Require Import Lattice LatticeInverse LatticePhase.
Import ListNotations.
Local Open Scope R_scope.

Definition vec (l : list R) : nat -> R := fun r => nth r l 0.
(** beta 4 and alfa 1 in the horizontal plane *)
Definition ex_w : wmat := mkW
  (mkMode (vec [2; -1 / 2]) (vec [0; 1 / 2]))
  (mkMode (vec [0; 0; 1; 0]) (vec [0; 0; 0; 1]))
  (mkMode (vec [0; 0; 0; 0; 1; 0]) (vec [0; 0; 0; 0; 0; 1])).
(** with dispersion 3 *)
Definition ex_mode_disp : mode := mkMode (vec [0; 0; 0; 0; 1; 2]) (vec [3; 0; 0; 0; 0; 1]).

Lemma ex_symplectic : symplectic ex_w.
Proof. unfold symplectic, symp, ex_w, vec. cbn [re im w1 w2 w3 nth]. repeat split; lra. Qed.
Lemma ex_regular : regular ex_w.
Proof. unfold regular, regular_mode, symp, ex_w, vec. cbn [re im w1 w2 w3 nth]. repeat split; try (left; lra); intros E; lra. Qed.
Lemma ex_plane : in_plane 0 (w1 ex_w) /\ in_plane 2 (w2 ex_w).
Proof.
  split; intros r A B L; unfold ex_w, vec; cbn [re im w1 w2].
  - do 6 (destruct r as [|r]; [try (exfalso; lia); split; reflexivity|]). lia.
  - do 6 (destruct r as [|r]; [try (exfalso; lia); split; reflexivity|]). lia.
Qed.
Lemma ex_values : betx (lattice_functions ex_w) = 4 /\ alfx (lattice_functions ex_w) = 1 /\ gamx (lattice_functions ex_w) = 1 / 2.
Proof.
  destruct ex_regular as (R1 & _). unfold lattice_functions, to_courant_snyder. cbn [betx alfx gamx w1].
  rewrite basis_beta, basis_alfa, basis_gama by exact R1.
  assert (E : symp (re (w1 ex_w)) (im (w1 ex_w)) = 1) by (unfold symp, ex_w, vec; cbn [re im w1 nth]; lra).
  rewrite E, Rabs_R1. unfold beta, alfa, gama, ex_w, vec. cbn [re im w1 nth]. repeat split; lra.
Qed.
Lemma case_ok : symplectic ex_w /\ regular ex_w /\ in_plane 0 (w1 ex_w) /\
  betx (lattice_functions ex_w) = 4 /\ alfx (lattice_functions ex_w) = 1 /\ gamx (lattice_functions ex_w) = 1 / 2.
Proof. exact (conj ex_symplectic (conj ex_regular (conj (proj1 ex_plane) ex_values))). Qed.
Lemma disp_case : regular_mode 4 ex_mode_disp /\ disp_pzeta 0 (to_basis 4 ex_mode_disp) = 3 /\ disp_pzeta 1 (to_basis 4 ex_mode_disp) = 0.
Proof.
  assert (R0 : regular_mode 4 ex_mode_disp).
  { unfold regular_mode, symp, ex_mode_disp, vec. cbn [re im nth]. split; [intros E; lra | left; lra]. }
  split; [exact R0|]. rewrite !(dispersion ex_mode_disp _ 0 1) by (try exact R0; unfold ex_mode_disp, vec; cbn [re im nth]; lra).
  unfold ex_mode_disp, vec. cbn [re im nth]. split; lra.
Qed.

(** ** A phase advance of three quarters of a turn in one step *)
Definition turn_a : wmat := mkW (mkMode (vec [1; 0]) (vec [0; 1])) (w2 ex_w) (w3 ex_w).
Definition turn_b : wmat := mkW (mkMode (vec [0; 1]) (vec [-1; 0])) (w2 ex_w) (w3 ex_w).
Definition true_phase (i : nat) : R := match i with O => 0 | _ => 3 * (PI / 2) end.
Definition seen_phase (i : nat) : R := match i with O => 0 | _ => - (PI / 2) end.
Lemma turn_symp : forall i, (i < 2)%nat -> symp (re (w1 (nth i [turn_a; turn_b] turn_a))) (im (w1 (nth i [turn_a; turn_b] turn_a))) <> 0.
Proof. intros [|[|i]] L; [| |lia]; cbn [nth]; unfold symp, turn_a, turn_b, vec; cbn [re im w1 nth]; intros E; lra. Qed.
Lemma true_ok : forall i, (i < 2)%nat -> has_phase 0 (w1 (nth i [turn_a; turn_b] turn_a)) (true_phase i).
Proof.
  intros [|[|i]] L; [| |lia]; exists 1; (split; [lra|]); cbn [nth true_phase w1 turn_a turn_b re im]; unfold vec; cbn [nth].
  - rewrite cos_0, sin_0. split; lra.
  - rewrite cos_3PI2, sin_3PI2. split; lra.
Qed.
Lemma seen_ok : forall i, (i < 2)%nat -> has_phase 0 (w1 (nth i [turn_a; turn_b] turn_a)) (seen_phase i).
Proof.
  intros [|[|i]] L; [| |lia]; exists 1; (split; [lra|]); cbn [nth seen_phase w1 turn_a turn_b re im]; unfold vec; cbn [nth].
  - rewrite cos_0, sin_0. split; lra.
  - rewrite cos_neg, sin_neg, cos_PI2, sin_PI2. split; lra.
Qed.
Lemma mu_value : mu 0 w1 [0; 1] [turn_a; turn_b] = [0; - (1 / 4)].
Proof.
  assert (A1 : anchor [0; 1] 1 = 1%nat) by reflexivity.
  rewrite (mu_ok 0 w1 [0; 1] [turn_a; turn_b] turn_a seen_phase); [|reflexivity|discriminate| |].
  - cbn [List.length seq map]. rewrite anchor_0, A1. cbn [seen_phase]. pose proof PI_RGT_0. f_equal; [field; lra|]. f_equal. field. lra.
  - intros i L. split; [apply turn_symp | apply seen_ok]; exact L.
  - intros [|i] L; [|cbn in L; lia]. rewrite anchor_0, A1. cbn [seen_phase]. pose proof PI_RGT_0. apply Rabs_def1; lra.
Qed.
Lemma long_step_refuted : (forall i, (i < 2)%nat -> has_phase 0 (w1 (nth i [turn_a; turn_b] turn_a)) (true_phase i)) /\
  mu 0 w1 [0; 1] [turn_a; turn_b] = [0; - (1 / 4)] /\ (true_phase 1 - true_phase 0) / (2 * PI) = 3 / 4.
Proof. split; [exact true_ok|]. split; [exact mu_value|]. cbn [true_phase]. pose proof PI_RGT_0. field. lra. Qed.
