From Coq Require Import List Bool Arith QArith Qcanon Lia.
From Verif.Model Require Import TwissRange.
From Verif.Spec Require Import TwissRange.
From Verif.Proofs Require Import TwissRange.
Import ListNotations.
Local Open Scope nat_scope.
Local Open Scope list_scope.

(** A line of four elements: two markers and two others *)
Definition ex_step (k : nat) (x : Qc) : Qc := match k with 1 => (x + 1)%Qc | 3 => (x * Q2Qc 2)%Qc | _ => x end.
Definition ex_back (k : nat) (x : Qc) : Qc := match k with 1 => (x - 1)%Qc | 3 => (x * Q2Qc (1 # 2))%Qc | _ => x end.
Definition ex_inc (k : nat) (x : Qc) : Qc := match k with 1 => 1%Qc | 3 => x | _ => 0%Qc end.
Definition ex_incz (k : nat) (x : Qc) : Qc := match k with 1 => x | 3 => 1%Qc | _ => 0%Qc end.
Definition ex_marker (k : nat) : bool := negb (k =? 1) && negb (k =? 3).
Definition ex_origin (a b : nat) : Qc := Q2Qc (inject_Z (Z.of_nat a)).
Definition q (z : Z) : Qc := Q2Qc (inject_Z z).
Definition values (r : row Qc) : option nat * Q * Q * Q := (r_name r, this (r_x r), this (r_c r), this (r_z r)).
Definition ex_init (k : nat) : init Qc := mkInit k (q 4) (q 10) (q 20).

Lemma ex_undo : forall k x, ex_back k (ex_step k x) = x.
Proof.
  intros [|[|[|[|k]]]] x; cbn [ex_back ex_step]; try reflexivity; try ring.
  rewrite <- Qcmult_assoc. replace (Q2Qc 2 * Q2Qc (1 # 2))%Qc with 1%Qc by (apply Qc_is_canon; reflexivity). ring.
Qed.
Lemma ex_mark : forall k, ex_marker k = true -> is_marker ex_step ex_inc ex_incz k.
Proof. intros [|[|[|[|k]]]] H x; try discriminate H; repeat split. Qed.

(** The optics with these values at position 4, the first element after the end *)
Fixpoint ex_X (p : nat) : Qc := match p with 0 | 1 => q 1 | 2 | 3 => q 2 | S p' => ex_step (element_at 4 p') (ex_X p') end.
Definition ex_C (p : nat) : Qc := match p with 0 | 1 => q 7 | 2 | 3 => q 8 | 4 | 5 => q 10 | _ => q 11 end.
Definition ex_Z (p : nat) : Qc := match p with 0 | 1 => q 18 | 2 | 3 => q 19 | 4 | 5 => q 20 | _ => q 24 end.
Lemma ex_propagated : propagated 4 ex_step ex_inc ex_incz ex_X ex_C ex_Z 2 5.
Proof.
  intros p H1 H2. assert (H : p = 2 \/ p = 3 \/ p = 4 \/ p = 5 \/ p = 6) by lia.
  destruct H as [->|[->|[->|[->| ->]]]]; repeat split; apply Qc_is_canon; vm_compute; reflexivity.
Qed.
Lemma ex_starts : starts_from 4 ex_X ex_C ex_Z 4 (ex_init 0).
Proof. repeat split; apply Qc_is_canon; vm_compute; reflexivity. Qed.

Lemma wrap_case :
  (1 < 2 /\ 2 < 4 /\ 2 <= 4 < 4 + 2) /\ (forall k x, ex_back k (ex_step k x) = x) /\
  propagated 4 ex_step ex_inc ex_incz ex_X ex_C ex_Z 2 (4 - 2 + 2) /\ starts_from 4 ex_X ex_C ex_Z 4 (ex_init 0) /\
  is_marker ex_step ex_inc ex_incz 0 /\
  option_map (map values) (wrap 4 ex_step ex_back ex_inc ex_incz false ex_origin 2 1 (ex_init 0)) =
    Some [(Some 2%nat, 2, 8, 19); (Some 3%nat, 2, 8, 19); (Some 0%nat, 4, 10, 20); (Some 1%nat, 4, 10, 20); (None, 5, 11, 24)]%Q.
Proof.
  split; [lia|]. split; [exact ex_undo|]. split; [intros p H1 H2; apply ex_propagated; lia|]. split; [exact ex_starts|].
  split; [apply ex_mark; reflexivity|]. vm_compute. reflexivity.
Qed.

Definition xs (t : list (row Qc)) : list Q := map (fun r => this (r_x r)) t.
Lemma thick_values : option_map xs (wrap 4 ex_step ex_back ex_inc ex_incz false ex_origin 2 0 (ex_init 3)) = Some [2; 4; 8; 8]%Q.
Proof. vm_compute. reflexivity. Qed.
Lemma thick_refuted : exists t, wrap 4 ex_step ex_back ex_inc ex_incz false ex_origin 2 0 (ex_init 3) = Some t /\
  forall Xf Cf Zf, propagated 4 ex_step ex_inc ex_incz Xf Cf Zf 2 3 -> t <> expected 4 Xf Cf Zf 2 3.
Proof.
  pose proof thick_values as V.
  destruct (wrap 4 ex_step ex_back ex_inc ex_incz false ex_origin 2 0 (ex_init 3)) as [t|]; [|discriminate V].
  exists t. split; [reflexivity|]. intros Xf Cf Zf P ->.
  destruct (P 2) as (A & _); [lia|lia|]. change (Xf 3 = Xf 2) in A. cbn [option_map xs expected map app seq Nat.add r_x] in V.
  injection V as V2 V3 _ _. rewrite A, V2 in V3. discriminate V3.
Qed.
Lemma single_values : option_map xs (wrap 4 ex_step ex_back ex_inc ex_incz false ex_origin 3 1 (ex_init 0)) = Some [4; 4; 4; 5]%Q.
Proof. vm_compute. reflexivity. Qed.
Lemma single_refuted : exists t, wrap 4 ex_step ex_back ex_inc ex_incz false ex_origin 3 1 (ex_init 0) = Some t /\
  forall Xf Cf Zf, propagated 4 ex_step ex_inc ex_incz Xf Cf Zf 3 3 -> t <> expected 4 Xf Cf Zf 3 3.
Proof.
  pose proof single_values as V.
  destruct (wrap 4 ex_step ex_back ex_inc ex_incz false ex_origin 3 1 (ex_init 0)) as [t|]; [|discriminate V].
  exists t. split; [reflexivity|]. intros Xf Cf Zf P ->.
  destruct (P 3) as (A & _); [lia|lia|]. change (Xf 4 = (Xf 3 * Q2Qc 2)%Qc) in A. cbn [option_map xs expected map app seq Nat.add r_x] in V.
  injection V as V3 V4 _ _. assert (W : Xf 3 = q 4) by (apply Qc_is_canon; rewrite V3; reflexivity).
  rewrite A, W in V4. vm_compute in V4. discriminate V4.
Qed.
Lemma first_refuted : one_turn 4 ex_step ex_back ex_inc ex_incz false ex_origin 0 (ex_init 0) = None.
Proof. vm_compute. reflexivity. Qed.
Lemma zero_values : option_map (map (fun r => this (r_c r))) (one_turn 4 ex_step ex_back ex_inc ex_incz false ex_origin 2 (ex_init 2)) = Some [0; 0; 4; 4; 5]%Q.
Proof. vm_compute. reflexivity. Qed.
Lemma zero_refuted : exists t r, one_turn 4 ex_step ex_back ex_inc ex_incz false ex_origin 2 (ex_init 2) = Some t /\
  first_row t = Some r /\ r_c r <> i_c (ex_init 2).
Proof.
  pose proof zero_values as V.
  destruct (one_turn 4 ex_step ex_back ex_inc ex_incz false ex_origin 2 (ex_init 2)) as [[|r t]|]; try discriminate V.
  exists (r :: t), r. split; [reflexivity|]. split; [reflexivity|]. intros H.
  cbn [option_map map] in V. injection V as V _. rewrite H in V. vm_compute in V. discriminate V.
Qed.
(** A periodic line without effect on the state *)
Definition per_inc (k : nat) (x : Qc) : Qc := q (Z.of_nat (S k)).
Definition per_C (p : nat) : Qc := match p with 0 => q 0 | 1 => q 1 | 2 => q 3 | 3 => q 6 | 4 => q 7 | _ => q 9 end.
Definition per_Z (p : nat) : Qc := match p with 0 => q 0 | 1 => q 1 | 2 => q 2 | 3 => q 3 | 4 => q 4 | _ => q 5 end.
Definition per_table : list (row Qc) := expected 3 (fun _ => q 1) per_C per_Z 0 3.
Lemma per_propagated : propagated 3 (fun _ x => x) per_inc (fun _ _ => 1%Qc) (fun _ => q 1) per_C per_Z 0 5.
Proof.
  intros p H1 H2. assert (H : p = 0 \/ p = 1 \/ p = 2 \/ p = 3 \/ p = 4) by lia.
  destruct H as [->|[->|[->|[->| ->]]]]; repeat split; apply Qc_is_canon; vm_compute; reflexivity.
Qed.
Lemma periodic_case : option_map (map values) (periodic_start 2 per_table) =
  Some [(Some 2%nat, 1, 0, 2); (Some 0%nat, 1, 3, 0); (Some 1%nat, 1, 4, 1); (None, 1, 6, 2)]%Q.
Proof. vm_compute. reflexivity. Qed.
Lemma periodic_first_refuted : periodic_start 0 per_table = None.
Proof. vm_compute. reflexivity. Qed.
Lemma periodic_z_refuted : exists t, periodic_start 2 per_table = Some t /\
  forall d, map r_z t <> map (fun r => (r_z r + d)%Qc) (expected 3 (fun _ => q 1) per_C per_Z 2 3).
Proof.
  destruct (periodic_start 2 per_table) as [t|] eqn:E.
  - exists t. split; [reflexivity|]. intros d H.
    apply (f_equal (option_map (map values))) in E. rewrite periodic_case in E. cbn [option_map] in E.
    destruct t as [|r0 [|r1 [|r2 [|r3 [|r4 t]]]]]; try discriminate E. injection E as _ _ _ Z0 _ _ _ Z1 _ _ _ Z2 _ _ _ Z3.
    unfold expected in H. cbn [map seq app r_z per_Z Nat.add] in H. injection H as H0 H1 _ _.
    assert (Y0 : r_z r0 = q 2) by (apply Qc_is_canon; rewrite <- Z0; reflexivity).
    assert (Y1 : r_z r1 = q 0) by (apply Qc_is_canon; rewrite <- Z1; reflexivity).
    rewrite Y0 in H0. rewrite Y1 in H1.
    assert (D : d = 0%Qc). { replace d with ((q 2 + d) - q 2)%Qc by ring. rewrite <- H0. ring. }
    subst d. apply (f_equal this) in H1. vm_compute in H1. discriminate.
  - exfalso. apply (f_equal (option_map (map values))) in E. vm_compute in E. discriminate.
Qed.
