(** Counterexamples for the beam monitors. *)
From Coq Require Import ZArith QArith List Bool.
From Verif.Model Require Import BeamMonitors.
From Verif.Spec Require Import BeamMonitors.
From Verif.Proofs Require Import BeamMonitors.
Import ListNotations.
Local Open Scope Q_scope.

Definition at_zeta (id turn : Z) (z : Q) : bpart :=
  mkBP id turn 1 1 (fun i => if Nat.eqb i 4 then z else 0).

(** [particle_id_start = 5] with the default number of particles (-1: all). *)
Lemma ids_from_5 :
  exists c, bpm_init None (Some 5%Z) None 0 10 1 1 = Some c
  /\ id_wanted (bp_id0 c) (bp_num c) 7 = true
  /\ forall cl p, b_zeta p == 0 -> bpm_idx cl c p = None.
Proof.
  eexists. split; [reflexivity|]. split; [reflexivity|]. intros cl p _. unfold bpm_idx, bpm_id_ok.
  cbn [bp_id0 bp_num]. change (5 + -1 <? 0)%Z with false. cbn [orb].
  destruct ((5 <=? b_id p)%Z && (b_id p <? 5 + -1)%Z)%bool eqn:E; [|reflexivity].
  apply andb_true_iff in E. destruct E as [A B]. apply Z.leb_le in A. apply Z.ltb_lt in B. exfalso.
  apply (Z.lt_irrefl 5). eapply Z.le_lt_trans; [exact A|]. eapply Z.lt_trans; [exact B|]. reflexivity.
Qed.

(** Three samples every five turns, two turns: the second turn is lost. *)
Lemma slow_sampling :
  exists c, bpm_init None None None 0 2 1 (3 # 5) = Some c /\ bp_size c = 1%Z
  /\ forall cl, ~ cl == 0 -> bpm_idx cl c (at_zeta 0 1 0) = None.
Proof.
  eexists. split; [reflexivity|]. split; [reflexivity|]. intros cl _. unfold bpm_idx, bpm_slot.
  assert (E : forall x, x == (3 # 5) -> c_round x = 1%Z).
  { intros x Hx. apply c_round_iff; [discriminate|]. unfold in_sample. apply andb_true_iff.
    split; [apply Qle_bool_iff|apply qlt_bool]; rewrite Hx; [discriminate|reflexivity]. }
  replace (c_round _) with 1%Z; [reflexivity|]. symmetry. apply E.
  cbn [bp_fs bp_start bp_frev b_turn at_zeta b_zeta b_coord b_beta0 Nat.eqb].
  unfold Qdiv. rewrite !Qmult_0_l. reflexivity.
Qed.

(** Two bunches 4 apart, slices from -4 to 4: the slice of [zeta = 1] in slot 1 exists, but the
    kernel puts the particle in slot 0. *)
Lemma wide_range :
  exists c, stats_init Slice 0 1 1 [0; 1]%Z (Some 4) 8 (-4) 4 None = Some c
  /\ slice_index c 1 (Some 1%Z) 100 = None /\ slice_index c 1 (Some 0%Z) 100 = Some 5%Z
  /\ stats_idx 100 c (at_zeta 0 0 1) = None
  /\ slice_index c (-1) (Some 0%Z) 100 = Some 3%Z
  /\ stats_idx 100 c (at_zeta 0 0 (-1)) = Some 3%Z
  /\ slice_index c (-1) (Some 1%Z) 100 = Some 7%Z.
Proof. eexists. split; [reflexivity|]. vm_compute. repeat split. Qed.
