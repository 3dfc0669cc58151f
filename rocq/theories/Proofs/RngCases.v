From Coq Require Import NArith ZArith QArith List Bool Lia.
From Coq Require Import Floats.SpecFloat.
From Verif.Model Require Import Rng.
From Verif.Spec Require Import Rng.
From Verif.Proofs Require Import Rng RngSample.
Import ListNotations.
Local Open Scope N_scope.

Lemma uniform_id p : p_id (fst (uniform p)) = p_id p.
Proof. unfold uniform, rng_get. destruct (unset _); [reflexivity|]. destruct (rng_get_int32 _). reflexivity. Qed.

Lemma colliding_seeds : exists s t, s <> t /\ s < 2 ^ 32 /\ t < 2 ^ 32 /\ rng_set s = rng_set t.
Proof.
  exists 0, 1271221770. repeat split; try reflexivity; try discriminate.
Qed.

Lemma accurate_one :
  exists p, good (p_rng p) /\ snd (uniform_accurate_double p) = fl 1.
Proof.
  exists (mkPart 0 1 (mkRng 5153368 12345 67890 22339672)).
  split; [repeat split; vm_compute; congruence|]. vm_compute. reflexivity.
Qed.

Lemma out_of_buffer :
  exists (ps : list part) n, NoDup (map p_id ps) /\ Forall (fun p => (0 < p_state p)%Z) ps
  /\ Forall (fun p => good (p_rng p)) ps /\ generate uniform 0%Q n ps = None.
Proof.
  exists [mkPart 5 1 (rng_set 1)], 2%nat. split; [repeat constructor; cbn; tauto|].
  split; [repeat constructor|]. split; [repeat constructor; try (vm_compute; congruence)|].
  vm_compute. reflexivity.
Qed.
