(** Three branches *)
From Coq Require Import List Bool Arith.
From Verif.Model Require Import MultiTracker.
From Verif.Spec Require Import MultiTracker.
Import ListNotations.

(** branch i counts its calls and is on hold until there were i + 2 mod 3 of them *)
Definition own (i : nat) (s : nat) : nat * bool := (S s, (S s <=? (i + 2) mod 3)%nat).
Definition branch (i : nat) (g : nat -> nat) : (nat -> nat) * bool :=
  (fun j => if (j =? i)%nat then S (g i) else g j, snd (own i (g i))).
Lemma branch_own : independent branch own.
Proof. intros i g. split; [reflexivity|]. intros j. reflexivity. Qed.
Lemma branches_tracked : exists g log, multitrack branch branch 5 3 (fun _ => 0) = Some (g, log) /\
  log = [(0, true); (1, false); (2, true); (0, true); (2, false); (0, false)] /\ map g [0; 1; 2; 3] = [3; 1; 2; 0].
Proof.
  assert (T : option_map (fun x => (map (fst x) [0; 1; 2; 3], snd x)) (multitrack branch branch 5 3 (fun _ => 0)) =
    Some ([3; 1; 2; 0], [(0, true); (1, false); (2, true); (0, true); (2, false); (0, false)])) by (vm_compute; reflexivity).
  destruct (multitrack branch branch 5 3 (fun _ => 0)) as [[g log]|]; [|discriminate]. exists g, log.
  cbn in T. injection T as T1 T2 T3 T4 T. cbn. rewrite T1, T2, T3, T4. auto.
Qed.
