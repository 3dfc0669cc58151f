(** Cases where the composer does not do what one may expect. *)
From Coq Require Import ZArith QArith Qabs Lqa List Bool String Permutation.
From Verif.Model Require Import Composer.
From Verif.Spec Require Import Composer.
Import ListNotations.
Local Open Scope string_scope.

Definition unit_len (n : string) : Q := 1%Q.
Definition a0 := mkPlace "a" (Some 0%Q) None (Some AStart) None.
Definition a10 := mkPlace "a" (Some 10%Q) None (Some AStart) None.
Definition b1 := mkPlace "b" (Some 1%Q) (Some "a") (Some AStart) (Some AStart).

Lemma duplicate_names : exists len refer ps ps' s f s' f' i i' p x x',
  Permutation ps ps' /\ (forall q, In q ps -> pl_at q <> None)
  /\ resolve len refer ps = Some (s, f) /\ resolve len refer ps' = Some (s', f')
  /\ nth_error ps i = Some p /\ nth_error ps' i' = Some p
  /\ nth_error s i = Some x /\ nth_error s' i' = Some x' /\ ~ (x == x')%Q.
Proof.
  exists unit_len, AStart, [b1; a0; a10], [a0; b1; a10]. do 4 eexists. exists 0%nat, 1%nat, b1. do 2 eexists.
  split; [apply perm_swap|]. split; [intros q [<-|[<-|[<-|[]]]]; discriminate|].
  split; [vm_compute; reflexivity|]. split; [vm_compute; reflexivity|]. split; [reflexivity|]. split; [reflexivity|].
  split; [reflexivity|]. split; [reflexivity|]. vm_compute. discriminate.
Qed.

(** three thin elements in a chain, each within the tolerance of the next *)
Definition far := mkRP 0 1 true (-100) None None.
Definition low := mkRP 1 0 false 0 None None.
Definition mid := mkRP 2 0 false 6 None None.
Definition high := mkRP 3 0 false 12 (Some 0%nat) (Some AEnd).

Lemma chain_not_sorted : exists tol ps res a b,
  NoDup (map rp_index ps) /\ (0 < tol)%Q /\ sort_places tol false ps = Some res /\ before res a b
  /\ (tol <= rp_center a - rp_center b)%Q.
Proof.
  exists 10%Q, [far; low; mid; high]. eexists. exists high, low.
  split; [repeat constructor; cbn; intuition discriminate|]. split; [reflexivity|]. split; [vm_compute; reflexivity|].
  split; [exists [far], [], [mid]; reflexivity|]. vm_compute. discriminate.
Qed.

(** positions of three thin elements separated by the tolerance *)
Definition thin_at (i : nat) (s : Q) := mkRP i 0 false s None None.
Lemma tolerance_accumulates : exists tol ps l k p s,
  (0 < tol)%Q /\ generate tol None ps = Some l /\ nth_error ps k = Some p
  /\ nth_error (elems_at 0 l) k = Some (rp_index p, s) /\ (tol < Qabs (s - rp_start p))%Q.
Proof.
  exists 1%Q, [thin_at 0 1; thin_at 1 2; thin_at 2 3]. eexists. exists 2%nat, (thin_at 2 3), 0%Q.
  split; [reflexivity|]. split; [vm_compute; reflexivity|]. repeat split.
Qed.
