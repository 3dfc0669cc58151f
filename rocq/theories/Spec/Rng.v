(** What a user expects of the random number generators. *)
From Coq Require Import NArith ZArith QArith List Bool.
From Verif.Model Require Import Rng.
Import ListNotations.
Local Open Scope N_scope.

(** Non-degenerate states: the seeds of the Tausworthe components exceed 1, 7 and 15
    (L'Ecuyer's condition), everything fits in 32 bits. *)
Definition good (g : rng) : Prop :=
  2 <= s1 g < 2 ^ 32 /\ 8 <= s2 g < 2 ^ 32 /\ 16 <= s3 g < 2 ^ 32 /\ s4 g < 2 ^ 32.

Fixpoint iter {A} (n : nat) (f : A -> A) (x : A) : A :=
  match n with O => x | S m => f (iter m f x) end.

(** The particle after [n] draws, and the [n]-th number drawn. *)
Definition after {V} (gen : part -> part * V) (n : nat) (p : part) : part := iter n (fun q => fst (gen q)) p.
Definition draw {V} (gen : part -> part * V) (n : nat) (p : part) : V := snd (gen (after gen n p)).

(** Seeds for which [rng_set] replaces none of the four words. *)
Definition ordinary (s : N) : Prop :=
  s < 2 ^ 32 /\ 2 <= 69069 * s mod 2 ^ 32 /\ 8 <= 69069 ^ 2 * s mod 2 ^ 32
  /\ 16 <= 69069 ^ 3 * s mod 2 ^ 32.
