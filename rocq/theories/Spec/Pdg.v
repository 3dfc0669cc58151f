(** What a user means by a particle's number, name and mass. *)
From Coq Require Import List NArith ZArith QArith Bool.
From Verif.Model Require Import Pdg.
Import ListNotations.

Local Open Scope Z_scope.

Definition letter (c : N) : Prop := (65 <= c <= 90 \/ 97 <= c <= 122)%N.

Definition separator (c : N) : Prop := In c [32; 45; 46; 95]%N.

(** Superscript characters and what they stand for. *)
Definition raised : list (N * N) :=
  [(8304, 48); (185, 49); (178, 50); (179, 51); (8308, 52); (8309, 53); (8310, 54);
   (8311, 55); (8312, 56); (8313, 57); (8314, 43); (8315, 45)]%N.

(** The same character, up to the case of a letter and to a superscript. *)
Definition same_char (c d : N) : Prop :=
  c = d \/ (letter c /\ letter d /\ (c = d + 32 \/ d = c + 32)%N) \/ In (c, d) raised.

(** [written s t]: [s] is [t] up to case, superscripts and separators. *)
Inductive written : text -> text -> Prop :=
| written_nil : written [] []
| written_separator : forall c s t, separator c -> written s t -> written (c :: s) t
| written_char : forall c d s t, same_char c d -> written s t -> written (c :: s) (d :: t).

Definition digits (s : text) : Prop := Forall (fun c => (48 <= c <= 57)%N) s.

(** [s] is a decimal writing of [a]. *)
Definition decimal (a : Z) (s : text) : Prop :=
  digits s /\ a = fold_left (fun x c => 10 * x + (Z.of_N c - 48)) s 0.

(** [e] is the symbol or the full name of the element with [z] protons. *)
Definition names_element (z : Z) (e : text) : Prop :=
  In (z, e) elements \/ In (z, e) elements_long.

(** [i] or its antiparticle is one of the particles of the table. *)
Definition known (i : Z) : Prop := In i (map fst pdg_table) \/ In (- i) (map fst pdg_table).
