(** Cases of multisetters *)
From Coq Require Import ZArith Lia List Bool String Permutation.
From Verif.Model Require Import MultiSetter.
From Verif.Spec Require Import MultiSetter.
From Verif.Proofs Require Import MultiSetter.
Import ListNotations.
Local Open Scope Z_scope.
Local Open Scope string_scope.

(** Two multipoles at 0 and 100: length at 8, knl at 32 with four items *)
Definition fields (name : string) : option field :=
  if String.eqb name "length" then Some (Scalar Float64 8)
  else if String.eqb name "order" then Some (Scalar Int64 0)
  else if String.eqb name "knl" then Some (Array Float64 32 4) else None.
Definition first : object := mkObject 0 64 fields.
Definition second : object := mkObject 100 64 fields.

Lemma fields_names name f : fields name = Some f ->
  (name = "length" /\ f = Scalar Float64 8) \/ (name = "order" /\ f = Scalar Int64 0) \/ (name = "knl" /\ f = Array Float64 32 4).
Proof.
  unfold fields. destruct (String.eqb_spec name "length"); [intros H; left; split; congruence|].
  destruct (String.eqb_spec name "order"); [intros H; right; left; split; congruence|].
  destruct (String.eqb_spec name "knl"); [intros H; right; right; split; congruence|discriminate].
Qed.
Lemma first_laid b : 0 <= b -> laid_out (mkObject b 64 fields).
Proof.
  intros Hb. split; [exact Hb|]. split.
  - intros name f H. destruct (fields_names _ _ H) as [(_ & ->)|[(_ & ->)|(_ & ->)]]; cbn; lia.
  - intros n1 n2 f1 f2 H1 H2 D.
    destruct (fields_names _ _ H1) as [(-> & ->)|[(-> & ->)|(-> & ->)]], (fields_names _ _ H2) as [(-> & ->)|[(-> & ->)|(-> & ->)]];
      cbn; try congruence; lia.
Qed.
Lemma two_apart : all_apart [first; second] /\ Forall laid_out [first; second].
Proof.
  split.
  - constructor; [|constructor; [intros ? []|constructor]]. intros ob [<-|[]]. left. cbn. lia.
  - constructor; [apply first_laid; lia|]. constructor; [apply first_laid; lia|constructor].
Qed.
Lemma two_offsets : offsets_of [first; second] "knl" (Some 1) Float64 false = Some [40; 140].
Proof. reflexivity. Qed.

Lemma twice_lost m : exists obs values, Forall laid_out obs /\
  offsets_of obs "length" None Float64 false = Some [8; 8] /\
  forall ws, Permutation ws (all_writes Float64 [8; 8] values) -> get_values Float64 [8; 8] (perform ws m) <> values.
Proof.
  exists [first; first], [1; 2]. split.
  { constructor; [apply first_laid; lia|]. constructor; [apply first_laid; lia|constructor]. } split; [reflexivity|].
  intros ws _. apply given_twice. discriminate.
Qed.
