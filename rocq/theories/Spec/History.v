(** Operations that respect the drifts of the environment. *)
From Coq Require Import ZArith QArith List Bool String.
From Verif.Model Require Import Line Slicing LineEdit History.
From Verif.Spec Require Import Line LineEdit.
Import ListNotations.

Definition handed_out (v : env) (n : string) : Prop := exists l, In (l, n) (en_cache v).

(** The lines are lines of the environment, elements created by the user do not take the name of a
    generated drift, and no generated drift occurs exactly once in a line on which consecutive
    drifts are merged. *)
Definition respects (v : env) (o : op) : Prop :=
  match o with
  | OGetDrift _ => True
  | ONew n e => ~ handed_out v n /\ forall m, n = (m ++ "_entry")%string \/ n = (m ++ "_exit")%string -> e = marker
  | OSlice _ _ rows => exists L, line_length v (map snd rows) = Some L
  | OCut rows tol _ => NoDup (map fst rows) /\ (0 <= tol)%Q /\ exists L, line_length v (map snd rows) = Some L
  | ORemove rows _ _ _ => exists L, line_length v (map snd rows) = Some L
  | ORepeated _ _ order names => NoDup order /\ (forall n, In n order <-> In n names) /\ complete v names
  | OMerge _ order names => NoDup order /\ (forall n, In n order <-> In n names) /\ complete v names
      /\ forall n, handed_out v n -> count_occ string_dec names n <> 1%nat
  end.
Fixpoint all_respect (v : env) (l : list op) : Prop :=
  match l with
  | [] => True
  | o :: r => respects v o /\ match apply o v with Some v => all_respect v r | None => True end
  end.
