(** Imports of small lines *)
From Coq Require Import QArith List Bool String.
From Verif.Model Require Import Line ImportLine.
From Verif.Spec Require Import ImportLine.
Import ListNotations.
Local Open Scope list_scope.
Local Open Scope string_scope.

(** classes: 1 drift, 2 quadrupole, 3 slice *)
Definition quad (k : expr) : el := mkEl false true 2 [("length", Num 1); ("k1", k)] None.
Definition a_drift_of (l : Q) : el := mkEl false true 1 [("length", Num l)] None.
Definition slice_of (p : string) : el := mkEl false true 3 [] (Some p).

Definition ring : elems := [("q", quad (Times (Num 2) (Var "kq"))); ("m", plain_marker); ("||drift_1", a_drift_of 5)].
Definition ring_env : environment := mkEnvi ring 1 [("kq", 3%Q)].
Definition arc : elems :=
  [("q", quad (Plus (Var "kq") (Var "kx"))); ("m", plain_marker); ("||drift_1", a_drift_of 7);
   ("b", quad (Var "kx")); ("b..0", slice_of "b"); ("b..1", slice_of "b")].
Definition arc_vars : vars := [("kx", 10%Q); ("kq", 3%Q)].
Definition arc_names : list string := ["m"; "q"; "||drift_1"; "b..0"; "b..1"; "q"; "m"].

Lemma arc_used n : used arc arc_names n -> In n ["m"; "q"; "||drift_1"; "b..0"; "b..1"; "b"].
Proof.
  induction 1 as [n H|n e p H IH E P].
  - cbn in H |- *. intuition.
  - cbn in IH. repeat destruct IH as [<-|IH]; try destruct IH; cbn in E; injection E as <-; cbn in P; try discriminate; injection P as <-; cbn; tauto.
Qed.
Lemma arc_free : free_names [] "/arc" ring arc arc_names.
Proof.
  intros n U. apply arc_used in U. unfold other_name. cbn [get].
  assert (X : forall m, used arc arc_names m -> In m ["m"; "q"; "||drift_1"; "b..0"; "b..1"; "b"]) by exact arc_used.
  cbn in U. repeat destruct U as [<-|U]; try destruct U;
    (split; [reflexivity|]; split; [reflexivity|]; split; intros m Um; apply X in Um; cbn in Um;
     repeat destruct Um as [<-|Um]; try destruct Um; cbn; congruence).
Qed.
Lemma arc_markers : markers_plain arc.
Proof.
  intros n e H M. unfold arc in H. cbn in H.
  repeat match type of H with (if ?b then _ else _) = _ => destruct b end; try discriminate; injection H as <-; try discriminate; reflexivity.
Qed.
Lemma ring_markers : markers_plain ring.
Proof.
  intros n e H M. unfold ring in H. cbn in H.
  repeat match type of H with (if ?b then _ else _) = _ => destruct b end; try discriminate; injection H as <-; try discriminate; reflexivity.
Qed.
Lemma arc_imported : exists v, import_line None [] "arc" false ring_env arc arc_vars arc_names =
  Some (v, ["m"; "q/arc"; "||drift_2"; "b..0"; "b..1"; "q/arc"; "m"]) /\
  get (ev_elems v) "b..1" = Some (slice_of "b") /\ get (ev_elems v) "b" = get arc "b" /\
  get (ev_elems v) "||drift_1" = Some (a_drift_of 5) /\ get (ev_elems v) "||drift_2" = Some (a_drift_of 7).
Proof. eexists. split; [vm_compute; reflexivity|]. repeat split. Qed.

(** the suffixed name belongs to another element of the environment, which is lost *)
Lemma suffix_taken : exists suffix v src src_vars names v' l n e,
  import_line suffix [] "arc" false v src src_vars names = Some (v', l) /\
  get (ev_elems v) n = Some e /\ get (ev_elems v') n <> Some e.
Proof.
  exists None, (mkEnvi [("q", quad (Num 1)); ("q/arc", quad (Num 2))] 0 []), [("q", quad (Num 3))], [], ["q"].
  do 2 eexists. exists "q/arc", (quad (Num 2)). split; [vm_compute; reflexivity|]. split; [reflexivity|]. vm_compute. discriminate.
Qed.
(** the suffixed name belongs to another element of the line: the line is not the same *)
Lemma suffix_in_line : exists v src src_vars names v' l,
  import_line None [] "arc" false v src src_vars names = Some (v', l) /\
  map (get (ev_elems v')) l <> map (get src) names.
Proof.
  exists (mkEnvi [("q", quad (Num 1))] 0 []), [("q", quad (Num 3)); ("q/arc", quad (Num 4))], [], ["q/arc"; "q"].
  do 2 eexists. split; [vm_compute; reflexivity|]. vm_compute. discriminate.
Qed.
(** an element which occurs twice becomes two elements: changing the first later does not change the second *)
Lemma repeated_apart : exists v src src_vars names v' l,
  import_line None [] "arc" false v src src_vars names = Some (v', l) /\
  nth_error names 0 = nth_error names 1 /\ nth_error l 0 <> nth_error l 1.
Proof.
  exists (mkEnvi [] 0 []), [("q", quad (Num 3))], [], ["q"; "q"]. do 2 eexists. split; [vm_compute; reflexivity|]. split; [reflexivity|]. vm_compute. discriminate.
Qed.
(** a variable of that name keeps the value it has in the environment: other strengths *)
Lemma other_variable : exists v src src_vars names v' l n e k e',
  import_line None [] "arc" false v src src_vars names = Some (v', l) /\
  nth_error names 0 = Some n /\ nth_error l 0 = Some k /\ get src n = Some e /\ get (ev_elems v') k = Some e' /\
  values (ev_vars v') e' <> values src_vars e.
Proof.
  exists (mkEnvi [] 0 [("kq", 1%Q)]), [("q", quad (Var "kq"))], [("kq", 2%Q)], ["q"]. do 2 eexists. exists "q". eexists. exists "q". eexists.
  split; [vm_compute; reflexivity|]. do 4 (split; [reflexivity|]). vm_compute. discriminate.
Qed.
