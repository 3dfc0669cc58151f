(** Cases in which slicing and cutting do not do what is expected. *)
From Coq Require Import ZArith QArith Qabs List Bool String Lqa.
From Verif.Model Require Import Line Slicing.
From Verif.Spec Require Import Line Slicing.
From Verif.Proofs Require Import LineBase.
Import ListNotations.
Local Open Scope Q_scope.

Definition ex_env : env := mkEnv
  [("q", EOwn (CMagnet true) 4 1); ("d", EOwn CDrift 2 0); ("m", marker); ("r", EReplica "q")]%string 0 [].
Lemma ex_env_ok : cache_ok ex_env /\ edge_names_ok ex_env.
Proof.
  split; [intros l n []|]. intros n e [H|H]; exfalso; apply find_in in H;
    (destruct H as [H|[H|[H|[H|[]]]]]; apply (f_equal last_char) in H; rewrite last_append in H by discriminate; discriminate).
Qed.

(** slicing a slice: the offsets start again from zero *)
Definition halves : env := match make_slices ex_env "q" (Uniform 2 MThick) with Some (v, _) => v | None => ex_env end.
Lemma halves_ok : lookup halves "q..1" = Some (ESlice SThick "q" (1 / qnat 2 * 1) (0 + 4 * (1 / qnat 2) * 1)).
Proof. vm_compute. reflexivity. Qed.
Lemma resliced_offsets : exists v v' l n, resolve v "q..1" = Some ("q..1"%string, ESlice SThick "q" (1 / qnat 2 * 1) (0 + 4 * (1 / qnat 2) * 1))
  /\ lookup v "q" = Some (EOwn (CMagnet true) 4 1)
  /\ slice_element v "q..1" (Uniform 2 MThick) false = Some (v', l) /\ nth_error l 0 = Some n
  /\ exists w o, lookup v' n = Some (ESlice SThick "q" w o) /\ w == 1 # 4 /\ ~ o == 2.
Proof.
  exists halves. eexists. eexists. eexists. split; [vm_compute; reflexivity|]. split; [vm_compute; reflexivity|].
  split; [vm_compute; reflexivity|]. split; [vm_compute; reflexivity|]. eexists. eexists. split; [vm_compute; reflexivity|].
  split; [vm_compute; reflexivity|]. intro H. vm_compute in H. discriminate.
Qed.

(** an element which has the name of an edge marker is overwritten *)
Lemma marker_overwrites : exists v v' l, resolve v "q" = Some ("q"%string, EOwn (CMagnet true) 4 1)
  /\ slice_element v "q" (Uniform 2 MThick) true = Some (v', l) /\ ~ keeps v v'.
Proof.
  exists (set_elem ex_env "q_entry" (EOwn (CMagnet true) 3 7)). eexists. eexists. split; [vm_compute; reflexivity|].
  split; [vm_compute; reflexivity|]. intro K. assert (X := K "q_entry"%string _ eq_refl). vm_compute in X. discriminate.
Qed.

(** no cut, thick *)
Lemma custom_empty len : scheme_ok (Custom [] MThick) = true /\ iter_weights (Custom [] MThick) len = None.
Proof. split; [reflexivity|]. unfold iter_weights. destruct (zero_custom _ _); reflexivity. Qed.
(** cuts not in increasing order *)
Lemma custom_unsorted : exists l len ws, iter_weights (Custom l MThick) len = Some ws /\ (forall x, In x l -> 0 < x /\ x < len)
  /\ exists w, In w (drifts ws) /\ w < 0.
Proof.
  exists [2; 1], 3. eexists. split; [vm_compute; reflexivity|]. split; [intros x [<-|[<-|[]]]; lra|].
  eexists. split; [right; left; reflexivity|]. reflexivity.
Qed.

(** a line without thick elements *)
Lemma cut_thin_line : exists v rows, cache_ok v /\ edge_names_ok v /\ line_length v (map snd rows) = Some (0 + 0) /\ cut_at_s v rows 0 [0] = None.
Proof. exists ex_env, [("m", "m")%string]. split; [apply ex_env_ok|]. split; [apply ex_env_ok|]. split; reflexivity. Qed.
(** a position after the end of the line *)
Lemma cut_beyond : exists v rows, cache_ok v /\ edge_names_ok v /\ line_length v (map snd rows) = Some (4 + 0) /\ cut_at_s v rows 0 [5] = None.
Proof. exists ex_env, [("q", "q")%string]. split; [apply ex_env_ok|]. split; [apply ex_env_ok|]. split; reflexivity. Qed.
