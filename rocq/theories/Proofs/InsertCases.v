(** Cases in which insertions do not do what is expected. *)
From Coq Require Import ZArith QArith Qabs List Bool String Lqa.
From Verif.Model Require Import Composer.
From Verif.Model Require Import Line Slicing Insert.
From Verif.Spec Require Import Line Slicing LineEdit Insert.
From Verif.Proofs Require Import LineBase.
Import ListNotations.
Local Open Scope Q_scope.

Definition cenv : env := mkEnv [("q", EOwn (CMagnet true) 2 1); ("d", EOwn CDrift 3 0); ("m", EOwn (CMagnet false) 1 2)]%string 0 [].
Definition crow_names : list (string * string) := [("q", "q"); ("d", "d")]%string.

(** an insertion that starts the tolerance before the end of a magnet replaces the whole magnet by a drift *)
Lemma at_tolerance : exists v rows what stol tol ref v' names', 0 < stol /\ stol <= tol /\
  Verif.Model.Insert.insert v rows what stol tol ref = Some (v', names') /\
  In "q"%string (map snd rows) /\ at_place v (map snd rows) 0 "q" 0 2 /\
  (exists p a, what = [p] /\ pl_anchor p = Some AStart /\ pl_at p = Some a /\ pl_from p = None /\ 2 - a <= tol) /\
  ~ In "q"%string names' /\ (forall n k b, lookup v' n = Some (ESlice k "q" b 0) -> ~ In n names').
Proof.
  exists cenv, crow_names, [mkPlace "m" (Some (199 # 100)) None (Some AStart) None], (1 # 1000), (1 # 100), (fun i => i). do 2 eexists.
  split; [reflexivity|]. split; [discriminate|]. split; [vm_compute; reflexivity|]. split; [left; reflexivity|]. split.
  { split; [reflexivity|]. exists 0, (2 + 0). split; [reflexivity|]. split; [reflexivity|]. split; [cbn; auto|]. split; reflexivity. }
  split; [exists (mkPlace "m" (Some (199 # 100)) None (Some AStart) None), (199 # 100); repeat split; discriminate|].
  split; [vm_compute; intuition discriminate|].
  intros n k b H Hn. vm_compute in Hn. repeat (destruct Hn as [<-|Hn]; [vm_compute in H; discriminate|]). destruct Hn.
Qed.
(** a thick element at the end of the line *)
Lemma at_the_end : exists v rows what stol tol ref, 0 < stol /\ stol <= tol /\
  line_length v (map snd rows) = Some (2 + (3 + 0)) /\ what = [mkPlace "m" (Some 5) None (Some AStart) None] /\
  (exists l, s_length v "m" = Some l /\ 0 < l) /\ Verif.Model.Insert.insert v rows what stol tol ref = None.
Proof.
  exists cenv, crow_names. eexists. exists (1 # 1000), (1 # 100), (fun i => i). split; [reflexivity|]. split; [discriminate|]. split; [reflexivity|]. split; [reflexivity|].
  split; [exists 1; split; reflexivity|vm_compute; reflexivity].
Qed.

Definition well_apartb (tol : Q) (l : list Q) : bool :=
  forallb (fun a => forallb (fun b => Qeq_bool a b || negb (Qle_bool (Qabs (a - b)) (2 * tol))) l) l.
Lemma well_apartb_ok tol l : well_apartb tol l = true -> well_apart tol l.
Proof.
  intros H a b Ha Hb. unfold well_apartb in H. rewrite forallb_forall in H. specialize (H a Ha). rewrite forallb_forall in H. specialize (H b Hb).
  apply orb_true_iff in H. destruct H as [H|H]; [left; apply Qeq_bool_iff, H|right]. apply negb_true_iff, not_true_iff_false in H. rewrite Qle_bool_iff in H. apply Qnot_le_lt, H.
Qed.
Definition ex_env : env := mkEnv
  [("q", EOwn (CMagnet true) 4 1); ("d", EOwn CDrift 2 0); ("m", marker); ("r", EReplica "q"); ("x", EOwn (CMagnet true) 1 7); ("k", EOwn CThin 0 3)]%string 0 [].
Lemma ex_env_ok : cache_ok ex_env /\ edge_names_ok ex_env.
Proof.
  split; [intros l n []|]. intros n e [H|H]; exfalso; apply find_in in H;
    (destruct H as [H|[H|[H|[H|[H|[H|[]]]]]]]; apply (f_equal last_char) in H; rewrite last_append in H by discriminate; discriminate).
Qed.
