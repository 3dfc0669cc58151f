(** SyncTime.track on all particles *)
From Coq Require Import Reals ZArith List Bool Arith Lia Lra Permutation.
From Verif.Model Require Import SyncTime.
Import ListNotations.
Local Open Scope list_scope.
Local Open Scope R_scope.

Lemma all_perm {A B} (g : A -> option B) l l' : Permutation l l' -> forall r, all g l = Some r -> exists r', all g l' = Some r' /\ Permutation r r'.
Proof.
  induction 1 as [|x l l' P IH|x y l|l l' l'' P IH P' IH']; intros r H.
  - exists r. split; [exact H|reflexivity].
  - cbn in *. destruct (g x) as [y|]; [|discriminate]. destruct (all g l) as [ys|]; [|discriminate]. injection H as <-.
    destruct (IH ys eq_refl) as (r' & -> & Q). eauto.
  - cbn in *. destruct (g y) as [a|]; [|discriminate]. destruct (g x) as [b|]; [|discriminate]. destruct (all g l) as [c|]; [|discriminate].
    injection H as <-. eexists. split; [reflexivity|]. constructor.
  - destruct (IH r H) as (r1 & H1 & Q1). destruct (IH' r1 H1) as (r2 & H2 & Q2). exists r2. split; [exact H2|]. now transitivity r1.
Qed.
Lemma all_map {A B B'} (h : A -> B) (g : B -> option B') l : all g (map h l) = all (fun x => g (h x)) l.
Proof. induction l as [|x r IH]; cbn; [reflexivity|]. now rewrite IH. Qed.
Lemma all_ext {A B} (g g' : A -> option B) l : (forall x, g x = g' x) -> all g l = all g' l.
Proof. intros H. induction l as [|x r IH]; cbn; [reflexivity|]. now rewrite H, IH. Qed.
Lemma all_then {A B B'} (g : A -> option B) (h : B -> B') l : all (fun x => option_map h (g x)) l = option_map (map h) (all g l).
Proof. induction l as [|x r IH]; cbn; [reflexivity|]. rewrite IH. destruct (g x), (all g r); reflexivity. Qed.
Lemma hold_resumed {D} C f id (p : particle D) : sync_hold C f id (if (p_state p =? - id)%Z then with_state 1 p else p) = sync_hold C f id p.
Proof.
  unfold sync_hold. destruct (Z.eqb_spec (p_state p) (- id)) as [E|E]; [|apply Z.eqb_neq in E; now rewrite E]. cbn [p_state with_state].
  destruct (1 =? - id)%Z; reflexivity.
Qed.

Lemma track_each {D} C f turn (reorganize : list (particle D) -> list (particle D)) id at_start at_end ps :
  (forall l, Permutation (reorganize l) l) ->
  let prepared := existsb (fun p => (p_state p =? - coast)%Z) ps in
  let one first p := option_map (sync_end C f at_end first) (sync_hold C f id (sync_start C f at_start (at_first turn ps) prepared p)) in
  match track C f turn reorganize id at_start at_end ps with
  | Some ps' => exists first qs, all (one first) ps = Some qs /\ Permutation ps' qs
  | None => forall first, all (one first) ps = None
  end.
Proof.
  intros P prepared one. unfold track. fold prepared.
  set (g := fun p : particle D => sync_hold C f id (sync_start C f at_start (at_first turn ps) prepared p)).
  set (l0 := map (fun p : particle D => if (p_state p =? - id)%Z then with_state 1 p else p) (map (sync_start C f at_start (at_first turn ps) prepared) ps)).
  assert (E0 : all (sync_hold C f id) l0 = all g ps).
  { unfold l0. rewrite !all_map. apply all_ext. intros p. apply hold_resumed. }
  destruct (all (sync_hold C f id) (reorganize l0)) as [ps3|] eqn:E.
  - destruct (all_perm _ _ _ (P l0) _ E) as (r' & E' & Q). rewrite E0 in E'. set (first := at_first turn ps3).
    exists first, (map (sync_end C f at_end first) r'). split; [|now apply Permutation_map]. unfold one. rewrite all_then. fold g. now rewrite E'.
  - intros first. unfold one. rewrite all_then. fold g. destruct (all g ps) as [r|] eqn:G; [|reflexivity]. exfalso.
    assert (E2 : all (sync_hold C f id) l0 = Some r) by exact E0. destruct (all_perm _ _ _ (Permutation_sym (P l0)) _ E2) as (r1 & E1 & _). congruence.
Qed.
