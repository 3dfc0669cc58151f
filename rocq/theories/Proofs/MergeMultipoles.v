(** Proofs about merging multipoles: names and elements *)
From Coq Require Import Reals ZArith Lra Lia List Bool String Arith.
From Verif.Model Require Import Maps Magnet MergeMultipoles.
From Verif.Model Require LineEdit.
From Verif.Spec Require Import MergeMultipoles.
Import ListNotations.
Local Open Scope R_scope.
Local Open Scope list_scope.

Lemma is0_t r : is0 r = true <-> r = 0.
Proof. unfold is0. destruct (Req_EM_T r 0); split; congruence. Qed.

Lemma find_put d n e x : find (put d n e) x = if String.eqb x n then Some e else find d x.
Proof. reflexivity. Qed.

Lemma runs_nonempty {A} (ok : A -> bool) l g : In g (runs ok l) -> g <> [].
Proof.
  revert g; induction l as [|a r IH]; cbn; [tauto|]. intros g.
  destruct (runs ok r) as [|[|b h] gs] eqn:E.
  - intros [<-|[]]. discriminate.
  - exfalso. apply (IH []); [now left|reflexivity].
  - destruct (ok a && ok b); intros [<-|H]; try discriminate; apply IH; cbn in *; tauto.
Qed.
Lemma runs_concat {A} (ok : A -> bool) l : List.concat (runs ok l) = l.
Proof.
  induction l as [|a r IH]; cbn; [reflexivity|].
  destruct (runs ok r) as [|[|b h] gs] eqn:E; cbn in *.
  - now subst r.
  - now rewrite IH.
  - destruct (ok a && ok b); cbn; now rewrite IH.
Qed.
Lemma runs_head {A} (ok : A -> bool) a r : exists g gs, runs ok (a :: r) = (a :: g) :: gs.
Proof. cbn. destruct (runs ok r) as [|[|b h] gs]; [eauto|eauto|]. destruct (ok a && ok b); eauto. Qed.
Lemma runs_cons {A} (ok : A -> bool) a b r g gs : runs ok (b :: r) = g :: gs ->
  runs ok (a :: b :: r) = if ok a && ok b then (a :: g) :: gs else [a] :: g :: gs.
Proof.
  intros E. destruct (runs_head ok b r) as (h & hs & H). rewrite H in E. injection E as <- <-.
  change (runs ok (a :: b :: r)) with (match runs ok (b :: r) with
    | (b' :: g) :: gs => if ok a && ok b' then (a :: b' :: g) :: gs else [a] :: (b' :: g) :: gs
    | gs => [a] :: gs end). rewrite H. reflexivity.
Qed.

(** the element of a run *)
Definition merge2 (x y : element) : element :=
  match x, y with EMult a, EMult b => EMult (merged a b) | _, _ => x end.
Definition collapse (x : element) (g : list (string * element)) : element :=
  fold_left (fun e ne => merge2 e (snd ne)) g x.

Lemma sin_in l n : LineEdit.sin l n = true <-> In n l.
Proof.
  unfold LineEdit.sin. rewrite existsb_exists. split.
  - intros (x & H & E). apply String.eqb_eq in E. now subst.
  - intros H. exists n. split; [assumption|]. apply String.eqb_refl.
Qed.

Lemma append_assoc' a b c : ((a ++ b) ++ c)%string = (a ++ (b ++ c))%string.
Proof. induction a as [|x a IH]; cbn; [reflexivity|]. now rewrite IH. Qed.
Lemma concat_cons x l : l <> [] -> String.concat "_" (x :: l) = (x ++ "_" ++ String.concat "_" l)%string.
Proof. destruct l; [congruence|reflexivity]. Qed.
Lemma concat_snoc l a b : l <> [] -> String.concat "_" (l ++ [a; b]) = joined (String.concat "_" (l ++ [a])) b.
Proof.
  unfold joined. induction l as [|x l IH]; [congruence|]. intros _. destruct l as [|y l].
  - cbn. rewrite !append_assoc'. reflexivity.
  - cbn [List.app] in *. rewrite (concat_cons x), (concat_cons x) by discriminate.
    rewrite IH by discriminate. now rewrite !append_assoc'.
Qed.
Lemma concat_snoc' l a b : String.concat "_" (l ++ [a; b]) = joined (String.concat "_" (l ++ [a])) b.
Proof. destruct l; [reflexivity|]. apply concat_snoc. discriminate. Qed.

(** names still to come: the current run has the elements [cur ++ [x]] *)
Definition coming (cur : list (string * element)) (g : list (string * element)) : list string :=
  map (fun k => run_name (cur ++ firstn k g)) (seq 2 (List.length g - 1)).

Section Run.
Variable keep : list string.
Let ok := mergeable keep.

(** merging the elements [l], after the run [cur ++ [x]] with the element [e] in the environment *)
Lemma merge_from_ok l : forall d cur x e,
  find d (run_name (cur ++ [x])) = Some e ->
  (ok x = true -> exists m, e = EMult m /\ mp_thick m = false /\ mp_hxl m = 0 /\ has_transverse_rotation m = false
                         /\ ~ In (run_name (cur ++ [x])) keep) ->
  (ok x = false -> cur = [] /\ e = snd x) ->
  (forall n y, In (n, y) l -> find d n = Some y) ->
  forall g gs, runs ok (x :: l) = (x :: g) :: gs ->
  NoDup (coming cur (x :: g) ++ new_names gs) ->
  (forall n, In n (coming cur (x :: g) ++ new_names gs) -> find d n = None /\ ~ In n keep) ->
  exists d', merge_from keep d (run_name (cur ++ [x])) l = Some (d', run_name (cur ++ x :: g) :: map run_name gs)
    /\ (forall n, ~ In n (coming cur (x :: g) ++ new_names gs) -> find d' n = find d n)
    /\ find d' (run_name (cur ++ x :: g)) = Some (collapse e g)
    /\ (forall h y r, In h gs -> h = y :: r -> find d' (run_name h) = Some (collapse (snd y) r)).
Proof.
  induction l as [|[n y] l IH]; intros d cur x e He Hok Hno Hl g gs Hr Hnd Hfr.
  - cbn in Hr. injection Hr as <- <-. cbn. exists d. repeat split; auto.
  - destruct (runs_head ok (n, y) l) as (g1 & gs1 & E1).
    pose proof (runs_cons ok x (n, y) l _ _ E1) as E2. rewrite Hr in E2.
    assert (Dec : (exists b, y = EMult b /\ exists a, e = EMult a /\
        can_merge keep (run_name (cur ++ [x])) a n b = true) /\ ok x && ok (n, y) = true
      \/ merge_from keep d (run_name (cur ++ [x])) ((n, y) :: l) =
           match merge_from keep d n l with Some (d, l) => Some (d, run_name (cur ++ [x]) :: l) | None => None end
         /\ ok x && ok (n, y) = false).
    { cbn [merge_from]. rewrite He. destruct y as [b|t]; [|right; split; [reflexivity|apply andb_false_r]].
      destruct (ok x) eqn:Ox.
      - destruct (Hok eq_refl) as (a & -> & T & H0 & Rt & K). cbn [andb].
        assert (Ec : can_merge keep (run_name (cur ++ [x])) a n b = ok (n, EMult b)).
        { unfold can_merge, ok, mergeable. cbn [fst snd]. rewrite T, Rt, (proj2 (is0_t _) H0).
          destruct (LineEdit.sin keep (run_name (cur ++ [x]))) eqn:S; [apply sin_in in S; tauto|].
          destruct (LineEdit.sin keep n), (mp_thick b), (is0 (mp_hxl b)), (has_transverse_rotation b); reflexivity. }
        rewrite Ec. destruct (ok (n, EMult b)); [left|right; auto].
        split; [|reflexivity]. exists b. split; [reflexivity|]. exists a. auto.
      - right. destruct (Hno eq_refl) as [-> ->]. split; [|reflexivity]. destruct x as [xn [a|t]]; cbn [snd]; [|reflexivity].
        assert (Ec : can_merge keep (run_name ([] ++ [(xn, EMult a)])) a n b = false).
        { unfold ok, mergeable in Ox. cbn [fst snd] in Ox. unfold can_merge. change (run_name ([] ++ [(xn, EMult a)])) with xn.
          destruct (LineEdit.sin keep xn), (mp_thick a), (is0 (mp_hxl a)), (has_transverse_rotation a); try discriminate;
            rewrite ?andb_false_r; cbn [negb andb]; rewrite ?andb_false_r; reflexivity. }
        now rewrite Ec. }
    destruct Dec as [[(b & -> & a & -> & Ec) Oxy]|[Em Oxy]]; rewrite Oxy in E2.
    + injection E2 as -> ->. apply andb_true_iff in Oxy as [Ox Oy].
      assert (Er : run_name (cur ++ [x; (n, EMult b)]) = joined (run_name (cur ++ [x])) n).
      { unfold run_name. rewrite !map_app. cbn [map fst]. apply concat_snoc'. }
      cbn [merge_from]. rewrite He, Ec, <- Er.
      change (cur ++ [x; (n, EMult b)])%list with (cur ++ [x] ++ [(n, EMult b)])%list. rewrite app_assoc.
      assert (Ecm : coming cur (x :: (n, EMult b) :: g1) =
                    run_name ((cur ++ [x]) ++ [(n, EMult b)]) :: coming (cur ++ [x]) ((n, EMult b) :: g1)).
      { unfold coming. cbn [List.length Nat.sub]. rewrite Nat.sub_0_r. cbn [seq map firstn]. rewrite <- app_assoc. cbn [app]. f_equal.
        rewrite <- (seq_shift (List.length g1) 2), map_map. apply map_ext. intros k. cbn [firstn]. rewrite <- app_assoc. reflexivity. }
      rewrite Ecm in Hnd, Hfr. cbn [app] in Hnd, Hfr. inversion Hnd as [|z zs Hz Hnd']; subst z zs.
      destruct (Hfr _ (or_introl eq_refl)) as [Hf Hk].
      unfold can_merge in Ec. rewrite !andb_true_iff, !negb_true_iff in Ec.
      destruct Ec as ((((((Kn & Tb) & Ta) & (H0a & H0b)) & Rb) & Ra) & Kp).
      edestruct (IH (put d (run_name ((cur ++ [x]) ++ [(n, EMult b)])) (EMult (merged a b))) (cur ++ [x])%list (n, EMult b) (EMult (merged a b)))
        as (d' & M & F1 & F2 & F3).
      * rewrite find_put, String.eqb_refl. reflexivity.
      * intros _. exists (merged a b). repeat split; auto. cbn. now apply is0_t. unfold merged, has_transverse_rotation. cbn.
        rewrite (proj2 (is0_t 0) eq_refl). reflexivity.
      * rewrite Oy. discriminate.
      * intros m z Hz'. rewrite find_put. destruct (String.eqb_spec m (run_name ((cur ++ [x]) ++ [(n, EMult b)]))) as [E|N].
        -- pose proof (Hl m z (or_intror Hz')) as G. rewrite E, Hf in G. discriminate.
        -- apply Hl. now right.
      * exact E1.
      * exact Hnd'.
      * intros m Hm. split; [|apply Hfr; now right]. rewrite find_put.
        destruct (String.eqb_spec m (run_name ((cur ++ [x]) ++ [(n, EMult b)]))) as [->|N]; [tauto|]. apply Hfr. now right.
      * exists d'. rewrite M. rewrite <- !app_assoc in *. cbn [app] in *. split; [reflexivity|]. split; [|split].
        -- intros m Hm. rewrite Ecm in Hm. cbn [app] in Hm. rewrite <- ?app_assoc in Hm. cbn [app In] in Hm.
           rewrite F1; [|tauto]. rewrite find_put. destruct (String.eqb_spec m (run_name (cur ++ [x; (n, EMult b)]))) as [->|N]; [tauto|reflexivity].
        -- exact F2.
        -- exact F3.
    + rewrite Em. injection E2 as -> ->. 
      change (new_names (((n, y) :: g1) :: gs1)) with (coming [] ((n, y) :: g1) ++ new_names gs1)%list in *.
      change (coming cur [x]) with (@nil string) in *. cbn [app] in *.
      edestruct (IH d [] (n, y) y) as (d' & M & F1 & F2 & F3).
      * cbn. apply Hl. now left.
      * intros Oy. unfold ok, mergeable in Oy. cbn [fst snd] in Oy. destruct y as [m|t]; [|discriminate].
        rewrite !andb_true_iff, !negb_true_iff in Oy. destruct Oy as (((K & T) & H0) & Rt). exists m. repeat split; auto.
        -- now apply is0_t.
        -- cbn. intros H. apply sin_in in H. congruence.
      * auto.
      * intros m z Hz. apply Hl. now right.
      * exact E1.
      * exact Hnd.
      * exact Hfr.
      * cbn [app] in M. change (run_name [(n, y)]) with n in M. rewrite M. exists d'. split; [reflexivity|]. split; [exact F1|]. split.
        -- rewrite F1.
           ++ cbn [collapse fold_left]. exact He.
           ++ intros H. destruct (Hfr _ H) as [N _]. rewrite He in N. discriminate.
        -- intros h z r [<-|H] E; [injection E as <- <-; exact F2|exact (F3 h z r H E)].
Qed.

Lemma elements_spec d names l : elements d names = Some l ->
  names = map fst l /\ forall n y, In (n, y) l -> find d n = Some y.
Proof.
  revert l; induction names as [|n r IH]; cbn; intros l H.
  - injection H as <-. split; [reflexivity|]. intros ? ? [].
  - destruct (find d n) as [e|] eqn:F; [|discriminate]. destruct (elements d r) as [l'|]; [|discriminate].
    injection H as <-. destruct (IH _ eq_refl) as [-> H]. split; [reflexivity|]. intros m y [E|I]; [congruence|auto].
Qed.

Lemma merge_ok d names l : elements d names = Some l -> fresh_names keep d (runs ok l) ->
  exists d', merge keep d names = Some (d', map run_name (runs ok l))
    /\ (forall n, ~ In n (new_names (runs ok l)) -> find d' n = find d n)
    /\ (forall h y r, In h (runs ok l) -> h = y :: r -> find d' (run_name h) = Some (collapse (snd y) r)).
Proof.
  intros E [Hnd Hfr]. unfold merge. rewrite E. destruct (elements_spec _ _ _ E) as [_ Hl].
  destruct l as [|[n y] l]; [exists d; repeat split; auto; intros h y r []|].
  destruct (runs_head ok (n, y) l) as (g & gs & R). rewrite R in *.
  change (new_names (((n, y) :: g) :: gs)) with (coming [] ((n, y) :: g) ++ new_names gs)%list in *.
  edestruct (merge_from_ok l d [] (n, y) y) as (d' & M & F1 & F2 & F3).
  - cbn. apply Hl. now left.
  - intros Oy. unfold ok, mergeable in Oy. cbn [fst snd] in Oy. destruct y as [m|t]; [|discriminate].
    rewrite !andb_true_iff, !negb_true_iff in Oy. destruct Oy as (((K & T) & H0) & Rt). exists m. repeat split; auto.
    + now apply is0_t.
    + cbn. intros H. apply sin_in in H. congruence.
  - auto.
  - intros m z Hz. apply Hl. now right.
  - exact R.
  - exact Hnd.
  - exact Hfr.
  - exists d'. split; [exact M|]. split; [exact F1|]. intros h z r [<-|H] Eh; [injection Eh as <- <-; exact F2|exact (F3 h z r H Eh)].
Qed.

(** runs of several elements are mergeable *)
Lemma runs_ok l : forall g a b r, In g (runs ok l) -> g = a :: b :: r -> Forall (fun x => ok x = true) g.
Proof.
  induction l as [|x l IH]; intros g a b r H E; [destruct H|]. destruct l as [|y l].
  - cbn in H. destruct H as [<-|[]]. discriminate.
  - destruct (runs_head ok y l) as (h & hs & R). rewrite (runs_cons ok x y l _ _ R) in H. rewrite R in IH.
    destruct (ok x && ok y) eqn:O.
    + destruct H as [<-|H]; [|apply (IH g a b r); [now right|exact E]]. injection E as <- E2.
      apply andb_true_iff in O as [Ox Oy]. constructor; [exact Ox|]. destruct h as [|z h]; [constructor; auto|].
      apply (IH _ y z h); [now left|reflexivity].
    + destruct H as [<-|H]; [discriminate|]. apply (IH g a b r); assumption.
Qed.
End Run.
