From Coq Require Import ZArith List Bool Lia ZifyBool Permutation.
From Verif.Model Require Import Kernel ParticleArray.
From Verif.Spec Require Import Kernel ParticleArray.
From Verif.Proofs Require Import Kernel.
Import ListNotations.

(** ** Exchange *)
Lemma set_nth_app {A} (l1 l2 : list A) x y :
  set_nth (l1 ++ x :: l2) (length l1) y = l1 ++ y :: l2.
Proof. induction l1 as [|z l1 IH]; cbn; [reflexivity|now rewrite IH]. Qed.

Lemma nth_error_app_at {A} (l1 l2 : list A) x : nth_error (l1 ++ x :: l2) (length l1) = Some x.
Proof. induction l1; cbn; auto. Qed.

Lemma exchange_same {A} (l1 l2 : list A) x :
  exchange (l1 ++ x :: l2) (length l1) (length l1) = l1 ++ x :: l2.
Proof. unfold exchange. now rewrite nth_error_app_at, !set_nth_app. Qed.

Lemma exchange_diff {A} (l1 l2 l3 : list A) x y :
  exchange (l1 ++ x :: l2 ++ y :: l3) (length l1) (length (l1 ++ x :: l2))
  = l1 ++ y :: l2 ++ x :: l3.
Proof.
  unfold exchange. rewrite nth_error_app_at.
  assert (E : nth_error (l1 ++ x :: l2 ++ y :: l3) (length (l1 ++ x :: l2)) = Some y).
  { replace (l1 ++ x :: l2 ++ y :: l3) with ((l1 ++ x :: l2) ++ y :: l3)
      by now rewrite <- app_assoc. apply nth_error_app_at. }
  rewrite E.
  replace (l1 ++ x :: l2 ++ y :: l3) with ((l1 ++ x :: l2) ++ y :: l3)
      by now rewrite <- app_assoc.
  rewrite set_nth_app, <- app_assoc. cbn [app]. apply set_nth_app.
Qed.

Lemma split_at {A} (l : list A) n x : nth_error l n = Some x ->
  exists l1 l2, l = l1 ++ x :: l2 /\ length l1 = n.
Proof. apply nth_error_split. Qed.

Lemma exists_last_or_nil {A} (l : list A) : l = [] \/ exists l0 x, l = l0 ++ [x].
Proof.
  destruct l as [|x l]; [now left|right].
  destruct (exists_last (l := x :: l)) as (l0 & y & E); [discriminate|eauto].
Qed.

Lemma perm_exch {A} (l m : list A) x y :
  Permutation (l ++ x :: m ++ [y]) ((l ++ y :: m) ++ [x]).
Proof.
  transitivity (x :: y :: l ++ m).
  - rewrite <- Permutation_middle. constructor. rewrite app_assoc, Permutation_app_comm. reflexivity.
  - rewrite (Permutation_app_comm _ [x]). cbn [app]. constructor. apply Permutation_middle.
Qed.

Section S.
Context {C : Type}.
Notation part := (part C).

Lemma alive_lt1 (p : part) : (p_state p <? 1)%Z = negb (alive p).
Proof. unfold alive. lia. Qed.

Lemma alive_le0 (p : part) : (p_state p <=? 0)%Z = negb (alive p).
Proof. unfold alive. lia. Qed.

(** ** check_is_active, serial. The active region is [A ++ M] with [A] already checked. *)
Lemma check_serial_ok : forall fuel (A M D : list part) nlost,
  length M <= fuel -> Forall (fun p => alive p = true) A ->
  exists A' M' D',
    check_serial fuel (length A) (mkArr (A ++ M ++ D) (length A + length M) nlost)
    = Some (mkArr (A' ++ M' ++ D') (length A') (nlost + length M'))
    /\ Permutation (A ++ M) (A' ++ M') /\ D' = D
    /\ Forall (fun p => alive p = true) A' /\ Forall (fun p => alive p = false) M'.
Proof.
  induction fuel as [|fuel IH]; intros A M D nlost Hf HA.
  - destruct M as [|x M]; [|cbn in Hf; lia].
    exists A, [], D. cbn [check_serial a_nact length]. rewrite Nat.add_0_r, Nat.ltb_irrefl.
    cbn [app length]. rewrite Nat.add_0_r. repeat split; auto.
  - destruct M as [|x M].
    + exists A, [], D. cbn [check_serial a_nact length]. rewrite Nat.add_0_r, Nat.ltb_irrefl.
      cbn [app length]. rewrite Nat.add_0_r. repeat split; auto.
    + cbn [check_serial a_nact a_parts a_nlost].
      replace (length A <? length A + length (x :: M)) with true by (cbn [length]; lia).
      cbn [app]. rewrite nth_error_app_at, alive_lt1.
      destruct (alive x) eqn:Ex; cbn [negb].
      * destruct (IH (A ++ [x]) M D nlost) as (A' & M' & D' & E & P & HD & HA' & HM').
        { cbn in Hf; lia. } { apply Forall_app; split; auto. }
        exists A', M', D'. split; [|split; [|split; [|split]]]; auto.
        -- rewrite <- E. rewrite app_length. cbn [length]. rewrite <- app_assoc. cbn [app].
           f_equal; [lia|]. f_equal; lia.
        -- rewrite <- P, <- app_assoc. reflexivity.
      * (* exchange with the last active one *)
        destruct (exists_last (l := x :: M)) as (M0 & y & Ey); [discriminate|].
        destruct M0 as [|x0 M0].
        -- cbn in Ey. injection Ey as -> ->. cbn [app length].
           replace (length A + 1 - 1) with (length A) by lia.
           rewrite exchange_same.
           destruct (IH A [] (y :: D) (S nlost)) as (A' & M' & D' & E & P & HD & HA' & HM');
             [cbn; lia|auto|].
           cbn [app length] in E. rewrite Nat.add_0_r in E.
           exists A', (M' ++ [y]), D. rewrite E. subst D'.
           repeat split; auto.
           ++ f_equal. rewrite <- !app_assoc. cbn [app]. rewrite app_length. cbn [length].
              f_equal; lia.
           ++ rewrite app_nil_r in P. rewrite P, <- app_assoc. reflexivity.
           ++ apply Forall_app; split; auto.
        -- cbn in Ey. injection Ey as <- ->.
           replace (length A + length (x :: M0 ++ [y]) - 1) with (length (A ++ x :: M0))
             by (rewrite app_length; cbn [length]; rewrite app_length; cbn [length]; lia).
           replace (A ++ x :: (M0 ++ [y]) ++ D) with (A ++ x :: M0 ++ y :: D)
             by (now rewrite <- app_assoc).
           rewrite exchange_diff.
           destruct (IH A (y :: M0) (x :: D) (S nlost)) as (A' & M' & D' & E & P & HD & HA' & HM');
             [cbn in *; rewrite app_length in Hf; cbn in Hf; lia|auto|].
           exists A', (M' ++ [x]), D. subst D'.
           split; [|split; [|split; [|split]]]; auto.
           ++ etransitivity; [|etransitivity; [apply E|]].
              ** f_equal. f_equal. rewrite app_length. cbn [length]. lia.
              ** f_equal. rewrite <- !app_assoc. cbn [app]. rewrite app_length. cbn [length].
                 f_equal; lia.
           ++ etransitivity; [apply perm_exch|]. rewrite P, <- app_assoc. reflexivity.
           ++ apply Forall_app; split; auto.
Qed.

Lemma existsb_perm (f : part -> bool) l l' : Permutation l l' -> existsb f l = existsb f l'.
Proof.
  intros P. apply eq_true_iff_eq. rewrite !existsb_exists.
  split; intros (x & Hx & H); exists x; split; auto.
  - eapply Permutation_in; eassumption.
  - eapply Permutation_in; [apply Permutation_sym|]; eassumption.
Qed.

Lemma existsb_dead (l : list part) : Forall (fun p => alive p = false) l -> existsb alive l = false.
Proof. induction 1; cbn; auto. now rewrite H. Qed.

Lemma existsb_alive (l : list part) : Forall (fun p => alive p = true) l ->
  existsb alive l = negb (length l =? 0).
Proof. destruct 1; cbn; auto. now rewrite H. Qed.

Lemma check_active_serial_ok (M D : list part) nlost :
  exists A' M',
    check_is_active_serial (mkArr (M ++ D) (length M) nlost)
    = Some (mkArr (A' ++ M' ++ D) (length A') (nlost + length M'), existsb alive M)
    /\ Permutation M (A' ++ M')
    /\ Forall (fun p => alive p = true) A' /\ Forall (fun p => alive p = false) M'.
Proof.
  destruct (check_serial_ok (length M) [] M D nlost) as (A' & M' & D' & E & P & -> & HA & HM);
    [lia|constructor|].
  exists A', M'. unfold check_is_active_serial. cbn [a_nact app length Nat.add] in E |- *.
  rewrite E. cbn [a_nact app] in *. repeat split; auto. f_equal. f_equal.
  rewrite (existsb_perm _ _ _ P), existsb_app, (existsb_dead M'), orb_false_r by assumption.
  symmetry. now apply existsb_alive.
Qed.

(** ** check_is_active, OpenMP. The chunk is [A ++ M ++ D ++ U]: [A] checked alive, [D] checked
    dead, [U] a tail of not alive slots that is never touched. *)
Lemma last_nth {X} (A M D : list X) y :
  nth_error (A ++ (M ++ [y]) ++ D) (length A + length (M ++ [y]) - 1) = Some y.
Proof.
  replace (A ++ (M ++ [y]) ++ D) with ((A ++ M) ++ y :: D)
    by (now rewrite <- !app_assoc).
  replace (length A + length (M ++ [y]) - 1) with (length (A ++ M))
    by (rewrite !app_length; cbn [length]; lia).
  apply nth_error_app_at.
Qed.

Lemma check_omp_ok : forall fuel (A M D : list part),
  length M <= fuel -> Forall (fun p => alive p = true) A -> Forall (fun p => alive p = false) D ->
  (A = [] -> D = [] -> length M <> 1) ->
  (A = [] -> D <> [] -> exists x M0, M = x :: M0 /\ alive x = false) ->
  exists A' M',
    check_omp_loop fuel (length A) (length A + length M) (negb (length A =? 0)) (A ++ M ++ D)
    = Some (A' ++ M' ++ D, existsb alive (A ++ M))
    /\ Permutation (A ++ M) (A' ++ M')
    /\ Forall (fun p => alive p = true) A' /\ Forall (fun p => alive p = false) M'.
Proof.
  induction fuel as [|fuel IH]; intros A M D Hf HA HD Hone Hhd.
  - destruct M; [|cbn in Hf; lia].
    exists A, []. cbn [check_omp_loop length]. rewrite Nat.add_0_r.
    replace (S (length A) <? length A) with false by lia.
    rewrite !app_nil_r. repeat split; auto. f_equal. f_equal. symmetry. now apply existsb_alive.
  - destruct M as [|x M].
    { exists A, []. cbn [check_omp_loop length]. rewrite Nat.add_0_r.
      replace (S (length A) <? length A) with false by lia.
      rewrite !app_nil_r. repeat split; auto. f_equal. f_equal. symmetry. now apply existsb_alive. }
    destruct (exists_last (l := x :: M)) as (M0 & y & Ey); [discriminate|].
    destruct M0 as [|x0 M0].
    + (* one element left: the loop ends *)
      cbn in Ey. injection Ey as -> ->. cbn [length].
      cbn [check_omp_loop]. replace (S (length A) <? length A + 1) with false by lia.
      destruct (alive y) eqn:Ey.
      * exists (A ++ [y]), []. rewrite app_nil_r, <- app_assoc. repeat split; auto.
        -- f_equal. f_equal. rewrite existsb_app. cbn [existsb]. rewrite Ey, orb_true_r.
           destruct A as [|z A]; [|reflexivity]. exfalso.
           destruct D as [|d D].
           ++ now apply (Hone eq_refl eq_refl).
           ++ destruct (Hhd eq_refl) as (x' & M' & E & Ex'); [discriminate|].
              injection E as <- _. congruence.
        -- apply Forall_app; split; auto.
      * exists A, [y]. repeat split; auto. f_equal. f_equal.
        rewrite existsb_app. cbn [existsb]. rewrite Ey, !orb_false_r. symmetry.
        now apply existsb_alive.
    + cbn in Ey. injection Ey as <- ->.
      cbn [check_omp_loop].
      assert (Hlt : S (length A) <? length A + length (x :: M0 ++ [y]) = true)
        by (cbn [length]; rewrite app_length; cbn [length]; lia).
      rewrite Hlt.
      assert (Hn1 : nth_error (A ++ (x :: M0 ++ [y]) ++ D) (length A) = Some x)
        by (cbn [app]; apply nth_error_app_at).
      rewrite Hn1.
      change (x :: M0 ++ [y]) with ((x :: M0) ++ [y]). rewrite last_nth.
      fold (alive x). destruct (alive x) eqn:Ex.
      * destruct (IH (A ++ [x]) (M0 ++ [y]) D) as (A' & M' & E & P & HA' & HM'); auto.
        { cbn in Hf. lia. } { apply Forall_app; split; auto. }
        { intros E; now apply app_eq_nil in E. } { intros E; now apply app_eq_nil in E. }
        exists A', M'. split; [|split; [|split]]; auto.
        -- replace (existsb alive (A ++ (x :: M0) ++ [y])) with
             (existsb alive ((A ++ [x]) ++ M0 ++ [y])) by (now rewrite <- app_assoc).
           rewrite <- E, <- !app_assoc. cbn [app]. rewrite app_length. cbn [length].
           replace (length A + 1) with (S (length A)) by lia. cbn [Nat.eqb negb].
           f_equal. lia.
        -- rewrite <- P, <- app_assoc. reflexivity.
      * rewrite alive_le0. destruct (alive y) eqn:Eyy; cbn [negb].
        -- (* exchange *)
           replace (A ++ ((x :: M0) ++ [y]) ++ D) with (A ++ x :: M0 ++ y :: D)
             by (rewrite <- app_assoc; reflexivity).
           replace (length A + length ((x :: M0) ++ [y]) - 1) with (length (A ++ x :: M0))
             by (rewrite !app_length; cbn [length]; lia).
           rewrite exchange_diff.
           destruct (IH (A ++ [y]) M0 (x :: D)) as (A' & M' & E & P & HA' & HM'); auto.
           { cbn in Hf. rewrite app_length in Hf. cbn in Hf. lia. }
           { apply Forall_app; split; auto. }
           { intros E; now apply app_eq_nil in E. } { intros E; now apply app_eq_nil in E. }
           exists A', (M' ++ [x]). split; [|split; [|split]]; auto.
           ++ replace (existsb alive (A ++ (x :: M0) ++ [y])) with
               (existsb alive ((A ++ [y]) ++ M0)).
              2:{ rewrite !existsb_app. cbn [existsb app]. rewrite ?existsb_app. cbn [existsb].
                  rewrite Ex, Eyy. destruct (existsb alive A), (existsb alive M0); reflexivity. }
              etransitivity; [|etransitivity; [apply E|]].
              ** rewrite <- !app_assoc. cbn [app]. rewrite !app_length. cbn [length].
                 replace (length A + 1) with (S (length A)) by lia. cbn [Nat.eqb negb].
                 f_equal. lia.
              ** rewrite <- !app_assoc. reflexivity.
           ++ etransitivity; [apply perm_exch|]. rewrite (app_assoc A'), <- P, <- !app_assoc.
              reflexivity.
           ++ apply Forall_app; split; auto.
        -- destruct (IH A (x :: M0) (y :: D)) as (A' & M' & E & P & HA' & HM'); auto.
           { cbn in Hf. rewrite app_length in Hf. cbn in *. lia. }
           { discriminate. }
           { intros; eauto. }
           exists A', (M' ++ [y]). split; [|split; [|split]]; auto.
           ++ replace (existsb alive (A ++ (x :: M0) ++ [y])) with (existsb alive (A ++ x :: M0)).
              2:{ rewrite app_assoc, (existsb_app _ (A ++ x :: M0)). cbn [existsb].
                  now rewrite Eyy, !orb_false_r. }
              etransitivity; [|etransitivity; [apply E|]].
              ** rewrite <- !app_assoc. cbn [app].
                 replace (length A + length (x :: M0 ++ [y]) - 1) with (length A + length (x :: M0))
                   by (cbn [length]; rewrite app_length; cbn [length]; lia).
                 reflexivity.
              ** rewrite <- !app_assoc. reflexivity.
           ++ rewrite !app_assoc. rewrite <- P, <- app_assoc. reflexivity.
           ++ apply Forall_app; split; auto.
Qed.

Lemma check_omp_tail : forall fuel (A M U D : list part),
  length M + length U <= fuel ->
  Forall (fun p => alive p = true) A ->
  Forall (fun p => alive p = false) U -> Forall (fun p => alive p = false) D ->
  (A = [] -> D = [] -> length M + length U <> 1) ->
  (A = [] -> D <> [] -> exists x M0, M ++ U = x :: M0 /\ alive x = false) ->
  exists A' M',
    check_omp_loop fuel (length A) (length A + (length M + length U)) (negb (length A =? 0))
      (A ++ M ++ U ++ D)
    = Some (A' ++ M' ++ U ++ D, existsb alive (A ++ M))
    /\ Permutation (A ++ M) (A' ++ M')
    /\ Forall (fun p => alive p = true) A' /\ Forall (fun p => alive p = false) M'.
Proof.
  induction fuel as [|fuel IH]; intros A M U D Hf HA HU HD Hone Hhd.
  - destruct M; [|cbn in Hf; lia]. destruct U; [|cbn in Hf; lia].
    destruct (check_omp_ok 0 A [] D) as (A' & M' & E & R); auto.
    exists A', M'. split; auto.
  - destruct (exists_last_or_nil U) as [-> | (U0 & y & ->)].
    + destruct (check_omp_ok (S fuel) A M D) as (A' & M' & E & R); auto.
      * cbn in Hf; lia.
      * intros H1 H2. specialize (Hone H1 H2). cbn in Hone. lia.
      * intros H1 H2. destruct (Hhd H1 H2) as (x & M0 & E & Ex).
        rewrite app_nil_r in E. eauto.
      * exists A', M'. cbn [length app]. rewrite Nat.add_0_r. split; auto.
    + apply Forall_app in HU as [HU Hy]. inversion_clear Hy as [|? ? Hy' _].
      rewrite app_length in *. cbn [length] in *.
      cbn [check_omp_loop].
      destruct (S (length A) <? length A + (length M + (length U0 + 1))) eqn:Elt.
      * (* at least two slots to look at; the last one is y, not alive *)
        assert (Hlast : nth_error (A ++ M ++ (U0 ++ [y]) ++ D)
                   (length A + (length M + (length U0 + 1)) - 1) = Some y).
        { replace (A ++ M ++ (U0 ++ [y]) ++ D) with ((A ++ M ++ U0) ++ y :: D)
            by (now rewrite <- !app_assoc).
          replace (length A + (length M + (length U0 + 1)) - 1) with (length (A ++ M ++ U0))
            by (rewrite !app_length; lia).
          apply nth_error_app_at. }
        rewrite Hlast.
        destruct M as [|x M].
        -- (* only slots that are not alive *)
           destruct U0 as [|u U0]; [cbn [length] in Elt; lia|].
           assert (Hn : nth_error (A ++ [] ++ ((u :: U0) ++ [y]) ++ D) (length A) = Some u)
             by (cbn [app]; apply nth_error_app_at).
           rewrite Hn. inversion_clear HU as [|? ? Hu HU']. fold (alive u). rewrite Hu.
           rewrite alive_le0, Hy'. cbn [negb].
           destruct (IH A [] (u :: U0) (y :: D)) as (A' & M' & E & R); auto.
           { cbn in *; lia. } { discriminate. } { intros; exists u, U0. auto. }
           exists A', M'. split; auto. rewrite <- !app_assoc in *. cbn [app length] in *.
           replace (length A + (0 + (S (length U0) + 1)) - 1) with
             (length A + (0 + S (length U0))) by lia.
           rewrite E. reflexivity.
        -- assert (Hn : nth_error (A ++ (x :: M) ++ (U0 ++ [y]) ++ D) (length A) = Some x)
             by (cbn [app]; apply nth_error_app_at).
           rewrite Hn. fold (alive x). destruct (alive x) eqn:Ex.
           ++ destruct (IH (A ++ [x]) M (U0 ++ [y]) D) as (A' & M' & E & P & R); auto.
              { rewrite app_length. cbn in *. lia. } { apply Forall_app; split; auto. }
              { apply Forall_app; split; auto. }
              { intros E; now apply app_eq_nil in E. } { intros E; now apply app_eq_nil in E. }
              exists A', M'. split; [|split]; auto.
              ** rewrite <- !app_assoc in *. cbn [app length] in *. rewrite <- E.
                 rewrite !app_length. cbn [length].
                 replace (length A + 1) with (S (length A)) by lia. cbn [Nat.eqb negb].
                 f_equal. lia.
              ** rewrite <- P, <- app_assoc. reflexivity.
           ++ rewrite alive_le0, Hy'. cbn [negb].
              destruct (IH A (x :: M) U0 (y :: D)) as (A' & M' & E & P & R); auto.
              { cbn in *; lia. } { discriminate. } { intros; cbn [app]; eauto. }
              exists A', M'. split; [|split]; auto.
              rewrite <- !app_assoc in *. cbn [app length] in *.
              replace (length A + (S (length M) + (length U0 + 1)) - 1) with
                (length A + (S (length M) + length U0)) by lia.
              rewrite E. reflexivity.
      * (* a single slot, y *)
        destruct M; [|cbn [length] in Elt; lia]. destruct U0; [|cbn [length] in Elt; lia].
        exists A, []. rewrite !app_nil_r. cbn [app]. repeat split; auto. f_equal. f_equal.
        symmetry. now apply existsb_alive.
Qed.

Lemma check_active_omp_ok (l U : list part) :
  Forall (fun p => alive p = false) U ->
  exists A' M',
    check_is_active_omp (l ++ U) = Some (A' ++ M' ++ U, existsb alive l)
    /\ Permutation l (A' ++ M')
    /\ Forall (fun p => alive p = true) A' /\ Forall (fun p => alive p = false) M'.
Proof.
  intros HU. unfold check_is_active_omp.
  destruct (length (l ++ U) =? 1) eqn:E1.
  - destruct l as [|x l].
    + destruct U as [|u [|]]; cbn in E1; try discriminate.
      inversion_clear HU. cbn [app nth_error]. fold (alive u).
      exists [], []. cbn [app existsb]. rewrite H. repeat split; constructor.
    + destruct l; [|cbn in E1; discriminate]. destruct U; [|cbn in E1; discriminate].
      cbn [app nth_error]. fold (alive x). destruct (alive x) eqn:Ex.
      * exists [x], []. cbn. rewrite Ex. repeat split; auto.
      * exists [], [x]. cbn. rewrite Ex. repeat split; auto.
  - destruct (check_omp_tail (length (l ++ U)) [] l U []) as (A' & M' & E & P & R); auto.
    + rewrite app_length. lia.
    + intros _ _. rewrite app_length in E1. lia.
    + intros _ H. now elim H.
    + exists A', M'. cbn [app] in *. rewrite app_nil_r in E. split; auto.
      rewrite <- E. cbn [length Nat.add Nat.eqb negb]. now rewrite app_length.
Qed.
End S.
