(** Filling the gaps between placed elements. *)
From Coq Require Import ZArith QArith Qabs Qfield Lqa List Bool Arith Lia Permutation String.
From Verif.Model Require Import Composer.
From Verif.Spec Require Import Composer.
From Verif.Proofs Require Import Ordering OrderingTop.
From Verif.Proofs Require Composer.
Import ListNotations.
Local Open Scope nat_scope.

Definition qn (n : nat) : Q := inject_Z (Z.of_nat n).
Lemma qn_S n : (qn (S n) == qn n + 1)%Q.
Proof. unfold qn. rewrite Nat2Z.inj_succ, <- Z.add_1_r, inject_Z_plus. reflexivity. Qed.
Lemma qn_pos n : (0 <= qn n)%Q.
Proof. unfold qn. change 0%Q with (inject_Z 0). rewrite <- Zle_Qle. lia. Qed.

Lemma abs_case x : (0 <= x /\ Qabs x == x)%Q \/ (x <= 0 /\ Qabs x == - x)%Q.
Proof. destruct (Qlt_le_dec x 0); [right|left]; (split; [lra|]); [apply Qabs_neg|apply Qabs_pos]; lra. Qed.

Section Tol.
Variable tol : Q.
Hypothesis tol0 : (0 <= tol)%Q.

Lemma fill_none from ps : fill_gaps tol from ps = None <-> exists g, In g (gaps from ps) /\ (g < - tol)%Q.
Proof.
  revert from. induction ps as [|p ps IH]; intro from; cbn [fill_gaps gaps].
  - split; [discriminate|]. intros (g & [] & _).
  - cbv zeta. specialize (IH (rp_end p)). destruct (fill_gaps tol (rp_end p) ps) as [l|].
    + assert (Nr : ~ exists g, In g (gaps (rp_end p) ps) /\ (g < - tol)%Q) by (intro C; apply IH in C; discriminate).
      destruct (Qltb tol (Qabs (rp_start p - from))) eqn:E1.
      * apply qltb_true in E1. destruct (Qltb (rp_start p - from) 0) eqn:E2.
        -- apply qltb_true in E2. split; [|reflexivity]. intros _. exists (rp_start p - from)%Q. split; [left; reflexivity|].
           destruct (abs_case (rp_start p - from)); lra.
        -- apply qltb_false in E2. split; [discriminate|]. intros (g & [<-|Hg] & L); [lra|]. exfalso. apply Nr. eauto.
      * apply qltb_false in E1. split; [discriminate|]. intros (g & [<-|Hg] & L).
        -- destruct (abs_case (rp_start p - from)); lra.
        -- exfalso. apply Nr. eauto.
    + split; [|reflexivity]. intros _. destruct (proj1 IH eq_refl) as (g & H1 & H2). exists g. split; [right; exact H1|exact H2].
Qed.

Lemma gaps_ok_false from ps : gaps_ok tol from ps = false <-> exists g, In g (gaps from ps) /\ (g < - tol)%Q.
Proof.
  revert from. induction ps as [|p ps IH]; intro from; cbn [gaps_ok gaps].
  - split; [discriminate|]. intros (g & [] & _).
  - rewrite andb_false_iff, negb_false_iff, qltb_true, IH. split.
    + intros [H|(g & H1 & H2)]; [exists (rp_start p - from)%Q; cbn; auto|exists g; cbn; auto].
    + intros (g & [<-|H1] & H2); eauto.
Qed.

Lemma fill_elems from ps l : fill_gaps tol from ps = Some l -> forall pos, map fst (elems_at pos l) = map rp_index ps.
Proof.
  revert from l. induction ps as [|p ps IH]; intros from l H pos; cbn [fill_gaps] in H.
  - injection H as <-. reflexivity.
  - cbv zeta in H. destruct (fill_gaps tol (rp_end p) ps) as [l'|] eqn:E; [|discriminate]. specialize (IH _ _ E).
    destruct (Qltb tol (Qabs (rp_start p - from))).
    + destruct (Qltb (rp_start p - from) 0); [discriminate|]. injection H as <-. cbn [elems_at map fst]. f_equal. apply IH.
    + injection H as <-. cbn [elems_at map fst]. f_equal. apply IH.
Qed.

Lemma fill_drifts from ps l : fill_gaps tol from ps = Some l -> forall d, In (PDrift d) l -> (tol < d)%Q.
Proof.
  revert from l. induction ps as [|p ps IH]; intros from l H d Hd; cbn [fill_gaps] in H.
  - injection H as <-. contradiction.
  - cbv zeta in H. destruct (fill_gaps tol (rp_end p) ps) as [l'|] eqn:E; [|discriminate]. specialize (IH _ _ E).
    destruct (Qltb tol (Qabs (rp_start p - from))) eqn:E1.
    + destruct (Qltb (rp_start p - from) 0) eqn:E2; [discriminate|]. injection H as <-.
      destruct Hd as [Hd|[Hd|Hd]]; [|discriminate|apply IH, Hd]. injection Hd as <-.
      apply qltb_true in E1. apply qltb_false in E2. rewrite Qabs_pos in E1 by exact E2. exact E1.
    + injection H as <-. destruct Hd as [Hd|Hd]; [discriminate|apply IH, Hd].
Qed.

(** [e] bounds the error at the end of the previous element *)
Lemma fill_pos ps : forall from l pos e, fill_gaps tol from ps = Some l -> (Qabs (pos - from) <= e)%Q ->
  forall k p, nth_error ps k = Some p ->
  exists s, nth_error (elems_at pos l) k = Some (rp_index p, s) /\ (Qabs (s - rp_start p) <= e + qn (S k) * tol)%Q.
Proof.
  induction ps as [|p0 ps IH]; intros from l pos e H He k p Hk; [destruct k; discriminate|]. cbn [fill_gaps] in H. cbv zeta in H.
  destruct (fill_gaps tol (rp_end p0) ps) as [l'|] eqn:E; [|discriminate].
  assert (S1 : (qn 1 == 1)%Q) by reflexivity.
  destruct (Qltb tol (Qabs (rp_start p0 - from))) eqn:E1.
  - destruct (Qltb (rp_start p0 - from) 0) eqn:E2; [discriminate|]. injection H as <-. cbn [elems_at].
    destruct k as [|k]; cbn [nth_error] in Hk.
    + injection Hk as <-. eexists. split; [reflexivity|]. rewrite S1.
      setoid_replace (pos + (rp_start p0 - from) - rp_start p0)%Q with (pos - from)%Q by ring. lra.
    + destruct (IH _ _ (pos + (rp_start p0 - from) + rp_length p0)%Q e E) with (k := k) (p := p) as (s & H1 & H2); [|exact Hk|].
      * unfold rp_end. setoid_replace (pos + (rp_start p0 - from) + rp_length p0 - (rp_start p0 + rp_length p0))%Q with (pos - from)%Q by ring. exact He.
      * exists s. split; [exact H1|]. rewrite (qn_S (S k)). lra.
  - apply qltb_false in E1. injection H as <-. cbn [elems_at].
    assert (He' : (Qabs (pos - rp_start p0) <= e + tol)%Q).
    { setoid_replace (pos - rp_start p0)%Q with ((pos - from) + - (rp_start p0 - from))%Q by ring.
      eapply Qle_trans; [apply Qabs_triangle|]. rewrite Qabs_opp. lra. }
    destruct k as [|k]; cbn [nth_error] in Hk.
    + injection Hk as <-. eexists. split; [reflexivity|]. rewrite S1. lra.
    + destruct (IH _ _ (pos + rp_length p0)%Q (e + tol)%Q E) with (k := k) (p := p) as (s & H1 & H2); [|exact Hk|].
      * unfold rp_end. setoid_replace (pos + rp_length p0 - (rp_start p0 + rp_length p0))%Q with (pos - rp_start p0)%Q by ring. exact He'.
      * exists s. split; [exact H1|]. rewrite (qn_S (S k)). lra.
Qed.

Lemma fill_exact ps : forall from l pos, fill_gaps tol from ps = Some l -> (pos == from)%Q ->
  (forall g, In g (gaps from ps) -> (g == 0 \/ tol < g)%Q) ->
  (forall k p, nth_error ps k = Some p -> exists s, nth_error (elems_at pos l) k = Some (rp_index p, s) /\ (s == rp_start p)%Q).
Proof.
  induction ps as [|p0 ps IH]; intros from l pos H He G k p Hk; [destruct k; discriminate|]. cbn [fill_gaps] in H. cbv zeta in H.
  destruct (fill_gaps tol (rp_end p0) ps) as [l'|] eqn:E; [|discriminate]. cbn [gaps] in G.
  destruct (Qltb tol (Qabs (rp_start p0 - from))) eqn:E1.
  - destruct (Qltb (rp_start p0 - from) 0) eqn:E2; [discriminate|]. injection H as <-. cbn [elems_at].
    destruct k as [|k]; cbn [nth_error] in Hk.
    + injection Hk as <-. eexists. split; [reflexivity|]. rewrite He. ring.
    + eapply IH; [exact E| |intros g Hg; apply G; right; exact Hg|exact Hk]. unfold rp_end. rewrite He. ring.
  - apply qltb_false in E1. injection H as <-. cbn [elems_at].
    assert (Z : (rp_start p0 == from)%Q).
    { destruct (G _ (or_introl eq_refl)) as [Z|Z]; [lra|]. destruct (abs_case (rp_start p0 - from)); lra. }
    destruct k as [|k]; cbn [nth_error] in Hk.
    + injection Hk as <-. eexists. split; [reflexivity|]. lra.
    + eapply IH; [exact E| |intros g Hg; apply G; right; exact Hg|exact Hk]. unfold rp_end. lra.
Qed.

Lemma last_end_cons p ps : ps <> [] -> last_end (p :: ps) = last_end ps.
Proof.
  intro H. unfold last_end. cbn [rev]. destruct (rev ps) as [|q r] eqn:E; [|reflexivity].
  apply (f_equal (@rev rplace)) in E. rewrite rev_involutive in E. contradiction.
Qed.

Lemma fill_length ps : forall from l e pos, ps <> [] -> fill_gaps tol from ps = Some l -> (Qabs (pos - from) <= e)%Q ->
  (Qabs (pos + pieces_length l - last_end ps) <= e + qn (List.length ps) * tol)%Q.
Proof.
  induction ps as [|p0 ps IH]; intros from l e pos Ne H He; [congruence|]. cbn [fill_gaps] in H. cbv zeta in H.
  destruct (fill_gaps tol (rp_end p0) ps) as [l'|] eqn:E; [|discriminate]. cbn [List.length].
  assert (Step : forall pos' e', (Qabs (pos' - rp_end p0) <= e')%Q -> (e' <= e + tol)%Q -> (Qabs (pos' + pieces_length l' - last_end (p0 :: ps)) <= e + qn (S (List.length ps)) * tol)%Q).
  { intros pos' e' H1 H2. rewrite qn_S. destruct ps as [|q ps].
    - cbn [fill_gaps] in E. injection E as <-. cbn [pieces_length last_end rev app List.length]. change (qn 0) with 0%Q.
      setoid_replace (pos' + 0 - rp_end p0)%Q with (pos' - rp_end p0)%Q by ring. lra.
    - rewrite last_end_cons by discriminate. assert (Nq : q :: ps <> []) by discriminate. specialize (IH _ _ e' pos' Nq E H1). lra. }
  destruct (Qltb tol (Qabs (rp_start p0 - from))) eqn:E1.
  - destruct (Qltb (rp_start p0 - from) 0) eqn:E2; [discriminate|]. injection H as <-. cbn [pieces_length piece_length].
    specialize (Step (pos + (rp_start p0 - from) + rp_length p0)%Q e).
    assert (Eq : (pos + (rp_start p0 - from + (rp_length p0 + pieces_length l')) == pos + (rp_start p0 - from) + rp_length p0 + pieces_length l')%Q) by ring.
    rewrite Eq. apply Step; [|lra]. unfold rp_end.
    setoid_replace (pos + (rp_start p0 - from) + rp_length p0 - (rp_start p0 + rp_length p0))%Q with (pos - from)%Q by ring. exact He.
  - apply qltb_false in E1. injection H as <-. cbn [pieces_length piece_length].
    specialize (Step (pos + rp_length p0)%Q (e + tol)%Q).
    assert (Eq : (pos + (rp_length p0 + pieces_length l') == pos + rp_length p0 + pieces_length l')%Q) by ring.
    rewrite Eq. apply Step; [|lra]. unfold rp_end.
    setoid_replace (pos + rp_length p0 - (rp_start p0 + rp_length p0))%Q with ((pos - from) + - (rp_start p0 - from))%Q by ring.
    eapply Qle_trans; [apply Qabs_triangle|]. rewrite Qabs_opp. lra.
Qed.

Lemma elems_drift l d pos : elems_at pos (l ++ [PDrift d]) = elems_at pos l.
Proof. revert pos. induction l as [|[r n|n] l IH]; intro pos; cbn; [reflexivity|f_equal; apply IH|apply IH]. Qed.
Lemma pieces_app l r : (pieces_length (l ++ r) == pieces_length l + pieces_length r)%Q.
Proof. induction l as [|x l IH]; cbn; [ring|rewrite IH; ring]. Qed.

Theorem generate_fails length ps : generate tol length ps = None <->
  (exists g, In g (gaps 0 ps) /\ (g < - tol)%Q) \/ (ps <> [] /\ exists l, length = Some l /\ (l + tol < last_end ps)%Q).
Proof.
  destruct ps as [|p ps].
  - cbn. split; [discriminate|]. intros [(g & [] & _)|[C _]]. congruence.
  - unfold generate. destruct (fill_gaps tol 0 (p :: ps)) as [l|] eqn:E.
    + assert (Nr : ~ exists g, In g (gaps 0 (p :: ps)) /\ (g < - tol)%Q) by (intro C; apply fill_none in C; congruence).
      destruct length as [len|].
      * cbv zeta. destruct (Qltb (len + tol) (last_end (p :: ps))) eqn:E1.
        -- apply qltb_true in E1. split; [|reflexivity]. intros _. right. split; [discriminate|]. eauto.
        -- apply qltb_false in E1. split; [destruct (Qltb _ _); discriminate|].
           intros [C|[_ (x & [= <-] & C)]]; [contradiction|lra].
      * split; [discriminate|]. intros [C|[_ (x & [=] & _)]]. contradiction.
    + split; [|reflexivity]. intros _. left. apply fill_none. exact E.
Qed.

Theorem validate_agrees length ps : 
  validate_geometry tol length true ps = true <-> generate tol length ps <> None.
Proof.
  destruct ps as [|p ps]; [cbn; split; [discriminate|reflexivity]|].
  assert (V : validate_geometry tol length true (p :: ps) = false <-> generate tol length (p :: ps) = None).
  { rewrite generate_fails, <- gaps_ok_false. cbn [validate_geometry negb orb]. rewrite andb_false_iff. destruct length as [l|].
    - rewrite negb_false_iff, qltb_true. split; intros [H|H]; auto.
      + right. split; [discriminate|eauto].
      + destruct H as [_ (x & [= <-] & C)]. auto.
    - split; intros [H|H]; auto; [discriminate|]. destruct H as [_ (x & [=] & _)]. }
  destruct (validate_geometry tol length true (p :: ps)), (generate tol length (p :: ps)); split; intro H; try congruence.
  - exfalso. destruct V as [_ V]. discriminate (V eq_refl).
  - exfalso. destruct V as [V _]. discriminate (V eq_refl).
Qed.

Theorem generate_line length ps l : generate tol length ps = Some l ->
  map fst (elems_at 0 l) = map rp_index ps
  /\ (forall d, In (PDrift d) l -> (tol < d)%Q)
  /\ (forall k p, nth_error ps k = Some p ->
      exists s, nth_error (elems_at 0 l) k = Some (rp_index p, s) /\ (Qabs (s - rp_start p) <= qn (S k) * tol)%Q)
  /\ match length with
     | Some len => (0 <= len -> Qabs (pieces_length l - len) <= qn (S (List.length ps)) * tol)%Q
     | None => ps <> [] -> (Qabs (pieces_length l - last_end ps) <= qn (List.length ps) * tol)%Q
     end.
Proof.
  destruct ps as [|p ps].
  - unfold generate. intros [= <-]. destruct length as [len|].
    + destruct (Qltb tol len) eqn:E.
      * apply qltb_true in E. split; [reflexivity|]. split; [intros d [[= <-]|[]]; exact E|]. split; [intros [|k] q H; discriminate|].
        intros _. cbn [pieces_length piece_length List.length]. setoid_replace (len + 0 - len)%Q with 0%Q by ring.
        change (Qabs 0) with 0%Q. change (qn 1) with 1%Q. lra.
      * apply qltb_false in E. split; [reflexivity|]. split; [contradiction|]. split; [intros [|k] q H; discriminate|].
        intros L. cbn [pieces_length List.length]. setoid_replace (0 - len)%Q with (- len)%Q by ring. rewrite Qabs_opp, Qabs_pos by exact L.
        change (qn 1) with 1%Q. lra.
    + split; [reflexivity|]. split; [contradiction|]. split; [intros [|k] q H; discriminate|]. congruence.
  - unfold generate. destruct (fill_gaps tol 0 (p :: ps)) as [l0|] eqn:E; [|discriminate].
    assert (Z : (Qabs (0 - 0) <= 0)%Q) by (cbn; lra).
    assert (Ne : p :: ps <> []) by discriminate.
    pose proof (fill_elems _ _ _ E 0%Q) as F1. pose proof (fill_drifts _ _ _ E) as F2.
    pose proof (fill_length _ _ _ _ _ Ne E Z) as F4.
    assert (F3 : forall k q, nth_error (p :: ps) k = Some q ->
      exists s, nth_error (elems_at 0 l0) k = Some (rp_index q, s) /\ (Qabs (s - rp_start q) <= qn (S k) * tol)%Q).
    { intros k q Hk. destruct (fill_pos _ _ _ _ _ E Z k q Hk) as (s & H1 & H2). exists s. split; [exact H1|lra]. }
    assert (F5 : (Qabs (pieces_length l0 - last_end (p :: ps)) <= qn (List.length (p :: ps)) * tol)%Q).
    { setoid_replace (pieces_length l0 - last_end (p :: ps))%Q with (0 + pieces_length l0 - last_end (p :: ps))%Q by ring. lra. }
    clear F4. destruct length as [len|]; cbv zeta.
    + destruct (Qltb (len + tol) _) eqn:E1; [discriminate|]. apply qltb_false in E1.
      destruct (Qltb _ (len - tol)) eqn:E2; intros [= <-].
      * apply qltb_true in E2. rewrite elems_drift. split; [exact F1|]. split; [|split; [exact F3|]].
        -- intros d Hd. apply in_app_iff in Hd. destruct Hd as [Hd|[[= <-]|[]]]; [apply F2, Hd|]. lra.
        -- intros _. rewrite pieces_app. cbn [pieces_length piece_length].
           setoid_replace (pieces_length l0 + (len - last_end (p :: ps) + 0) - len)%Q with (pieces_length l0 - last_end (p :: ps))%Q by ring.
           rewrite (qn_S (List.length (p :: ps))). lra.
      * apply qltb_false in E2. split; [exact F1|]. split; [exact F2|]. split; [exact F3|]. intros _.
        setoid_replace (pieces_length l0 - len)%Q with ((pieces_length l0 - last_end (p :: ps)) + (last_end (p :: ps) - len))%Q by ring.
        eapply Qle_trans; [apply Qabs_triangle|]. assert (Qabs (last_end (p :: ps) - len) <= tol)%Q by (apply Qabs_Qle_condition; lra).
        rewrite (qn_S (List.length (p :: ps))). lra.
    + intros [= <-]. split; [exact F1|]. split; [exact F2|]. split; [exact F3|]. intros _. exact F5.
Qed.

Theorem generate_exact length ps l : generate tol length ps = Some l ->
  (forall g, In g (gaps 0 ps) -> (g == 0 \/ tol < g)%Q) ->
  forall k p, nth_error ps k = Some p -> exists s, nth_error (elems_at 0 l) k = Some (rp_index p, s) /\ (s == rp_start p)%Q.
Proof.
  destruct ps as [|p ps]; [intros _ _ [|k] q H; discriminate|]. unfold generate.
  destruct (fill_gaps tol 0 (p :: ps)) as [l0|] eqn:E; [|discriminate]. intros H G.
  pose proof (fill_exact _ _ _ 0%Q E (Qeq_refl 0) G) as F.
  destruct length as [len|]; [|injection H as <-; exact F]. cbv zeta in H.
  destruct (Qltb (len + tol) _); [discriminate|]. destruct (Qltb _ (len - tol)); injection H as <-; [|exact F].
  rewrite elems_drift. exact F.
Qed.

(** * The whole construction *)
Lemma rows_nth len thick places s f i r : nth_error (rows len thick places s f) i = Some r ->
  rp_index r = i /\ i < List.length places /\ rp_start r = nth i s 0%Q /\ rp_length r = len (pl_name (nth i places (plain EmptyString))).
Proof.
  unfold rows. rewrite nth_error_map. destruct (nth_error (seq 0 (List.length places)) i) as [j|] eqn:E; [|discriminate]. cbn.
  assert (L : i < List.length places) by (rewrite <- (seq_length (List.length places) 0); apply nth_error_Some; congruence).
  apply (nth_error_nth _ _ 0) in E. rewrite seq_nth in E by exact L. cbn in E. subst j. intros [= <-]. cbn. auto.
Qed.

Theorem build_line len thick refer stol length places l : build len thick refer stol tol length places = Some l ->
  exists s, solves len refer places s
  /\ Permutation (map fst (elems_at 0 l)) (seq 0 (List.length places))
  /\ (forall i x, In (i, x) (elems_at 0 l) -> exists si, nth_error s i = Some si /\ (Qabs (x - si) <= qn (List.length places) * tol)%Q)
  /\ (forall d, In (PDrift d) l -> (tol < d)%Q)
  /\ match length with
     | Some want => (0 <= want -> Qabs (pieces_length l - want) <= qn (S (List.length places)) * tol)%Q
     | None => True
     end.
Proof.
  unfold build. destruct (resolve len refer places) as [[s f]|] eqn:R; [|discriminate].
  destruct (sort_places stol false (rows len thick places s f)) as [ps|] eqn:S; [|discriminate]. intro G.
  destruct (Verif.Proofs.Composer.resolve_solves len refer places s f R) as [Sol _]. exists s. split; [exact Sol|].
  pose proof (sort_permutation _ _ _ _ S) as P.
  assert (Lr : List.length ps = List.length places).
  { apply Permutation_length in P. unfold rows in P. rewrite map_length, seq_length in P. congruence. }
  destruct (generate_line length ps l G) as (A & B & C & D).
  assert (RI : map rp_index (rows len thick places s f) = seq 0 (List.length places)).
  { unfold rows. rewrite map_map. cbn [rp_index]. apply map_id. }
  split; [|split; [|split; [exact B|]]].
  - rewrite A, <- RI. apply Permutation_map, Permutation_sym, P.
  - intros i x H. apply In_nth_error in H. destruct H as [k Hk].
    assert (Lk : k < List.length ps).
    { rewrite <- (map_length rp_index), <- A, map_length. apply nth_error_Some. congruence. }
    destruct (nth_error ps k) as [p|] eqn:Ep; [|apply nth_error_None in Ep; lia].
    destruct (C k p Ep) as (x' & H1 & H2). rewrite Hk in H1. injection H1 as -> <-.
    apply nth_error_In in Ep. apply (Permutation_in _ (Permutation_sym P)) in Ep. apply In_nth_error in Ep. destruct Ep as [i Hi].
    apply rows_nth in Hi. destruct Hi as (-> & Li & Si & _). exists (nth i s 0%Q). split.
    + apply nth_error_nth'. destruct Sol as [-> _]. exact Li.
    + rewrite <- Si. eapply Qle_trans; [exact H2|]. rewrite <- Lr. apply Qmult_le_compat_r; [|exact tol0].
      unfold qn. rewrite <- Zle_Qle. lia.
  - destruct length as [want|]; [|exact I]. rewrite <- Lr. exact D.
Qed.
End Tol.

(** names only *)
Fixpoint starts (len : string -> Q) (from : Q) (names : list string) : list Q :=
  match names with [] => [] | n :: r => from :: starts len (from + len n)%Q r end.

Lemma starts_length len names : forall from, List.length (starts len from names) = List.length names.
Proof. induction names as [|n r IH]; intro from; cbn; auto. Qed.

Lemma starts_next len names : forall from i n x, nth_error names i = Some n -> nth_error (starts len from names) (S i) = Some x ->
  exists y, nth_error (starts len from names) i = Some y /\ x = (y + len n)%Q.
Proof.
  induction names as [|m r IH]; intros from i n x Hn Hx; [destruct i; discriminate|]. destruct i as [|i].
  - cbn in Hn. injection Hn as <-. exists from. split; [reflexivity|]. destruct r; cbn in Hx; [discriminate|]. congruence.
  - cbn in Hn. cbn [starts] in Hx |- *. change (nth_error (starts len (from + len m) r) (S i) = Some x) in Hx.
    cbn [nth_error]. eapply IH; eassumption.
Qed.

Lemma names_solves len refer names : solves len refer (map plain names) (starts len 0 names).
Proof.
  split; [rewrite starts_length, map_length; reflexivity|]. intros i p Hp. rewrite nth_error_map in Hp.
  destruct (nth_error names i) as [n|] eqn:En; [|discriminate]. injection Hp as <-.
  assert (L : i < List.length names) by (apply nth_error_Some; congruence).
  destruct (nth_error (starts len 0 names) i) as [x|] eqn:Ex; [|apply nth_error_None in Ex; rewrite starts_length in Ex; lia].
  exists x. split; [reflexivity|]. unfold holds. cbn [plain pl_at]. destruct i as [|i].
  - destruct names; [discriminate|]. cbn in Ex. injection Ex as <-. reflexivity.
  - destruct (nth_error names i) as [m|] eqn:Em; [|apply nth_error_None in Em; lia].
    destruct (starts_next len names 0 i m x Em Ex) as (y & Hy & ->). exists (plain m), y. split; [rewrite nth_error_map, Em; reflexivity|].
    split; [exact Hy|]. reflexivity.
Qed.

Lemma names_elems len names : forall k from, elems_at from (map (fun i => PElem (k + i) (len (nth i names EmptyString))) (seq 0 (List.length names)))
  = combine (seq k (List.length names)) (starts len from names).
Proof.
  induction names as [|n r IH]; intros k from; [reflexivity|]. cbn [List.length seq map elems_at starts combine nth]. rewrite Nat.add_0_r. f_equal.
  rewrite <- seq_shift, map_map. rewrite <- (IH (S k)). apply f_equal. apply map_ext. intro i. cbn [nth]. f_equal. lia.
Qed.

Theorem names_line len refer tol length names l : (0 <= tol)%Q -> build_names len tol length names = Some l ->
  exists s, solves len refer (map plain names) s /\ elems_at 0 l = combine (seq 0 (List.length names)) s
  /\ (forall d, In (PDrift d) l -> (tol < d)%Q)
  /\ match length with Some want => (Qabs (pieces_length l - want) <= tol)%Q | None => True end.
Proof.
  intros T H. exists (starts len 0 names). split; [apply names_solves|]. unfold build_names in H. cbv zeta in H.
  set (l0 := map _ _) in H.
  assert (E0 : elems_at 0 l0 = combine (seq 0 (List.length names)) (starts len 0 names)) by (unfold l0; apply (names_elems len names 0 0%Q)).
  assert (D0 : forall d, ~ In (PDrift d) l0) by (intros d C; unfold l0 in C; apply in_map_iff in C; destruct C as (x & C & _); discriminate).
  assert (L0 : (pieces_length l0 == line_length len names)%Q).
  { unfold l0. clear. assert (G : forall k, (pieces_length (map (fun i => PElem (k + i) (len (nth i names EmptyString))) (seq 0 (List.length names))) == line_length len names)%Q).
    { induction names as [|n r IH]; intro k; [reflexivity|]. cbn [List.length seq map pieces_length piece_length line_length fold_right nth].
      rewrite <- seq_shift, map_map. rewrite <- (IH (S k)). apply Qplus_inj_l.
      assert (EM : map (fun x => PElem (k + S x) (len (nth x r EmptyString))) (seq 0 (List.length r))
        = map (fun i => PElem (S k + i) (len (nth i r EmptyString))) (seq 0 (List.length r))) by (apply map_ext; intro i; f_equal; lia).
      rewrite EM. reflexivity. }
    apply (G 0). }
  destruct length as [want|].
  - destruct (Qltb (want + tol) _) eqn:E1; [discriminate|]. apply qltb_false in E1. destruct (Qltb _ (want - tol)) eqn:E2; injection H as <-.
    + apply qltb_true in E2. rewrite elems_drift. split; [exact E0|]. split.
      * intros d Hd. apply in_app_iff in Hd. destruct Hd as [Hd|[[= <-]|[]]]; [exfalso; eapply D0; exact Hd|]. lra.
      * rewrite pieces_app. cbn [pieces_length piece_length]. rewrite L0.
        setoid_replace (line_length len names + (want - line_length len names + 0) - want)%Q with 0%Q by ring. exact T.
    + apply qltb_false in E2. split; [exact E0|]. split; [intros d Hd; exfalso; eapply D0; exact Hd|]. rewrite L0. apply Qabs_Qle_condition. lra.
  - injection H as <-. split; [exact E0|]. split; [intros d Hd; exfalso; eapply D0; exact Hd|exact I].
Qed.
