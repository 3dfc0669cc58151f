(** Resolution of the positions. *)
From Coq Require Import ZArith QArith Qfield Lqa List Bool String Arith Lia Permutation.
From Verif.Model Require Import Composer.
From Verif.Spec Require Import Composer.
Import ListNotations.
Local Open Scope nat_scope.

Lemma put_length {A} (l : list A) i x : List.length (put l i x) = List.length l.
Proof. revert i. induction l; intros [|i]; cbn; auto. Qed.

Lemma get_put {A} (l : list (option A)) i j x :
  i < List.length l -> get (put l i (Some x)) j = if Nat.eqb j i then Some x else get l j.
Proof.
  revert i j. induction l as [|y l IH]; intros i j H; cbn in H; [lia|].
  destruct i as [|i], j as [|j]; try reflexivity. apply (IH i j). lia.
Qed.

Lemma get_bound {A} (l : list (option A)) i x : get l i = Some x -> i < List.length l.
Proof. unfold get. destruct (nth_error l i) eqn:E; [|discriminate]. intros _. apply nth_error_Some. congruence. Qed.

Section R.
Variables (len : string -> Q) (refer : anchor) (ps : list place).
Notation n := (List.length ps).
Notation holds := (holds len refer ps).

Record inv (st : rstate) : Prop := {
  i_len : List.length (r_s st) = n;
  i_eqn : forall i si, get (r_s st) i = Some si ->
          exists p, nth_error ps i = Some p /\ holds (get (r_s st)) i p si;
  i_dict : forall k j, dict_get (r_idx st) k = Some j ->
           exists q sj, nth_error ps j = Some q /\ pl_name q = k /\ get (r_s st) j = Some sj;
  i_named : forall i si p, get (r_s st) i = Some si -> nth_error ps i = Some p -> dict_get (r_idx st) (pl_name p) <> None;
  i_ground : forall i si, get (r_s st) i = Some si -> grounded ps i }.

Lemma holds_mono (v w : nat -> option Q) i p si :
  (forall j x, v j = Some x -> w j = Some x) -> holds v i p si -> holds w i p si.
Proof.
  intros M H. unfold Composer.holds in *. destruct (pl_at p).
  - destruct (pl_from p); [|exact H]. destruct H as (j & q' & sj & A & B & C & D). exists j, q', sj. auto.
  - destruct i; [exact H|]. destruct H as (q & sj & A & B & C). exists q, sj. auto.
Qed.

Lemma place_spec st i p s f :
  inv st -> nth_error ps i = Some p -> resolve_place len refer ps st i p = Some (s, f) ->
  holds (get (r_s st)) i p s /\ grounded ps i.
Proof.
  intros I Hp H. unfold resolve_place in H. unfold Composer.holds. destruct (pl_at p) as [a|] eqn:At.
  - destruct (pl_from p) as [from|] eqn:Fr.
    + destruct (dict_get (r_idx st) from) as [r|] eqn:D; [|discriminate].
      destruct (i_dict st I _ _ D) as (q & sj & Q1 & Q2 & Q3). rewrite Q3, Q1 in H. injection H as <- <-.
      split.
      * exists r, q, sj. split; [exact Q1|]. split; [exact Q2|]. split; [exact Q3|]. rewrite Q2. ring.
      * eapply g_from; try eassumption. eapply (i_ground st I). exact Q3.
    + injection H as <- <-. split; [ring|]. eapply g_abs; eassumption.
  - destruct i as [|j]; [discriminate|].
    destruct (get (r_s st) j) as [sj|] eqn:G; [|discriminate].
    destruct (nth_error ps j) as [q|] eqn:Q1; [|discriminate]. injection H as <- <-.
    split; [exists q, sj; repeat split; auto; reflexivity|].
    eapply g_next; [exact Hp|exact At|]. eapply (i_ground st I). exact G.
Qed.

Definition missing (st : rstate) : nat :=
  List.length (filter (fun o => match o with None => true | Some _ => false end) (r_s st)).

Lemma missing_put (l : list (option Q)) i x :
  i < List.length l -> get l i = None ->
  S (List.length (filter (fun o => match o with None => true | Some _ => false end) (put l i (Some x))))
  = List.length (filter (fun o => match o with None => true | Some _ => false end) l).
Proof.
  revert i. induction l as [|y l IH]; intros i H G; cbn in H; [lia|]. destruct i as [|i].
  - cbn in *. destruct y; [discriminate|reflexivity].
  - cbn [put filter]. assert (get l i = None) by exact G. specialize (IH i ltac:(lia) H0). destruct y; cbn [List.length]; lia.
Qed.

Lemma step_spec st i st' b :
  inv st -> resolve_step len refer ps st i = (st', b) ->
  inv st' /\ (forall j x, get (r_s st) j = Some x -> get (r_s st') j = Some x)
  /\ (b = false -> st' = st /\ forall p, nth_error ps i = Some p -> get (r_s st) i = None -> resolve_place len refer ps st i p = None)
  /\ (b = true -> S (missing st') = missing st) /\ List.length (r_from st') = List.length (r_from st).
Proof.
  intros I H. unfold resolve_step in H. destruct (nth_error ps i) as [p|] eqn:Hp.
  2:{ injection H as <- <-. split; [exact I|]. split; [auto|]. split; [intros _; split; [reflexivity|discriminate]|]. split; [discriminate|reflexivity]. }
  destruct (get (r_s st) i) as [x|] eqn:G.
  { injection H as <- <-. split; [exact I|]. split; [auto|]. split; [intros _; split; [reflexivity|discriminate]|]. split; [discriminate|reflexivity]. }
  destruct (resolve_place len refer ps st i p) as [[s f]|] eqn:R.
  2:{ injection H as <- <-. split; [exact I|]. split; [auto|]. split; [|split; [discriminate|reflexivity]].
      intros _. split; [reflexivity|]. intros p' E _. congruence. }
  injection H as <- <-. destruct (place_spec st i p s f I Hp R) as [Hh Hg].
  assert (B : i < List.length (r_s st)) by (rewrite (i_len st I); apply nth_error_Some; congruence).
  assert (M : forall j x, get (r_s st) j = Some x -> get (put (r_s st) i (Some s)) j = Some x).
  { intros j x E. rewrite get_put by exact B. destruct (Nat.eqb j i) eqn:J; [apply Nat.eqb_eq in J; subst; congruence|exact E]. }
  split; [|split; [exact M|split; [discriminate|split; [intros _; apply missing_put; assumption|apply put_length]]]].
  constructor; cbn [r_s r_idx].
  - rewrite put_length. apply (i_len st I).
  - intros j sj E. rewrite get_put in E by exact B. destruct (Nat.eqb j i) eqn:J.
    + apply Nat.eqb_eq in J. subst j. injection E as <-. exists p. split; [exact Hp|]. eapply holds_mono; [exact M|exact Hh].
    + destruct (i_eqn st I _ _ E) as (q & Q1 & Q2). exists q. split; [exact Q1|]. eapply holds_mono; [exact M|exact Q2].
  - intros k j E. cbn [dict_get] in E. destruct (String.eqb k (pl_name p)) eqn:K.
    + apply String.eqb_eq in K. injection E as <-. exists p, s. split; [exact Hp|]. split; [auto|].
      rewrite get_put, Nat.eqb_refl by exact B. reflexivity.
    + destruct (i_dict st I _ _ E) as (q & sj & Q1 & Q2 & Q3). exists q, sj. auto.
  - intros j sj q E Hq. cbn [dict_get]. destruct (String.eqb (pl_name q) (pl_name p)) eqn:K; [discriminate|].
    rewrite get_put in E by exact B. destruct (Nat.eqb j i) eqn:J.
    + apply Nat.eqb_eq in J. subst j. rewrite Hp in Hq. injection Hq as ->. rewrite String.eqb_refl in K. discriminate.
    + eapply (i_named st I); eassumption.
  - intros j sj E. rewrite get_put in E by exact B. destruct (Nat.eqb j i) eqn:J; [apply Nat.eqb_eq in J; subst; exact Hg|].
    eapply (i_ground st I); exact E.
Qed.

Lemma scan_spec idx : forall st st' b,
  inv st -> resolve_scan len refer ps st idx = (st', b) ->
  inv st' /\ (b = false -> st' = st /\ forall i p, In i idx -> nth_error ps i = Some p -> get (r_s st) i = None -> resolve_place len refer ps st i p = None)
  /\ (missing st' <= missing st) /\ (b = true -> missing st' < missing st) /\ List.length (r_from st') = List.length (r_from st).
Proof.
  induction idx as [|i idx IH]; intros st st' b I H; cbn [resolve_scan] in H.
  - injection H as <- <-. split; [exact I|]. split; [intros _; split; [reflexivity|contradiction]|]. split; [lia|]. split; [discriminate|reflexivity].
  - destruct (resolve_step len refer ps st i) as [s1 b1] eqn:E1. destruct (resolve_scan len refer ps s1 idx) as [s2 b2] eqn:E2.
    injection H as <- <-. destruct (step_spec _ _ _ _ I E1) as (I1 & _ & F1 & P1 & L1). destruct (IH _ _ _ I1 E2) as (I2 & F2 & P2 & P2' & L2).
    split; [exact I2|]. split; [|split; [|split; [|congruence]]].
    + intro O. apply orb_false_iff in O. destruct O as [O1 O2]. destruct (F1 O1) as [-> G1]. destruct (F2 O2) as [-> G2].
      split; [reflexivity|]. intros j p [<-|Hj]; eauto.
    + destruct b1; [specialize (P1 eq_refl)|destruct (F1 eq_refl); subst]; lia.
    + intro O. destruct b1; [specialize (P1 eq_refl); lia|destruct (F1 eq_refl); subst; cbn in O; auto].
Qed.

Lemma missing_bound st : missing st <= List.length (r_s st).
Proof. unfold missing. induction (r_s st) as [|[|] l IH]; cbn; lia. Qed.

Lemma loop_spec fuel : forall st,
  inv st -> missing st < fuel ->
  exists st', resolve_loop len refer fuel ps st = Some st' /\ inv st' /\ List.length (r_from st') = List.length (r_from st)
  /\ forall i p, nth_error ps i = Some p -> get (r_s st') i = None -> resolve_place len refer ps st' i p = None.
Proof.
  induction fuel as [|fuel IH]; intros st I H; [lia|]. cbn [resolve_loop].
  destruct (resolve_scan len refer ps st (seq 0 n)) as [s1 b1] eqn:E1.
  destruct (scan_spec _ _ _ _ I E1) as (I1 & F1 & _ & P1 & L1). destruct b1.
  - destruct (IH s1 I1 ltac:(specialize (P1 eq_refl); lia)) as (st' & A & B & C & D). exists st'. split; [exact A|]. split; [exact B|]. split; [congruence|exact D].
  - destruct (F1 eq_refl) as [-> G]. exists st. split; [reflexivity|]. split; [exact I|]. split; [reflexivity|].
    intros i p Hp. apply G; [|exact Hp]. apply in_seq. assert (i < n) by (apply nth_error_Some; congruence). lia.
Qed.

Lemma loop_fuel fuel fuel' st : inv st -> missing st < fuel -> missing st < fuel' ->
  resolve_loop len refer fuel ps st = resolve_loop len refer fuel' ps st.
Proof.
  revert fuel' st. induction fuel as [|fuel IH]; intros fuel' st I H H'; [lia|]. destruct fuel' as [|fuel']; [lia|]. cbn [resolve_loop].
  destruct (resolve_scan len refer ps st (seq 0 n)) as [s1 b1] eqn:E1.
  destruct (scan_spec _ _ _ _ I E1) as (I1 & F1 & _ & P1 & L1). destruct b1; [|reflexivity].
  specialize (P1 eq_refl). apply IH; [exact I1|lia|lia].
Qed.

Lemma get_repeat {A} m i : get (repeat (@None A) m) i = None.
Proof. revert i. induction m; intros [|i]; cbn; auto. apply IHm. Qed.

Lemma init_inv : inv (resolve_init ps).
Proof.
  assert (B : inv (mkR (repeat None n) (repeat (None, None) n) [])).
  { constructor; cbn [r_s r_idx].
    - apply repeat_length.
    - intros i si H. rewrite get_repeat in H. discriminate.
    - discriminate.
    - intros i si p H. rewrite get_repeat in H. discriminate.
    - intros i si H. rewrite get_repeat in H. discriminate. }
  unfold resolve_init. destruct ps as [|p0 l] eqn:E.
  - exact B.
  - rewrite <- E in *.
    destruct (pl_at p0) eqn:At; [exact B|].
    assert (P0 : nth_error ps 0 = Some p0) by (rewrite E; reflexivity).
    assert (L : 0 < List.length (repeat (@None Q) n)) by (rewrite repeat_length, E; cbn; lia).
    cbn [r_s r_from].
    assert (GP : forall j, get (put (repeat None n) 0 (Some 0%Q)) j = if Nat.eqb j 0 then Some 0%Q else None).
    { intro j. rewrite get_put by exact L. rewrite get_repeat. reflexivity. }
    constructor; cbn [r_s r_idx].
    + rewrite put_length. apply repeat_length.
    + intros i si H. rewrite GP in H. destruct (Nat.eqb i 0) eqn:I; [|discriminate]. apply Nat.eqb_eq in I. subst i. injection H as <-.
      exists p0. split; [exact P0|]. unfold Composer.holds. rewrite At. reflexivity.
    + intros k j H. cbn [dict_get] in H. destruct (String.eqb k (pl_name p0)) eqn:K; [|discriminate]. injection H as <-.
      apply String.eqb_eq in K. exists p0, 0%Q. split; [exact P0|]. split; [auto|]. rewrite GP. reflexivity.
    + intros i si p H Hp. rewrite GP in H. destruct (Nat.eqb i 0) eqn:I; [|discriminate]. apply Nat.eqb_eq in I. subst i.
      cbn [dict_get]. rewrite P0 in Hp. injection Hp as ->. rewrite String.eqb_refl. discriminate.
    + intros i si H. rewrite GP in H. destruct (Nat.eqb i 0) eqn:I; [|discriminate]. apply Nat.eqb_eq in I. subst i. eapply g_first; eassumption.
Qed.

Lemma init_first p : nth_error ps 0 = Some p -> pl_at p = None -> get (r_s (resolve_init ps)) 0 <> None.
Proof. unfold resolve_init. destruct ps as [|p0 l]; [discriminate|]. intros [= ->] At. rewrite At. discriminate. Qed.

Lemma stuck_grounded st : inv st ->
  (forall p, nth_error ps 0 = Some p -> pl_at p = None -> get (r_s st) 0 <> None) ->
  (forall i p, nth_error ps i = Some p -> get (r_s st) i = None -> resolve_place len refer ps st i p = None) ->
  forall i, grounded ps i -> get (r_s st) i <> None.
Proof.
  intros I F St i G. induction G as [i p a Hp At Fr|p Hp At|i p Hp At G IH|i p a f j q Hp At Fr Hq Nq G IH]; intro C.
  - specialize (St i p Hp C). unfold resolve_place in St. rewrite At, Fr in St. discriminate.
  - exact (F p Hp At C).
  - specialize (St (S i) p Hp C). unfold resolve_place in St. rewrite At in St.
    destruct (get (r_s st) i) as [x|] eqn:E; [|apply IH; reflexivity].
    destruct (i_eqn st I _ _ E) as (q & Q1 & _). rewrite Q1 in St. discriminate.
  - specialize (St i p Hp C). unfold resolve_place in St. rewrite At, Fr in St.
    destruct (get (r_s st) j) as [x|] eqn:E; [|apply IH; reflexivity].
    pose proof (i_named st I j x q E Hq) as D. rewrite Nq in D.
    destruct (dict_get (r_idx st) f) as [r|] eqn:Dr; [|contradiction].
    destruct (i_dict st I _ _ Dr) as (q' & s' & Q1 & _ & Q3). rewrite Q3, Q1 in St. discriminate.
Qed.

Lemma all_some_spec {A} (l : list (option A)) s : all_some l = Some s ->
  List.length s = List.length l /\ forall i, nth_error s i = get l i.
Proof.
  revert s. induction l as [|[x|] l IH]; intros s H; cbn in H; try discriminate.
  - injection H as <-. split; [reflexivity|]. intros [|i]; reflexivity.
  - destruct (all_some l) as [s'|]; [|discriminate]. injection H as <-. destruct (IH s' eq_refl) as [L N].
    split; [cbn; congruence|]. intros [|i]; [reflexivity|apply N].
Qed.

Lemma all_some_none {A} (l : list (option A)) : all_some l = None <-> exists i, i < List.length l /\ get l i = None.
Proof.
  induction l as [|[x|] l IH]; cbn.
  - split; [discriminate|]. intros (i & H & _). lia.
  - destruct (all_some l).
    + split; [discriminate|]. intros ([|i] & H & G); [discriminate|]. exfalso.
      assert (X : Some l0 = None) by (apply IH; exists i; split; [lia|exact G]). discriminate.
    + split; [|reflexivity]. intros _. destruct (proj1 IH eq_refl) as (i & H & G). exists (S i). split; [lia|exact G].
  - split; [|reflexivity]. intros _. exists 0. split; [lia|reflexivity].
Qed.

Lemma scan_keeps l : forall s s1 b1 i x, resolve_scan len refer ps s l = (s1, b1) -> inv s ->
  get (r_s s) i = Some x -> get (r_s s1) i = Some x.
Proof.
  induction l as [|k l IHl]; intros s s1 b1 i x E I G; cbn [resolve_scan] in E; [injection E as <- _; exact G|].
  destruct (resolve_step len refer ps s k) as [s2 b2] eqn:E2. destruct (resolve_scan len refer ps s2 l) as [s3 b3] eqn:E3. injection E as <- _.
  destruct (step_spec _ _ _ _ I E2) as (I2 & M & _). eapply IHl; [exact E3|exact I2|]. apply M, G.
Qed.

Lemma loop_keeps fuel : forall s s' i x, inv s -> resolve_loop len refer fuel ps s = Some s' ->
  get (r_s s) i = Some x -> get (r_s s') i = Some x.
Proof.
  induction fuel as [|fuel IH]; intros s s' i x I H G; [discriminate|]. cbn [resolve_loop] in H.
  destruct (resolve_scan len refer ps s (seq 0 n)) as [s1 b1] eqn:E1.
  destruct (scan_spec _ _ _ _ I E1) as (I1 & _). pose proof (scan_keeps _ _ _ _ _ _ E1 I G) as G1.
  destruct b1; [eapply IH; eassumption|injection H as <-; exact G1].
Qed.

Lemma resolve_state :
  exists st, resolve_loop len refer (S n) ps (resolve_init ps) = Some st /\ inv st /\ List.length (r_from st) = n
  /\ forall i, i < n -> (get (r_s st) i <> None <-> grounded ps i).
Proof.
  pose proof init_inv as I0.
  destruct (loop_spec (S n) (resolve_init ps) I0) as (st & A & I & L & St).
  { pose proof (missing_bound (resolve_init ps)). rewrite (i_len _ I0) in H. lia. }
  exists st. split; [exact A|]. split; [exact I|]. split.
  { rewrite L. unfold resolve_init. destruct ps as [|p l]; [reflexivity|]. destruct (pl_at p); cbn [r_from]; apply repeat_length. }
  intros i Hi. split.
  - destruct (get (r_s st) i) eqn:E; [|congruence]. intros _. eapply (i_ground st I). exact E.
  - apply stuck_grounded; [exact I| |exact St].
    (* the first component was preset and nothing is unset *)
    intros p Hp At C. specialize (St 0 p Hp C).
    destruct (get (r_s (resolve_init ps)) 0) as [x|] eqn:G; [|exact (init_first p Hp At G)].
    rewrite (loop_keeps _ _ _ _ _ I0 A G) in C. discriminate.
Qed.

Lemma resolve_solves s f : resolve len refer ps = Some (s, f) -> solves len refer ps s /\ List.length f = n.
Proof.
  unfold resolve. destruct (forallb place_ok ps); [|discriminate].
  destruct resolve_state as (st & -> & I & L & _). destruct (all_some (r_s st)) as [s'|] eqn:E; [|discriminate].
  intros [= <- <-]. destruct (all_some_spec _ _ E) as [Ls Ns]. split; [|exact L].
  split; [rewrite Ls; apply (i_len st I)|]. intros i p Hp.
  assert (B : i < List.length s') by (rewrite Ls, (i_len st I); apply nth_error_Some; congruence).
  destruct (nth_error s' i) as [si|] eqn:Ei; [|apply nth_error_None in Ei; lia].
  exists si. split; [reflexivity|]. rewrite Ns in Ei. destruct (i_eqn st I _ _ Ei) as (p' & Hp' & H).
  rewrite Hp in Hp'. injection Hp' as <-. eapply holds_mono; [|exact H]. intros j x Hx. rewrite Ns. exact Hx.
Qed.

Lemma resolve_iff : forallb place_ok ps = true ->
  (resolve len refer ps = None <-> exists i, i < n /\ ~ grounded ps i).
Proof.
  intro Hok. unfold resolve. rewrite Hok. destruct resolve_state as (st & -> & I & L & G).
  destruct (all_some (r_s st)) as [s|] eqn:E.
  - split; [discriminate|]. intros (i & Hi & Ng). exfalso. apply Ng. apply G; [exact Hi|]. intro C.
    assert (X : all_some (r_s st) = None) by (apply all_some_none; exists i; rewrite (i_len st I); auto). congruence.
  - split; [|reflexivity]. intros _. apply all_some_none in E. destruct E as (i & Hi & Gi). rewrite (i_len st I) in Hi.
    exists i. split; [exact Hi|]. intro C. apply (G i Hi) in C. contradiction.
Qed.

Lemma resolve_rejects : forallb place_ok ps = false -> resolve len refer ps = None.
Proof. intro H. unfold resolve. rewrite H. reflexivity. Qed.

Lemma resolve_grounded s f : resolve len refer ps = Some (s, f) -> forall i, i < n -> grounded ps i.
Proof.
  unfold resolve. destruct (forallb place_ok ps); [|discriminate].
  destruct resolve_state as (st & -> & I & L & G). destruct (all_some (r_s st)) as [s'|] eqn:E; [|discriminate].
  intros _ i Hi. apply G; [exact Hi|]. intro C.
  assert (X : all_some (r_s st) = None) by (apply all_some_none; exists i; rewrite (i_len st I); auto). congruence.
Qed.

Lemma termination fuel : n < fuel -> resolve_loop len refer fuel ps (resolve_init ps) = resolve_loop len refer (S n) ps (resolve_init ps).
Proof.
  intro H. pose proof init_inv as I0. pose proof (missing_bound (resolve_init ps)) as M. rewrite (i_len _ I0) in M.
  apply loop_fuel; [exact I0|lia|lia].
Qed.
Lemma terminates fuel : n < fuel ->
  resolve_loop len refer fuel ps (resolve_init ps) = resolve_loop len refer (S n) ps (resolve_init ps)
  /\ resolve_loop len refer fuel ps (resolve_init ps) <> None.
Proof.
  intro H. pose proof (termination fuel H) as T. split; [exact T|]. rewrite T.
  destruct resolve_state as (st & -> & _). discriminate.
Qed.
End R.

(** Uniqueness *)
Lemma nodup_name ps i j p q : NoDup (map pl_name ps) -> nth_error ps i = Some p -> nth_error ps j = Some q ->
  pl_name p = pl_name q -> i = j.
Proof.
  intros ND Hi Hj E. rewrite NoDup_nth_error in ND. apply ND.
  - rewrite map_length. apply nth_error_Some. congruence.
  - rewrite !nth_error_map, Hi, Hj. cbn. congruence.
Qed.

Lemma unique_solution len refer ps s f s' :
  NoDup (map pl_name ps) -> resolve len refer ps = Some (s, f) -> solves len refer ps s' ->
  List.length s = List.length s' /\ forall i x y, nth_error s i = Some x -> nth_error s' i = Some y -> (x == y)%Q.
Proof.
  intros ND R [L' S']. destruct (resolve_solves len refer ps s f R) as [[L S] _]. split; [congruence|].
  assert (K : forall i, grounded ps i -> forall x y, nth_error s i = Some x -> nth_error s' i = Some y -> (x == y)%Q).
  { intros i G. induction G as [i p a Hp At Fr|p Hp At|i p Hp At G IH|i p a f' j q Hp At Fr Hq Nq G IH]; intros x y Hx Hy;
      destruct (S _ _ Hp) as (x' & X & HS); destruct (S' _ _ Hp) as (y' & Y & HS'); rewrite Hx in X; rewrite Hy in Y;
      injection X as <-; injection Y as <-; unfold holds in HS, HS'; rewrite At in HS, HS'.
    - rewrite Fr in HS, HS'. lra.
    - lra.
    - destruct HS as (q & sj & A & B & C). destruct HS' as (q' & sj' & A' & B' & C'). rewrite A in A'. injection A' as <-.
      specialize (IH _ _ B B'). lra.
    - rewrite Fr in HS, HS'. destruct HS as (j1 & q1 & s1 & A & B & C & D). destruct HS' as (j2 & q2 & s2 & A' & B' & C' & D').
      assert (j1 = j) by (eapply nodup_name; try eassumption; congruence). assert (j2 = j) by (eapply nodup_name; try eassumption; congruence). subst.
      specialize (IH _ _ C C'). lra. }
  intros i x y Hx Hy. eapply K; try eassumption. eapply resolve_grounded; [exact R|]. rewrite <- L. apply nth_error_Some. congruence.
Qed.

(** Order of the input *)
Lemma grounded_perm ps ps' : (forall p, In p ps -> pl_at p <> None) -> (forall p, In p ps -> In p ps') ->
  forall i, grounded ps i -> forall p i', nth_error ps i = Some p -> nth_error ps' i' = Some p -> grounded ps' i'.
Proof.
  intros NA Sub i G. induction G as [i p a Hp At Fr|p Hp At|i p Hp At G IH|i p a f j q Hp At Fr Hq Nq G IH]; intros p1 i' Hp1 Hi'.
  - rewrite Hp in Hp1. injection Hp1 as <-. eapply g_abs; eassumption.
  - exfalso. apply (NA p); [eapply nth_error_In; eassumption|exact At].
  - exfalso. apply (NA p); [eapply nth_error_In; eassumption|exact At].
  - rewrite Hp in Hp1. injection Hp1 as <-. assert (In q ps') as Hin by (apply Sub; eapply nth_error_In; eassumption).
    apply In_nth_error in Hin. destruct Hin as [j' Hj']. eapply g_from; try eassumption. eapply IH; eassumption.
Qed.

Lemma forallb_perm {A} (f : A -> bool) l l' : Permutation l l' -> forallb f l = forallb f l'.
Proof. induction 1; cbn; [reflexivity|congruence|destruct (f x), (f y); reflexivity|congruence]. Qed.

Lemma order_none len refer ps ps' : (forall p, In p ps -> pl_at p <> None) -> Permutation ps ps' ->
  resolve len refer ps = None -> resolve len refer ps' = None.
Proof.
  intros NA Pm H. pose proof (forallb_perm place_ok _ _ Pm) as FP. destruct (forallb place_ok ps) eqn:Ok.
  - apply resolve_iff in H; [|exact Ok]. apply resolve_iff; [congruence|]. destruct H as (i & Hi & Ng).
    destruct (nth_error ps i) as [p|] eqn:Hp; [|apply nth_error_None in Hp; lia].
    assert (In p ps') as Hin by (eapply Permutation_in; [exact Pm|eapply nth_error_In; eassumption]).
    apply In_nth_error in Hin. destruct Hin as [i' Hi']. exists i'. split; [apply nth_error_Some; congruence|].
    intro G. apply Ng. eapply (grounded_perm ps' ps); try eassumption.
    + intros q Hq. apply NA. eapply Permutation_in; [apply Permutation_sym, Pm|exact Hq].
    + intros q Hq. eapply Permutation_in; [apply Permutation_sym, Pm|exact Hq].
  - apply resolve_rejects. congruence.
Qed.

Lemma order_same len refer ps ps' s f s' f' :
  NoDup (map pl_name ps) -> (forall p, In p ps -> pl_at p <> None) -> Permutation ps ps' ->
  resolve len refer ps = Some (s, f) -> resolve len refer ps' = Some (s', f') ->
  forall i i' p, nth_error ps i = Some p -> nth_error ps' i' = Some p ->
  exists x x', nth_error s i = Some x /\ nth_error s' i' = Some x' /\ (x == x')%Q.
Proof.
  intros ND NA Pm R R'. destruct (resolve_solves _ _ _ _ _ R) as [[L S] _]. destruct (resolve_solves _ _ _ _ _ R') as [[L' S'] _].
  assert (ND' : NoDup (map pl_name ps')) by (eapply Permutation_NoDup; [apply Permutation_map, Pm|exact ND]).
  assert (K : forall i, grounded ps i -> forall p i', nth_error ps i = Some p -> nth_error ps' i' = Some p ->
     exists x x', nth_error s i = Some x /\ nth_error s' i' = Some x' /\ (x == x')%Q).
  { intros i G. induction G as [i p a Hp At Fr|p Hp At|i p Hp At G IH|i p a f1 j q Hp At Fr Hq Nq G IH]; intros p1 i' Hp1 Hi'.
    - rewrite Hp in Hp1. injection Hp1 as <-. destruct (S _ _ Hp) as (x & X & HS). destruct (S' _ _ Hi') as (x' & X' & HS').
      exists x, x'. split; [exact X|]. split; [exact X'|]. unfold holds in HS, HS'. rewrite At, Fr in HS, HS'. lra.
    - exfalso. apply (NA p); [eapply nth_error_In; eassumption|exact At].
    - exfalso. apply (NA p); [eapply nth_error_In; eassumption|exact At].
    - rewrite Hp in Hp1. injection Hp1 as <-. destruct (S _ _ Hp) as (x & X & HS). destruct (S' _ _ Hi') as (x' & X' & HS').
      exists x, x'. split; [exact X|]. split; [exact X'|]. unfold holds in HS, HS'. rewrite At, Fr in HS, HS'.
      destruct HS as (j1 & q1 & s1 & A & B & C & D). destruct HS' as (j2 & q2 & s2 & A' & B' & C' & D').
      assert (j1 = j) by (eapply (nodup_name ps); try eassumption; congruence). subst j1.
      assert (In q ps') as Hin by (eapply Permutation_in; [exact Pm|eapply nth_error_In; eassumption]).
      apply In_nth_error in Hin. destruct Hin as [j' Hj'].
      assert (j2 = j') by (eapply (nodup_name ps'); try eassumption; congruence). subst j2.
      destruct (IH q j' Hq Hj') as (y & y' & Y & Y' & E). rewrite C in Y. injection Y as <-. rewrite C' in Y'. injection Y' as <-. lra. }
  intros i i' p Hp Hi'. eapply K; try eassumption. eapply resolve_grounded; [exact R|]. apply nth_error_Some. congruence.
Qed.

(** Nested lines *)
Lemma plain_run len refer ps s k names :
  solves len refer ps s ->
  (forall j nm, nth_error names j = Some nm -> exists p, nth_error ps (k + j) = Some p /\ pl_name p = nm) ->
  (forall j, 0 < j < List.length names -> exists p, nth_error ps (k + j) = Some p /\ pl_at p = None) ->
  forall j sk sj, j < List.length names -> nth_error s k = Some sk -> nth_error s (k + j) = Some sj ->
  (sj == sk + line_length len (firstn j names))%Q.
Proof.
  intros [L S] Nm Pl. induction j as [|j IH]; intros sk sj Hj Hk Hsj.
  - rewrite Nat.add_0_r in Hsj. cbn. rewrite Hk in Hsj. injection Hsj as <-. ring.
  - destruct (Pl (Datatypes.S j) ltac:(lia)) as (p & Hp & At). destruct (S _ _ Hp) as (x & X & HS).
    rewrite Hsj in X. injection X as <-. unfold holds in HS. rewrite At in HS.
    rewrite Nat.add_succ_r in HS. cbv iota in HS. destruct HS as (q & sq & A & B & C).
    destruct (nth_error names j) as [nm|] eqn:En; [|apply nth_error_None in En; lia].
    destruct (Nm j nm En) as (q' & Q1 & Q2). rewrite A in Q1. injection Q1 as <-.
    specialize (IH sk sq ltac:(lia) Hk B). rewrite C, IH, Q2.
    assert (E : firstn (Datatypes.S j) names = firstn j names ++ [nm]).
    { clear -En. revert j En. induction names as [|y l IH]; intros [|j] En; cbn in *; try discriminate; [congruence|]. f_equal. apply IH, En. }
    rewrite E. unfold line_length. rewrite fold_right_app. cbn [fold_right].
    assert (F : forall l a, (fold_right (fun n b => len n + b) a l == fold_right (fun n b => len n + b) 0 l + a)%Q).
    { clear. induction l as [|y l IH]; intro a; cbn [fold_right]; [ring|]. rewrite IH. ring. }
    rewrite (F _ (len nm + 0)%Q). ring.
Qed.

Lemma nested_line len refer pre names p a post s f :
  names <> [] -> pl_at p = Some a ->
  resolve len refer (flatten_components len refer (pre ++ CPlaceLine names p :: post)) = Some (s, f) ->
  let ps := flatten_components len refer (pre ++ CPlaceLine names p :: post) in
  let k := List.length (flatten_components len refer pre) in
  exists sk, nth_error s k = Some sk
  /\ (match pl_from p with
      | None => sk + anchor_offset (dflt refer (pl_anchor p)) (line_length len names) == a
      | Some from => exists j q sj, nth_error ps j = Some q /\ pl_name q = from /\ nth_error s j = Some sj
          /\ sk + anchor_offset (dflt refer (pl_anchor p)) (line_length len names)
             == sj + anchor_offset (dflt refer (pl_from_anchor p)) (len from) + a
      end)%Q
  /\ forall j, j < List.length names -> exists sj, nth_error s (k + j) = Some sj
     /\ (sj == sk + line_length len (firstn j names))%Q.
Proof.
  intros Hn At R. destruct (resolve_solves _ _ _ _ _ R) as [[L S] _]. cbv zeta.
  set (ps := flatten_components len refer (pre ++ CPlaceLine names p :: post)) in *.
  set (k := List.length (flatten_components len refer pre)).
  destruct names as [|n0 names]; [congruence|].
  set (p0 := mkPlace n0 (Some (a - anchor_offset (dflt refer (pl_anchor p)) (line_length len (n0 :: names)))%Q) (pl_from p) (Some AStart) (pl_from_anchor p)).
  assert (Eps : ps = flatten_components len refer pre ++ (p0 :: map plain names) ++ flatten_components len refer post).
  { unfold ps, flatten_components. rewrite flat_map_app. cbn [flat_map]. unfold flatten_component at 2. rewrite At. reflexivity. }
  assert (Nth : forall j, j < Datatypes.S (List.length names) -> nth_error ps (k + j) = nth_error (p0 :: map plain names) j).
  { intros j Hj. rewrite Eps. unfold k. rewrite nth_error_app2 by lia. replace (_ + j - _) with j by lia.
    rewrite nth_error_app1 by (cbn [List.length]; rewrite map_length; lia). reflexivity. }
  assert (H0 : nth_error ps k = Some p0).
  { specialize (Nth 0 ltac:(lia)). rewrite Nat.add_0_r in Nth. exact Nth. }
  destruct (S _ _ H0) as (sk & Sk & HS). exists sk. split; [exact Sk|].
  assert (Pos : forall j, j < List.length (n0 :: names) -> exists sj, nth_error s (k + j) = Some sj /\ (sj == sk + line_length len (firstn j (n0 :: names)))%Q).
  { intros j Hj. cbn [List.length] in Hj.
    assert (B : k + j < List.length s).
    { rewrite L. apply nth_error_Some. rewrite Nth by lia. intro C. apply nth_error_None in C. cbn [List.length] in C. rewrite map_length in C. lia. }
    destruct (nth_error s (k + j)) as [sj|] eqn:Ej; [|apply nth_error_None in Ej; lia].
    exists sj. split; [reflexivity|]. apply (plain_run len refer ps s k (n0 :: names)); try assumption.
    - split; assumption.
    - intros i nm Hi. rewrite Nth by (assert (i < List.length (n0 :: names)) by (apply nth_error_Some; congruence); cbn [List.length] in *; lia).
      destruct i as [|i]; cbn in Hi |- *; [injection Hi as <-; exists p0; auto|]. rewrite nth_error_map, Hi. cbn. eauto.
    - intros i Hi. cbn [List.length] in Hi. rewrite Nth by lia. destruct i as [|i]; [lia|]. cbn [nth_error].
      destruct (nth_error names i) as [nm|] eqn:En; [|apply nth_error_None in En; lia]. rewrite nth_error_map, En. cbn. eauto. }
  split; [|exact Pos]. unfold holds in HS. cbn [p0 pl_at pl_from pl_anchor pl_from_anchor dflt anchor_offset] in HS.
  destruct (pl_from p).
  - destruct HS as (j & q & sj & A & B & C & D). exists j, q, sj. repeat split; try assumption. lra.
  - lra.
Qed.
