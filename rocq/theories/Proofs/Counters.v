From Coq Require Import ZArith List Bool Lia ZifyBool.
From Verif.Model Require Import Kernel ParticleArray.
From Verif.Spec Require Import Kernel ParticleArray.
From Verif.Proofs Require Import Kernel ParticleArray KernelSim Collective.
Import ListNotations.
Local Open Scope Z_scope.

Lemma div_mod_step a L : 0 < L ->
  ((a + 1) mod L = 0 -> (a + 1) / L = a / L + 1)
  /\ ((a + 1) mod L <> 0 -> (a + 1) / L = a / L /\ (a + 1) mod L = a mod L + 1).
Proof.
  intros HL.
  pose proof (Z_div_mod_eq_full a L). pose proof (Z.mod_pos_bound a L HL).
  pose proof (Z_div_mod_eq_full (a + 1) L). pose proof (Z.mod_pos_bound (a + 1) L HL).
  assert (H3 : L * ((a + 1) / L - a / L) = a mod L + 1 - (a + 1) mod L) by lia.
  set (d := (a + 1) / L - a / L) in *.
  assert (Hd : d = 0 \/ d = 1) by nia.
  split; intros; [|split]; destruct Hd as [Hd|Hd]; rewrite Hd in H3; nia.
Qed.

Section Counters.
Context {C : Type}.
Variable eff : Z -> part C -> part C.
Variables rs rsb : C -> C.
Variable L : Z.
Hypothesis HL : 0 < L.
Hypothesis Heff : forall i p, p_turn (eff i p) = p_turn p /\ p_ele (eff i p) = p_ele p
                              /\ p_id (eff i p) = p_id p.
Notation ts := (track_single eff rs rsb L).

Lemma ts_nm t : forall p, ts t p = ts (filter not_monitor t) p.
Proof.
  unfold track_single. induction t as [|e t IH]; intros p; [reflexivity|].
  cbn [fold_left filter]. destruct e; cbn [not_monitor fold_left]; rewrite IH; try reflexivity;
    f_equal; unfold particle_event; now destruct (0 <? p_state p).
Qed.

Lemma window_snoc i k ends : 0 <= k ->
  window_events L i (k + 1) 0 false ends
  = window_events L i k 0 false ends
    ++ [Ele ((i + k) mod L); Incr 1]
    ++ (if ((i + k + 1) mod L =? 0) && ends then [EndTurn] else []).
Proof.
  intros Hk. unfold window_events.
  replace (Z.to_nat (k + 1)) with (S (Z.to_nat k)) by lia.
  rewrite flat_map_seq_last. f_equal.
  unfold position_events. rewrite Z2Nat.id by lia. cbn [app]. reflexivity.
Qed.

Lemma counters_window i p (k : nat) :
  0 <= i < L -> alive p = true -> p_ele p = i ->
  let q := ts (window_events L i (Z.of_nat k) 0 false true) p in
  p_id q = p_id p /\
  (alive q = true -> p_turn q = p_turn p + (i + Z.of_nat k) / L /\ p_ele q = (i + Z.of_nat k) mod L)
  /\ (alive q = false -> exists m, 0 <= m < Z.of_nat k /\
        let r := ts (window_events L i m 0 false true) p in
        alive r = true /\ q = eff ((i + m) mod L) r
        /\ p_turn q = p_turn p + (i + m) / L /\ p_ele q = (i + m) mod L).
Proof.
  intros Hi Ha He. induction k as [|k IH].
  - change (Z.of_nat 0) with 0. rewrite window_empty. cbn. split; [reflexivity|]. split.
    + intros _. rewrite !Z.add_0_r, Z.div_small, Z.mod_small by lia. lia.
    + congruence.
  - cbv zeta in *. replace (Z.of_nat (S k)) with (Z.of_nat k + 1) by lia.
    rewrite window_snoc by lia. rewrite ts_app.
    set (q := ts (window_events L i (Z.of_nat k) 0 false true) p) in *.
    destruct IH as (IHi & IH1 & IH2).
    destruct (alive q) eqn:Eq.
    + destruct (IH1 eq_refl) as [T1 T2]. clear IH1 IH2.
      destruct (Heff ((i + Z.of_nat k) mod L) q) as (F1 & F2 & F3).
      change ([Ele ((i + Z.of_nat k) mod L); Incr 1] ++ ?x) with
        ([Ele ((i + Z.of_nat k) mod L)] ++ [Incr 1] ++ x).
      rewrite ts_app, ts_alive by assumption.
      set (e := eff ((i + Z.of_nat k) mod L) q) in *.
      destruct (alive e) eqn:Ee.
      * rewrite ts_app, ts_alive by assumption.
        set (f := p_incr 1 e). assert (Ef : alive f = true) by exact Ee.
        destruct (div_mod_step (i + Z.of_nat k) L HL) as [D1 D2].
        destruct ((i + Z.of_nat k + 1) mod L =? 0) eqn:Em; cbn [andb].
        -- rewrite ts_alive by assumption.
           assert (Hp : alive (p_end rs f) = true) by exact Ef.
           split; [cbn; congruence|]. split; [|congruence]. intros _. cbn [p_end p_turn p_ele f p_incr].
           replace (i + (Z.of_nat k + 1)) with (i + Z.of_nat k + 1) by lia.
           rewrite D1 by lia. lia.
        -- change (ts [] f) with f. split; [cbn; congruence|]. split; [|congruence]. intros _.
           cbn [p_turn p_ele f p_incr].
           replace (i + (Z.of_nat k + 1)) with (i + Z.of_nat k + 1) by lia. lia.
      * rewrite ts_dead by assumption. split; [congruence|]. split; [congruence|]. intros _.
        exists (Z.of_nat k). split; [lia|]. fold q. repeat split; auto; congruence.
    + rewrite ts_dead by assumption. split; [congruence|]. split; [congruence|]. intros _.
      destruct (IH2 eq_refl) as (m & Hm & H). exists m. split; [lia|exact H].
Qed.
End Counters.

(** ** Backtracking *)
Section Back.
Context {C : Type}.
Variables f g : Z -> C -> C.
Variables rs rsb : C -> C.
Variable L : Z.
Variable good : Z -> C -> Prop.
Hypothesis Hf : forall i c, 0 <= i < L -> good i c -> good (i + 1) (f i c) /\ g i (f i c) = c.
Hypothesis Hrs : forall c, good L c -> good 0 (rs c) /\ rsb (rs c) = c.

Definition on_c (h : Z -> C -> C) (i : Z) (p : part C) : part C :=
  mkPart (p_id p) (p_turn p) (p_ele p) (p_state p) (h i (p_c p)).
Notation tf := (track_single (on_c f) rs rsb L).
Notation tb := (track_single (on_c g) rs rsb L).

Lemma body_step (h : Z -> C -> C) fm multi incr i p : alive p = true ->
  track_single (on_c h) rs rsb L (body_ev fm multi incr i) p
  = mkPart (p_id p) (p_turn p) (p_ele p + incr) (p_state p) (h i (p_c p)).
Proof.
  intros Ha. rewrite ts_nm. unfold body_ev.
  replace (filter not_monitor _) with [Ele i; Incr incr] by (destruct (fm =? 2), multi; reflexivity).
  change [Ele i; Incr incr] with ([Ele i] ++ [Incr incr]).
  rewrite ts_app, (ts_alive _ _ _ _ (Ele i) p Ha). rewrite ts_alive by exact Ha. reflexivity.
Qed.

(** elements i, i+1, ..., i+n-1 forward then backward *)
Lemma back_elements fm multi fm' multi' (n : nat) : forall i p,
  0 <= i -> i + Z.of_nat n <= L -> alive p = true -> good i (p_c p) ->
  let q := tf (flat_map (fun k => body_ev fm multi 1 (i + Z.of_nat k)) (seq 0 n)) p in
  alive q = true /\ p_ele q = p_ele p + Z.of_nat n /\ p_turn q = p_turn p /\ good (i + Z.of_nat n) (p_c q)
  /\ tb (flat_map (fun k => body_ev fm' multi' (-1) (i + Z.of_nat n - 1 - Z.of_nat k)) (seq 0 n)) q = p.
Proof.
  induction n as [|n IH]; intros i p Hi Hn Ha Hg; cbv zeta.
  - cbn [seq flat_map]. change (tf [] p) with p. change (tb [] p) with p.
    replace (i + Z.of_nat 0) with i by lia. repeat split; auto. lia.
  - rewrite flat_map_seq_S, ts_app. rewrite body_step by assumption.
    replace (i + Z.of_nat 0) with i by lia.
    destruct (Hf i (p_c p) ltac:(lia) Hg) as [G1 G2].
    set (p1 := mkPart _ _ _ _ _).
    destruct (IH (i + 1) p1 ltac:(lia) ltac:(lia) Ha G1) as (A & E & T & G & B).
    assert (Et : flat_map (fun k => body_ev fm multi 1 (i + Z.of_nat (S k))) (seq 0 n)
               = flat_map (fun k => body_ev fm multi 1 (i + 1 + Z.of_nat k)) (seq 0 n)).
    { apply flat_map_ext_in. intros k _. f_equal; lia. }
    rewrite Et. set (q := tf _ p1) in *.
    replace (i + Z.of_nat (S n)) with (i + 1 + Z.of_nat n) by lia.
    cbn [p1 p_ele p_turn] in E, T. repeat split; auto; try lia.
    rewrite flat_map_seq_last, ts_app, B.
    rewrite body_step by exact Ha. cbn [p1 p_id p_turn p_ele p_state p_c].
    replace (i + 1 + Z.of_nat n - 1 - Z.of_nat n) with i by lia. rewrite G2.
    replace (p_ele p + 1 + -1) with (p_ele p) by lia. now destruct p.
Qed.

Lemma back_turn fm multi fm' multi' i n e p :
  0 <= i -> 0 <= n -> i + n <= L -> alive p = true -> good i (p_c p) ->
  (e = true -> p_ele p = i /\ i + n = L) ->
  let q := tf (turn_ev fm multi i n e) p in
  alive q = true /\ (e = true -> p_ele q = 0 /\ good 0 (p_c q)) /\
  tb (turn_ev_back fm' multi' i n e) q = p.
Proof.
  intros Hi Hn HL Ha Hg He. cbv zeta.
  destruct (back_elements fm multi fm' multi' (Z.to_nat n) i p) as (A & E & T & G & B);
    auto; try lia.
  rewrite Z2Nat.id in * by lia.
  unfold turn_ev, turn_ev_back. rewrite !ts_app.
  assert (M1 : forall (h : Z -> C -> C) r, track_single (on_c h) rs rsb L (if fm =? 1 then [Mon] else []) r = r)
    by (intros; destruct (fm =? 1); [apply ts_mon|reflexivity]).
  assert (M2 : forall (h : Z -> C -> C) r, track_single (on_c h) rs rsb L (if fm =? 2 then [Mon] else []) r = r)
    by (intros; destruct (fm =? 2); [apply ts_mon|reflexivity]).
  assert (M1' : forall (h : Z -> C -> C) r, track_single (on_c h) rs rsb L (if fm' =? 1 then [Mon] else []) r = r)
    by (intros; destruct (fm' =? 1); [apply ts_mon|reflexivity]).
  assert (M2' : forall (h : Z -> C -> C) r, track_single (on_c h) rs rsb L (if fm' =? 2 then [Mon] else []) r = r)
    by (intros; destruct (fm' =? 2); [apply ts_mon|reflexivity]).
  rewrite M1, M2, M1', M2'.
  set (q := tf (flat_map _ _) p) in *. destruct e.
  - destruct (He eq_refl) as [He1 He2].
    rewrite ts_alive by assumption. rewrite He2 in G. destruct (Hrs _ G) as [R1 R2].
    split; [exact A|]. split; [split; [reflexivity|exact R1]|].
    rewrite ts_alive by exact A. rewrite <- B. f_equal. unfold p_end, p_end_back.
    cbn [p_id p_turn p_ele p_state p_c]. rewrite R2.
    replace (p_turn q + 1 - 1) with (p_turn q) by lia. replace L with (p_ele q) by lia.
    now destruct q.
  - change (tf [] q) with q. change (tb [] q) with q. repeat split; auto; discriminate.
Qed.

Lemma repeat_l_last {A} (n : nat) (l : list A) : repeat_l (S n) l = repeat_l n l ++ l.
Proof.
  induction n as [|n IH]; cbn [repeat_l]; [now rewrite app_nil_r|].
  cbn [repeat_l] in IH. rewrite IH at 1. now rewrite app_assoc.
Qed.

Lemma back_turns fm multi fm' multi' (n : nat) : 0 < L -> forall p,
  alive p = true -> good 0 (p_c p) -> p_ele p = 0 ->
  let q := tf (repeat_l n (turn_ev fm multi 0 L true)) p in
  tb (repeat_l n (turn_ev_back fm' multi' 0 L true)) q = p.
Proof.
  intros HL. induction n as [|n IH]; intros p Ha Hg He; cbv zeta; [reflexivity|].
  rewrite repeat_l_last. cbn [repeat_l]. rewrite !ts_app.
  destruct (back_turn fm multi fm' multi' 0 L true p) as (A & E & B); auto; try lia.
  destruct (E eq_refl) as [E1 E2]. cbv zeta in IH. rewrite IH by assumption. exact B.
Qed.

(** Calls: a window inside one turn, by num_elements. *)
Lemma plan_one_turn skip_end i k : 0 <= i -> 0 <= k -> i + k <= L ->
  plan_no_collective L skip_end (-1) (mkTargs (Some i) None (Some k) None)
  = Some [mkKcall 1 i k (if skip_end then false else k + i =? L)].
Proof.
  intros. unfold plan_no_collective. cbn [a_start].
  rewrite (resolve_start_some L (Some i) i) by lia.
  unfold split_turns. cbn [a_nele a_stop a_turns].
  replace (negb (0 <=? k)) with false by lia. replace (k + i <=? L) with true by lia.
  replace (negb (0 <=? k)) with false by lia. reflexivity.
Qed.

Lemma plan_one_turn_stop skip_end i j : 0 <= i -> i < j -> j <= L ->
  plan_no_collective L skip_end (-1) (mkTargs (Some i) (Some j) None None)
  = Some [mkKcall 1 i (j - i) (if skip_end then false else j - i + i =? L)].
Proof.
  intros. unfold plan_no_collective. cbn [a_start].
  rewrite (resolve_start_some L (Some i) i) by lia.
  unfold split_turns. cbn [a_nele a_stop a_turns].
  replace (negb ((0 <=? j) && (j <=? L))) with false by lia.
  replace (j <=? i) with false by lia. change (1 =? 1) with true. cbv iota.
  replace (negb (0 <=? j - i)) with false by lia. reflexivity.
Qed.

Lemma plan_turns n : 0 < L -> 0 < n ->
  plan_no_collective L false (-1) (mkTargs (Some 0) None None (Some n))
  = Some (mkKcall 1 0 L true :: (if 0 <? n - 1 then [mkKcall (n - 1) 0 L true] else [])).
Proof.
  intros. unfold plan_no_collective. cbn [a_start].
  rewrite (resolve_start_some L (Some 0) 0) by lia.
  unfold split_turns. cbn [a_nele a_stop a_turns].
  replace (0 <? n) with true by lia. replace (negb (0 <=? L - 0)) with false by lia.
  change (0 <? 0) with false. rewrite app_nil_r. replace (L - 0) with L by lia.
  replace (L + 0 =? L) with true by lia. reflexivity.
Qed.

Lemma backtrack_one_turn skip_end fm multi fm' multi' a i k p t tback :
  0 <= i -> 0 <= k -> i + k <= L ->
  plan_no_collective L skip_end (-1) a
  = Some [mkKcall 1 i k (if skip_end then false else k + i =? L)] ->
  alive p = true -> p_ele p = i -> good i (p_c p) ->
  events_no_collective L skip_end (-1) fm multi false a = Some t ->
  events_no_collective L skip_end (-1) fm' multi' true a = Some tback ->
  tb tback (tf t p) = p.
Proof.
  intros Hi Hk HL Hp Ha He Hg.
  erewrite !events_of_plan by (try eassumption; lia).
  intros [= <-] [= <-]. cbn [flat_map]. rewrite !app_nil_r. unfold call_ev.
  cbn [kc_turns kc_start kc_n kc_end]. change (Z.to_nat 1) with 1%nat. rewrite !repeat_l_1.
  apply back_turn; auto. intros E. split; [exact He|]. destruct skip_end; [discriminate|lia].
Qed.

Lemma backtrack_turns fm multi fm' multi' n p t tback :
  0 < L -> 0 < n ->
  alive p = true -> p_ele p = 0 -> good 0 (p_c p) ->
  events_no_collective L false (-1) fm multi false (mkTargs (Some 0) None None (Some n)) = Some t ->
  events_no_collective L false (-1) fm' multi' true (mkTargs (Some 0) None None (Some n)) = Some tback ->
  tb tback (tf t p) = p.
Proof.
  intros HL Hn Ha He Hg.
  erewrite !events_of_plan by (try (apply plan_turns; assumption); lia).
  assert (E : forall fm multi bt,
    flat_map (call_ev fm multi bt)
      (mkKcall 1 0 L true :: (if 0 <? n - 1 then [mkKcall (n - 1) 0 L true] else []))
    = repeat_l (Z.to_nat n) (if bt then turn_ev_back fm multi 0 L true else turn_ev fm multi 0 L true)).
  { intros. replace (Z.to_nat n) with (S (Z.to_nat (n - 1))) by lia. cbn [flat_map repeat_l]. f_equal.
    - unfold call_ev. cbn [kc_turns kc_start kc_n kc_end]. change (Z.to_nat 1) with 1%nat.
      apply repeat_l_1.
    - destruct (0 <? n - 1) eqn:En.
      + cbn [flat_map]. apply app_nil_r.
      + replace (Z.to_nat (n - 1)) with 0%nat by lia. reflexivity. }
  rewrite !E. intros [= <-] [= <-]. apply back_turns; auto.
Qed.
End Back.
