(** Further lemmas on track calls: order of the elements in backtracking, position s, monitors
    and hold/resume. *)
From Coq Require Import ZArith List Bool Lia ZifyBool Reals.
From Verif.Model Require Import Kernel ParticleArray Collective.
From Verif.Spec Require Import Kernel ParticleArray Collective Position.
From Verif.Proofs Require Import Kernel ParticleArray KernelSim Collective HoldResume Counters.
Import ListNotations.
Local Open Scope Z_scope.

(** ** Order of the elements when backtracking *)
Lemma elements_body fm multi d i : elements_of (body_ev fm multi d i) = [i].
Proof. unfold body_ev. destruct (fm =? 2), multi; reflexivity. Qed.

Lemma elements_turn_back fm multi i c e :
  elements_of (turn_ev_back fm multi i c e)
  = map (fun k => i + c - 1 - Z.of_nat k) (seq 0 (Z.to_nat c)).
Proof.
  unfold turn_ev_back. rewrite !elements_app.
  replace (elements_of (if e then [EndTurnBack] else [])) with (@nil Z) by now destruct e.
  replace (elements_of (if fm =? 2 then [Mon] else [])) with (@nil Z) by now destruct (fm =? 2).
  replace (elements_of (if fm =? 1 then [Mon] else [])) with (@nil Z) by now destruct (fm =? 1).
  cbn [app]. rewrite !app_nil_r.
  induction (seq 0 (Z.to_nat c)) as [|k l IH]; [reflexivity|].
  cbn [flat_map map]. rewrite elements_app, elements_body, IH. reflexivity.
Qed.

Lemma map_rev_seq {B} (f : Z -> B) i (n : nat) :
  map (fun k => f (i + Z.of_nat n - 1 - Z.of_nat k)) (seq 0 n)
  = rev (map (fun k => f (i + Z.of_nat k)) (seq 0 n)).
Proof.
  induction n as [|n IH]; [reflexivity|].
  rewrite seq_S at 2. rewrite map_app, rev_app_distr. cbn [map rev app Nat.add].
  rewrite <- IH. cbn [seq map].
  f_equal; [f_equal; lia|]. rewrite <- seq_shift, map_map. apply map_ext. intros. f_equal; lia.
Qed.

Lemma back_turn_elements fm multi fm' multi' i n e e' : 0 <= n ->
  elements_of (turn_ev_back fm' multi' i n e') = rev (elements_of (turn_ev fm multi i n e)).
Proof.
  intros Hn. rewrite elements_turn_back, elements_turn.
  rewrite <- (map_rev_seq (fun z => z)). apply map_ext_in. intros. lia.
Qed.

Lemma elements_repeat n l : elements_of (repeat_l n l) = repeat_l n (elements_of l).
Proof. induction n; cbn [repeat_l]; [reflexivity|]. now rewrite elements_app, IHn. Qed.

Lemma rev_repeat {A} n (l : list A) : rev (repeat_l n l) = repeat_l n (rev l).
Proof.
  induction n; [reflexivity|]. rewrite repeat_l_last. cbn [repeat_l].
  now rewrite rev_app_distr, IHn.
Qed.

Lemma backtrack_reverse_stop L skip_end fm multi fm' multi' i j t tback :
  0 <= i -> i < j -> j <= L ->
  let a := mkTargs (Some i) (Some j) None None in
  events_no_collective L skip_end (-1) fm multi false a = Some t ->
  events_no_collective L skip_end (-1) fm' multi' true a = Some tback ->
  elements_of tback = rev (elements_of t).
Proof.
  intros Hi Hk HL a. erewrite !events_of_plan by (try (apply plan_one_turn_stop; assumption); lia).
  intros [= <-] [= <-]. cbn [flat_map]. rewrite !app_nil_r. unfold call_ev.
  cbn [kc_turns kc_start kc_n kc_end]. change (Z.to_nat 1) with 1%nat. rewrite !repeat_l_1.
  apply back_turn_elements. lia.
Qed.

Lemma backtrack_reverse_num L skip_end fm multi fm' multi' i k t tback :
  0 <= i -> 0 <= k -> i + k <= L ->
  let a := mkTargs (Some i) None (Some k) None in
  events_no_collective L skip_end (-1) fm multi false a = Some t ->
  events_no_collective L skip_end (-1) fm' multi' true a = Some tback ->
  elements_of tback = rev (elements_of t).
Proof.
  intros Hi Hk HL a. erewrite !events_of_plan by (try (apply plan_one_turn; assumption); lia).
  intros [= <-] [= <-]. cbn [flat_map]. rewrite !app_nil_r. unfold call_ev.
  cbn [kc_turns kc_start kc_n kc_end]. change (Z.to_nat 1) with 1%nat. rewrite !repeat_l_1.
  apply back_turn_elements. lia.
Qed.

Lemma backtrack_reverse_turns L skip_end fm multi fm' multi' n t tback :
  0 < L -> 0 < n ->
  let a := mkTargs (Some 0) None None (Some n) in
  events_no_collective L skip_end (-1) fm multi false a = Some t ->
  events_no_collective L skip_end (-1) fm' multi' true a = Some tback ->
  elements_of tback = rev (elements_of t).
Proof.
  intros HL Hn a.
  assert (P : exists e1 e2, plan_no_collective L skip_end (-1) a
     = Some (mkKcall 1 0 L e1 :: (if 0 <? n - 1 then [mkKcall (n - 1) 0 L e2] else []))).
  { unfold plan_no_collective, a. cbn [a_start].
    rewrite (resolve_start_some L (Some 0) 0) by lia.
    unfold split_turns. cbn [a_nele a_stop a_turns].
    replace (0 <? n) with true by lia. replace (negb (0 <=? L - 0)) with false by lia.
    change (0 <? 0) with false. rewrite app_nil_r. replace (L - 0) with L by lia.
    eexists _, _. reflexivity. }
  destruct P as (e1 & e2 & P).
  erewrite !events_of_plan by (try exact P; lia).
  intros [= <-] [= <-]. cbn [flat_map]. rewrite !elements_app.
  assert (E : forall fm multi bt e, elements_of (call_ev fm multi bt (mkKcall 1 0 L e))
     = elements_of (if bt then turn_ev_back fm multi 0 L e else turn_ev fm multi 0 L e)).
  { intros. unfold call_ev. cbn [kc_turns kc_start kc_n kc_end]. change (Z.to_nat 1) with 1%nat.
    rewrite repeat_l_1. reflexivity. }
  rewrite !E. rewrite rev_app_distr.
  destruct (0 <? n - 1) eqn:En.
  - cbn [flat_map]. rewrite !app_nil_r. unfold call_ev.
    cbn [kc_turns kc_start kc_n kc_end]. rewrite !elements_repeat, rev_repeat.
    rewrite (back_turn_elements fm multi fm' multi' 0 L e1 e1) by lia.
    rewrite (back_turn_elements fm multi fm' multi' 0 L e2 e2) by lia.
    rewrite !elements_turn. rewrite <- repeat_l_last. reflexivity.
  - cbn [flat_map]. cbn [elements_of flat_map rev app]. rewrite app_nil_r.
    apply back_turn_elements. lia.
Qed.

(** ** Position along the line *)
Section Position.
Context {C : Type} (eff : Z -> part C -> part C) (rs rsb : C -> C) (L : Z).
Variable sc : C -> R.
Variable len : Z -> R.
Notation sum_len := (Position.sum_len len).
Hypothesis HL : 0 < L.
Hypothesis Heff : forall i p, p_turn (eff i p) = p_turn p /\ p_ele (eff i p) = p_ele p
                              /\ p_id (eff i p) = p_id p.
Hypothesis Hs : forall i p, alive p = true -> alive (eff i p) = true ->
   sc (p_c (eff i p)) = (sc (p_c p) + len i)%R.
Hypothesis Hrs : forall c, sc (rs c) = 0%R.

Lemma s_window i p (k : nat) :
  0 <= i < L -> alive p = true -> p_ele p = i -> sc (p_c p) = sum_len (Z.to_nat i) ->
  let q := track_single eff rs rsb L (window_events L i (Z.of_nat k) 0 false true) p in
  alive q = true -> sc (p_c q) = sum_len (Z.to_nat (p_ele q)).
Proof.
  intros Hi Ha He Hp. cbv zeta.
  assert (E : forall k : nat, let q := track_single eff rs rsb L (window_events L i (Z.of_nat k) 0 false true) p in
     alive q = true -> sc (p_c q) = sum_len (Z.to_nat ((i + Z.of_nat k) mod L))).
  { clear k. induction k as [|k IH]; cbv zeta in *.
    - change (Z.of_nat 0) with 0. rewrite window_empty. intros _. cbn.
      rewrite Z.add_0_r, Z.mod_small by lia. exact Hp.
    - replace (Z.of_nat (S k)) with (Z.of_nat k + 1) by lia.
      rewrite window_snoc by lia. rewrite ts_app.
      set (q := track_single eff rs rsb L (window_events L i (Z.of_nat k) 0 false true) p) in *.
      destruct (alive q) eqn:Eq; [|rewrite ts_dead by assumption; congruence].
      specialize (IH eq_refl).
      change ([Ele ((i + Z.of_nat k) mod L); Incr 1] ++ ?x) with
        ([Ele ((i + Z.of_nat k) mod L)] ++ [Incr 1] ++ x).
      rewrite ts_app, ts_alive by assumption.
      set (e := eff ((i + Z.of_nat k) mod L) q) in *.
      destruct (alive e) eqn:Ee; [|rewrite ts_dead by assumption; congruence].
      assert (Hse : sc (p_c e) = (sc (p_c q) + len ((i + Z.of_nat k) mod L))%R) by (apply Hs; assumption).
      rewrite ts_app, ts_alive by assumption.
      set (f := p_incr 1 e). assert (Ef : alive f = true) by exact Ee.
      destruct (div_mod_step (i + Z.of_nat k) L HL) as [D1 D2].
      replace (i + (Z.of_nat k + 1)) with (i + Z.of_nat k + 1) by lia.
      destruct ((i + Z.of_nat k + 1) mod L =? 0) eqn:Em; cbn [andb].
      + rewrite ts_alive by assumption. intros _. replace ((i + Z.of_nat k + 1) mod L) with 0 by lia.
        cbn [p_end p_c]. apply Hrs.
      + change (track_single eff rs rsb L [] f) with f. intros _. cbn [f p_incr p_c].
        rewrite Hse, IH. destruct D2 as [_ D2]; [lia|]. rewrite D2.
        pose proof (Z.mod_pos_bound (i + Z.of_nat k) L HL).
        replace (Z.to_nat ((i + Z.of_nat k) mod L + 1)) with (S (Z.to_nat ((i + Z.of_nat k) mod L))) by lia.
        cbn [Position.sum_len]. rewrite Z2Nat.id by lia. reflexivity. }
  intros Hq. rewrite (E k Hq).
  destruct (counters_window eff rs rsb L HL Heff i p k Hi Ha He) as (_ & H & _).
  destruct (H Hq) as [_ H2]. now rewrite H2.
Qed.
End Position.

(** ** Monitors do not interfere: with operations whose monitors do nothing, the result does not
    depend on the monitor flags. *)
Section NoMon.
Context {S : Type} (o : kops S).
Hypothesis Hm : forall s, k_mon o s = s.
Hypothesis Hmm : forall s, k_multi o s = s.

Lemma ifmon (b : bool) s : (if b then k_mon o s else s) = s.
Proof. destruct b; auto. Qed.
Lemma ifmulti (b : bool) s : (if b then k_multi o s else s) = s.
Proof. destruct b; auto. Qed.

Lemma elem_loop_nm n : forall fm multi bt a b d i act s,
  elem_loop o n fm multi bt a b d i act s = elem_loop o n 0 false bt a b d i act s.
Proof.
  induction n as [|n IH]; intros; cbn [elem_loop]; [reflexivity|].
  rewrite !ifmon, !ifmulti. destruct (_ && _); [|reflexivity].
  destruct (k_check o (k_ele o i s)) as [s1 [|]]; [|reflexivity]. apply IH.
Qed.

Lemma one_turn_nm fm multi bt a n e act s :
  one_turn o fm multi bt a n e act s = one_turn o 0 false bt a n e act s.
Proof.
  unfold one_turn. destruct bt; cbv iota; rewrite ?ifmon, elem_loop_nm;
    match goal with |- match ?x with _ => _ end = _ => destruct x as [[s1 act1]|] end;
    try reflexivity; rewrite !ifmon; reflexivity.
Qed.

Lemma turn_loop_nm nt : forall fm multi bt a n e act s,
  turn_loop o nt fm multi bt a n e act s = turn_loop o nt 0 false bt a n e act s.
Proof.
  induction nt as [|nt IH]; intros; [reflexivity|]. cbn [turn_loop]. destruct (negb act); [reflexivity|].
  rewrite one_turn_nm. destruct (one_turn o 0 false bt a n e act s) as [[s1 act1]|]; [|reflexivity].
  apply IH.
Qed.

Lemma run_calls_nm cs : forall fm multi bt s,
  run_calls o fm multi bt cs s = run_calls o 0 false bt cs s.
Proof.
  induction cs as [|c cs IH]; intros; [reflexivity|]. cbn [run_calls]. unfold track_line.
  destruct (k_check o s) as [s1 act]. rewrite turn_loop_nm.
  match goal with |- match ?x with _ => _ end = _ => destruct x end; [apply IH|reflexivity].
Qed.

Lemma no_collective_nm L skip_end spte fm multi bt a s :
  track_no_collective o L skip_end spte fm multi bt a s = track_no_collective o L skip_end spte 0 false bt a s.
Proof. unfold track_no_collective. destruct (plan_no_collective _ _ _ _); [apply run_calls_nm|reflexivity]. Qed.

Variable col : Z -> S -> S * option bool.
Variable tdep : S -> S.
Variable L : Z.
Variable parts : list cpart.
Variable ep : list nat.
Variable ei : list (option Z).
Variable skip_end : bool.

Lemma part_track_nm fm lo hi a b n multi s :
  part_track o L fm lo hi a b n multi s = part_track o L 0 lo hi a b n false s.
Proof. unfold part_track. apply (no_collective_nm L true (-1) _ multi false _ s). Qed.

Lemma track_part_nm fm pp tt ipp i stop nt multi s :
  track_part o col L ep ei fm pp tt ipp i stop nt multi s
  = track_part o col L ep ei 0 pp tt ipp i stop nt false s.
Proof.
  unfold track_part. rewrite !ifmon, !ifmulti. cbn [Z.eqb].
  destruct pp; rewrite ?part_track_nm;
  repeat match goal with |- context [if ?b then _ else _] => destruct b end;
  try reflexivity; destruct (elem_index ei i); rewrite ?part_track_nm; try reflexivity;
  destruct (match stop with Some j => elem_index ei j | None => None end); rewrite ?part_track_nm; reflexivity.
Qed.

Lemma parts_loop_nm fm pps : forall ipp tt i stop nt multi s,
  parts_loop o col L ep ei fm pps ipp tt i stop nt multi s
  = parts_loop o col L ep ei 0 pps ipp tt i stop nt false s.
Proof.
  induction pps as [|pp pps IH]; intros; [reflexivity|]. cbn [parts_loop]. rewrite track_part_nm.
  destruct (track_part o col L ep ei 0 pp tt ipp i stop nt false s); auto.
  destruct stop0; auto.
Qed.

Lemma turns_loop_nm fm n : forall tt r i stop nt tdv multi s,
  turns_loop o col tdep L parts ep ei skip_end fm n tt r i stop nt tdv multi s
  = turns_loop o col tdep L parts ep ei skip_end 0 n tt r i stop nt tdv false s.
Proof.
  induction n as [|n IH]; intros; [reflexivity|]. cbn [turns_loop]. rewrite !ifmon.
  rewrite parts_loop_nm. destruct (tdv && _); [reflexivity|].
  match goal with |- match ?x with _ => _ end = _ => destruct x as [| |s1 [|]] end; try reflexivity.
  unfold end_turn. rewrite !ifmon.
  destruct (track_no_collective _ _ _ _ _ _ _ _ s1); [|reflexivity]. apply IH.
Qed.

Lemma track_collective_nm fm spte tdv multi a s :
  track_collective o col tdep L parts ep ei skip_end fm spte tdv multi a s
  = track_collective o col tdep L parts ep ei skip_end 0 spte tdv false a s.
Proof.
  unfold track_collective. destruct (prepare_session L spte a) as [[[i stop] n]|]; [|reflexivity].
  apply turns_loop_nm.
Qed.

Lemma drive_nm fm fuel : forall tdv r,
  drive o col tdep L parts ep ei skip_end fm fuel tdv r = drive o col tdep L parts ep ei skip_end 0 fuel tdv r.
Proof.
  induction fuel as [|fuel IH]; intros; [reflexivity|]. cbn [drive]. destruct r; try reflexivity.
  unfold resume. rewrite turns_loop_nm. apply IH.
Qed.
End NoMon.

(** Hence hold/resume has no influence on the particles, whatever monitors are used. *)
Lemma hold_resume_nm {S} (o : kops S) col tdep L parts ep ei skip_end fm spte multi a s s' :
  (forall s, k_mon o s = s) -> (forall s, k_multi o s = s) ->
  (exists fuel, drive o col tdep L parts ep ei skip_end fm fuel false
    (track_collective o col tdep L parts ep ei skip_end fm spte false multi a s) = Done s')
  <-> (exists k, track_collective o (col_until k col) tdep L parts ep ei skip_end fm spte false multi a s
                 = Done s').
Proof.
  intros Hm Hmm. pose proof (hold_resume_ok o col tdep L parts ep ei skip_end 0 spte a s s' ltac:(lia)) as H.
  split.
  - intros (f & Hf). rewrite drive_nm, track_collective_nm in Hf by assumption.
    destruct (proj1 H (ex_intro _ f Hf)) as (k & Hk). exists k.
    rewrite track_collective_nm by assumption. exact Hk.
  - intros (k & Hk). rewrite track_collective_nm in Hk by assumption.
    destruct (proj2 H (ex_intro _ k Hk)) as (f & Hf). exists f.
    rewrite drive_nm, track_collective_nm by assumption. exact Hf.
Qed.

Lemma collective_same_elements coll skip_end fm multi start stop turns t :
  let L := Z.of_nat (length coll) in
  0 < L ->
  0 <= match start with Some e => e | None => 0 end < L ->
  0 < match turns with Some n => n | None => 1 end ->
  (forall j, stop = Some j -> 0 <= j <= L) ->
  events_no_collective L skip_end (-1) fm multi false (mkTargs start stop None turns) = Some t ->
  exists t', events_collective coll skip_end (-1) fm multi (mkTargs start stop None turns) = Some t'
  /\ elements_of t' = elements_of t.
Proof.
  intros L HL Hi Hn Hs Ht.
  destruct (collective_window coll skip_end fm multi start stop turns _ _ HL eq_refl Hi eq_refl Hn Hs)
    as (t' & E & N).
  exists t'. split; [exact E|].
  pose proof (no_collective_elements L skip_end fm multi start stop turns _ _ HL eq_refl Hi eq_refl Hn Hs) as H.
  rewrite Ht in H. injection H as H. rewrite H.
  assert (F : forall l, elements_of l = elements_of (filter not_monitor l)).
  { induction l as [|e l IH]; [reflexivity|]. destruct e; cbn; unfold elements_of in IH |- *;
      cbn [flat_map app]; rewrite ?IH; reflexivity. }
  rewrite F, N, elements_window. reflexivity.
Qed.
