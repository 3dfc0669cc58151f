(** The kernel on any implementation of the particle set does, particle by particle, what the
    loss-free event trace says. *)
From Coq Require Import ZArith List Bool Lia ZifyBool Permutation.
From Verif.Model Require Import Kernel ParticleArray.
From Verif.Spec Require Import Kernel ParticleArray.
From Verif.Proofs Require Import Kernel ParticleArray.
Import ListNotations.
Local Open Scope Z_scope.

Section Sim.
Context {C : Type}.
Variable eff : Z -> part C -> part C.
Variables rs rsb : C -> C.
Variable L : Z.
Notation pe := (particle_event eff rs rsb L).
Notation ts := (track_single eff rs rsb L).

Lemma ts_app t1 t2 p : ts (t1 ++ t2) p = ts t2 (ts t1 p).
Proof. apply fold_left_app. Qed.

Lemma ts_dead t p : alive p = false -> ts t p = p.
Proof.
  intros H. unfold track_single. induction t as [|e t IH]; [reflexivity|].
  cbn [fold_left]. unfold particle_event at 2. unfold alive in H. rewrite H. exact IH.
Qed.

Lemma tsl_app t1 t2 l : map (ts (t1 ++ t2)) l = map (ts t2) (map (ts t1) l).
Proof. rewrite map_map. apply map_ext. intros; apply ts_app. Qed.

Lemma existsb_false_forall (l : list (part C)) :
  existsb alive l = false -> Forall (fun p => alive p = false) l.
Proof.
  induction l as [|p l IH]; cbn; intros H; constructor.
  - now destruct (alive p).
  - apply IH. now destruct (alive p).
Qed.

Lemma tsl_dead t l : existsb alive l = false -> map (ts t) l = l.
Proof.
  intros H. apply existsb_false_forall in H. induction H; cbn; [reflexivity|].
  rewrite ts_dead by assumption. now f_equal.
Qed.

Lemma tsl_nil l : map (ts []) l = l.
Proof. apply map_id. Qed.

Lemma ts_one e p : ts [e] p = pe p e.
Proof. reflexivity. Qed.

Lemma ts_mon p : ts [Mon] p = p. Proof. cbn. unfold particle_event. now destruct (0 <? p_state p). Qed.
Lemma ts_multi p : ts [Multi] p = p. Proof. cbn. unfold particle_event. now destruct (0 <? p_state p). Qed.

Lemma tsl_id t l : (forall p, ts t p = p) -> map (ts t) l = l.
Proof. intros H. erewrite map_ext; [apply map_id|]. apply H. Qed.

Lemma alive_incr p k : alive (ts [Incr k] p) = alive p.
Proof. cbn. unfold particle_event, alive. destruct (0 <? p_state p) eqn:E; cbn; auto. Qed.
Lemma alive_end p : alive (ts [EndTurn] p) = alive p.
Proof. cbn. unfold particle_event, alive. destruct (0 <? p_state p) eqn:E; cbn; auto. Qed.
Lemma alive_end_back p : alive (ts [EndTurnBack] p) = alive p.
Proof. cbn. unfold particle_event, alive. destruct (0 <? p_state p) eqn:E; cbn; auto. Qed.

Lemma existsb_map_same (f : part C -> part C) l :
  (forall p, alive (f p) = alive p) -> existsb alive (map f l) = existsb alive l.
Proof. intros H. induction l; cbn; [reflexivity|]. now rewrite H, IHl. Qed.

Context {S : Type}.
Variable o : kops S.
Variables Rel RelC : S -> list (part C) -> Prop.
Hypothesis H_check : forall s l, Rel s l ->
  RelC (fst (k_check o s)) l /\ snd (k_check o s) = existsb alive l.
Hypothesis H_ele : forall i s l, RelC s l -> existsb alive l = true -> Rel (k_ele o i s) (map (ts [Ele i]) l).
Hypothesis H_incr : forall i s l, RelC s l -> existsb alive l = true -> RelC (k_incr o i s) (map (ts [Incr i]) l).
Hypothesis H_end : forall s l, RelC s l -> existsb alive l = true -> RelC (k_end o s) (map (ts [EndTurn]) l).
Hypothesis H_end_back : forall s l, RelC s l -> existsb alive l = true -> RelC (k_end_back o s) (map (ts [EndTurnBack]) l).
Hypothesis H_mon : forall s l, RelC s l -> RelC (k_mon o s) l.
Hypothesis H_multi : forall s l, RelC s l -> RelC (k_multi o s) l.

Lemma body_ev_tsl fm multi incr i l :
  map (ts (body_ev fm multi incr i)) l = map (ts [Incr incr]) (map (ts [Ele i]) l).
Proof.
  unfold body_ev. rewrite !tsl_app.
  rewrite (tsl_id (if fm =? 2 then [Mon] else [])) by (destruct (fm =? 2); [apply ts_mon|reflexivity]).
  rewrite (tsl_id (if multi then [Multi] else [])) by (destruct multi; [apply ts_multi|reflexivity]).
  change [Ele i; Incr incr] with ([Ele i] ++ [Incr incr]). now rewrite tsl_app.
Qed.

Lemma elem_loop_sim (n : nat) : forall fm multi (bt : bool) start stop incr idx act s l,
  incr = (if bt then -1 else 1) ->
  (bt = false -> idx + Z.of_nat n = stop /\ start <= idx) ->
  (bt = true -> idx - Z.of_nat n = start - 1 /\ idx < stop) ->
  RelC s l -> act = true -> existsb alive l = true ->
  exists s' act', elem_loop o n fm multi bt start stop incr idx act s = Some (s', act')
    /\ let l' := map (ts (flat_map (fun k => body_ev fm multi incr (idx + incr * Z.of_nat k)) (seq 0 n))) l in
       RelC s' l' /\ act' = existsb alive l'.
Proof.
  induction n as [|n IH]; intros fm multi bt start stop incr idx act s l Hi Hf Hb HR Hact Hal.
  - cbn [elem_loop]. replace ((start <=? idx) && (idx <? stop)) with false
      by (destruct bt; [specialize (Hb eq_refl)|specialize (Hf eq_refl)]; lia).
    exists s, act. split; [reflexivity|]. cbn [seq flat_map]. rewrite tsl_nil. split; congruence.
  - cbn [elem_loop]. replace ((start <=? idx) && (idx <? stop)) with true
      by (destruct bt; [specialize (Hb eq_refl)|specialize (Hf eq_refl)]; lia).
    set (s1 := if fm =? 2 then k_mon o s else s).
    assert (R1 : RelC s1 l) by (unfold s1; destruct (fm =? 2); auto).
    set (s2 := if multi then k_multi o s1 else s1).
    assert (R2 : RelC s2 l) by (unfold s2; destruct multi; auto).
    pose proof (H_ele idx s2 l R2 Hal) as R3.
    destruct (H_check _ _ R3) as [R4 E4].
    destruct (k_check o (k_ele o idx s2)) as [s4 act4] eqn:Ec. cbn [fst snd] in R4, E4.
    rewrite flat_map_seq_S. replace (idx + incr * Z.of_nat 0) with idx by lia.
    rewrite tsl_app, body_ev_tsl.
    assert (Hexi : existsb alive (map (ts [Incr incr]) (map (ts [Ele idx]) l))
                   = existsb alive (map (ts [Ele idx]) l))
      by (apply existsb_map_same; intros; apply alive_incr).
    destruct act4.
    + assert (R5 : RelC (if bt then k_incr o (-1) s4 else k_incr o 1 s4)
                        (map (ts [Incr incr]) (map (ts [Ele idx]) l)))
        by (subst incr; destruct bt; apply H_incr; congruence).
      assert (Hf' : bt = false -> idx + incr + Z.of_nat n = stop /\ start <= idx + incr)
        by (intros E; specialize (Hf E); subst bt; lia).
      assert (Hb' : bt = true -> idx + incr - Z.of_nat n = start - 1 /\ idx + incr < stop)
        by (intros E; specialize (Hb E); subst bt; lia).
      destruct (IH fm multi bt start stop incr (idx + incr) true _ _ Hi Hf' Hb' R5
                  eq_refl ltac:(congruence)) as (s' & act' & E & R' & Ha').
      exists s', act'. split; [exact E|]. cbv zeta in *.
      set (t := flat_map _ _) in R', Ha'.
      assert (Et : flat_map (fun k => body_ev fm multi incr (idx + incr * Z.of_nat (Datatypes.S k))) (seq 0 n) = t).
      { apply flat_map_ext_in. intros k _. f_equal; lia. }
      rewrite Et. split; [exact R'|exact Ha'].
    + exists s4, false. split; [reflexivity|]. cbv zeta.
      rewrite (tsl_dead [Incr incr]) by congruence.
      rewrite tsl_dead by congruence. auto.
Qed.

Lemma one_turn_sim fm multi bt start n flag_end s l :
  0 <= n -> RelC s l -> existsb alive l = true ->
  exists s' act', one_turn o fm multi bt start n flag_end true s = Some (s', act')
    /\ let l' := map (ts (if bt then turn_ev_back fm multi start n flag_end
                          else turn_ev fm multi start n flag_end)) l in
       RelC s' l' /\ act' = existsb alive l'.
Proof.
  intros Hn HR Hal. unfold one_turn. destruct bt.
  - set (s1 := if flag_end then k_end_back o s else s).
    set (l1 := map (ts (if flag_end then [EndTurnBack] else [])) l).
    assert (R1 : RelC s1 l1).
    { unfold s1, l1. destruct flag_end; [apply H_end_back; auto|rewrite tsl_nil; auto]. }
    assert (A1 : true = existsb alive l1).
    { unfold l1. destruct flag_end; [|rewrite tsl_nil; auto].
      rewrite existsb_map_same by (intros; apply alive_end_back). auto. }
    destruct (elem_loop_sim (Z.to_nat n) fm multi true start (start + n) (-1) (start + n - 1)
                true s1 l1 eq_refl) as (s2 & act2 & E2 & R2 & A2); auto; try discriminate; [lia|].
    rewrite E2. eexists; eexists; split; [reflexivity|]. cbv zeta.
    unfold turn_ev_back. rewrite !tsl_app. fold l1.
    rewrite (tsl_id (if fm =? 2 then [Mon] else [])) by (destruct (fm =? 2); [apply ts_mon|reflexivity]).
    rewrite (tsl_id (if fm =? 1 then [Mon] else [])) by (destruct (fm =? 1); [apply ts_mon|reflexivity]).
    cbv zeta in R2, A2.
    set (t := flat_map _ _) in R2, A2.
    assert (Et : flat_map (fun k => body_ev fm multi (-1) (start + n - 1 - Z.of_nat k)) (seq 0 (Z.to_nat n)) = t).
    { apply flat_map_ext_in. intros k _. f_equal; lia. }
    rewrite Et. split; [|exact A2]. destruct (fm =? 2), (fm =? 1); auto.
  - set (s1 := if fm =? 1 then k_mon o s else s).
    assert (R1 : RelC s1 l) by (unfold s1; destruct (fm =? 1); auto).
    destruct (elem_loop_sim (Z.to_nat n) fm multi false start (start + n) 1 start
                true s1 l eq_refl) as (s2 & act2 & E2 & R2 & A2); auto; try discriminate; [lia|].
    rewrite E2. cbv zeta in R2, A2.
    set (t := flat_map _ _) in R2, A2.
    assert (Et : flat_map (fun k => body_ev fm multi 1 (start + Z.of_nat k)) (seq 0 (Z.to_nat n)) = t).
    { apply flat_map_ext_in. intros k _. f_equal; lia. }
    set (s3 := if fm =? 2 then k_mon o s2 else s2).
    assert (R3 : RelC s3 (map (ts t) l)) by (unfold s3; destruct (fm =? 2); auto).
    unfold turn_ev. rewrite !tsl_app, Et.
    rewrite (tsl_id (if fm =? 2 then [Mon] else [])) by (destruct (fm =? 2); [apply ts_mon|reflexivity]).
    rewrite (tsl_id (if fm =? 1 then [Mon] else [])) by (destruct (fm =? 1); [apply ts_mon|reflexivity]).
    destruct flag_end.
    + eexists; eexists; split; [reflexivity|]. cbv zeta.
      rewrite existsb_map_same by (intros; apply alive_end). split; [|exact A2].
      destruct act2; [apply H_end; auto|]. rewrite tsl_dead by congruence. exact R3.
    + eexists; eexists; split; [reflexivity|]. cbv zeta. rewrite tsl_nil. auto.
Qed.

Lemma turn_loop_sim (nt : nat) : forall fm multi bt start n flag_end act s l,
  0 <= n -> RelC s l -> act = existsb alive l ->
  exists s', turn_loop o nt fm multi bt start n flag_end act s = Some s'
    /\ RelC s' (map (ts (repeat_l nt (if bt then turn_ev_back fm multi start n flag_end
                          else turn_ev fm multi start n flag_end))) l).
Proof.
  induction nt as [|nt IH]; intros fm multi bt start n flag_end act s l Hn HR Hact.
  - exists s. split; [reflexivity|]. cbn [repeat_l]. now rewrite tsl_nil.
  - cbn [turn_loop]. destruct act; cbn [negb].
    + destruct (one_turn_sim fm multi bt start n flag_end s l Hn HR (eq_sym Hact))
        as (s1 & act1 & E1 & R1 & A1).
      rewrite E1. destruct (IH fm multi bt start n flag_end act1 s1 _ Hn R1 A1) as (s' & E' & R').
      exists s'. split; [exact E'|]. cbn [repeat_l]. now rewrite tsl_app.
    + exists s. split; [reflexivity|]. rewrite tsl_dead by congruence. exact HR.
Qed.

Lemma track_line_sim nt fm multi bt start n flag_end s l :
  0 <= n -> Rel s l ->
  exists s', track_line o nt start n flag_end fm multi bt s = Some s'
    /\ RelC s' (map (ts (call_ev fm multi bt (mkKcall nt start n flag_end))) l).
Proof.
  intros Hn HR. unfold track_line.
  destruct (H_check _ _ HR) as [R1 E1].
  destruct (k_check o s) as [s1 act1]. cbn [fst snd] in *.
  destruct (turn_loop_sim (Z.to_nat nt) fm multi bt start n flag_end act1 s1 l Hn R1 E1)
    as (s' & E & R).
  exists s'. split; [exact E|]. exact R.
Qed.

Hypothesis H_weak : forall s l, RelC s l -> Rel s l.

Lemma run_calls_sim cs : forall fm multi bt s l,
  Forall (fun c => 0 <= kc_n c) cs -> Rel s l ->
  exists s', run_calls o fm multi bt cs s = Some s'
    /\ Rel s' (map (ts (flat_map (call_ev fm multi bt) cs)) l).
Proof.
  induction cs as [|c cs IH]; intros fm multi bt s l Hc HR.
  - exists s. split; [reflexivity|]. cbn [flat_map]. now rewrite tsl_nil.
  - inversion_clear Hc as [|? ? Hn Hc'].
    destruct (track_line_sim (kc_turns c) fm multi bt (kc_start c) (kc_n c) (kc_end c) s l Hn HR)
      as (s1 & E1 & R1).
    cbn [run_calls]. rewrite E1.
    destruct (IH fm multi bt s1 _ Hc' (H_weak _ _ R1)) as (s' & E' & R').
    exists s'. split; [exact E'|]. cbn [flat_map]. rewrite tsl_app. destruct c; exact R'.
Qed.

Lemma run_calls_simC c cs fm multi bt s l :
  Forall (fun c => 0 <= kc_n c) (c :: cs) -> Rel s l ->
  exists s', run_calls o fm multi bt (c :: cs) s = Some s'
    /\ RelC s' (map (ts (flat_map (call_ev fm multi bt) (c :: cs))) l).
Proof.
  revert c s l. induction cs as [|c' cs IH]; intros c s l Hc HR.
  - inversion_clear Hc as [|? ? Hn Hc'].
    destruct (track_line_sim (kc_turns c) fm multi bt (kc_start c) (kc_n c) (kc_end c) s l Hn HR)
      as (s1 & E1 & R1).
    exists s1. cbn [run_calls]. rewrite E1. split; [reflexivity|].
    cbn [flat_map]. rewrite app_nil_r. destruct c; exact R1.
  - inversion_clear Hc as [|? ? Hn Hc'].
    destruct (track_line_sim (kc_turns c) fm multi bt (kc_start c) (kc_n c) (kc_end c) s l Hn HR)
      as (s1 & E1 & R1).
    destruct (IH c' s1 _ Hc' (H_weak _ _ R1)) as (s' & E' & R').
    exists s'. split.
    + cbn [run_calls] in *. rewrite E1. exact E'.
    + change (flat_map (call_ev fm multi bt) (c :: c' :: cs)) with
        (call_ev fm multi bt c ++ flat_map (call_ev fm multi bt) (c' :: cs)).
      rewrite tsl_app. destruct c; exact R'.
Qed.

Lemma no_collective_sim L' skip_end spte fm multi bt a t s l :
  0 <= L' -> Rel s l ->
  events_no_collective L' skip_end spte fm multi bt a = Some t ->
  exists s', track_no_collective o L' skip_end spte fm multi bt a s = Some s'
    /\ RelC s' (map (ts t) l).
Proof.
  intros HL HR Ht. unfold track_no_collective.
  destruct (plan_no_collective L' skip_end spte a) as [cs|] eqn:E.
  2:{ unfold events_no_collective, track_no_collective in Ht. rewrite E in Ht. discriminate. }
  pose proof (plan_nonneg _ _ _ _ _ HL E) as Hn.
  erewrite events_of_plan in Ht by eauto. injection Ht as <-.
  destruct cs as [|c cs].
  - exfalso. unfold plan_no_collective in E.
    destruct (resolve_start L' spte (a_start a)); [|discriminate].
    destruct (split_turns L' z a) as [[[? ?] ?]|]; [|discriminate].
    destruct (negb _); [discriminate|]. discriminate.
  - apply run_calls_simC; auto.
Qed.
End Sim.

(** * Instances *)
Section Inst.
Context {C : Type}.
Variable eff : Z -> part C -> part C.
Variables rs rsb : C -> C.
Variable L : Z.
Notation ts := (track_single eff rs rsb L).

Lemma ts_alive e p : alive p = true -> ts [e] p =
  match e with Mon | Multi => p | Ele i => eff i p | Incr k => p_incr k p
             | EndTurn => p_end rs p | EndTurnBack => p_end_back rsb L p end.
Proof. intros H. cbn. unfold particle_event, alive in *. rewrite H. reflexivity. Qed.

Lemma map_ts_dead t (l : list (part C)) : Forall (fun p => alive p = false) l -> map (ts t) l = l.
Proof. induction 1; cbn; [reflexivity|]. rewrite ts_dead by assumption. now f_equal. Qed.

(** ** GPU: one particle *)
Definition rel_gpu (p : part C) (l : list (part C)) : Prop := l = [p].

Lemma gpu_sim L' skip_end spte fm multi bt a t p :
  0 <= L' ->
  events_no_collective L' skip_end spte fm multi bt a = Some t ->
  track_no_collective (gpu_ops eff rs rsb L) L' skip_end spte fm multi bt a p = Some (ts t p).
Proof.
  intros HL Ht.
  assert (Hal : forall q (l : list (part C)), rel_gpu q l -> existsb alive l = true -> alive q = true).
  { intros q l -> H. cbn in H. now rewrite orb_false_r in H. }
  destruct (no_collective_sim eff rs rsb L (gpu_ops eff rs rsb L) rel_gpu rel_gpu)
    with (L' := L') (skip_end := skip_end) (spte := spte) (fm := fm) (multi := multi) (bt := bt)
         (a := a) (t := t) (s := p) (l := [p]) as (s' & E & R); auto.
  - intros s l ->. split; [reflexivity|]. cbn. now rewrite orb_false_r.
  - intros i s l R Ha. pose proof (Hal _ _ R Ha) as H. rewrite R. cbn [map]. now rewrite ts_alive.
  - intros i s l R Ha. pose proof (Hal _ _ R Ha) as H. rewrite R. cbn [map]. now rewrite ts_alive.
  - intros s l R Ha. pose proof (Hal _ _ R Ha) as H. rewrite R. cbn [map]. now rewrite ts_alive.
  - intros s l R Ha. pose proof (Hal _ _ R Ha) as H. rewrite R. cbn [map]. now rewrite ts_alive.
  - reflexivity.
  - rewrite E. cbn [map] in R. unfold rel_gpu in R. congruence.
Qed.

(** ** Serial *)
Definition rel_serial (K : nat) (U : list (part C)) (s : option (arr C)) (l : list (part C)) : Prop :=
  exists M D nl, s = Some (mkArr (M ++ D ++ U) (length M) nl)
    /\ Forall (fun p => alive p = false) D /\ Permutation (M ++ D) l
    /\ (length M + nl = K)%nat.
Definition relc_serial (K : nat) (U : list (part C)) (s : option (arr C)) (l : list (part C)) : Prop :=
  exists M D nl, s = Some (mkArr (M ++ D ++ U) (length M) nl)
    /\ Forall (fun p => alive p = true) M
    /\ Forall (fun p => alive p = false) D /\ Permutation (M ++ D) l
    /\ (length M + nl = K)%nat.

Lemma map_active_app (f : part C -> part C) M D nl :
  map_active f (mkArr (M ++ D) (length M) nl) = mkArr (map f M ++ D) (length M) nl.
Proof.
  unfold map_active. cbn [a_parts a_nact a_nlost].
  rewrite firstn_app, Nat.sub_diag, firstn_O, app_nil_r, firstn_all.
  rewrite skipn_app, Nat.sub_diag, skipn_O, skipn_all. reflexivity.
Qed.

Lemma map_alive_eq (f g : part C -> part C) M :
  Forall (fun p => alive p = true) M -> (forall p, alive p = true -> f p = g p) -> map f M = map g M.
Proof. induction 1; cbn; intros Hfg; [reflexivity|]. rewrite Hfg by assumption. f_equal; auto. Qed.

Lemma serial_act_step K U f e s l :
  (forall p, alive p = true -> f p = ts [e] p) ->
  relc_serial K U s l -> rel_serial K U (lift (map_active f) s) (map (ts [e]) l).
Proof.
  intros Hf (M & D & nl & -> & HM & HD & P & HK).
  exists (map f M), D, nl. repeat split; auto.
  - unfold lift. cbn [option_map]. rewrite map_active_app. now rewrite map_length.
  - rewrite <- P, map_app, (map_ts_dead _ D) by assumption.
    now rewrite (map_alive_eq f (ts [e])).
  - now rewrite map_length.
Qed.

Lemma serial_act_stepC K U f e s l :
  (forall p, alive p = true -> f p = ts [e] p) -> (forall p, alive (f p) = alive p) ->
  relc_serial K U s l -> relc_serial K U (lift (map_active f) s) (map (ts [e]) l).
Proof.
  intros Hf Hal (M & D & nl & -> & HM & HD & P & HK).
  exists (map f M), D, nl. repeat split; auto.
  - unfold lift. cbn [option_map]. rewrite map_active_app. now rewrite map_length.
  - apply Forall_map. eapply Forall_impl; [|exact HM]. intros p Hp. cbn. now rewrite Hal.
  - rewrite <- P, map_app, (map_ts_dead _ D) by assumption.
    now rewrite (map_alive_eq f (ts [e])).
  - now rewrite map_length.
Qed.

Lemma serial_sim K U L' skip_end spte fm multi bt a t s l :
  0 <= L' -> rel_serial K U s l ->
  events_no_collective L' skip_end spte fm multi bt a = Some t ->
  exists s', track_no_collective (serial_ops eff rs rsb L) L' skip_end spte fm multi bt a s = Some s'
    /\ relc_serial K U s' (map (ts t) l).
Proof.
  intros HL HR Ht.
  eapply (no_collective_sim eff rs rsb L (serial_ops eff rs rsb L) (rel_serial K U) (relc_serial K U));
    eauto.
  - clear. intros s l (M & D & nl & -> & HD & P & HK).
    cbn [serial_ops k_check].
    destruct (check_active_serial_ok M (D ++ U) nl) as (A' & M' & E & P' & HA & HM).
    rewrite E. cbn [fst snd]. split.
    + exists A', (M' ++ D), (nl + length M')%nat. repeat split; auto.
      * now rewrite <- !app_assoc.
      * apply Forall_app; auto.
      * now rewrite <- P, P', <- app_assoc.
      * apply Permutation_length in P'. rewrite app_length in P'. lia.
    + rewrite <- (existsb_perm _ _ _ P), existsb_app, (existsb_dead D) by assumption.
      now rewrite orb_false_r.
  - intros i s0 l0 R _. cbn [serial_ops k_ele]. apply serial_act_step; auto.
    intros p Hp. now rewrite ts_alive.
  - intros i s0 l0 R _. cbn [serial_ops k_incr]. apply serial_act_stepC; auto.
    intros p Hp. now rewrite ts_alive.
  - intros s0 l0 R _. cbn [serial_ops k_end]. apply serial_act_stepC; auto.
    intros p Hp. now rewrite ts_alive.
  - intros s0 l0 R _. cbn [serial_ops k_end_back]. apply serial_act_stepC; auto.
    intros p Hp. now rewrite ts_alive.
  - intros s0 l0 (M & D & nl & R). exists M, D, nl. tauto.
Qed.

(** ** OpenMP: one chunk *)
Definition rel_omp (s : option (list (part C))) (l : list (part C)) : Prop :=
  exists c, s = Some c /\ Permutation c l.

Lemma omp_act_step f e s l :
  (forall p, alive p = true -> f p = ts [e] p) ->
  rel_omp s l -> rel_omp (liftl (map_alive f) s) (map (ts [e]) l).
Proof.
  intros Hf (c & -> & P). exists (map_alive f c). split; [reflexivity|].
  rewrite <- P. unfold map_alive. erewrite map_ext; [reflexivity|]. intros p.
  destruct (alive p) eqn:E; [now apply Hf|]. now rewrite ts_dead.
Qed.

Lemma omp_chunk_sim nt fm multi bt start n flag_end c :
  0 <= n ->
  exists c', track_line (omp_ops eff rs rsb L) nt start n flag_end fm multi bt (Some c) = Some (Some c')
    /\ Permutation c' (map (ts (call_ev fm multi bt (mkKcall nt start n flag_end))) c).
Proof.
  intros Hn.
  destruct (track_line_sim eff rs rsb L (omp_ops eff rs rsb L) rel_omp rel_omp)
    with (nt := nt) (start := start) (n := n) (flag_end := flag_end) (fm := fm) (multi := multi)
         (bt := bt) (s := Some c) (l := c) as (s' & E & (c' & -> & P)); auto.
  - clear. intros s l (c & -> & P). cbn [omp_ops k_check].
    destruct (check_active_omp_ok c [] (Forall_nil _)) as (A' & M' & E & P' & HA & HM).
    rewrite !app_nil_r in E. rewrite E. cbn [fst snd]. split.
    + exists (A' ++ M'). split; [reflexivity|]. now rewrite <- P'.
    + now apply existsb_perm.
  - intros i s l R _. apply omp_act_step; auto. intros p Hp. now rewrite ts_alive.
  - intros i s l R _. apply omp_act_step; auto. intros p Hp. now rewrite ts_alive.
  - intros s l R _. apply omp_act_step; auto. intros p Hp. now rewrite ts_alive.
  - intros s l R _. apply omp_act_step; auto. intros p Hp. now rewrite ts_alive.
  - exists c. auto.
  - exists c'. auto.
Qed.

Lemma chunks_concat {A} (n sz : nat) : forall l : list A, (length l <= n * sz)%nat ->
  concat (chunks n sz l) = l.
Proof.
  induction n as [|n IH]; intros l H; cbn [chunks concat].
  - destruct l; cbn in *; [reflexivity|lia].
  - rewrite IH; [apply firstn_skipn|]. rewrite skipn_length. lia.
Qed.

Lemma all_chunks nt fm multi bt start n flag_end cs : 0 <= n ->
  exists rs', all_some (map (fun c => match track_line (omp_ops eff rs rsb L) nt start n flag_end fm multi bt (Some c) with
                     | Some r => r | None => None end) cs) = Some rs'
   /\ Permutation (concat rs') (map (ts (call_ev fm multi bt (mkKcall nt start n flag_end))) (concat cs)).
Proof.
  intros Hn. induction cs as [|c cs (r & E & P)].
  - exists []. split; reflexivity.
  - destruct (omp_chunk_sim nt fm multi bt start n flag_end c Hn) as (c' & E' & P').
    exists (c' :: r). split.
    + cbn [map all_some]. rewrite E', E. reflexivity.
    + cbn [concat]. rewrite map_app. now apply Permutation_app.
Qed.

Lemma count_reorganized_ok (A M U : list (part C)) : forall na nl,
  Forall (fun p => alive p = true) A -> Forall (fun p => alive p = false) M ->
  Forall (fun p => allocated p = true) M -> Forall (fun p => allocated p = false) U ->
  count_reorganized (A ++ M ++ U) na nl = (na + length A, nl + length M)%nat.
Proof.
  intros na nl HA HM HM' HU. revert na nl. induction HA as [|p A Hp HA IH]; intros na nl.
  - cbn [app length]. revert nl. induction M as [|p M IHM]; intros nl.
    + cbn [app length]. destruct U as [|u U]; cbn [count_reorganized].
      * f_equal; lia.
      * inversion_clear HU as [|? ? Hu _]. unfold allocated in Hu.
        replace (p_state u <=? LAST_INVALID_STATE) with true by lia. f_equal; lia.
    + inversion_clear HM as [|? ? Hd HMd]. inversion_clear HM' as [|? ? Ha HMa].
      cbn [app count_reorganized length]. unfold allocated, alive in Ha, Hd.
      replace (p_state p <=? LAST_INVALID_STATE) with false by lia. rewrite Hd.
      rewrite IHM by assumption. f_equal; lia.
  - cbn [app count_reorganized length]. unfold alive in Hp.
    replace (p_state p <=? LAST_INVALID_STATE) with false by (unfold LAST_INVALID_STATE; lia).
    rewrite Hp. rewrite IH. f_equal; lia.
Qed.

Lemma unalloc_dead (l : list (part C)) :
  Forall (fun p => allocated p = false) l -> Forall (fun p => alive p = false) l.
Proof.
  apply Forall_impl. intros p. unfold allocated, alive, LAST_INVALID_STATE. lia.
Qed.

(** [ts] keeps the particles allocated if the elements do. *)
Lemma ts_allocated t : (forall i p, alive p = true -> allocated (eff i p) = true) ->
  forall p, allocated p = true -> allocated (ts t p) = true.
Proof.
  intros He. unfold track_single. induction t as [|e t IH]; intros p Hp; [exact Hp|].
  cbn [fold_left]. apply IH. unfold particle_event. destruct (0 <? p_state p) eqn:E; [|exact Hp].
  destruct e; auto.
Qed.

Lemma omp_sim nthreads nt bt start n flag_end (l U : list (part C)) (nact : nat) :
  (forall i p, alive p = true -> allocated (eff i p) = true) ->
  0 <= n -> (0 < nthreads)%nat ->
  Forall (fun p => allocated p = true) l ->
  Forall (fun p => allocated p = false) U ->
  (length (filter alive l) <= nact <= length l)%nat ->
  exists A M,
    track_line_omp eff rs rsb L nthreads nt start n flag_end bt (l ++ U) nact
    = Some (A ++ M ++ U, (length A, length M))
    /\ Forall (fun p => alive p = true) A /\ Forall (fun p => alive p = false) M
    /\ Permutation (A ++ M) (map (ts (call_ev 0 false bt (mkKcall nt start n flag_end))) l).
Proof.
  intros He Hn Hth Hl HU Hna. unfold track_line_omp.
  destruct (check_active_omp_ok l U (unalloc_dead U HU)) as (A0 & M0 & E0 & P0 & HA0 & HM0).
  rewrite E0. set (t := call_ev _ _ _ _).
  assert (Hlen : length l = (length A0 + length M0)%nat)
    by (apply Permutation_length in P0; rewrite app_length in P0; lia).
  assert (Hfa : forall X : list (part C), Forall (fun p => alive p = true) X -> filter alive X = X).
  { induction 1; cbn; [reflexivity|]. rewrite H. now f_equal. }
  assert (Hfd : forall X : list (part C), Forall (fun p => alive p = false) X -> filter alive X = []).
  { induction 1; cbn; [reflexivity|]. now rewrite H. }
  assert (Hfil : length (filter alive l) = length A0).
  { assert (HP : Permutation (filter alive l) (filter alive (A0 ++ M0))).
    { clear - P0. induction P0; cbn; auto.
      - destruct (alive x); auto.
      - destruct (alive x), (alive y); auto. apply perm_swap.
      - etransitivity; eauto. }
    apply Permutation_length in HP. rewrite HP, filter_app, Hfa, Hfd, app_nil_r; auto. }
  (* the part of the lost particles within the chunks *)
  assert (Hsp : exists M1 M2, M0 = M1 ++ M2 /\ firstn nact (A0 ++ M0 ++ U) = A0 ++ M1
                 /\ skipn nact (A0 ++ M0 ++ U) = M2 ++ U).
  { exists (firstn (nact - length A0) M0), (skipn (nact - length A0) M0).
    split; [symmetry; apply firstn_skipn|].
    rewrite !firstn_app, !skipn_app.
    replace (nact - length A0 - length M0)%nat with 0%nat by lia.
    cbn [firstn skipn]. rewrite app_nil_r.
    rewrite (firstn_all2 A0) by lia. rewrite (skipn_all2 A0) by lia. cbn [app]. auto. }
  destruct Hsp as (M1 & M2 & EM & Ef & Es). rewrite Ef, Es.
  set (sz := ((nact + nthreads - 1) / nthreads)%nat).
  assert (Hlw : length (A0 ++ M1) = nact).
  { rewrite <- Ef, firstn_length, !app_length. lia. }
  assert (Hsz : (nact <= nthreads * sz)%nat).
  { unfold sz. pose proof (Nat.div_mod (nact + nthreads - 1) nthreads ltac:(lia)).
    pose proof (Nat.mod_upper_bound (nact + nthreads - 1) nthreads ltac:(lia)). lia. }
  destruct (all_chunks nt 0 false bt start n flag_end (chunks nthreads sz (A0 ++ M1)) Hn)
    as (rs' & Er & Pr).
  rewrite Er. rewrite chunks_concat in Pr by lia. fold t in Pr.
  rewrite app_assoc.
  destruct (check_active_omp_ok (concat rs' ++ M2) U (unalloc_dead U HU)) as (A & M & E & P & HA & HM).
  rewrite E. exists A, M.
  assert (HP : Permutation (A ++ M) (map (ts t) l)).
  { rewrite <- P, Pr. rewrite EM in HM0, P0. apply Forall_app in HM0. destruct HM0 as [_ HM2].
    rewrite <- (map_ts_dead t M2 HM2) at 1. rewrite <- map_app, <- app_assoc.
    apply Permutation_map. now symmetry. }
  repeat split; auto. f_equal. f_equal.
  assert (Hal : Forall (fun p => allocated p = true) (A ++ M)).
  { rewrite HP. apply Forall_map. eapply Forall_impl; [|exact Hl]. intros p Hp.
    now apply ts_allocated. }
  apply Forall_app in Hal. rewrite count_reorganized_ok; [reflexivity|tauto..].
Qed.
End Inst.
