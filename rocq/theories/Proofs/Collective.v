From Coq Require Import ZArith List Bool Lia ZifyBool.
From Verif.Model Require Import Kernel Collective.
From Verif.Spec Require Import Kernel.
From Verif.Proofs Require Import Kernel.
Import ListNotations.
Local Open Scope Z_scope.

(** ** The splitting in parts *)
Fixpoint contiguous (ps : list cpart) (a b : Z) : Prop :=
  match ps with
  | [] => a = b
  | PCol i :: ps' => i = a /\ contiguous ps' (a + 1) b
  | PNon lo hi :: ps' => lo = a /\ a < hi /\ contiguous ps' hi b
  end.

Definition part_n (p : cpart) : nat := match p with PCol _ => 1%nat | PNon lo hi => Z.to_nat (hi - lo) end.
Definition part_idx (p : cpart) : list (option Z) :=
  match p with PCol _ => [None]
  | PNon lo hi => map (fun k => Some (Z.of_nat k)) (seq 0 (Z.to_nat (hi - lo))) end.

Fixpoint ep_of (ps : list cpart) (k : nat) : list nat :=
  match ps with [] => [] | p :: ps' => repeat k (part_n p) ++ ep_of ps' (S k) end.
Definition ei_of (ps : list cpart) : list (option Z) := flat_map part_idx ps.

Lemma ep_of_app p1 p2 : forall k, ep_of (p1 ++ p2) k = ep_of p1 k ++ ep_of p2 (k + length p1).
Proof.
  induction p1 as [|p p1 IH]; intros k; cbn [app ep_of length].
  - now rewrite Nat.add_0_r.
  - rewrite IH, <- app_assoc. replace (S k + length p1)%nat with (k + S (length p1))%nat by lia.
    reflexivity.
Qed.

Lemma contiguous_app p1 p2 : forall a c,
  contiguous (p1 ++ p2) a c <-> exists b, contiguous p1 a b /\ contiguous p2 b c.
Proof.
  induction p1 as [|[i|lo hi] p1 IH]; intros a c; cbn [app contiguous].
  - split; [eauto|]. intros (b & -> & H). exact H.
  - rewrite IH. split; [intros (-> & b & H)|intros (b & (-> & H1) & H2)]; eauto.
    exists b. tauto.
  - rewrite IH. split; [intros (-> & Hl & b & H)|intros (b & (-> & Hl & H1) & H2)]; eauto.
    exists b. tauto.
Qed.

Lemma contiguous_le ps : forall a b, contiguous ps a b -> a <= b.
Proof.
  induction ps as [|[i|lo hi] ps IH]; cbn [contiguous]; intros a b H.
  - lia.
  - destruct H as [_ H]. apply IH in H. lia.
  - destruct H as (_ & Hl & H). apply IH in H. lia.
Qed.

Lemma ep_of_length ps : forall a b k, contiguous ps a b -> Z.of_nat (length (ep_of ps k)) = b - a.
Proof.
  induction ps as [|[i|lo hi] ps IH]; cbn [contiguous ep_of part_n]; intros a b k H.
  - cbn. lia.
  - destruct H as [_ H]. rewrite app_length, repeat_length. apply IH with (k := S k) in H. lia.
  - destruct H as (-> & Hl & H). rewrite app_length, repeat_length. apply IH with (k := S k) in H. lia.
Qed.

Lemma ei_of_length ps : forall a b, contiguous ps a b -> Z.of_nat (length (ei_of ps)) = b - a.
Proof.
  induction ps as [|[i|lo hi] ps IH]; cbn [contiguous ei_of flat_map part_idx]; intros a b H.
  - cbn. lia.
  - destruct H as [_ H]. apply IH in H. cbn [app length]. unfold ei_of in H. lia.
  - destruct H as (-> & Hl & H). rewrite app_length, map_length, seq_length.
    apply IH in H. unfold ei_of in H. lia.
Qed.

Definition split_inv (st : split_st) : Prop :=
  contiguous (sp_parts st) 0 (sp_lo st) /\ 0 <= sp_n st /\ sp_idx st = sp_lo st + sp_n st
  /\ sp_ipart st = length (sp_parts st)
  /\ sp_ep st = ep_of (sp_parts st) 0 ++ repeat (sp_ipart st) (Z.to_nat (sp_n st))
  /\ sp_ei st = ei_of (sp_parts st) ++ map (fun k => Some (Z.of_nat k)) (seq 0 (Z.to_nat (sp_n st))).

Lemma split_step_inv st c : split_inv st ->
  split_inv (split_step st c) /\ sp_idx (split_step st c) = sp_idx st + 1.
Proof.
  intros (Hc & Hn & Hi & Hp & He & Hx). unfold split_step. destruct c; cbn [negb].
  - destruct (0 <? sp_n st) eqn:E; (split; [|reflexivity]); unfold split_inv;
      cbn [sp_parts sp_ep sp_ei sp_lo sp_n sp_ipart sp_idx].
    + repeat split; try lia.
      * apply contiguous_app. exists (sp_lo st + sp_n st). split.
        -- apply contiguous_app. exists (sp_lo st). split; [assumption|]. cbn [contiguous].
           repeat split; lia.
        -- cbn [contiguous]. split; lia.
      * rewrite !app_length. cbn [length]. lia.
      * rewrite !ep_of_app, He, Hp. cbn [ep_of part_n length Nat.add].
        rewrite !app_nil_r, <- !app_assoc. rewrite !app_length. cbn [length app repeat].
        replace (sp_lo st + sp_n st - sp_lo st) with (sp_n st) by lia.
        f_equal. f_equal. f_equal. lia.
      * rewrite Hx. unfold ei_of. rewrite !flat_map_app. cbn [flat_map part_idx].
        rewrite !app_nil_r, <- !app_assoc.
        replace (sp_lo st + sp_n st - sp_lo st) with (sp_n st) by lia. reflexivity.
    + replace (sp_n st) with 0 in * by lia. repeat split; try lia.
      * apply contiguous_app. exists (sp_lo st). split; [assumption|]. cbn [contiguous].
        split; lia.
      * rewrite app_length. cbn [length]. lia.
      * rewrite ep_of_app, He, Hp. cbn [ep_of part_n length Nat.add repeat Z.to_nat].
        now rewrite !app_nil_r.
      * rewrite Hx. unfold ei_of. rewrite !flat_map_app. cbn [flat_map part_idx Z.to_nat seq map].
        now rewrite !app_nil_r.
  - split; [|reflexivity]. unfold split_inv.
    cbn [sp_parts sp_ep sp_ei sp_lo sp_n sp_ipart sp_idx].
    replace (Z.to_nat (sp_n st + 1)) with (S (Z.to_nat (sp_n st))) by lia.
    repeat split; try lia; try assumption.
    + rewrite He. cbn [repeat]. rewrite repeat_cons. now rewrite app_assoc.
    + rewrite Hx, seq_S, map_app. cbn [map Nat.add]. rewrite app_assoc. rewrite Z2Nat.id by lia. reflexivity.
Qed.

Lemma split_fold_inv coll : forall st, split_inv st ->
  split_inv (fold_left split_step coll st)
  /\ sp_idx (fold_left split_step coll st) = sp_idx st + Z.of_nat (length coll).
Proof.
  induction coll as [|c coll IH]; intros st H; cbn [fold_left length].
  - split; [exact H|lia].
  - destruct (split_step_inv st c H) as [H1 H2]. destruct (IH _ H1) as [H3 H4].
    split; [exact H3|]. rewrite H4, H2. lia.
Qed.

Lemma split_parts_ok coll : exists parts,
  split_parts coll = (parts, ep_of parts 0, ei_of parts)
  /\ contiguous parts 0 (Z.of_nat (length coll)).
Proof.
  destruct (split_fold_inv coll (mkSplit [] [] [] 0 0 0 0)) as [(Hc & Hn & Hi & Hp & He & Hx) Hl].
  { unfold split_inv; cbn. repeat split; lia. }
  unfold split_parts. set (st := fold_left _ _ _) in *. cbn [sp_idx] in Hl.
  destruct (0 <? sp_n st) eqn:E.
  - eexists. split.
    + f_equal; [f_equal|].
      * rewrite He, ep_of_app. cbn [ep_of part_n Nat.add]. rewrite app_nil_r, Hp.
        replace (sp_lo st + sp_n st - sp_lo st) with (sp_n st) by lia. reflexivity.
      * rewrite Hx. unfold ei_of. rewrite flat_map_app. cbn [flat_map part_idx].
        rewrite app_nil_r.
        replace (sp_lo st + sp_n st - sp_lo st) with (sp_n st) by lia. reflexivity.
    + apply contiguous_app. exists (sp_lo st). split; [assumption|]. cbn [contiguous].
      repeat split; lia.
  - replace (sp_n st) with 0 in * by lia. exists (sp_parts st). split.
    + rewrite He, Hx. cbn [Z.to_nat repeat seq map]. now rewrite !app_nil_r.
    + replace (Z.of_nat (length coll)) with (sp_lo st) by lia. exact Hc.
Qed.

(** Look up of the part of an element. *)
Lemma ep_lookup P1 p P2 a b c e :
  contiguous P1 0 a -> contiguous [p] a b -> contiguous P2 b c -> 0 <= e < c ->
  let k := nth (Z.to_nat e) (ep_of (P1 ++ p :: P2) 0) 0%nat in
  (e < a -> (k < length P1)%nat) /\ (a <= e < b -> k = length P1) /\ (b <= e -> (length P1 < k)%nat).
Proof.
  intros H1 Hp H2 He k. unfold k. clear k.
  assert (Hin : forall ps k0 n, (n < length (ep_of ps k0))%nat ->
            (k0 <= nth n (ep_of ps k0) 0 < k0 + length ps)%nat).
  { induction ps as [|q ps IH]; intros k0 n Hn; [cbn in Hn; lia|].
    cbn [ep_of length] in *. rewrite app_length, repeat_length in Hn.
    destruct (Nat.ltb_spec n (part_n q)).
    - rewrite app_nth1 by now rewrite repeat_length.
      rewrite (nth_indep _ 0%nat k0) by now rewrite repeat_length.
      rewrite nth_repeat. lia.
    - rewrite app_nth2; rewrite repeat_length; [|lia].
      specialize (IH (S k0) (n - part_n q)%nat). lia. }
  rewrite ep_of_app. cbn [ep_of Nat.add].
  pose proof (ep_of_length P1 0 a 0 H1) as L1.
  pose proof (ep_of_length P2 b c (S (length P1)) H2) as L2.
  pose proof (contiguous_le _ _ _ H1).
  assert (Ln : Z.of_nat (part_n p) = b - a).
  { pose proof (ep_of_length [p] a b 0 Hp) as Lp. cbn [ep_of] in Lp.
    rewrite app_nil_r, repeat_length in Lp. lia. }
  repeat split; intros Hx.
  - rewrite app_nth1 by lia. specialize (Hin P1 0%nat (Z.to_nat e)). lia.
  - rewrite app_nth2 by lia. rewrite app_nth1 by (rewrite repeat_length; lia).
    rewrite (nth_indep _ 0%nat (length P1)) by (rewrite repeat_length; lia).
    apply nth_repeat.
  - rewrite app_nth2 by lia. rewrite app_nth2 by (rewrite repeat_length; lia).
    rewrite repeat_length.
    specialize (Hin P2 (S (length P1)) (Z.to_nat e - length (ep_of P1 0) - part_n p)%nat). lia.
Qed.

Lemma ei_lookup P1 p P2 a b c e :
  contiguous P1 0 a -> contiguous [p] a b -> contiguous P2 b c -> a <= e < b ->
  nth (Z.to_nat e) (ei_of (P1 ++ p :: P2)) None
  = match p with PCol _ => None | PNon _ _ => Some (e - a) end.
Proof.
  intros H1 Hp H2 He. unfold ei_of. rewrite flat_map_app. cbn [flat_map].
  pose proof (ei_of_length P1 0 a H1) as L1. unfold ei_of in L1.
  pose proof (contiguous_le _ _ _ H1).
  rewrite app_nth2 by lia. destruct p as [i|lo hi]; cbn [contiguous part_idx] in *.
  - destruct Hp as [-> <-]. replace (Z.to_nat e - _)%nat with 0%nat by lia. reflexivity.
  - destruct Hp as (-> & Hlt & <-).
    rewrite app_nth1 by (rewrite map_length, seq_length; lia).
    set (m := (Z.to_nat e - _)%nat).
    rewrite (nth_indep _ None (Some (Z.of_nat 0))) by (rewrite map_length, seq_length; lia).
    rewrite (map_nth (fun k => Some (Z.of_nat k))), seq_nth by lia. f_equal. lia.
Qed.

(** ** Events of the parts *)
Definition nm (t : list ev) : list ev := filter not_monitor t.
Definition evs (x y : Z) : list ev :=
  flat_map (fun k => [Ele (x + Z.of_nat k); Incr 1]) (seq 0 (Z.to_nat (y - x))).

Lemma nm_app a b : nm (a ++ b) = nm a ++ nm b.
Proof. apply filter_app. Qed.

Lemma evs_split x y z : x <= y -> y <= z -> evs x z = evs x y ++ evs y z.
Proof.
  intros H1 H2. unfold evs.
  replace (Z.to_nat (z - x)) with (Z.to_nat (y - x) + Z.to_nat (z - y))%nat by lia.
  rewrite flat_map_seq_split. f_equal. apply flat_map_ext_in. intros k _.
  replace (x + Z.of_nat (Z.to_nat (y - x) + k)) with (y + Z.of_nat k) by lia. reflexivity.
Qed.

Lemma evs_empty x y : y <= x -> evs x y = [].
Proof. intros H. unfold evs. now replace (Z.to_nat (y - x)) with 0%nat by lia. Qed.

Lemma evs_one x : evs x (x + 1) = [Ele x; Incr 1].
Proof.
  unfold evs. replace (Z.to_nat (x + 1 - x)) with 1%nat by lia. cbn [seq flat_map app].
  replace (x + Z.of_nat 0) with x by lia. reflexivity.
Qed.

Lemma nm_turn fm multi x n e : 0 <= n ->
  nm (turn_ev fm multi x n e) = evs x (x + n) ++ (if e then [EndTurn] else []).
Proof.
  intros Hn. unfold turn_ev. rewrite !nm_app.
  replace (nm (if fm =? 1 then [Mon] else [])) with (@nil ev) by now destruct (fm =? 1).
  replace (nm (if fm =? 2 then [Mon] else [])) with (@nil ev) by now destruct (fm =? 2).
  replace (nm (if e then [EndTurn] else [])) with (if e then [EndTurn] else []) by now destruct e.
  cbn [app]. f_equal. unfold evs. replace (x + n - x) with n by lia.
  induction (seq 0 (Z.to_nat n)) as [|k l IH]; [reflexivity|].
  cbn [flat_map]. rewrite nm_app, IH. f_equal. unfold body_ev. rewrite !nm_app.
  destruct (fm =? 2), multi; reflexivity.
Qed.

Lemma nm_window L i c fm multi ends :
  nm (window_events L i c fm multi ends) = window_events L i c 0 false ends.
Proof.
  unfold window_events. induction (seq 0 (Z.to_nat c)) as [|k l IH]; [reflexivity|].
  cbn [flat_map]. rewrite nm_app, IH. f_equal. unfold position_events.
  destruct (fm =? 1), (fm =? 2), multi, ends, (Z.of_nat k =? 0), (Z.of_nat k =? c - 1),
    ((i + Z.of_nat k) mod L =? 0), ((i + Z.of_nat k + 1) mod L =? 0); reflexivity.
Qed.

(** A call of [_track_no_collective] on elements [x, x+n). *)
Lemma part_events L fm multi x n s : 0 <= x -> 0 <= n -> x + n <= L ->
  exists t, track_no_collective ev_ops L true (-1) fm multi false
              (mkTargs (Some x) None (Some n) None) s = Some (rev t ++ s)
  /\ nm t = evs x (x + n).
Proof.
  intros Hx Hn HL.
  assert (E : events_no_collective L true (-1) fm multi false (mkTargs (Some x) None (Some n) None)
              = Some (turn_ev fm multi x n false)).
  { erewrite events_of_plan; [|lia|].
    2:{ unfold plan_no_collective. cbn [a_start]. rewrite (resolve_start_some L (Some x) x) by lia.
        unfold split_turns. cbn [a_nele a_stop a_turns].
        replace (negb (0 <=? n)) with false by lia. replace (n + x <=? L) with true by lia.
        replace (negb (0 <=? n)) with false by lia. reflexivity. }
    change (0 <? 0) with false. cbn [app flat_map]. rewrite app_nil_r. unfold call_ev.
    cbn [kc_turns kc_start kc_n kc_end]. change (Z.to_nat 1) with 1%nat. now rewrite repeat_l_1. }
  exists (turn_ev fm multi x n false). split.
  - apply track_ev_app; [lia|exact E].
  - rewrite nm_turn by assumption. apply app_nil_r.
Qed.

Lemma end_turn_events L skip_end fm stop s : 0 <= L ->
  exists t, end_turn ev_ops L skip_end fm stop s = Some (rev t ++ s)
  /\ nm t = if skip_end then [] else [EndTurn].
Proof.
  intros HL. unfold end_turn.
  match goal with |- context [track_no_collective _ _ _ _ _ _ _ _ ?x] => set (s1 := x) end.
  assert (E : events_no_collective L skip_end (-1) 0 false false (mkTargs (Some L) None (Some 0) None)
              = Some (if skip_end then [] else [EndTurn])).
  { erewrite events_of_plan; [|lia|].
    2:{ unfold plan_no_collective. cbn [a_start]. rewrite (resolve_start_some L (Some L) L) by lia.
        unfold split_turns. cbn [a_nele a_stop a_turns].
        change (negb (0 <=? 0)) with false. replace (0 + L <=? L) with true by lia. reflexivity. }
    change (0 <? 0) with false. cbn [app flat_map]. unfold call_ev.
    cbn [kc_turns kc_start kc_n kc_end]. change (Z.to_nat 1) with 1%nat. rewrite repeat_l_1.
    replace (0 + L =? L) with true by lia. destruct skip_end; reflexivity. }
  assert (E2 := track_ev_app L skip_end (-1) 0 false false _ s1 _ HL E).
  exists ((if (fm =? 2) && match stop with Some j => j =? L | None => true end then [Mon] else [])
          ++ (if skip_end then [] else [EndTurn])).
  split.
  - rewrite E2. f_equal. rewrite rev_app_distr, <- app_assoc. f_equal.
    unfold s1. destruct (_ && _); reflexivity.
  - rewrite nm_app. destruct (_ && _), skip_end; reflexivity.
Qed.

(** ** One turn *)
Section Turn.
Variables (L : Z) (parts : list cpart) (skip_end : bool) (fm : Z) (multi : bool).
Hypothesis HL : 0 < L.
Hypothesis Hparts : contiguous parts 0 L.
Variables (i0 : Z) (stop : option Z) (num_turns : Z).
Hypothesis Hi0 : 0 <= i0 < L.
Hypothesis Hstop : forall j, stop = Some j -> 0 < j <= L.
Hypothesis Hstop1 : forall j, stop = Some j -> num_turns = 1 -> i0 < j.

Let track_part' := track_part ev_ops ev_col L (ep_of parts 0) (ei_of parts) fm.
Let loop' := parts_loop ev_ops ev_col L (ep_of parts 0) (ei_of parts) fm.

(** Does turn [tt] stop before the end, and where. *)
Definition stops (tt : Z) : bool :=
  match stop with Some j => (j <? L) && (tt =? num_turns - 1) | None => false end.
Definition hi_of (tt : Z) : Z :=
  match stop with Some j => if (j <? L) && (tt =? num_turns - 1) then j else L | None => L end.
Definition lo_of (tt : Z) : Z := if tt =? 0 then i0 else 0.

Lemma part_track_events lo hi es et ne s x n :
  x = match es with None => lo | Some e => lo + e end ->
  n = match ne with None => match et with None => hi | Some e => lo + e end - x | Some n => n end ->
  0 <= x -> 0 <= n -> x + n <= L ->
  exists t, part_track ev_ops L fm lo hi es et ne multi s = Some (rev t ++ s) /\ nm t = evs x (x + n).
Proof.
  intros -> -> Hx Hn Hl. unfold part_track.
  apply part_events; assumption.
Qed.

Lemma turn_parts tt (Htt : 0 <= tt < num_turns) : forall pps P1 a s,
  parts = P1 ++ pps -> contiguous P1 0 a -> contiguous pps a L ->
  (stops tt = true -> a <= hi_of tt) ->
  exists t, loop' pps (length P1) tt i0 stop num_turns multi s = TGo (rev t ++ s) (stops tt)
  /\ nm t = evs (Z.max a (lo_of tt)) (hi_of tt).
Proof.
  assert (Hhi : hi_of tt <= L).
  { unfold hi_of. destruct stop as [j|]; [|lia]. specialize (Hstop j eq_refl).
    destruct (_ && _); lia. }
  assert (Hns : stops tt = false -> hi_of tt = L).
  { unfold stops, hi_of. destruct stop as [j|]; [|reflexivity]. now destruct (_ && _). }
  assert (Hst : stops tt = true -> exists j, stop = Some j /\ hi_of tt = j /\ j < L /\ tt = num_turns - 1).
  { unfold stops, hi_of. destruct stop as [j|]; [|discriminate]. intros E. rewrite E. exists j.
    repeat split; lia. }
  assert (Hlo : 0 <= lo_of tt < L) by (unfold lo_of; destruct (tt =? 0); lia).
  induction pps as [|pp pps IH]; intros P1 a s Ep H1 H2 Hs.
  - cbn [contiguous] in H2. subst a. exists []. cbn [loop' parts_loop rev app].
    assert (Es : stops tt = false).
    { destruct (stops tt) eqn:E; [|reflexivity]. destruct (Hst eq_refl) as (j & _ & Hj & Hj' & _).
      specialize (Hs eq_refl). lia. }
    rewrite Es. split; [reflexivity|]. rewrite evs_empty by lia. reflexivity.
  - assert (exists b, contiguous [pp] a b /\ contiguous pps b L) as (b & Hp & Hr).
    { apply (contiguous_app [pp] pps). exact H2. }
    assert (Hab : a < b).
    { destruct pp; cbn [contiguous] in Hp; lia. }
    assert (HbL : b <= L) by (eapply contiguous_le; eassumption).
    assert (H0a : 0 <= a) by (eapply contiguous_le; eassumption).
    assert (H1' : contiguous (P1 ++ [pp]) 0 b) by (apply contiguous_app; eauto).
    assert (Ep' : parts = (P1 ++ [pp]) ++ pps) by now rewrite <- app_assoc.
    assert (Hlen : length (P1 ++ [pp]) = S (length P1)) by (rewrite app_length; cbn; lia).
    (* what follows after this part, when the turn does not stop in it *)
    assert (Cont : forall t1 y, (stops tt = true -> b <= hi_of tt) ->
              y = Z.max a (lo_of tt) -> nm t1 = evs y b ->
              exists t, loop' pps (S (length P1)) tt i0 stop num_turns multi (rev t1 ++ s)
                        = TGo (rev t ++ s) (stops tt)
                /\ nm t = evs y (hi_of tt)).
    { intros t1 y Hbs Hy Hn. destruct (IH (P1 ++ [pp]) b (rev t1 ++ s) Ep' H1' Hr Hbs) as (t2 & E2 & N2).
      exists (t1 ++ t2). rewrite rev_app_distr, <- app_assoc, <- E2, Hlen. split; [reflexivity|].
      rewrite nm_app, Hn, N2.
      assert (Hbh : b <= hi_of tt) by (destruct (stops tt) eqn:Es; [auto|rewrite Hns; lia]).
      destruct (Z.leb_spec y b) as [Hyb|Hyb].
      - replace (Z.max b (lo_of tt)) with b by lia. symmetry. apply evs_split; lia.
      - rewrite (evs_empty y b) by lia. replace (Z.max b (lo_of tt)) with y by lia. reflexivity. }
    pose proof (ep_lookup P1 pp pps a b L i0 H1 Hp Hr Hi0) as Li. cbv zeta in Li.
    rewrite <- Ep in Li. destruct Li as (Li1 & Li2 & Li3).
    (* does the turn stop in this part? *)
    assert (Hin : forall j, stop = Some j -> j < L ->
              Nat.eqb (nth (Z.to_nat j) (ep_of parts 0) 0%nat) (length P1) = (a <=? j) && (j <? b)).
    { intros j Ej Hj. specialize (Hstop j Ej).
      pose proof (ep_lookup P1 pp pps a b L j H1 Hp Hr ltac:(lia)) as Lj. cbv zeta in Lj.
      rewrite <- Ep in Lj. destruct Lj as (Lj1 & Lj2 & Lj3).
      destruct (Z.ltb_spec j a); [specialize (Lj1 ltac:(lia)); lia|].
      destruct (Z.ltb_spec j b); [specialize (Lj2 ltac:(lia)); lia|].
      specialize (Lj3 ltac:(lia)). lia. }
    set (in_stop := match stop with
       | None => false
       | Some j => (j <? L) && (tt =? num_turns - 1)
                   && Nat.eqb (nth (Z.to_nat j) (ep_of parts 0) 0%nat) (length P1) end).
    assert (Ein : in_stop = stops tt && (hi_of tt <? b)).
    { unfold in_stop. destruct (stops tt) eqn:Es.
      - destruct (Hst eq_refl) as (j & Ej & Hj & HjL & Htt'). rewrite Ej, (Hin j Ej HjL), Hj.
        specialize (Hs eq_refl). lia.
      - unfold stops in Es. destruct stop as [j|]; [|reflexivity]. rewrite Es. reflexivity. }
    unfold loop'. cbn [parts_loop]. unfold track_part. unfold elem_part, elem_index. fold in_stop.
    destruct (tt =? 0) eqn:Et; cbn [andb].
    2:{ (* not the first turn *)
        assert (Hlo0 : lo_of tt = 0) by (unfold lo_of; now rewrite Et).
        destruct in_stop.
        - (* stops here *)
          symmetry in Ein. apply andb_prop in Ein. destruct Ein as [Es Hb].
          destruct (Hst Es) as (j & Ej & Hj & HjL & Htt'). specialize (Hs Es).
          rewrite Ej. rewrite Ep, (ei_lookup P1 pp pps a b L j H1 Hp Hr) by lia.
          destruct pp as [i|lo hi]; cbn [contiguous] in Hp.
          + rewrite Es. exists []. split; [reflexivity|]. rewrite evs_empty by lia. reflexivity.
          + destruct Hp as (-> & _ & <-).
            destruct (part_track_events a hi None None (Some (j - a)) s a (j - a)) as (t & E & N);
              try lia.
            rewrite E. cbn [non_track]. rewrite Es. exists t. split; [reflexivity|].
            rewrite N. f_equal; lia.
        - assert (Hbs : stops tt = true -> b <= hi_of tt) by (intros Es; rewrite Es in Ein; lia).
          destruct pp as [i|lo hi]; cbn [contiguous] in Hp.
          + destruct Hp as [-> <-].
            set (s1 := if fm =? 2 then k_mon ev_ops s else s).
            set (s2 := if multi then k_multi ev_ops s1 else s1).
            cbn [col_track ev_col]. cbn [zerodrift ev_ops k_check k_incr].
            destruct (Cont ((if fm =? 2 then [Mon] else []) ++ (if multi then [Multi] else [])
                            ++ [Ele a; Incr 1]) (Z.max a (lo_of tt)) Hbs eq_refl) as (t & E & N).
            { rewrite Hlo0, Z.max_l by lia. rewrite evs_one. destruct (fm =? 2), multi; reflexivity. }
            exists t. split; [|exact N]. rewrite <- E. unfold loop'. f_equal.
            unfold s2, s1. destruct (fm =? 2), multi; reflexivity.
          + destruct Hp as (-> & _ & <-).
            destruct (part_track_events a hi None None None s a (hi - a)) as (t1 & E1 & N1); try lia.
            rewrite E1. cbn [non_track].
            destruct (Cont t1 (Z.max a (lo_of tt)) Hbs eq_refl) as (t & E & N).
            { rewrite N1. f_equal; lia. }
            exists t. split; [exact E|exact N]. }
    (* first turn *)
    assert (Hlo0 : lo_of tt = i0) by (unfold lo_of; now rewrite Et).
    destruct (Z.leb_spec b i0) as [Hbi|Hbi].
    { (* before the start *)
      replace (Nat.ltb (length P1) _) with true by (specialize (Li3 Hbi); symmetry; apply Nat.ltb_lt; exact Li3).
      assert (Hbs : stops tt = true -> b <= hi_of tt).
      { intros Es. destruct (Hst Es) as (j & Ej & Hj & HjL & Htt').
        specialize (Hstop1 j Ej ltac:(lia)). lia. }
      destruct (Cont [] (Z.max a (lo_of tt)) Hbs eq_refl) as (t & E & N).
      { rewrite evs_empty by lia. reflexivity. }
      exists t. split; [exact E|exact N]. }
    destruct (Z.leb_spec a i0) as [Hai|Hai].
    { (* the part with the start element *)
      rewrite (Li2 ltac:(lia)). rewrite Nat.ltb_irrefl, Nat.eqb_refl.
      rewrite Ep, (ei_lookup P1 pp pps a b L i0 H1 Hp Hr) by lia. rewrite <- Ep.
      destruct pp as [i|lo hi]; cbn [contiguous] in Hp.
      - destruct Hp as [-> <-]. assert (a = i0) by lia. subst a.
        assert (Hbs : stops tt = true -> i0 + 1 <= hi_of tt).
        { intros Es. destruct (Hst Es) as (j & Ej & Hj & HjL & Htt').
          specialize (Hstop1 j Ej ltac:(lia)). lia. }
        set (s2 := if multi then k_multi ev_ops s else s).
        cbn [col_track ev_col]. cbn [zerodrift ev_ops k_check k_incr].
        destruct (Cont ((if multi then [Multi] else [])
                        ++ [Ele i0; Incr 1]) (Z.max i0 (lo_of tt)) Hbs eq_refl) as (t & E & N).
        { rewrite Hlo0, Z.max_l by lia. rewrite evs_one. destruct multi; reflexivity. }
        exists t. split; [|exact N]. rewrite <- E. unfold loop'. f_equal.
        unfold s2. destruct multi; reflexivity.
      - destruct Hp as (-> & _ & <-). destruct in_stop.
        + symmetry in Ein. apply andb_prop in Ein. destruct Ein as [Es Hb].
          destruct (Hst Es) as (j & Ej & Hj & HjL & Htt'). specialize (Hs Es).
          specialize (Hstop1 j Ej ltac:(lia)).
          rewrite Ej. rewrite Ep, (ei_lookup P1 (PNon a hi) pps a hi L j H1) by (cbn; auto; lia).
          destruct (part_track_events a hi (Some (i0 - a)) (Some (j - a)) None s i0 (j - i0))
            as (t & E & N); try lia.
          rewrite E. cbn [non_track]. rewrite Es. exists t. split; [reflexivity|].
          rewrite N. f_equal; lia.
        + assert (Hbs : stops tt = true -> hi <= hi_of tt) by (intros Es; rewrite Es in Ein; lia).
          destruct (part_track_events a hi (Some (i0 - a)) None None s i0 (hi - i0)) as (t1 & E1 & N1);
            try lia.
          rewrite E1. cbn [non_track].
          destruct (Cont t1 (Z.max a (lo_of tt)) Hbs eq_refl) as (t & E & N).
          { rewrite N1. f_equal; lia. }
          exists t. split; [exact E|exact N]. }
    (* after the start *)
    specialize (Li1 Hai).
    replace (Nat.ltb (length P1) _) with false by (symmetry; apply Nat.ltb_ge; lia).
    replace (Nat.eqb _ (length P1)) with false by (symmetry; apply Nat.eqb_neq; lia).
    destruct in_stop.
    + symmetry in Ein. apply andb_prop in Ein. destruct Ein as [Es Hb].
      destruct (Hst Es) as (j & Ej & Hj & HjL & Htt'). specialize (Hs Es).
      rewrite Ej. rewrite Ep, (ei_lookup P1 pp pps a b L j H1 Hp Hr) by lia.
      destruct pp as [i|lo hi]; cbn [contiguous] in Hp.
      * rewrite Es. exists []. split; [reflexivity|]. rewrite evs_empty by lia. reflexivity.
      * destruct Hp as (-> & _ & <-).
        destruct (part_track_events a hi None None (Some (j - a)) s a (j - a)) as (t & E & N);
          try lia.
        rewrite E. cbn [non_track]. rewrite Es. exists t. split; [reflexivity|].
        rewrite N. f_equal; lia.
    + assert (Hbs : stops tt = true -> b <= hi_of tt) by (intros Es; rewrite Es in Ein; lia).
      destruct pp as [i|lo hi]; cbn [contiguous] in Hp.
      * destruct Hp as [-> <-].
        set (s1 := if fm =? 2 then k_mon ev_ops s else s).
        set (s2 := if multi then k_multi ev_ops s1 else s1).
        cbn [col_track ev_col]. cbn [zerodrift ev_ops k_check k_incr].
        destruct (Cont ((if fm =? 2 then [Mon] else []) ++ (if multi then [Multi] else [])
                        ++ [Ele a; Incr 1]) (Z.max a (lo_of tt)) Hbs eq_refl) as (t & E & N).
        { rewrite Hlo0, Z.max_l by lia. rewrite evs_one. destruct (fm =? 2), multi; reflexivity. }
        exists t. split; [|exact N]. rewrite <- E. unfold loop'. f_equal.
        unfold s2, s1. destruct (fm =? 2), multi; reflexivity.
      * destruct Hp as (-> & _ & <-).
        destruct (part_track_events a hi None None None s a (hi - a)) as (t1 & E1 & N1); try lia.
        rewrite E1. cbn [non_track].
        destruct (Cont t1 (Z.max a (lo_of tt)) Hbs eq_refl) as (t & E & N).
        { rewrite N1. f_equal; lia. }
        exists t. split; [exact E|exact N].
Qed.

(** The turns. *)
Definition jj : Z := match stop with Some j => j | None => L end.

Lemma turns_events : forall n tt s,
  (0 < n)%nat -> 0 <= tt -> tt + Z.of_nat n = num_turns ->
  exists t, turns_loop ev_ops ev_col (fun t => t) L parts (ep_of parts 0) (ei_of parts) skip_end fm
              n tt None i0 stop num_turns false multi s = Done (rev t ++ s)
  /\ nm t = window_events L (lo_of tt) ((Z.of_nat n - 1) * L + jj - lo_of tt) 0 false (negb skip_end).
Proof.
  induction n as [|n IH]; intros tt s Hn0 Htt Hn; [lia|]. clear Hn0.
  cbn [turns_loop]. cbn [negb andb].
  match goal with |- context [parts_loop _ _ _ _ _ _ _ _ _ _ _ _ _ ?x] => set (s1 := x) end.
  set (t0 := if negb (fm =? 0) && ((i0 =? 0) || (0 <? tt)) && true then [Mon] else []).
  assert (Es1 : s1 = rev t0 ++ s) by (unfold s1, t0; destruct (_ && _); reflexivity).
  assert (Nt0 : nm t0 = []) by (unfold t0; destruct (_ && _); reflexivity).
  assert (Hlo : 0 <= lo_of tt < L) by (unfold lo_of; destruct (tt =? 0); lia).
  assert (Hjj : 0 < jj <= L).
  { unfold jj. destruct stop as [j|]; [apply (Hstop j eq_refl)|lia]. }
  cbn [skipn].
  destruct (turn_parts tt ltac:(lia) parts [] 0 s1 eq_refl eq_refl Hparts) as (t1 & E1 & N1).
  { intros Es. unfold stops, hi_of in *. destruct stop as [j|]; [|discriminate].
    rewrite Es. specialize (Hstop j eq_refl). lia. }
  unfold loop' in E1. cbn [length] in E1. rewrite E1. rewrite Z.max_r in N1 by lia.
  destruct (stops tt) eqn:Est.
  - (* last turn, incomplete *)
    exists (t0 ++ t1). rewrite rev_app_distr, <- app_assoc, Es1. split; [reflexivity|].
    rewrite nm_app, Nt0, N1. cbn [app].
    unfold stops, hi_of, jj in *. destruct stop as [j|] eqn:Ej; [|discriminate]. rewrite Est.
    assert (n = 0)%nat by lia. subst n. cbn [Z.of_nat].
    replace ((Z.pos (Pos.of_succ_nat 0) - 1) * L + j - lo_of tt) with (j - lo_of tt) by lia.
    assert (Hlj : lo_of tt < j).
    { unfold lo_of. destruct (tt =? 0) eqn:Et; [|lia].
      apply (Hstop1 j eq_refl). lia. }
    rewrite <- (nm_window _ _ _ 0 false). rewrite window_in_turn by lia.
    replace (lo_of tt + (j - lo_of tt) =? L) with false by lia. rewrite andb_false_r.
    rewrite nm_turn by lia. rewrite app_nil_r. f_equal. lia.
  - destruct (end_turn_events L skip_end fm stop (rev t1 ++ s1) ltac:(lia)) as (t2 & E2 & N2).
    rewrite E2.
    assert (Hhi : hi_of tt = L).
    { unfold stops, hi_of in *. destruct stop as [j|]; [|reflexivity]. now rewrite Est. }
    rewrite Hhi in N1.
    assert (Nfirst : nm t1 ++ nm t2 = window_events L (lo_of tt) (L - lo_of tt) 0 false (negb skip_end)).
    { rewrite N1, N2, <- (nm_window _ _ _ 0 false), window_in_turn, nm_turn by lia.
      replace (lo_of tt + (L - lo_of tt)) with L by lia. rewrite Z.eqb_refl, andb_true_r.
      destruct skip_end; reflexivity. }
    destruct n as [|n].
    + cbn [turns_loop]. exists (t0 ++ t1 ++ t2). rewrite !rev_app_distr, <- !app_assoc, Es1.
      split; [reflexivity|]. rewrite !nm_app, Nt0. cbn [app]. rewrite Nfirst. f_equal.
      assert (jj = L); [|lia].
      unfold jj, stops in *. destruct stop as [j|]; [|reflexivity].
      specialize (Hstop j eq_refl). lia.
    + destruct (IH (tt + 1) (rev t2 ++ rev t1 ++ s1) ltac:(lia) ltac:(lia) ltac:(lia)) as (t3 & E3 & N3).
      rewrite E3. exists (t0 ++ t1 ++ t2 ++ t3). rewrite !rev_app_distr, <- !app_assoc, Es1.
      split; [reflexivity|]. rewrite !nm_app, Nt0. cbn [app].
      rewrite app_assoc, Nfirst, N3.
      assert (Hlo1 : lo_of (tt + 1) = 0) by (unfold lo_of; replace (tt + 1 =? 0) with false by lia; reflexivity).
      rewrite Hlo1. rewrite <- (window_split L) by nia. f_equal. lia.
Qed.
End Turn.

(** ** The whole call *)
Lemma prepare_ok L start stop turns i n :
  0 < L ->
  i = match start with Some e => e | None => 0 end -> 0 <= i < L ->
  n = match turns with Some n => n | None => 1 end -> 0 < n ->
  (forall j, stop = Some j -> 0 <= j <= L) ->
  exists stop' n', prepare_session L (-1) (mkTargs start stop None turns) = Some (i, stop', n')
  /\ 0 < n' /\ (forall j, stop' = Some j -> 0 < j <= L)
  /\ (forall j, stop' = Some j -> n' = 1 -> i < j)
  /\ (n' - 1) * L + match stop' with Some j => j | None => L end - i = window_count L i stop n.
Proof.
  intros HL Ei Hi En Hn Hstop. unfold prepare_session.
  change (0 <=? -1) with false. cbv iota. cbn [a_start a_nele a_turns a_stop]. rewrite <- Ei.
  replace (negb ((0 <=? i) && (i <? L))) with false by lia.
  assert (Et : match turns with None => Some 1 | Some n0 => if 0 <? n0 then Some n0 else None end = Some n).
  { destruct turns as [m|]; [|now subst]. subst m. now replace (0 <? n) with true by lia. }
  rewrite Et. unfold window_count. destruct stop as [j|].
  - specialize (Hstop j eq_refl). destruct (j =? 0) eqn:E0.
    + replace (true && (1 <=? n)) with true by lia. exists None, n.
      assert (j = 0) by lia. subst j. replace (0 <=? i) with true by lia.
      repeat split; try lia; discriminate.
    + destruct (j <=? i) eqn:Ej.
      * replace (_ && _) with true by lia. exists (Some j), (n + 1).
        split; [reflexivity|]. split; [lia|]. split; [intros ? [= <-]; lia|]. split; [intros ? [= <-]; lia|lia].
      * replace (_ && _) with true by lia. exists (Some j), n.
        split; [reflexivity|]. split; [lia|]. split; [intros ? [= <-]; lia|]. split; [intros ? [= <-]; lia|lia].
  - replace (true && (1 <=? n)) with true by lia. exists None, n.
    repeat split; try lia; discriminate.
Qed.

Lemma collective_prepared coll skip_end fm multi a i stop n :
  let L := Z.of_nat (length coll) in
  0 < L -> 0 <= i < L -> 0 < n ->
  prepare_session L (-1) a = Some (i, stop, n) ->
  (forall j, stop = Some j -> 0 < j <= L) -> (forall j, stop = Some j -> n = 1 -> i < j) ->
  exists t, events_collective coll skip_end (-1) fm multi a = Some t
  /\ nm t = window_events L i ((n - 1) * L + match stop with Some j => j | None => L end - i)
              0 false (negb skip_end).
Proof.
  intros L HL Hi Hn Hp Hs Hs1. unfold events_collective, track_collective_line.
  destruct (split_parts_ok coll) as (parts & Esp & Hc). rewrite Esp. fold L. fold L in Hc.
  unfold track_collective. rewrite Hp.
  destruct (turns_events L parts skip_end fm multi HL Hc i stop n Hi Hs Hs1 (Z.to_nat n) 0 [])
    as (t & E & N); try lia.
  rewrite E. exists t. split; [now rewrite app_nil_r, rev_involutive|].
  rewrite N. cbn [lo_of Z.eqb]. unfold jj. f_equal. destruct stop; lia.
Qed.

Lemma collective_window coll skip_end fm multi start stop turns i n :
  let L := Z.of_nat (length coll) in
  0 < L ->
  i = match start with Some e => e | None => 0 end -> 0 <= i < L ->
  n = match turns with Some n => n | None => 1 end -> 0 < n ->
  (forall j, stop = Some j -> 0 <= j <= L) ->
  exists t, events_collective coll skip_end (-1) fm multi (mkTargs start stop None turns) = Some t
  /\ filter not_monitor t = window_events L i (window_count L i stop n) 0 false (negb skip_end).
Proof.
  intros L HL Ei Hi En Hn Hstop.
  destruct (prepare_ok L start stop turns i n HL Ei Hi En Hn Hstop) as (stop' & n' & Hp & Hn' & Hs & Hs1 & Hw).
  destruct (collective_prepared coll skip_end fm multi _ i stop' n' HL Hi Hn' Hp Hs Hs1) as (t & E & N).
  exists t. split; [exact E|]. fold L in N. rewrite <- Hw. exact N.
Qed.

Lemma collective_num_elements coll skip_end fm multi start i k :
  let L := Z.of_nat (length coll) in
  0 < L ->
  i = match start with Some e => e | None => 0 end -> 0 <= i < L -> 0 < k ->
  exists t, events_collective coll skip_end (-1) fm multi (mkTargs start None (Some k) None) = Some t
  /\ filter not_monitor t = window_events L i k 0 false (negb skip_end).
Proof.
  intros L HL Ei Hi Hk.
  pose proof (Z_div_mod_eq_full (i + k) L) as Hdm.
  pose proof (Z.mod_pos_bound (i + k) L HL) as Hb.
  set (q := (i + k) / L) in *. set (r := (i + k) mod L) in *.
  assert (Hp : prepare_session L (-1) (mkTargs start None (Some k) None)
               = Some (i, if r =? 0 then None else Some r, if r =? 0 then q else q + 1)).
  { unfold prepare_session. change (0 <=? -1) with false. cbv iota.
    cbn [a_start a_nele a_turns a_stop]. rewrite <- Ei.
    replace (negb ((0 <=? i) && (i <? L))) with false by lia. fold q r.
    destruct (r =? 0) eqn:Er.
    - assert (1 <= q) by nia. replace (true && (1 <=? q)) with true by lia. reflexivity.
    - assert (0 <= q) by nia. replace (_ && _) with true by lia. reflexivity. }
  assert (Hq : 0 <= q) by nia.
  assert (Hn' : 0 < (if r =? 0 then q else q + 1)) by (destruct (r =? 0) eqn:Er; nia).
  assert (Hs : forall j, (if r =? 0 then None else Some r) = Some j -> 0 < j <= L).
  { intros j. destruct (r =? 0) eqn:Er; [discriminate|]. intros [= <-]. lia. }
  assert (Hs1 : forall j, (if r =? 0 then None else Some r) = Some j ->
                  (if r =? 0 then q else q + 1) = 1 -> i < j).
  { intros j. destruct (r =? 0) eqn:Er; [discriminate|]. intros [= <-] H. nia. }
  destruct (collective_prepared coll skip_end fm multi _ i _ _ HL Hi Hn' Hp Hs Hs1) as (t & E & N).
  exists t. split; [exact E|]. fold L in N. unfold nm in N. rewrite N. f_equal.
  destruct (r =? 0) eqn:Er; nia.
Qed.
