From Coq Require Import ZArith List Bool Lia ZifyBool.
From Verif.Model Require Import Kernel.
From Verif.Spec Require Import Kernel.
Import ListNotations.
Local Open Scope Z_scope.

Lemma flat_map_ext_in {A B} (f g : A -> list B) l :
  (forall x, In x l -> f x = g x) -> flat_map f l = flat_map g l.
Proof.
  induction l as [|x l IH]; intros H; cbn; [reflexivity|].
  rewrite H by now left. f_equal. apply IH. intros y Hy. apply H; now right.
Qed.

Lemma flat_map_seq_split {B} (f : nat -> list B) a b :
  flat_map f (seq 0 (a + b)) = flat_map f (seq 0 a) ++ flat_map (fun k => f (a + k)%nat) (seq 0 b).
Proof.
  rewrite seq_app, flat_map_app. f_equal. cbn [Nat.add].
  replace (seq a b) with (map (fun k => a + k)%nat (seq 0 b)).
  - rewrite flat_map_concat_map, map_map, <- flat_map_concat_map. reflexivity.
  - clear. revert a. induction b as [|b IH]; intros a; [reflexivity|].
    cbn [seq map]. f_equal; [lia|]. rewrite <- (IH (S a)), <- (seq_shift b 0), map_map.
    apply map_ext; intros; lia.
Qed.

Lemma flat_map_seq_S {B} (f : nat -> list B) n :
  flat_map f (seq 0 (S n)) = f 0%nat ++ flat_map (fun k => f (S k)) (seq 0 n).
Proof. change (S n) with (1 + n)%nat. rewrite flat_map_seq_split. cbn [seq flat_map].
  now rewrite app_nil_r. Qed.

Lemma flat_map_seq_last {B} (f : nat -> list B) n :
  flat_map f (seq 0 (S n)) = flat_map f (seq 0 n) ++ f n.
Proof.
  replace (S n) with (n + 1)%nat by lia. rewrite flat_map_seq_split. cbn.
  rewrite Nat.add_0_r, app_nil_r. reflexivity.
Qed.

(** ** The element loop on event traces *)

Definition body_ev (fm : Z) (multi : bool) (incr : Z) (i : Z) : list ev :=
  (if fm =? 2 then [Mon] else []) ++ (if multi then [Multi] else []) ++ [Ele i; Incr incr].

Lemma body_rev fm (multi : bool) incr i (st : list ev) :
  Incr incr :: Ele i :: (if multi then Multi :: (if fm =? 2 then Mon :: st else st)
                         else (if fm =? 2 then Mon :: st else st))
  = rev (body_ev fm multi incr i) ++ st.
Proof. unfold body_ev; destruct (fm =? 2), multi; reflexivity. Qed.

Lemma elem_loop_fwd (n : nat) : forall fm multi start stop idx act st,
  idx + Z.of_nat n = stop -> start <= idx ->
  elem_loop ev_ops n fm multi false start stop 1 idx act st =
  Some (rev (flat_map (fun k => body_ev fm multi 1 (idx + Z.of_nat k)) (seq 0 n)) ++ st,
        if n =? 0 then act else true)%nat.
Proof.
  induction n as [|n IH]; intros fm multi start stop idx act st Hs Hle.
  - cbn [elem_loop]. replace ((start <=? idx) && (idx <? stop)) with false by lia. reflexivity.
  - cbn [elem_loop]. replace ((start <=? idx) && (idx <? stop)) with true by lia.
    cbn [ev_ops k_mon k_multi k_ele k_check k_incr].
    rewrite IH by lia.
    f_equal. f_equal; [| destruct n; reflexivity].
    rewrite flat_map_seq_S.
    rewrite rev_app_distr, <- app_assoc. f_equal.
    + f_equal. apply flat_map_ext; intros k. f_equal. lia.
    + replace (idx + Z.of_nat 0) with idx by lia. apply body_rev.
Qed.

Lemma elem_loop_bwd (n : nat) : forall fm multi start stop idx act st,
  idx - Z.of_nat n = start - 1 -> idx < stop ->
  elem_loop ev_ops n fm multi true start stop (-1) idx act st =
  Some (rev (flat_map (fun k => body_ev fm multi (-1) (idx - Z.of_nat k)) (seq 0 n)) ++ st,
        if n =? 0 then act else true)%nat.
Proof.
  induction n as [|n IH]; intros fm multi start stop idx act st Hs Hle.
  - cbn [elem_loop]. replace ((start <=? idx) && (idx <? stop)) with false by lia. reflexivity.
  - cbn [elem_loop]. replace ((start <=? idx) && (idx <? stop)) with true by lia.
    cbn [ev_ops k_mon k_multi k_ele k_check k_incr].
    rewrite IH by lia.
    f_equal. f_equal; [| destruct n; reflexivity].
    rewrite flat_map_seq_S.
    rewrite rev_app_distr, <- app_assoc. f_equal.
    + f_equal. apply flat_map_ext; intros k. f_equal. lia.
    + replace (idx - Z.of_nat 0) with idx by lia. apply body_rev.
Qed.

(** Trace of one turn of the kernel, forward and backward. *)
Definition turn_ev (fm : Z) (multi : bool) (start n : Z) (flag_end : bool) : list ev :=
  (if fm =? 1 then [Mon] else [])
  ++ flat_map (fun k => body_ev fm multi 1 (start + Z.of_nat k)) (seq 0 (Z.to_nat n))
  ++ (if fm =? 2 then [Mon] else []) ++ (if flag_end then [EndTurn] else []).

Definition turn_ev_back (fm : Z) (multi : bool) (start n : Z) (flag_end : bool) : list ev :=
  (if flag_end then [EndTurnBack] else [])
  ++ flat_map (fun k => body_ev fm multi (-1) (start + n - 1 - Z.of_nat k)) (seq 0 (Z.to_nat n))
  ++ (if fm =? 2 then [Mon] else []) ++ (if fm =? 1 then [Mon] else []).

Lemma one_turn_ev fm multi bt start n flag_end st : 0 <= n ->
  one_turn ev_ops fm multi bt start n flag_end true st =
  Some (rev (if bt then turn_ev_back fm multi start n flag_end
             else turn_ev fm multi start n flag_end) ++ st, true).
Proof.
  intros Hn. unfold one_turn. destruct bt.
  - rewrite elem_loop_bwd by lia.
    replace (if Z.to_nat n =? 0 then true else true)%nat with true by now destruct (_ =? _)%nat.
    unfold turn_ev_back. rewrite !rev_app_distr.
    cbn [ev_ops k_mon k_multi k_ele k_check k_incr k_end k_end_back].
    destruct (fm =? 1), (fm =? 2), flag_end; cbn [rev app]; rewrite <- ?app_assoc; reflexivity.
  - rewrite elem_loop_fwd by lia.
    replace (if Z.to_nat n =? 0 then true else true)%nat with true by now destruct (_ =? _)%nat.
    unfold turn_ev. rewrite !rev_app_distr.
    cbn [ev_ops k_mon k_multi k_ele k_check k_incr k_end k_end_back].
    destruct (fm =? 1), (fm =? 2), flag_end; cbn [rev app]; rewrite <- ?app_assoc; reflexivity.
Qed.

Fixpoint repeat_l {A} (n : nat) (l : list A) : list A :=
  match n with O => [] | S n => l ++ repeat_l n l end.

Lemma turn_loop_ev (nt : nat) : forall fm multi bt start n flag_end st, 0 <= n ->
  turn_loop ev_ops nt fm multi bt start n flag_end true st =
  Some (rev (repeat_l nt (if bt then turn_ev_back fm multi start n flag_end
             else turn_ev fm multi start n flag_end)) ++ st).
Proof.
  induction nt as [|nt IH]; intros fm multi bt start n flag_end st Hn; [reflexivity|].
  cbn [turn_loop negb]. rewrite one_turn_ev by assumption. rewrite IH by assumption.
  cbn [repeat_l]. rewrite rev_app_distr, app_assoc. reflexivity.
Qed.

Definition call_ev (fm : Z) (multi bt : bool) (c : kcall) : list ev :=
  repeat_l (Z.to_nat (kc_turns c))
    (if bt then turn_ev_back fm multi (kc_start c) (kc_n c) (kc_end c)
     else turn_ev fm multi (kc_start c) (kc_n c) (kc_end c)).

Lemma run_calls_ev cs : forall fm multi bt st,
  Forall (fun c => 0 <= kc_n c) cs ->
  run_calls ev_ops fm multi bt cs st = Some (rev (flat_map (call_ev fm multi bt) cs) ++ st).
Proof.
  induction cs as [|c cs IH]; intros fm multi bt st H; [reflexivity|].
  inversion H; subst. cbn [run_calls]. unfold track_line.
  cbn [ev_ops k_check]. rewrite turn_loop_ev by assumption. rewrite IH by assumption.
  cbn [flat_map]. rewrite rev_app_distr, app_assoc. reflexivity.
Qed.

(** ** Windows of the stream *)

Lemma mod_of (a L : Z) : 0 <= a < L -> a mod L = a.
Proof. apply Z.mod_small. Qed.

(** Inside one turn. *)
Lemma window_in_turn L i c fm multi ends :
  0 <= i -> 0 < c -> i + c <= L ->
  window_events L i c fm multi ends = turn_ev fm multi i c (ends && (i + c =? L)).
Proof.
  intros Hi Hc HL. unfold window_events, turn_ev.
  destruct (Z.to_nat c) as [|m] eqn:Em; [lia|].
  assert (Hcm : c = Z.of_nat m + 1) by lia.
  assert (Hlast : forall k, (0 <= k <= Z.of_nat m) -> (i + k) mod L = i + k)
    by (intros; apply mod_of; lia).
  assert (Hend : forall k, (0 <= k < Z.of_nat m) -> ((i + k + 1) mod L =? 0) = false).
  { intros k Hk. rewrite (mod_of (i + k + 1)) by lia. lia. }
  assert (Hendm : ((i + Z.of_nat m + 1) mod L =? 0) = (i + c =? L)).
  { destruct (Z.eq_dec (i + c) L) as [E|E].
    - replace (i + Z.of_nat m + 1) with L by lia. rewrite Z.mod_same by lia. lia.
    - rewrite mod_of by lia. lia. }
  assert (Hstart : forall k, 0 < k <= Z.of_nat m -> ((k =? 0) || ((i + k) mod L =? 0)) = false).
  { intros k Hk. rewrite Hlast by lia. lia. }
  (* peel off first and last positions *)
  rewrite flat_map_seq_last.
  destruct m as [|m'].
  - cbn [seq flat_map app].
    unfold position_events. replace (Z.of_nat 0) with 0 in * by lia.
    rewrite Hendm. rewrite Hlast by lia. change (0 =? 0) with true. cbn [orb].
    replace (0 =? c - 1) with true by lia.
    unfold body_ev.
    rewrite (Z.add_0_r i).
    destruct (fm =? 1) eqn:E1, (fm =? 2) eqn:E2; try lia;
      destruct multi, ends, (i + c =? L); reflexivity.
  - rewrite flat_map_seq_S.
    rewrite (flat_map_ext_in
      (fun k => position_events L i c fm multi ends (Z.of_nat (S k)))
      (fun k => body_ev fm multi 1 (i + Z.of_nat (S k)))).
    2:{ intros k Hk. apply in_seq in Hk. unfold position_events, body_ev.
        rewrite Hstart, Hlast, Hend by lia.
        replace (Z.of_nat (S k) =? c - 1) with false by lia.
        destruct (fm =? 1), (fm =? 2), multi; reflexivity. }
    rewrite (flat_map_seq_last (fun k => body_ev fm multi 1 (i + Z.of_nat k))).
    rewrite (flat_map_seq_S (fun k => body_ev fm multi 1 (i + Z.of_nat k))).
    rewrite <- !app_assoc.
    set (mid := flat_map (fun k => body_ev fm multi 1 (i + Z.of_nat (S k))) (seq 0 m')).
    unfold position_events at 1.
    replace (Z.of_nat 0) with 0 by lia. change (0 =? 0) with true. cbn [orb].
    replace (0 =? c - 1) with false by lia.
    rewrite Hend, Hlast by lia.
    unfold position_events. rewrite Hendm, Hstart, Hlast by lia.
    replace (Z.of_nat (S m') =? c - 1) with true by lia.
    unfold body_ev.
    destruct (fm =? 1) eqn:E1, (fm =? 2) eqn:E2; try lia;
      destruct multi, ends, (i + c =? L);
      cbn [app andb orb]; rewrite <- ?app_assoc; reflexivity.
Qed.

(** A window that crosses the end of the line splits there. *)
Lemma window_split_gen L q i c1 c2 fm multi ends :
  0 < L -> 0 <= i -> 0 < c1 -> 0 < c2 -> i + c1 = q * L ->
  window_events L i (c1 + c2) fm multi ends
  = window_events L i c1 fm multi ends ++ window_events L 0 c2 fm multi ends.
Proof.
  intros HL0 Hi H1 H2 HL. unfold window_events.
  replace (Z.to_nat (c1 + c2)) with (Z.to_nat c1 + Z.to_nat c2)%nat by lia.
  rewrite flat_map_seq_split. f_equal.
  - apply flat_map_ext_in. intros k Hk. apply in_seq in Hk.
    unfold position_events. replace (Z.of_nat k =? c1 + c2 - 1) with false by lia.
    destruct (Z.eq_dec (Z.of_nat k) (c1 - 1)) as [E|E].
    + replace (Z.of_nat k =? c1 - 1) with true by lia.
      replace (i + Z.of_nat k + 1) with (q * L) by lia. rewrite Z.mod_mul by lia. reflexivity.
    + replace (Z.of_nat k =? c1 - 1) with false by lia. reflexivity.
  - apply flat_map_ext_in. intros k Hk. apply in_seq in Hk.
    unfold position_events.
    replace (i + Z.of_nat (Z.to_nat c1 + k)) with (0 + Z.of_nat k + q * L) by lia.
    replace (0 + Z.of_nat k + q * L + 1) with (0 + Z.of_nat k + 1 + q * L) by lia.
    rewrite !Z_mod_plus_full.
    replace (Z.of_nat (Z.to_nat c1 + k) =? c1 + c2 - 1) with (Z.of_nat k =? c2 - 1) by lia.
    replace (Z.of_nat (Z.to_nat c1 + k) =? 0) with false by lia.
    destruct (Z.eq_dec (Z.of_nat k) 0) as [E|E].
    + replace (Z.of_nat k) with 0 by lia. cbn [Z.add]. rewrite Z.mod_0_l by lia. reflexivity.
    + replace (Z.of_nat k =? 0) with false by lia. reflexivity.
Qed.

Lemma window_split L i c1 c2 fm multi ends :
  0 <= i -> 0 < c1 -> 0 < c2 -> i + c1 = L ->
  window_events L i (c1 + c2) fm multi ends
  = window_events L i c1 fm multi ends ++ window_events L 0 c2 fm multi ends.
Proof. intros. apply (window_split_gen L 1); lia. Qed.

Lemma window_empty L i fm multi ends : window_events L i 0 fm multi ends = [].
Proof. reflexivity. Qed.

(** [m] complete turns. *)
Lemma window_full_turns L (m : nat) fm multi ends : 0 < L ->
  window_events L 0 (Z.of_nat m * L) fm multi ends = repeat_l m (turn_ev fm multi 0 L ends).
Proof.
  intros HL. induction m as [|m IH]; [reflexivity|].
  cbn [repeat_l]. rewrite <- IH.
  replace (Z.of_nat (S m) * L) with (L + Z.of_nat m * L) by lia.
  assert (E : turn_ev fm multi 0 L ends = window_events L 0 L fm multi ends).
  { rewrite window_in_turn by lia. replace (0 + L =? L) with true by lia.
    now rewrite andb_true_r. }
  rewrite E. destruct m as [|m'].
  - cbn [Z.of_nat]. rewrite Z.mul_0_l, Z.add_0_r, window_empty, app_nil_r. reflexivity.
  - apply window_split; lia.
Qed.

(** Full turns followed by an incomplete one. *)
Lemma window_middle_last L (m : nat) r fm multi ends : 0 < L -> 0 <= r < L ->
  window_events L 0 (Z.of_nat m * L + r) fm multi ends
  = repeat_l m (turn_ev fm multi 0 L ends)
    ++ (if 0 <? r then turn_ev fm multi 0 r false else []).
Proof.
  intros HL Hr. destruct (0 <? r) eqn:Er.
  - induction m as [|m IH].
    + cbn [repeat_l app]. replace (Z.of_nat 0 * L + r) with r by lia.
      rewrite window_in_turn by lia. replace (0 + r =? L) with false by lia.
      now rewrite andb_false_r.
    + cbn [repeat_l]. rewrite <- app_assoc, <- IH.
      replace (Z.of_nat (S m) * L + r) with (L + (Z.of_nat m * L + r)) by lia.
      rewrite window_split by lia. f_equal. rewrite window_in_turn by lia.
      replace (0 + L =? L) with true by lia. now rewrite andb_true_r.
  - assert (r = 0) by lia. subst r. rewrite Z.add_0_r, app_nil_r.
    apply window_full_turns; assumption.
Qed.

(** ** The three kernel calls realise a window *)

Lemma repeat_l_1 {A} (l : list A) : repeat_l 1 l = l.
Proof. cbn. apply app_nil_r. Qed.

Lemma calls_window L i m r fm multi (skip_end : bool) :
  0 < L -> 0 <= i < L -> 0 <= m -> 0 <= r < L ->
  flat_map (call_ev fm multi false)
    ([mkKcall 1 i (L - i) (if skip_end then false else L - i + i =? L)]
     ++ (if 0 <? m then [mkKcall m 0 L (negb skip_end)] else [])
     ++ (if 0 <? r then [mkKcall 1 0 r false] else []))
  = window_events L i (L - i + (m * L + r)) fm multi (negb skip_end).
Proof.
  intros HL Hi Hm Hr.
  rewrite !flat_map_app.
  assert (E1 : flat_map (call_ev fm multi false)
                [mkKcall 1 i (L - i) (if skip_end then false else L - i + i =? L)]
               = window_events L i (L - i) fm multi (negb skip_end)).
  { cbn [flat_map]. rewrite app_nil_r. unfold call_ev. cbn [kc_turns kc_start kc_n kc_end].
    change (Z.to_nat 1) with 1%nat. rewrite repeat_l_1.
    rewrite window_in_turn by lia.
    replace (i + (L - i) =? L) with true by lia. replace (L - i + i =? L) with true by lia.
    destruct skip_end; reflexivity. }
  rewrite E1.
  assert (E2 : flat_map (call_ev fm multi false)
                  (if 0 <? m then [mkKcall m 0 L (negb skip_end)] else [])
               ++ flat_map (call_ev fm multi false) (if 0 <? r then [mkKcall 1 0 r false] else [])
               = window_events L 0 (m * L + r) fm multi (negb skip_end)).
  { replace (m * L + r) with (Z.of_nat (Z.to_nat m) * L + r) by lia.
    rewrite window_middle_last by lia. f_equal.
    - destruct (0 <? m) eqn:Em.
      + cbn [flat_map]. rewrite app_nil_r. reflexivity.
      + replace (Z.to_nat m) with 0%nat by lia. reflexivity.
    - destruct (0 <? r); [|reflexivity]. cbn [flat_map]. rewrite app_nil_r.
      unfold call_ev. cbn [kc_turns kc_start kc_n kc_end].
      change (Z.to_nat 1) with 1%nat. rewrite repeat_l_1. reflexivity. }
  rewrite E2.
  destruct (Z.eq_dec (m * L + r) 0) as [E|E].
  - rewrite E, Z.add_0_r, window_empty, app_nil_r. reflexivity.
  - symmetry. apply window_split; nia.
Qed.

Lemma plan_nonneg L skip_end spte a cs :
  0 <= L -> plan_no_collective L skip_end spte a = Some cs -> Forall (fun c => 0 <= kc_n c) cs.
Proof.
  intros HL H. unfold plan_no_collective in H.
  destruct (resolve_start L spte (a_start a)); [|discriminate].
  destruct (split_turns L z a) as [[[nf nm] nl]|]; [|discriminate].
  destruct (negb (0 <=? nf)) eqn:E; [discriminate|].
  injection H as <-. constructor; [cbn; lia|]. apply Forall_app; split.
  - destruct (0 <? nm); repeat constructor. cbn; lia.
  - destruct (0 <? nl) eqn:E'; repeat constructor. cbn; lia.
Qed.

Lemma events_of_plan L skip_end spte fm multi bt a cs :
  0 <= L -> plan_no_collective L skip_end spte a = Some cs ->
  events_no_collective L skip_end spte fm multi bt a = Some (flat_map (call_ev fm multi bt) cs).
Proof.
  intros HL H. unfold events_no_collective, track_no_collective. rewrite H.
  rewrite run_calls_ev by (eapply plan_nonneg; eauto).
  cbn [option_map]. rewrite app_nil_r, rev_involutive. reflexivity.
Qed.

Lemma flag_mid (skip_end : bool) : negb skip_end = (if skip_end then false else true).
Proof. destruct skip_end; reflexivity. Qed.

Lemma resolve_start_some L (ele_start : option Z) i :
  i = match ele_start with Some e => e | None => 0 end -> 0 <= i <= L ->
  resolve_start L (-1) ele_start = Some i.
Proof.
  intros -> H. unfold resolve_start. cbn [Z.leb Z.compare].
  destruct ele_start; cbn;
    match goal with |- (if ?b then _ else _) = _ => replace b with true by lia end; reflexivity.
Qed.

(** Windows given by ele_start, ele_stop, num_turns: the plan. *)
Lemma plan_window L (skip_end : bool) fm multi start stop turns i n :
  0 < L ->
  i = match start with Some e => e | None => 0 end -> 0 <= i < L ->
  n = match turns with Some n => n | None => 1 end -> 0 < n ->
  (forall j, stop = Some j -> 0 <= j <= L) ->
  exists cs, plan_no_collective L skip_end (-1) (mkTargs start stop None turns) = Some cs
  /\ flat_map (call_ev fm multi false) cs
     = if (match stop with Some j => j =? L | None => false end) && (1 <? n)
       then window_events L i ((n - 1) * L - i) fm multi (negb skip_end)
            ++ turn_ev fm multi 0 L false
       else window_events L i (window_count L i stop n) fm multi (negb skip_end).
Proof.
  intros HL Ei Hi En Hn Hstop.
  assert (Hs : resolve_start L (-1) start = Some i) by (apply resolve_start_some; [assumption|lia]).
  assert (Ht : match turns with
               | Some n0 => if 0 <? n0 then Some n0 else None
               | None => Some 1
               end = Some n).
  { subst n. destruct turns; [|reflexivity]. now replace (0 <? z) with true by lia. }
  unfold plan_no_collective. cbn [a_start]. rewrite Hs.
  unfold split_turns. cbn [a_nele a_turns a_stop]. rewrite Ht.
  destruct stop as [j|].
  - specialize (Hstop j eq_refl).
    replace (negb ((0 <=? j) && (j <=? L))) with false by lia.
    unfold window_count.
    destruct (j <=? i) eqn:Ej.
    + replace (n + 1 =? 1) with false by lia.
      replace (negb (0 <=? L - i)) with false by lia.
      replace (j =? L) with false by lia. cbn [andb].
      eexists; split; [reflexivity|].
      rewrite calls_window by lia. f_equal. lia.
    + destruct (n =? 1) eqn:E1.
      * replace (negb (0 <=? j - i)) with false by lia.
        replace ((j =? L) && (1 <? n)) with false by lia.
        eexists; split; [reflexivity|].
        cbn [Z.ltb Z.compare app flat_map]. rewrite app_nil_r.
        unfold call_ev; cbn [kc_turns kc_start kc_n kc_end].
        change (Z.to_nat 1) with 1%nat. rewrite repeat_l_1.
        replace ((n - 1) * L + (j - i)) with (j - i) by lia.
        rewrite window_in_turn by lia.
        replace (i + (j - i) =? L) with (j - i + i =? L) by lia.
        destruct skip_end; reflexivity.
      * replace (negb (0 <=? L - i)) with false by lia.
        eexists; split; [reflexivity|].
        destruct (Z.eq_dec j L) as [->|HjL].
        -- replace ((L =? L) && (1 <? n)) with true by lia.
           rewrite app_assoc, flat_map_app.
           pose proof (calls_window L i (n - 2) 0 fm multi skip_end) as E.
           change (0 <? 0) with false in E. cbv iota in E. rewrite app_nil_r in E.
           rewrite E by lia. f_equal.
           ++ f_equal. lia.
           ++ replace (0 <? L) with true by lia. cbn [flat_map]. rewrite app_nil_r.
              unfold call_ev; cbn [kc_turns kc_start kc_n kc_end].
              change (Z.to_nat 1) with 1%nat. now rewrite repeat_l_1.
        -- replace ((j =? L) && (1 <? n)) with false by lia.
           rewrite calls_window by lia. f_equal. lia.
  - replace (negb (0 <=? L - i)) with false by lia. cbn [andb].
    eexists; split; [reflexivity|].
    rewrite calls_window by lia. f_equal. unfold window_count. lia.
Qed.

(** The explicit [ele_stop = L] is special: see [ends_ok]. *)
Definition ends_ok (L : Z) (stop : option Z) (n : Z) : Prop := stop <> Some L \/ n = 1.

Lemma no_collective_window L skip_end fm multi start stop turns i n :
  0 < L ->
  i = match start with Some e => e | None => 0 end -> 0 <= i < L ->
  n = match turns with Some n => n | None => 1 end -> 0 < n ->
  (forall j, stop = Some j -> 0 <= j <= L) ->
  ends_ok L stop n ->
  events_no_collective L skip_end (-1) fm multi false (mkTargs start stop None turns)
  = Some (window_events L i (window_count L i stop n) fm multi (negb skip_end)).
Proof.
  intros HL Ei Hi En Hn Hstop Hok.
  destruct (plan_window L skip_end fm multi start stop turns i n) as (cs & Hcs & E); auto.
  erewrite events_of_plan by (eauto; lia). rewrite E.
  replace (_ && _) with false; [reflexivity|].
  destruct stop as [j|]; [|reflexivity].
  destruct Hok as [H|H]; [|lia].
  assert (j <> L) by congruence. lia.
Qed.

(** Whatever the end-of-turn actions, the elements applied are those of the window. *)
Lemma elements_app a b : elements_of (a ++ b) = elements_of a ++ elements_of b.
Proof. apply flat_map_app. Qed.

Lemma elements_window L i c fm multi ends :
  elements_of (window_events L i c fm multi ends)
  = map (fun k => (i + Z.of_nat k) mod L) (seq 0 (Z.to_nat c)).
Proof.
  unfold window_events, elements_of.
  induction (seq 0 (Z.to_nat c)) as [|k l IH]; [reflexivity|].
  cbn [flat_map map]. rewrite flat_map_app, IH. unfold position_events.
  destruct (fm =? 1), (fm =? 2), multi, ends, (Z.of_nat k =? 0), (Z.of_nat k =? c - 1),
    ((i + Z.of_nat k) mod L =? 0), ((i + Z.of_nat k + 1) mod L =? 0); reflexivity.
Qed.

Lemma elements_turn fm multi i c e :
  elements_of (turn_ev fm multi i c e) = map (fun k => i + Z.of_nat k) (seq 0 (Z.to_nat c)).
Proof.
  unfold turn_ev. rewrite !elements_app.
  replace (elements_of (if fm =? 1 then [Mon] else [])) with (@nil Z) by now destruct (fm =? 1).
  replace (elements_of (if fm =? 2 then [Mon] else [])) with (@nil Z) by now destruct (fm =? 2).
  replace (elements_of (if e then [EndTurn] else [])) with (@nil Z) by now destruct e.
  rewrite !app_nil_r. cbn [app].
  induction (seq 0 (Z.to_nat c)) as [|k l IH]; [reflexivity|].
  cbn [flat_map map]. rewrite elements_app, IH. unfold body_ev.
  destruct (fm =? 2), multi; reflexivity.
Qed.

Lemma map_seq_split {B} (f : nat -> B) a b :
  map f (seq 0 (a + b)) = map f (seq 0 a) ++ map (fun k => f (a + k)%nat) (seq 0 b).
Proof.
  pose proof (flat_map_seq_split (fun k => [f k]) a b) as H.
  rewrite !flat_map_concat_map in H.
  assert (E : forall (g : nat -> B) l, concat (map (fun k => [g k]) l) = map g l).
  { intros g l. induction l as [|x l IH]; cbn; [reflexivity|now rewrite IH]. }
  now rewrite !E in H.
Qed.

Lemma no_collective_elements L skip_end fm multi start stop turns i n :
  0 < L ->
  i = match start with Some e => e | None => 0 end -> 0 <= i < L ->
  n = match turns with Some n => n | None => 1 end -> 0 < n ->
  (forall j, stop = Some j -> 0 <= j <= L) ->
  option_map elements_of
    (events_no_collective L skip_end (-1) fm multi false (mkTargs start stop None turns))
  = Some (map (fun k => (i + Z.of_nat k) mod L) (seq 0 (Z.to_nat (window_count L i stop n)))).
Proof.
  intros HL Ei Hi En Hn Hstop.
  destruct (plan_window L skip_end fm multi start stop turns i n) as (cs & Hcs & E); auto.
  erewrite events_of_plan by (eauto; lia). rewrite E. cbn [option_map]. f_equal.
  destruct (_ && _) eqn:Eb.
  - destruct stop as [j|]; [|discriminate].
    assert (j = L /\ 1 < n) as [-> Hn1] by lia.
    rewrite elements_app, elements_window, elements_turn. unfold window_count.
    replace (L <=? i) with false by lia.
    replace (Z.to_nat ((n - 1) * L + (L - i)))
      with (Z.to_nat ((n - 1) * L - i) + Z.to_nat L)%nat by nia.
    rewrite map_seq_split. f_equal. apply map_ext_in. intros k Hk. apply in_seq in Hk.
    replace (i + Z.of_nat (Z.to_nat ((n - 1) * L - i) + k)) with (Z.of_nat k + (n - 1) * L) by nia.
    rewrite Z_mod_plus_full, Z.mod_small by lia. lia.
  - apply elements_window.
Qed.

(** Windows given by ele_start, num_elements. *)
Lemma no_collective_num_elements L skip_end fm multi start i k :
  0 < L ->
  i = match start with Some e => e | None => 0 end -> 0 <= i < L -> 0 < k ->
  events_no_collective L skip_end (-1) fm multi false (mkTargs start None (Some k) None)
  = Some (window_events L i k fm multi (negb skip_end)).
Proof.
  intros HL Ei Hi Hk.
  assert (Hs : resolve_start L (-1) start = Some i) by (apply resolve_start_some; [assumption|lia]).
  assert (H : exists cs, plan_no_collective L skip_end (-1) (mkTargs start None (Some k) None) = Some cs
    /\ flat_map (call_ev fm multi false) cs = window_events L i k fm multi (negb skip_end)).
  { unfold plan_no_collective. cbn [a_start]. rewrite Hs.
    unfold split_turns. cbn [a_nele a_turns a_stop].
    replace (negb (0 <=? k)) with false by lia.
    destruct (k + i <=? L) eqn:E.
    - replace (negb (0 <=? k)) with false by lia.
      eexists; split; [reflexivity|].
      cbn [Z.ltb Z.compare app flat_map]. rewrite app_nil_r.
      unfold call_ev; cbn [kc_turns kc_start kc_n kc_end].
      change (Z.to_nat 1) with 1%nat. rewrite repeat_l_1, window_in_turn by lia.
      replace (i + k =? L) with (k + i =? L) by lia. destruct skip_end; reflexivity.
    - replace (L =? 0) with false by lia.
      replace (negb (0 <=? L - i)) with false by lia.
      eexists; split; [reflexivity|].
      pose proof (Z_div_mod_eq_full (i + k) L) as Hdm.
      pose proof (Z.mod_pos_bound (i + k) L HL) as Hb.
      set (q := (i + k) / L) in *. set (r := (i + k) mod L) in *.
      rewrite calls_window by nia. f_equal. nia. }
  destruct H as (cs & Hcs & E). erewrite events_of_plan by (eauto; lia). now rewrite E.
Qed.

(** ** Progress batches *)

Lemma track_ev_app L skip_end spte fm multi bt a st t :
  0 <= L ->
  events_no_collective L skip_end spte fm multi bt a = Some t ->
  track_no_collective ev_ops L skip_end spte fm multi bt a st = Some (rev t ++ st).
Proof.
  intros HL. unfold events_no_collective, track_no_collective.
  destruct (plan_no_collective L skip_end spte a) as [cs|] eqn:E; [|discriminate].
  rewrite !run_calls_ev by (eapply plan_nonneg; eauto).
  cbn [option_map]. intros [= <-]. rewrite app_nil_r, rev_involutive. reflexivity.
Qed.

Section Progress.
Variables (L : Z) (skip_end : bool) (fm : Z) (multi : bool) (batch n' n : Z)
          (start stop : option Z).
Hypothesis HL : 0 < L.
Hypothesis Hbatch : 0 < batch.
Hypothesis Hstop : forall j, stop = Some j -> 0 < j < L.
(* position, in the last turn, where tracking stops *)
Let jj := match stop with Some j => j | None => L end.
Let a := mkTargs start stop None (Some n).

Lemma later_batches : forall (fuel : nat) ii q st,
  ii = q * batch -> 0 < q -> n' - ii <= Z.of_nat fuel ->
  exists l, progress_batches fuel ii n' batch a = Some l /\
    run_batches ev_ops L skip_end (-1) fm multi false l st
    = Some (rev (if ii <? n'
                 then window_events L 0 ((n' - ii - 1) * L + jj) fm multi (negb skip_end)
                 else []) ++ st).
Proof.
  assert (Hjj : 0 < jj <= L).
  { unfold jj. destruct stop as [j|] eqn:E; [specialize (Hstop j eq_refl)|]; lia. }
  assert (HstopL : forall m, ends_ok L stop m).
  { intros m. left. intros E. specialize (Hstop L E). lia. }
  induction fuel as [|fuel IH]; intros ii q st Hii Hq Hf.
  - cbn [progress_batches]. replace (ii <? n') with false by lia.
    exists []. split; reflexivity.
  - cbn [progress_batches]. destruct (ii <? n') eqn:Eii.
    2:{ exists []. split; reflexivity. }
    replace (ii =? 0) with false by nia. cbn [andb].
    destruct (n' <=? ii + batch) eqn:El.
    + (* last batch *)
      assert (Hr : (if n' mod batch =? 0 then batch else n' mod batch) = n' - ii).
      { destruct (Z.eq_dec n' (ii + batch)) as [E|E].
        - replace n' with ((q + 1) * batch) by nia. rewrite Z.mod_mul by lia.
          cbn [Z.eqb]. nia.
        - replace n' with (n' - ii + q * batch) by lia.
          rewrite Z_mod_plus_full, Z.mod_small by lia.
          replace (n' - ii =? 0) with false by lia. lia. }
      cbv zeta. cbn [a_stop a a_nele]. rewrite Hr.
      destruct (IH (ii + batch) (q + 1) st) as (l & Hl & _); try lia.
      replace l with (@nil targs) in Hl.
      2:{ destruct fuel; cbn [progress_batches] in Hl;
          replace (ii + batch <? n') with false in Hl by lia; congruence. }
      rewrite Hl. eexists; split; [reflexivity|].
      cbn [run_batches].
      erewrite track_ev_app; [reflexivity|lia|].
      erewrite (no_collective_window L skip_end fm multi None stop (Some (n' - ii)) 0 (n' - ii));
        try lia; auto.
      2:{ intros j Hj. specialize (Hstop j Hj). lia. }
      f_equal. f_equal. unfold window_count, jj. destruct stop as [j|] eqn:E.
      * specialize (Hstop j eq_refl). replace (j <=? 0) with false by lia. lia.
      * lia.
    + (* middle batch *)
      destruct (IH (ii + batch) (q + 1)
        (rev (window_events L 0 (batch * L) fm multi (negb skip_end)) ++ st))
        as (l & Hl & Hrun); try lia.
      rewrite Hl. eexists; split; [reflexivity|].
      cbn [run_batches a_nele a].
      erewrite track_ev_app with (t := window_events L 0 (batch * L) fm multi (negb skip_end));
        [|lia|].
      2:{ erewrite (no_collective_window L skip_end fm multi None None (Some batch) 0 batch);
          try lia; auto; try congruence.
          - f_equal. f_equal. unfold window_count. lia.
          - left; discriminate. }
      rewrite Hrun. replace (ii + batch <? n') with true by lia.
      rewrite app_assoc, <- rev_app_distr. f_equal. f_equal. f_equal.
      rewrite <- (window_split_gen L batch) by nia. f_equal. lia.
Qed.

Lemma progress_window i :
  i = match start with Some e => e | None => 0 end -> 0 <= i < L -> 0 < n ->
  n' = (if jj <=? i then n + 1 else n) ->
  events_progress L skip_end (-1) fm multi false batch a
  = events_no_collective L skip_end (-1) fm multi false a.
Proof.
  intros Ei Hi Hn En'.
  assert (Hjj : 0 < jj <= L).
  { unfold jj. destruct stop as [j|] eqn:E; [specialize (Hstop j eq_refl)|]; lia. }
  assert (HstopL : forall m, ends_ok L stop m).
  { intros m. left. intros E. specialize (Hstop L E). lia. }
  assert (Hall : events_no_collective L skip_end (-1) fm multi false a
    = Some (window_events L i ((n' - 1) * L + jj - i) fm multi (negb skip_end))).
  { unfold a. erewrite (no_collective_window L skip_end fm multi start stop (Some n) i n); auto.
    - f_equal. f_equal. subst n'. unfold window_count, jj.
      destruct stop as [j|]; [destruct (j <=? i)|replace (L <=? i) with false by lia]; lia.
    - intros j Hj. specialize (Hstop j Hj). lia. }
  rewrite Hall. unfold events_progress, track_with_progress, plan_progress.
  cbn [a_turns a_start a_stop a]. rewrite <- Ei. fold jj. rewrite <- En'.
  assert (Hn' : 0 < n') by (subst n'; destruct (jj <=? i); lia).
  destruct (Z.to_nat n') as [|fuel] eqn:Ef; [lia|].
  cbn [progress_batches]. replace (0 <? n') with true by lia.
  cbn [Z.eqb Z.add andb].
  destruct (n' <=? batch) eqn:El.
  - (* a single batch *)
    assert (Hnil : progress_batches fuel batch n' batch a = Some []).
    { destruct fuel; cbn [progress_batches]; now replace (batch <? n') with false by lia. }
    rewrite Hnil. cbn [run_batches].
    erewrite track_ev_app by (eauto; lia). cbn [option_map].
    rewrite app_nil_r, rev_involutive. reflexivity.
  - destruct (later_batches fuel batch 1
       (rev (window_events L i (batch * L - i) fm multi (negb skip_end)))) as (l & Hl & Hrun);
      try lia.
    rewrite Hl.
    cbn [run_batches a_start a_nele a].
    erewrite track_ev_app with (t := window_events L i (batch * L - i) fm multi (negb skip_end));
      [|lia|].
    2:{ erewrite (no_collective_window L skip_end fm multi start None (Some batch) i batch);
        try lia; auto; try congruence. left; discriminate. }
    rewrite app_nil_r, Hrun. replace (batch <? n') with true by lia.
    cbn [option_map]. rewrite rev_app_distr, !rev_involutive.
    f_equal. rewrite <- (window_split_gen L batch) by nia. f_equal. lia.
Qed.
End Progress.
