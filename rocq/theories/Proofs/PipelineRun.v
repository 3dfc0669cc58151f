(** Runs of pipelined elements *)
From Coq Require Import QArith ZArith List Bool String Arith Lia.
From Verif.Model Require Import Line.
From Verif.Model Require Import Pipeline.
From Verif.Spec Require Import Pipeline.
From Verif.Proofs Require Import Pipeline.
Import ListNotations.
Local Open Scope list_scope.

Lemma slot_eqb_spec a b : reflect (a = b) (slot_eqb a b).
Proof.
  destruct a as [[x y] z], b as [[u v] w]. unfold slot_eqb.
  destruct (Nat.eqb_spec x u), (Nat.eqb_spec y v), (Nat.eqb_spec z w); cbn; constructor; congruence.
Qed.
Lemma skipn_snoc {A} (l : list A) n x : (n <= List.length l)%nat -> skipn n (l ++ [x]) = skipn n l ++ [x].
Proof. intros H. rewrite skipn_app. replace (n - List.length l)%nat with 0%nat by lia. reflexivity. Qed.
Lemma skipn_tl {A} (l : list A) n : skipn (S n) l = tl (skipn n l).
Proof. revert n. induction l as [|x r IH]; intros [|n]; cbn [skipn tl]; try reflexivity. apply IH. Qed.
Lemma skipn_le {A} (l : list A) n y r : skipn n l = y :: r -> (S n <= List.length l)%nat.
Proof. intros H. destruct (Nat.lt_ge_cases n (List.length l)) as [L|L]; [lia|]. rewrite skipn_all2 in H by exact L. discriminate. Qed.

(** * Waiting messages *)
Section Run.
Variables (l : list registration) (md : mode).
Let m := fold_left register l new_manager.
Hypothesis Hreg : registered_once l.
Hypothesis Hmd : md = MPI \/ one_rank l.
Let G : good l m := register_good l Hreg.

(** the slot and the process of a channel *)
Definition at_slot (c : channel) (sl : slot) (p : nat) (tag : nat) : Prop :=
  exists rs rr, message_tag m c = Some (rs, rr, tag) /\ send_slot md rs rr tag = sl /\ recv_slot md rs rr tag = sl /\ process md rs = p.
Lemma at_known c : known l c -> exists sl p tag, at_slot c sl p tag.
Proof.
  intros K. destruct (tag_known l m G c K) as (rs & rr & tag & T & S & R). exists (send_slot md rs rr tag), (process md rs), tag, rs, rr.
  repeat split; auto. destruct Hmd as [->|O]; [reflexivity|]. rewrite (O _ _ _ _ S R). destruct md; reflexivity.
Qed.
Lemma at_ranks c c' rs rr rs' rr' tag tag' : message_tag m c = Some (rs, rr, tag) -> message_tag m c' = Some (rs', rr', tag') ->
  process md rs = process md rs' -> rs = rs'.
Proof.
  intros T T' P. destruct Hmd as [E|O]; [rewrite E in P; exact P|].
  assert (Q : forall c rs rr tag, message_tag m c = Some (rs, rr, tag) -> In (Particles (c_sender c) rs) l).
  { intros d a b t. unfold message_tag. destruct (get (m_elements m) _); [|discriminate]. destruct (get (m_ids m) (c_sender d)) as [[x y]|] eqn:S; [|discriminate].
    destruct (get (m_ids m) (c_receiver d)) as [[u v]|]; [|discriminate]. intros H. assert (x = a) by congruence. subst. exact (g_id_rank _ _ G _ _ _ S). }
  exact (O _ _ _ _ (Q _ _ _ _ T) (Q _ _ _ _ T')).
Qed.
Lemma at_inj c c' sl p p' tag tag' : at_slot c sl p tag -> at_slot c' sl p' tag' -> c = c'.
Proof.
  intros (rs & rr & T & S & R & P) (rs' & rr' & T' & S' & R' & P').
  assert (E : rs = rs' /\ rr = rr' /\ tag = tag') by (destruct md; cbn in *; split; [|split| |split]; congruence).
  destruct E as (<- & <- & <-). exact (tag_inj l m G _ _ _ _ _ T T').
Qed.
Lemma at_key c c' sl sl' p tag tag' : at_slot c sl p tag -> at_slot c' sl' p tag' -> message_key c tag = message_key c' tag' -> c = c'.
Proof.
  intros (rs & rr & T & S & R & P) (rs' & rr' & T' & S' & R' & P') K.
  assert (rs = rs') by (eapply at_ranks; eauto; congruence). subst rs'. exact (key_inj l m G _ _ _ _ _ _ _ T T' K).
Qed.

Record inv (w : world) (tr : trace) : Prop := {
  v_heap : forall b, w_heap w b = content tr b;
  v_queue : forall c sl p tag, at_slot c sl p tag -> map snd (w_queues w sl) = map fst (waiting tr c);
  v_content : forall c b x, In (b, x) (waiting tr c) -> content tr b = x;
  v_last : forall c sl p tag, at_slot c sl p tag ->
    match last_turn tr c with
    | None => w_last w p (message_key c tag) = None
    | Some t => exists n, w_last w p (message_key c tag) = Some (t, sl, n) /\
        (w_queues w sl = [] \/ exists q b, w_queues w sl = q ++ [(n, b)])
    end;
  v_less : forall c, (List.length (received tr c) <= List.length (sent tr c))%nat;
  v_history : forall c, map snd (sent tr c) = received tr c ++ map snd (waiting tr c)
}.
Lemma inv_start : inv start [].
Proof. split; cbn; try reflexivity; intros; try contradiction; auto. Qed.

Definition fits (o : op) : Prop := forall c, op_channel o = Some c -> known l c.

(** the outcome of a call *)
Lemma outcome w tr o : inv w tr -> fits o -> careful_step tr o -> option_map snd (step md m w o) = expected md tr o.
Proof.
  intros I F C. destruct o as [b x|b c t|c t|c|b c]; cbn [step expected].
  - reflexivity.
  - destruct (at_known c (F c eq_refl)) as (sl & p & tag & rs & rr & T & _). rewrite T. reflexivity.
  - destruct (at_known c (F c eq_refl)) as (sl & p & tag & A). pose proof A as (rs & rr & T & S & R & P). rewrite T. cbn [option_map snd]. do 2 f_equal.
    pose proof (v_last _ _ I _ _ _ _ A) as L. pose proof (v_queue _ _ I _ _ _ _ A) as Q. rewrite P. destruct (last_turn tr c) as [t0|]; [|now rewrite L].
    destruct L as (n & -> & E). rewrite Z.ltb_antisym. destruct (t <=? t0)%Z; [reflexivity|]. cbn [negb andb].
    destruct md; [destruct (waiting tr c); reflexivity|]. destruct E as [E|(q & b & E)]; rewrite E in Q |- *.
    + destruct (waiting tr c); [reflexivity|discriminate].
    + rewrite map_app in Q. destruct (waiting tr c); [destruct (map snd q); discriminate|].
      rewrite existsb_app. cbn. rewrite Nat.eqb_refl. cbn. now rewrite orb_true_r.
  - destruct (at_known c (F c eq_refl)) as (sl & p & tag & A). pose proof A as (rs & rr & T & S & R & P). rewrite T. cbn [option_map snd]. do 2 f_equal.
    pose proof (v_queue _ _ I _ _ _ _ A) as Q. rewrite R. destruct (w_queues w sl), (waiting tr c); try discriminate; reflexivity.
  - destruct (at_known c (F c eq_refl)) as (sl & p & tag & A). pose proof A as (rs & rr & T & S & R & P). rewrite T. cbv zeta. rewrite R.
    pose proof (v_queue _ _ I _ _ _ _ A) as Q. destruct C as [_ C]. pose proof (v_content _ _ I c) as X.
    destruct (w_queues w sl) as [|[n b'] q], (waiting tr c) as [|[b0 x] r]; try discriminate; [reflexivity|].
    injection Q as -> _. rewrite !(v_heap _ _ I). rewrite (X b0 x (or_introl eq_refl)). unfold assign.
    rewrite (C _ _ _ eq_refl), Nat.eqb_refl. reflexivity.
Qed.

Lemma waiting_send tr b c t x c0 : (forall c, List.length (received tr c) <= List.length (sent tr c))%nat ->
  waiting ((Send b c t, x) :: tr) c0 = if channel_dec c c0 then waiting tr c0 ++ [(b, content tr b)] else waiting tr c0.
Proof. intros L. unfold waiting. cbn [received sent]. destruct (channel_dec c c0); [|reflexivity]. now rewrite skipn_snoc. Qed.
Lemma waiting_receive tr b c x c0 :
  waiting ((Receive b c, Data x) :: tr) c0 = if channel_dec c c0 then tl (waiting tr c0) else waiting tr c0.
Proof.
  unfold waiting. cbn [received sent]. destruct (channel_dec c c0); [|reflexivity]. rewrite app_length. cbn [List.length]. rewrite Nat.add_1_r. apply skipn_tl.
Qed.
Lemma in_tl {A} (l0 : list A) x : In x (tl l0) -> In x l0.
Proof. destruct l0; cbn; auto. Qed.
Lemma last_tl {A} (q : list A) y x r : y :: r = q ++ [x] -> r = [] \/ exists q', r = q' ++ [x].
Proof. destruct q as [|z q]; cbn; intros H; injection H as -> ->; [now left|right; eauto]. Qed.

Lemma step_inv w tr o w' x : inv w tr -> fits o -> careful_step tr o -> step md m w o = Some (w', x) -> inv w' ((o, x) :: tr).
Proof.
  intros I F C H. pose proof (outcome w tr o I F C) as O. rewrite H in O. cbn [option_map snd] in O.
  destruct o as [b d|b c t|c t|c|b c]; cbn [step expected] in *.
  - injection H as <- <-. split; cbn [w_heap w_queues w_last content sent received last_turn].
    + intros k. unfold set_heap. destruct (k =? b)%nat; [reflexivity|apply (v_heap _ _ I)].
    + exact (v_queue _ _ I).
    + intros c k y Hy. change (waiting ((Write b d, Done) :: tr) c) with (waiting tr c) in Hy.
      destruct (Nat.eqb_spec k b) as [->|]; [elim (C _ _ Hy)|exact (v_content _ _ I _ _ _ Hy)].
    + exact (v_last _ _ I).
    + exact (v_less _ _ I).
    + exact (v_history _ _ I).
  - destruct (at_known c (F c eq_refl)) as (sl & p & tag & A). pose proof A as (rs & rr & T & S & R & P). rewrite T in H. cbv zeta in H. rewrite S, P in H.
    injection H as <- <-. pose proof (waiting_send tr b c t Done) as W. specialize (fun c0 => W c0 (v_less _ _ I)).
    split; cbn [w_heap w_queues w_last content].
    + exact (v_heap _ _ I).
    + intros c0 sl0 p0 tag0 A0. rewrite W. unfold set_queue. destruct (channel_dec c c0) as [<-|N].
      * assert (E : sl0 = sl) by (destruct A0 as (? & ? & ? & ? & ? & ?); congruence). subst sl0.
        destruct (slot_eqb_spec sl sl); [|congruence]. rewrite !map_app, (v_queue _ _ I _ _ _ _ A). reflexivity.
      * destruct (slot_eqb_spec sl0 sl) as [->|]; [elim N; exact (at_inj _ _ _ _ _ _ _ A A0)|]. exact (v_queue _ _ I _ _ _ _ A0).
    + intros c0 k y. rewrite W. destruct (channel_dec c c0); [|apply (v_content _ _ I)]. rewrite in_app_iff. cbn.
      intros [Hy|[Hy|[]]]; [exact (v_content _ _ I _ _ _ Hy)|congruence].
    + intros c0 sl0 p0 tag0 A0. cbn [last_turn]. unfold set_last, set_queue. destruct (channel_dec c c0) as [<-|N].
      * assert (E : sl0 = sl /\ p0 = p /\ tag0 = tag) by (destruct A0 as (? & ? & ? & ? & ? & ?); repeat split; congruence). destruct E as (-> & -> & ->).
        exists (w_serial w). rewrite Nat.eqb_refl, String.eqb_refl. split; [reflexivity|]. right.
        destruct (slot_eqb_spec sl sl); [|congruence]. eauto.
      * destruct (Nat.eqb_spec p0 p) as [->|]; cbn [andb].
        -- destruct (String.eqb_spec (message_key c0 tag0) (message_key c tag)) as [E|_]; [elim N; symmetry; exact (at_key _ _ _ _ _ _ _ A0 A E)|].
           destruct (slot_eqb_spec sl0 sl) as [->|]; [elim N; exact (at_inj _ _ _ _ _ _ _ A A0)|]. exact (v_last _ _ I _ _ _ _ A0).
        -- destruct (slot_eqb_spec sl0 sl) as [->|]; [elim N; exact (at_inj _ _ _ _ _ _ _ A A0)|]. exact (v_last _ _ I _ _ _ _ A0).
    + intros c0. cbn [sent received]. pose proof (v_less _ _ I c0). destruct (channel_dec c c0); [rewrite app_length; lia|assumption].
    + intros c0. rewrite W. cbn [sent received]. pose proof (v_history _ _ I c0) as Hh. destruct (channel_dec c c0); [|exact Hh].
      rewrite !map_app, Hh, app_assoc. reflexivity.
  - destruct (at_known c (F c eq_refl)) as (sl & p & tag & A). pose proof A as (rs & rr & T & _). rewrite T in H. injection H as <- <-.
    split; [exact (v_heap _ _ I)|exact (v_queue _ _ I)|exact (v_content _ _ I)|exact (v_last _ _ I)|exact (v_less _ _ I)|exact (v_history _ _ I)].
  - destruct (at_known c (F c eq_refl)) as (sl & p & tag & A). pose proof A as (rs & rr & T & _). rewrite T in H. injection H as <- <-.
    split; [exact (v_heap _ _ I)|exact (v_queue _ _ I)|exact (v_content _ _ I)|exact (v_last _ _ I)|exact (v_less _ _ I)|exact (v_history _ _ I)].
  - destruct (at_known c (F c eq_refl)) as (sl & p & tag & A). pose proof A as (rs & rr & T & S & R & P). rewrite T in H. cbv zeta in H. rewrite R in H.
    destruct (w_queues w sl) as [|[n b'] q] eqn:Q; [discriminate|]. destruct (assign _ _) as [y|]; [|discriminate]. injection H as <- <-.
    destruct C as [C _]. pose proof (waiting_receive tr b c y) as W.
    destruct (waiting tr c) as [|[b0 x0] rest] eqn:Wc; [discriminate|]. injection O as ->.
    assert (B : (List.length (received tr c) + 1 <= List.length (sent tr c))%nat) by (unfold waiting in Wc; apply skipn_le in Wc; lia).
    split; cbn [w_heap w_queues w_last content].
    + intros k. unfold set_heap. destruct (k =? b)%nat; [reflexivity|apply (v_heap _ _ I)].
    + intros c0 sl0 p0 tag0 A0. rewrite W. unfold set_queue. destruct (channel_dec c c0) as [<-|N].
      * assert (E : sl0 = sl) by (destruct A0 as (? & ? & ? & ? & ? & ?); congruence). subst sl0.
        destruct (slot_eqb_spec sl sl); [|congruence]. pose proof (v_queue _ _ I _ _ _ _ A) as V. rewrite Q, Wc in V. rewrite Wc. injection V as _ V. exact V.
      * destruct (slot_eqb_spec sl0 sl) as [->|]; [elim N; exact (at_inj _ _ _ _ _ _ _ A A0)|]. exact (v_queue _ _ I _ _ _ _ A0).
    + intros c0 k z. rewrite W. intros Hz. assert (Hz' : In (k, z) (waiting tr c0)) by (destruct (channel_dec c c0); [now apply in_tl|exact Hz]).
      destruct (Nat.eqb_spec k b) as [->|]; [elim (C _ _ Hz')|exact (v_content _ _ I _ _ _ Hz')].
    + intros c0 sl0 p0 tag0 A0. cbn [last_turn]. pose proof (v_last _ _ I _ _ _ _ A0) as L. unfold set_queue.
      destruct (slot_eqb_spec sl0 sl) as [->|]; [|exact L]. destruct (last_turn tr c0); [|exact L]. destruct L as (n' & L1 & L2). exists n'. split; [exact L1|].
      rewrite Q in L2. destruct L2 as [L2|(q' & b'' & L2)]; [discriminate|]. apply last_tl in L2 as [->|(q'' & ->)]; eauto.
    + intros c0. cbn [sent received]. pose proof (v_less _ _ I c0). destruct (channel_dec c c0) as [<-|]; [rewrite app_length; cbn [List.length]; lia|assumption].
    + intros c0. rewrite W. cbn [sent received]. pose proof (v_history _ _ I c0) as Hh. destruct (channel_dec c c0) as [<-|]; [|exact Hh].
      rewrite Hh, Wc. cbn [tl map snd]. rewrite <- app_assoc. reflexivity.
Qed.

Lemma careful_app tr1 tr2 : careful (tr1 ++ tr2) -> careful tr2.
Proof. induction tr1 as [|[o x] r IH]; cbn; [auto|]. intros [_ H]. auto. Qed.
Lemma run_trace ops : forall w tr w' tr', run md m w tr ops = Some (w', tr') -> exists tr1, tr' = tr1 ++ tr.
Proof.
  induction ops as [|o r IH]; cbn [run]; intros w tr w' tr' H; [injection H as <- <-; exists []; reflexivity|].
  destruct (step md m w o) as [[w1 x]|]; [|discriminate]. destruct (IH _ _ _ _ H) as (tr1 & ->). exists (tr1 ++ [(o, x)]). now rewrite <- app_assoc.
Qed.
Lemma run_inv ops : forall w tr w' tr', inv w tr -> (forall o, In o ops -> fits o) -> run md m w tr ops = Some (w', tr') -> careful tr' -> inv w' tr'.
Proof.
  induction ops as [|o r IH]; cbn [run]; intros w tr w' tr' I F H C; [injection H as <- <-; exact I|].
  destruct (step md m w o) as [[w1 x]|] eqn:S; [|discriminate]. destruct (run_trace _ _ _ _ _ H) as (tr1 & E).
  assert (C1 : careful ((o, x) :: tr)) by (rewrite E in C; exact (careful_app _ _ C)). destruct C1 as [C1 _].
  apply (IH w1 ((o, x) :: tr)); [|intros o' Ho; apply F; now right|exact H|exact C]. exact (step_inv _ _ _ _ _ I (F o (or_introl eq_refl)) C1 S).
Qed.
End Run.

Lemma run_outcome l md ops w tr o : let m := fold_left register l new_manager in
  registered_once l -> md = MPI \/ one_rank l -> all_known l (ops ++ [o]) ->
  run md m start [] ops = Some (w, tr) -> careful tr -> careful_step tr o ->
  option_map snd (step md m w o) = expected md tr o.
Proof.
  cbv zeta. intros R M K H C Co. apply (outcome l md R M w tr o).
  - apply (run_inv l md R M ops start []); [apply inv_start| |exact H|exact C]. intros o' Ho c Hc. apply (K o' c); [rewrite in_app_iff; now left|exact Hc].
  - intros c Hc. apply (K o c); [rewrite in_app_iff; right; now left|exact Hc].
  - exact Co.
Qed.
Lemma run_history l md ops w tr c : let m := fold_left register l new_manager in
  registered_once l -> md = MPI \/ one_rank l -> all_known l ops ->
  run md m start [] ops = Some (w, tr) -> careful tr ->
  map snd (sent tr c) = received tr c ++ map snd (waiting tr c).
Proof.
  cbv zeta. intros R M K H C. apply (v_history l md w tr).
  apply (run_inv l md R M ops start []); [apply inv_start| |exact H|exact C]. intros o' Ho d Hd. apply (K o' d Ho Hd).
Qed.
Lemma tags_distinct l c c' rs rr tag : let m := fold_left register l new_manager in
  registered_once l -> message_tag m c = Some (rs, rr, tag) -> message_tag m c' = Some (rs, rr, tag) -> c = c'.
Proof. cbv zeta. intros R. exact (tag_inj l _ (register_good l R) c c' rs rr tag). Qed.
