(** Proofs about pipeline messages *)
From Coq Require Import QArith ZArith List Bool String Ascii Arith Lia DecimalString.
From Verif.Model Require Import Line.
From Verif.Model Require Import Pipeline.
From Verif.Spec Require Import Pipeline.
From Verif.Proofs Require LineBase.
Import ListNotations.
Local Open Scope list_scope.

(** * Dictionaries *)
Lemma put_new {A} (d : list (string * A)) n x : ~ In n (map fst d) -> put d n x = d ++ [(n, x)].
Proof.
  induction d as [|[m e] r IH]; cbn; intros H; [reflexivity|]. destruct (String.eqb_spec n m) as [->|N]; [elim H; now left|].
  rewrite IH; [reflexivity|]. intros I. apply H. now right.
Qed.
Lemma get_app {A} (a b : list (string * A)) n : get (a ++ b) n = match get a n with Some x => Some x | None => get b n end.
Proof. induction a as [|[m e] r IH]; cbn; [reflexivity|]. destruct (String.eqb n m); [reflexivity|exact IH]. Qed.
Lemma get_in {A} (d : list (string * A)) n x : get d n = Some x -> In n (map fst d).
Proof. induction d as [|[m e] r IH]; cbn; [discriminate|]. destruct (String.eqb_spec n m); [left; congruence|right; auto]. Qed.
Lemma in_get {A} (d : list (string * A)) n : In n (map fst d) -> exists x, get d n = Some x.
Proof.
  induction d as [|[m e] r IH]; cbn; [contradiction|]. destruct (String.eqb_spec n m); [eauto|]. intros [->|H]; [congruence|auto].
Qed.

(** * Registration *)
Record good (l : list registration) (m : manager) : Prop := {
  g_el : forall n i, get (m_elements m) n = Some i -> nth_error (map fst (m_elements m)) i = Some n;
  g_el_in : forall n, In n (map fst (m_elements m)) <-> In (Element n) l;
  g_id : forall n r k, get (m_ids m) n = Some (r, k) -> nth_error (m_ranks m r) k = Some n;
  g_id_rank : forall n r k, get (m_ids m) n = Some (r, k) -> In (Particles n r) l;
  g_id_in : forall n, In n (map fst (m_ids m)) <-> exists r, In (Particles n r) l;
  g_ranks : forall r, NoDup (m_ranks m r) /\ incl (m_ranks m r) (map fst (m_ids m))
}.
Lemma nodup_snoc {A} (l : list A) x : NoDup (l ++ [x]) <-> NoDup l /\ ~ In x l.
Proof.
  split.
  - intros H. split.
    + apply NoDup_remove_1 in H. now rewrite app_nil_r in H.
    + apply NoDup_remove_2 in H. now rewrite app_nil_r in H.
  - intros [N I]. induction l as [|y r IH]; cbn; [repeat constructor; auto|]. inversion_clear N. constructor.
    + rewrite in_app_iff. cbn. intros [C|[->|[]]]; [contradiction|]. apply I. now left.
    + apply IH; [assumption|]. intros C. apply I. now right.
Qed.
Lemma register_good l : registered_once l -> good l (fold_left register l new_manager).
Proof.
  unfold registered_once. induction l as [|r l IH] using rev_ind; intros N.
  - split; cbn; try discriminate; try tauto.
    + intros n. split; [contradiction|]. intros (? & []).
    + intros k. split; [constructor|intros x []].
  - rewrite map_app in N. cbn in N. apply nodup_snoc in N as [N I]. specialize (IH N). rewrite fold_left_app. cbn [fold_left].
    set (m := fold_left register l new_manager) in *. destruct r as [n k|n]; cbn [register].
    + assert (F : ~ In n (map fst (m_ids m))).
      { rewrite (g_id_in _ _ IH). intros (r & C). apply I. apply in_map_iff. exists (Particles n r). auto. }
      rewrite (put_new _ _ _ F). split; cbn [m_ids m_ranks m_elements].
      * exact (g_el _ _ IH).
      * intros x. rewrite (g_el_in _ _ IH), in_app_iff. cbn. split; [auto|]. intros [H|[H|[]]]; [exact H|discriminate].
      * intros x r j. rewrite get_app. destruct (get (m_ids m) x) as [[r0 j0]|] eqn:G.
        -- intros E. injection E as -> ->. pose proof (g_id _ _ IH _ _ _ G) as H. destruct (Nat.eqb_spec r k) as [->|]; [|exact H].
           rewrite nth_error_app1; [exact H|]. apply nth_error_Some. congruence.
        -- cbn. destruct (String.eqb_spec x n) as [->|]; [|discriminate]. intros E. injection E as <- <-. rewrite Nat.eqb_refl.
           rewrite nth_error_app2, Nat.sub_diag by lia. reflexivity.
      * intros x r j. rewrite get_app. destruct (get (m_ids m) x) as [[r0 j0]|] eqn:G.
        -- intros E. injection E as -> ->. rewrite in_app_iff. left. exact (g_id_rank _ _ IH _ _ _ G).
        -- cbn. destruct (String.eqb_spec x n) as [->|]; [|discriminate]. intros E. injection E as <- <-. rewrite in_app_iff. right. now left.
      * intros x. rewrite map_app, in_app_iff, (g_id_in _ _ IH). cbn. split.
        -- intros [(r & H)|[<-|[]]]; [exists r|exists k]; rewrite in_app_iff; [auto|right; now left].
        -- intros (r & H). rewrite in_app_iff in H. destruct H as [H|[H|[]]]; [left; eauto|]. injection H as -> ->. right. now left.
      * intros r. destruct (g_ranks _ _ IH r) as [D L]. rewrite map_app. destruct (Nat.eqb_spec r k) as [->|].
        -- split.
           ++ apply nodup_snoc. split; [exact D|]. intros C. apply F, L, C.
           ++ intros x. rewrite !in_app_iff. cbn. intros [H|H]; [left; exact (L x H)|right; exact H].
        -- split; [exact D|]. intros x H. rewrite in_app_iff. left. exact (L x H).
    + assert (F : ~ In n (map fst (m_elements m))).
      { rewrite (g_el_in _ _ IH). intros C. apply I. apply in_map_iff. exists (Element n). auto. }
      rewrite (put_new _ _ _ F). split; cbn [m_ids m_ranks m_elements].
      * intros x i. rewrite get_app, map_app. destruct (get (m_elements m) x) as [j|] eqn:G.
        -- intros E. injection E as ->. pose proof (g_el _ _ IH _ _ G) as H. rewrite nth_error_app1; [exact H|]. apply nth_error_Some. congruence.
        -- cbn. destruct (String.eqb_spec x n) as [->|]; [|discriminate]. intros E. injection E as <-.
           rewrite nth_error_app2, map_length, Nat.sub_diag by (rewrite map_length; lia). reflexivity.
      * intros x. rewrite map_app, !in_app_iff, (g_el_in _ _ IH). cbn. split; intros [H|[H|[]]]; auto; [subst; auto|]. injection H as ->. auto.
      * exact (g_id _ _ IH).
      * intros x r j G. rewrite in_app_iff. left. exact (g_id_rank _ _ IH _ _ _ G).
      * intros x. rewrite (g_id_in _ _ IH). split; intros (r & H); exists r; rewrite ?in_app_iff in *; auto. cbn in H. destruct H as [H|[H|[]]]; [exact H|discriminate].
      * exact (g_ranks _ _ IH).
Qed.

(** * Tags *)
Lemma digits_unique n q a q' a' : (a < n -> a' < n -> a + n * q = a' + n * q' -> a = a' /\ q = q')%nat.
Proof.
  intros H H' E. assert (P : q = q' /\ a = a'); [|tauto]. apply (Nat.div_mod_unique n q q' a a' H H'). lia.
Qed.
Lemma tag_unique ne ni e s r t e' s' r' t' :
  (e < ne -> e' < ne -> s < ni -> s' < ni -> r < ni -> r' < ni ->
   e + ne * s + ne * ni * r + ne * ni * ni * t = e' + ne * s' + ne * ni * r' + ne * ni * ni * t' ->
   e = e' /\ s = s' /\ r = r' /\ t = t')%nat.
Proof.
  intros. assert (E : (e + ne * (s + ni * (r + ni * t)) = e' + ne * (s' + ni * (r' + ni * t')))%nat) by lia.
  apply digits_unique in E; auto. destruct E as [E1 E]. apply digits_unique in E; auto. destruct E as [E2 E].
  apply digits_unique in E; try assumption; tauto.
Qed.

Section Tags.
Variables (l : list registration) (m : manager).
Hypothesis G : good l m.
Lemma number_less n r k : get (m_ids m) n = Some (r, k) -> (k < List.length (m_ids m))%nat.
Proof.
  intros H. apply (g_id _ _ G) in H. assert (L : (k < List.length (m_ranks m r))%nat) by (apply nth_error_Some; congruence).
  destruct (g_ranks _ _ G r) as [D I]. apply (NoDup_incl_length D) in I. rewrite map_length in I. lia.
Qed.
Lemma index_less n i : get (m_elements m) n = Some i -> (i < List.length (m_elements m))%nat.
Proof. intros H. apply (g_el _ _ G) in H. rewrite <- (map_length fst). apply nth_error_Some. congruence. Qed.
Lemma tag_parts c c' rs rr rs' rr' tag : message_tag m c = Some (rs, rr, tag) -> message_tag m c' = Some (rs', rr', tag) -> rs = rs' ->
  c_element c = c_element c' /\ c_sender c = c_sender c' /\ c_internal c = c_internal c' /\ (rr = rr' -> c_receiver c = c_receiver c').
Proof.
  unfold message_tag. intros H H' <-.
  destruct (get (m_elements m) (c_element c)) as [e|] eqn:E; [|discriminate].
  destruct (get (m_ids m) (c_sender c)) as [[a s]|] eqn:S; [|discriminate].
  destruct (get (m_ids m) (c_receiver c)) as [[b r]|] eqn:R; [|discriminate].
  destruct (get (m_elements m) (c_element c')) as [e'|] eqn:E'; [|discriminate].
  destruct (get (m_ids m) (c_sender c')) as [[a' s']|] eqn:S'; [|discriminate].
  destruct (get (m_ids m) (c_receiver c')) as [[b' r']|] eqn:R'; [|discriminate].
  assert (A : a = rs) by congruence. assert (B : b = rr) by congruence. assert (A' : a' = rs) by congruence. assert (B' : b' = rr') by congruence. subst a b a' b'.
  assert (T : (e + List.length (m_elements m) * s + List.length (m_elements m) * List.length (m_ids m) * r +
     List.length (m_elements m) * List.length (m_ids m) * List.length (m_ids m) * c_internal c =
     e' + List.length (m_elements m) * s' + List.length (m_elements m) * List.length (m_ids m) * r' +
     List.length (m_elements m) * List.length (m_ids m) * List.length (m_ids m) * c_internal c')%nat) by congruence.
  apply tag_unique in T; eauto using number_less, index_less. destruct T as (<- & <- & <- & T).
  apply (g_el _ _ G) in E, E'. apply (g_id _ _ G) in S, S', R, R'. repeat split; [congruence|congruence|exact T|intros <-; congruence].
Qed.
Lemma tag_inj c c' rs rr tag : message_tag m c = Some (rs, rr, tag) -> message_tag m c' = Some (rs, rr, tag) -> c = c'.
Proof. intros H H'. destruct (tag_parts _ _ _ _ _ _ _ H H' eq_refl) as (A & B & C & D). destruct c, c'; cbn in *. f_equal; auto. Qed.
Lemma tag_known c : known l c -> exists rs rr tag, message_tag m c = Some (rs, rr, tag) /\ In (Particles (c_sender c) rs) l /\ In (Particles (c_receiver c) rr) l.
Proof.
  intros (E & S & R). unfold message_tag. apply (g_el_in _ _ G) in E. apply (g_id_in _ _ G) in S, R.
  apply in_get in E as (e & ->). apply in_get in S as ([rs s] & S). apply in_get in R as ([rr r] & R). rewrite S, R.
  do 3 eexists. split; [reflexivity|]. split; eapply (g_id_rank _ _ G); eassumption.
Qed.

(** * Keys *)
Fixpoint no_bar (s : string) : bool := match s with EmptyString => true | String c r => negb (Ascii.eqb c "_") && no_bar r end.
Lemma uint_bar u : no_bar (NilEmpty.string_of_uint u) = true.
Proof. induction u; cbn in *; auto. Qed.
Lemma bar_app a b : no_bar (a ++ b) = no_bar a && no_bar b.
Proof. induction a as [|c r IH]; cbn; [reflexivity|]. now rewrite IH, andb_assoc. Qed.
Lemma last_bar a b x y : no_bar x = true -> no_bar y = true -> (a ++ "_" ++ x = b ++ "_" ++ y)%string -> a = b /\ x = y.
Proof.
  intros X Y. revert b. induction a as [|c a IH]; intros [|c' b]; cbn; intros H.
  - injection H as H. auto.
  - injection H as <- H. rewrite H, bar_app in X. cbn in X. rewrite andb_false_r in X. discriminate.
  - injection H as -> H. rewrite <- H, bar_app in Y. cbn in Y. rewrite andb_false_r in Y. discriminate.
  - injection H as <- H. destruct (IH b H). subst. auto.
Qed.
Lemma app_s a b c : ((a ++ b) ++ c = a ++ (b ++ c))%string.
Proof. apply LineBase.append_assoc. Qed.
Lemma key_inj c c' rs rr rr' tag tag' : message_tag m c = Some (rs, rr, tag) -> message_tag m c' = Some (rs, rr', tag') ->
  message_key c tag = message_key c' tag' -> c = c'.
Proof.
  intros H H' K. unfold message_key in K. rewrite <- !app_s in K. rewrite !app_s with (b := "_"%string) in K.
  apply last_bar in K; try apply uint_bar. destruct K as [K D]. apply LineBase.dec_inj in D. subst tag'.
  destruct (tag_parts _ _ _ _ _ _ _ H H' eq_refl) as (A & B & C & _). rewrite A, B in K. do 2 apply LineBase.append_inj in K.
  destruct c, c'; cbn in *. f_equal; auto.
Qed.
End Tags.
