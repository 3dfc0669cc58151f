(** The names of flattened sequences *)
From Coq Require Import Reals Lra Lia List Bool String Ascii Arith DecimalString.
From Verif.Model Require Import Sequence.
From Verif.Spec Require Import Sequence.
From Verif.Proofs Require Import Sequence.
Import ListNotations.
Local Open Scope string_scope.

Lemma sapp_nil a : a ++ "" = a.
Proof. induction a as [|x a IH]; cbn; [reflexivity|now rewrite IH]. Qed.
Lemma format_sep c a b : format (separator c) a b = a ++ String c b.
Proof. unfold format, separator. cbn. now rewrite sapp_nil. Qed.
Lemma sapp_assoc a b d : (a ++ b) ++ d = a ++ b ++ d.
Proof. induction a as [|x a IH]; cbn; [reflexivity|now rewrite IH]. Qed.

Lemma string_chars a b : list_ascii_of_string a = list_ascii_of_string b -> a = b.
Proof. intros H. rewrite <- (string_of_list_ascii_of_string a), <- (string_of_list_ascii_of_string b). now rewrite H. Qed.

Lemma split_at c a : forall a' b b', without c a -> without c a' -> a ++ String c b = a' ++ String c b' -> a = a' /\ b = b'.
Proof.
  unfold without. induction a as [|x a IH]; intros [|x' a'] b b' Ha Ha' H; cbn in *.
  - split; congruence.
  - exfalso. apply Ha'. left. congruence.
  - exfalso. apply Ha. left. congruence.
  - assert (x = x') by congruence. subst x'. destruct (IH a' b b') as (-> & ->); [tauto|tauto|congruence|tauto].
Qed.
Lemma no_sep c a b x : without c x -> x <> a ++ String c b.
Proof. intros Hx ->. apply Hx. rewrite app_chars. apply in_or_app. right. now left. Qed.

Lemma digits_of_uint d c : In c (list_ascii_of_string (NilEmpty.string_of_uint d)) -> is_digit c.
Proof. unfold is_digit. induction d; cbn in *; intuition (subst; auto 12). Qed.
Lemma decimal_without c i : ~ is_digit c -> without c (decimal i).
Proof. intros Hc H. apply Hc. exact (digits_of_uint _ _ H). Qed.

Section Names.
Variables (elements : string -> option obj) (sequences : string -> option (list node)) (c : ascii).
Hypothesis Hc : ~ is_digit c.
Notation sc := (separator c).
Notation place := (place elements sequences sc).
Notation flatten := (flatten elements sequences sc).
Notation content := (content_of elements sequences).

(** The property of base names, kept open to follow it to the first part of all names *)
Variable base : string -> Prop.
Hypothesis Hbase : forall a, base a -> without c a /\ ~ is_number a.

(** A name at some level, and a name beginning with a base name *)
Definition level (n : string) : Prop := exists a, base a /\ (n = a \/ exists i, n = a ++ String c (decimal i)).
Definition begins (n : string) : Prop := exists a, base a /\ (n = a \/ exists b, n = a ++ String c b).

Lemma level_begins n : level n -> begins n.
Proof. intros (a & Ha & [->|(i & ->)]); exists a; (split; [exact Ha|]); eauto. Qed.
Lemma sub_begins n b : level n -> begins (n ++ String c b).
Proof.
  intros (a & Ha & [->|(i & ->)]); exists a; (split; [exact Ha|]); right.
  - eauto.
  - rewrite sapp_assoc. cbn. eauto.
Qed.

Lemma begins_not_decimal s i : begins s -> s <> decimal i.
Proof.
  intros (a & Ha & [->|(b & ->)]) E.
  - apply (Hbase a Ha). now exists i.
  - symmetry in E. exact (no_sep c a b _ (decimal_without c i Hc) E).
Qed.
Lemma begins_not_under s i b : begins s -> s <> decimal i ++ String c b.
Proof.
  intros (a & Ha & [->|(d & ->)]) E.
  - exact (no_sep c _ _ _ (proj1 (Hbase a Ha)) E).
  - destruct (split_at c _ _ _ _ (proj1 (Hbase a Ha)) (decimal_without c i Hc) E) as (-> & _).
    apply (Hbase _ Ha). now exists i.
Qed.

Lemma sub_not_level n n' s : level n -> level n' -> begins s -> n' <> n ++ String c s.
Proof.
  intros (a & Ha & Hn) (a' & Ha' & Hn') Hs E. destruct (Hbase a Ha) as (Wa & _), (Hbase a' Ha') as (Wa' & _).
  destruct Hn as [->|(i & ->)].
  - destruct Hn' as [->|(i' & ->)].
    + exact (no_sep c _ _ _ Wa' E).
    + destruct (split_at c _ _ _ _ Wa' Wa E) as (_ & E2). symmetry in E2. exact (begins_not_decimal s i' Hs E2).
  - rewrite sapp_assoc in E. cbn in E. destruct Hn' as [->|(i' & ->)].
    + exact (no_sep c _ _ _ Wa' E).
    + destruct (split_at c _ _ _ _ Wa' Wa E) as (_ & E2).
      exact (no_sep c _ _ _ (decimal_without c i' Hc) E2).
Qed.
Lemma sub_not_sub n n' s s' : level n -> level n' -> begins s -> begins s' ->
  n ++ String c s = n' ++ String c s' -> n = n'.
Proof.
  intros (a & Ha & Hn) (a' & Ha' & Hn') Hs Hs' E. destruct (Hbase a Ha) as (Wa & _), (Hbase a' Ha') as (Wa' & _).
  destruct Hn as [->|(i & ->)], Hn' as [->|(i' & ->)].
  - now destruct (split_at c _ _ _ _ Wa Wa' E).
  - rewrite sapp_assoc in E. cbn in E. destruct (split_at c _ _ _ _ Wa Wa' E) as (_ & E2).
    destruct (begins_not_under s i' s' Hs E2).
  - rewrite sapp_assoc in E. cbn in E. destruct (split_at c _ _ _ _ Wa Wa' E) as (_ & E2).
    symmetry in E2. destruct (begins_not_under s' i s Hs' E2).
  - rewrite !sapp_assoc in E. cbn in E. destruct (split_at c _ _ _ _ Wa Wa' E) as (-> & E2).
    destruct (split_at c _ _ _ _ (decimal_without c i Hc) (decimal_without c i' Hc) E2) as (-> & _). reflexivity.
Qed.

(** All names placed so far *)
Definition inv (flat : list fnode) : Prop :=
  NoDup (map f_name flat) /\
  forall x, In x (map f_name flat) -> exists n, In n (map f_name flat) /\ level n /\
    (x = n \/ exists s, begins s /\ x = n ++ String c s).

Lemma inv_begins flat : inv flat -> forall x, In x (map f_name flat) -> begins x.
Proof.
  intros (_ & H) x Hx. destruct (H x Hx) as (n & _ & Ln & [->|(s & _ & ->)]).
  - now apply level_begins.
  - now apply sub_begins.
Qed.

Lemma next_level b names n : base b -> next_name sc b names = Some n -> level n.
Proof.
  intros Hb H. destruct (next_name_spec _ _ _ _ H) as (_ & [(_ & ->)|(_ & j & -> & _)]); exists b; (split; [exact Hb|]).
  - now left.
  - right. exists j. apply format_sep.
Qed.

Lemma NoDup_append {A} (a b : list A) : NoDup a -> NoDup b -> (forall x, In x a -> ~ In x b) -> NoDup (a ++ b).
Proof.
  intros Ha Hb Hd. induction Ha as [|x a N D IH]; [exact Hb|]. cbn. constructor.
  - rewrite in_app_iff. intros [?|?]; [contradiction|]. apply (Hd x); [now left|assumption].
  - apply IH. intros y Hy. apply Hd. now right.
Qed.

Lemma inv_leaf flat s o n : inv flat -> level n -> ~ In n (map f_name flat) -> inv (flat ++ [mkFnode s o n]).
Proof.
  intros (ND & H) Ln Nn. unfold inv. rewrite map_app. cbn [map f_name]. split.
  - apply NoDup_append; [exact ND|constructor; [intros []|constructor]|]. intros x Hx [<-|[]]. contradiction.
  - intros x Hx. apply in_app_iff in Hx. destruct Hx as [Hx|[<-|[]]].
    + destruct (H x Hx) as (m & Hm & R). exists m. split; [apply in_or_app; now left|exact R].
    + exists n. split; [apply in_or_app; right; now left|]. split; [exact Ln|now left].
Qed.

Lemma inv_block flat s n subs : inv flat -> inv subs -> level n -> ~ In n (map f_name flat) ->
  inv (flat ++ mkFnode s marker n :: map (moved sc s n) subs).
Proof.
  intros (ND & H) Isub Ln Nn. pose proof (inv_begins subs Isub) as Bs. destruct Isub as (NDs & _).
  set (names := map (fun x => n ++ String c x) (map f_name subs)).
  assert (E : map f_name (mkFnode s marker n :: map (moved sc s n) subs) = n :: names).
  { cbn [map f_name]. f_equal. unfold names. rewrite !map_map. apply map_ext. intros f. cbn. apply format_sep. }
  unfold inv. rewrite map_app, E. clear E.
  assert (inj : forall x y, n ++ String c x = n ++ String c y -> x = y).
  { intros x y Exy. apply app_inj_l in Exy. congruence. }
  split.
  - apply NoDup_append; [exact ND| |].
    + constructor.
      * intros Hn. apply in_map_iff in Hn. destruct Hn as (x & Ex & Hx). symmetry in Ex.
        exact (sub_not_level n n x Ln Ln (Bs x Hx) Ex).
      * now apply map_NoDup_inj.
    + intros x Hx [<-|Hn]; [contradiction|]. apply in_map_iff in Hn. destruct Hn as (y & <- & Hy).
      destruct (H _ Hx) as (m & Hm & Lm & [Em|(t & Bt & Em)]).
      * symmetry in Em. exact (sub_not_level n m y Ln Lm (Bs y Hy) Em).
      * apply Nn. rewrite (sub_not_sub n m y t Ln Lm (Bs y Hy) Bt Em). exact Hm.
  - intros x Hx. apply in_app_iff in Hx. destruct Hx as [Hx|[<-|Hx]].
    + destruct (H x Hx) as (m & Hm & R). exists m. split; [apply in_or_app; now left|exact R].
    + exists n. split; [apply in_or_app; right; now left|]. split; [exact Ln|now left].
    + apply in_map_iff in Hx. destruct Hx as (y & <- & Hy).
      exists n. split; [apply in_or_app; right; now left|]. split; [exact Ln|right; exists y; auto].
Qed.

Lemma place_inv rec nodes
  (Hrec : forall n l subs, In n nodes -> content (n_what n) = inl (CSeq l) -> rec l = inl subs -> inv subs)
  (Hb : forall n, In n nodes -> base (base_name n)) :
  forall flat flat', inv flat -> place rec nodes flat = inl flat' -> inv flat'.
Proof.
  induction nodes as [|n nodes IH]; intros flat flat' If H.
  - cbn in H. assert (flat' = flat) by congruence. now subst flat'.
  - destruct (place_cons _ _ _ _ _ _ _ _ H) as (s & name & blk & _ & H2 & H3 & H4).
    refine (IH (fun m l subs Hm => Hrec m l subs (or_intror Hm)) (fun m Hm => Hb m (or_intror Hm)) _ _ _ H4).
    pose proof (next_level _ _ _ (Hb n (or_introl eq_refl)) H2) as Ln.
    destruct (next_name_spec _ _ _ _ H2) as (Nn & _).
    destruct H3 as [(o & _ & ->)|(l & subs & Hcn & Hr & ->)].
    + now apply inv_leaf.
    + apply inv_block; [exact If|exact (Hrec n l subs (or_introl eq_refl) Hcn Hr)|exact Ln|exact Nn].
Qed.

Lemma flatten_inv fuel : forall root flat,
  (forall l n, nested elements sequences root l -> In n l -> base (base_name n)) ->
  flatten fuel root = inl flat -> inv flat.
Proof.
  induction fuel as [|fuel IH]; intros root flat Hb H; [discriminate|]. cbn [Sequence.flatten] in H.
  apply (place_inv (flatten fuel) root) with (flat := []) (flat' := flat).
  - intros n l subs Hn Hcn Hs. apply (IH l); [|exact Hs]. intros l2 m H1 H2. apply (Hb l2 m); [|exact H2].
    clear H2. induction H1 as [|l3 n3 l4 H5 IH5 H6 H7].
    + eapply nested_in; [apply nested_root|exact Hn|exact Hcn].
    + eapply nested_in; [exact IH5|exact H6|exact H7].
  - intros n Hn. apply (Hb root n); [apply nested_root|exact Hn].
  - split; [constructor|intros x []].
  - exact H.
Qed.
End Names.

Lemma unique_names elements sequences c fuel root flat :
  ~ is_digit c -> plain_names elements sequences c root ->
  flatten elements sequences (separator c) fuel root = inl flat -> NoDup (map f_name flat).
Proof.
  intros Hc Hp H.
  apply (flatten_inv elements sequences c Hc (fun a => without c a /\ ~ is_number a) (fun a Ha => Ha) fuel root flat); [|exact H].
  exact Hp.
Qed.

(** With no base name equal to drift, no name is one of those of the drifts. *)
Lemma no_drifts elements sequences c fuel root flat :
  ~ is_digit c -> without c "drift" -> plain_names elements sequences c root -> no_drift_names elements sequences root ->
  flatten elements sequences (separator c) fuel root = inl flat ->
  forall x, In x (map f_name flat) -> x <> "drift" /\ forall i, x <> format (separator c) "drift" (decimal i).
Proof.
  intros Hc Hd Hp Hn H x Hx.
  set (base := fun a => (without c a /\ ~ is_number a) /\ a <> "drift").
  assert (I : inv c base flat).
  { apply (flatten_inv elements sequences c Hc base (fun a Ha => proj1 Ha) fuel root flat); [|exact H].
    intros l n H1 H2. split; [exact (Hp l n H1 H2)|exact (Hn l n H1 H2)]. }
  destruct (inv_begins c base flat I x Hx) as (a & ((Wa & _) & Na) & [->|(b & ->)]).
  - split; [exact Na|]. intros i. rewrite format_sep. now apply no_sep.
  - split; [intros E; symmetry in E; exact (no_sep c _ _ _ Hd E)|].
    intros i E. rewrite format_sep in E. destruct (split_at c _ _ _ _ Wa Hd E) as (-> & _). congruence.
Qed.
