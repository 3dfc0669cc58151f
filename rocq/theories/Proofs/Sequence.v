(** Sequence definitions *)
From Coq Require Import Reals Lra Lia List Bool String Ascii Arith DecimalString.
From Coq Require DecimalNat.
From Verif.Model Require Import Sequence.
From Verif.Spec Require Import Sequence.
Import ListNotations.
Local Open Scope string_scope.

(** * Strings *)
Lemma app_chars a b : list_ascii_of_string (a ++ b) = (list_ascii_of_string a ++ list_ascii_of_string b)%list.
Proof. induction a as [|x a IH]; cbn; [reflexivity|now rewrite IH]. Qed.
Lemma app_inj_l a b b' : a ++ b = a ++ b' -> b = b'.
Proof. induction a as [|x a IH]; cbn; intros H; [exact H|]. apply IH. congruence. Qed.
Lemma app_inj_r a a' b : a ++ b = a' ++ b -> a = a'.
Proof.
  intros H. assert (E : list_ascii_of_string (a ++ b) = list_ascii_of_string (a' ++ b)) by now rewrite H.
  rewrite !app_chars in E. apply app_inv_tail in E.
  rewrite <- (string_of_list_ascii_of_string a), <- (string_of_list_ascii_of_string a'). now rewrite E.
Qed.
Lemma decimal_inj i j : decimal i = decimal j -> i = j.
Proof.
  unfold decimal. intros H.
  assert (E : Some (Nat.to_uint i) = Some (Nat.to_uint j)) by (rewrite <- !NilEmpty.usu; now rewrite H).
  apply DecimalNat.Unsigned.to_uint_inj. congruence.
Qed.
Lemma format_number_inj sc p i j : format sc p (decimal i) = format sc p (decimal j) -> i = j.
Proof.
  unfold format. intros H. apply app_inj_l in H. apply app_inj_l in H. apply app_inj_l in H. apply app_inj_r in H.
  now apply decimal_inj.
Qed.

Lemma mem_spec n l : mem n l = true <-> In n l.
Proof.
  unfold mem. rewrite existsb_exists. split.
  - intros (x & Hx & E). apply String.eqb_eq in E. now subst x.
  - intros H. exists n. split; [exact H|apply String.eqb_refl].
Qed.

(** * next_name ends with a name which is free *)
Lemma next_number_spec sc p names : forall fuel i n, next_number fuel sc p names i = Some n ->
  ~ In n names /\ exists j, n = format sc p (decimal j) /\ i <= j /\
     forall k, i <= k < j -> In (format sc p (decimal k)) names.
Proof.
  induction fuel as [|fuel IH]; intros i n H; cbn in H; destruct (mem _ names) eqn:M; try discriminate.
  - assert (n = format sc p (decimal i)) by congruence. subst n. split.
    + rewrite <- mem_spec. congruence.
    + exists i. repeat split; [lia|]. intros; lia.
  - destruct (IH _ _ H) as (A & j & B & C & D). split; [exact A|]. exists j. repeat split; [exact B|lia|].
    intros k Hk. destruct (Nat.eq_dec k i) as [->|]; [now apply mem_spec|apply D; lia].
  - assert (n = format sc p (decimal i)) by congruence. subst n. split.
    + rewrite <- mem_spec. congruence.
    + exists i. repeat split; [lia|]. intros; lia.
Qed.
Lemma next_number_none sc p names : forall fuel i, next_number fuel sc p names i = None ->
  forall k, i <= k <= i + fuel -> In (format sc p (decimal k)) names.
Proof.
  induction fuel as [|fuel IH]; intros i H k Hk; cbn in H; destruct (mem _ names) eqn:M; try discriminate.
  - replace k with i by lia. now apply mem_spec.
  - destruct (Nat.eq_dec k i) as [->|]; [now apply mem_spec|]. apply (IH _ H). lia.
Qed.
Lemma map_NoDup_inj {A B} (f : A -> B) l : (forall x y, f x = f y -> x = y) -> NoDup l -> NoDup (map f l).
Proof.
  intros Hf. induction 1 as [|a l N D IH]; cbn; constructor; [|exact IH].
  intros H. apply in_map_iff in H. destruct H as (x & E & Hx). apply Hf in E. now subst x.
Qed.
Lemma next_name_ends sc p names : exists n, next_name sc p names = Some n.
Proof.
  unfold next_name. destruct (mem p names); [|eauto].
  destruct (next_number _ _ _ _ _) as [n|] eqn:E; [eauto|exfalso].
  pose proof (next_number_none _ _ _ _ _ E) as H.
  set (l := map (fun k => format sc p (decimal k)) (seq 1 (S (List.length names)))).
  assert (L : List.length l <= List.length names).
  { apply NoDup_incl_length.
    - apply map_NoDup_inj; [apply format_number_inj|apply seq_NoDup].
    - intros x Hx. apply in_map_iff in Hx. destruct Hx as (k & <- & Hk). apply in_seq in Hk. apply H. lia. }
  unfold l in L. rewrite map_length, seq_length in L. lia.
Qed.
Lemma next_name_spec sc p names n : next_name sc p names = Some n ->
  ~ In n names /\
  ((~ In p names /\ n = p) \/
   (In p names /\ exists j, n = format sc p (decimal j) /\ 1 <= j /\
      forall k, 1 <= k < j -> In (format sc p (decimal k)) names)).
Proof.
  unfold next_name. destruct (mem p names) eqn:M; intros H.
  - destruct (next_number_spec _ _ _ _ _ _ H) as (A & j & B). split; [exact A|]. right.
    split; [now apply mem_spec|]. exists j. tauto.
  - assert (n = p) by congruence. subst n. assert (~ In p names) by (rewrite <- mem_spec; congruence). tauto.
Qed.

(** * Positions *)
Section Dicts.
Variables (elements : string -> option obj) (sequences : string -> option (list node)) (sc : scheme).
Notation place := (place elements sequences sc).
Notation flatten := (flatten elements sequences sc).
Notation content := (content_of elements sequences).
Notation stands := (stands elements sequences).
Notation nested := (nested elements sequences).

Definition moved (s : R) (name : string) (sub : fnode) : fnode :=
  mkFnode (s + f_s sub) (f_what sub) (format sc name (f_name sub)).

(** One node *)
Lemma place_cons rec n nodes flat flat' : place rec (n :: nodes) flat = inl flat' ->
  exists s name block, position flat n = inl s /\ next_name sc (base_name n) (map f_name flat) = Some name /\
    ((exists o, content (n_what n) = inl (CElem o) /\ block = [mkFnode s o name]) \/
     (exists l subs, content (n_what n) = inl (CSeq l) /\ rec l = inl subs /\
        block = mkFnode s marker name :: map (moved s name) subs)) /\
    place rec nodes (flat ++ block) = inl flat'.
Proof.
  cbn [Sequence.place]. destruct (position flat n) as [s|]; [|discriminate].
  destruct (next_name _ _ _) as [name|]; [|discriminate].
  destruct (content (n_what n)) as [[o|l]|]; [| |discriminate].
  - intros H. exists s, name, [mkFnode s o name]. split; [reflexivity|]. split; [reflexivity|].
    split; [left; eauto|exact H].
  - destruct (rec l) as [subs|] eqn:E; [|discriminate]. intros H.
    exists s, name, (mkFnode s marker name :: map (moved s name) subs).
    split; [reflexivity|]. split; [reflexivity|]. split; [right; eauto|exact H].
Qed.

(** Later nodes do not change what is placed. *)
Lemma place_extends rec nodes : forall flat flat', place rec nodes flat = inl flat' -> exists l, flat' = (flat ++ l)%list.
Proof.
  induction nodes as [|n nodes IH]; intros flat flat' H.
  - exists []. cbn in H. rewrite app_nil_r. congruence.
  - destruct (place_cons _ _ _ _ _ H) as (s & name & block & _ & _ & _ & H').
    destruct (IH _ _ H') as (l & ->). exists (block ++ l)%list. now rewrite app_assoc.
Qed.
Lemma place_app rec a : forall b flat, place rec (a ++ b) flat =
  match place rec a flat with inl flat => place rec b flat | inr e => inr e end.
Proof.
  induction a as [|n a IH]; intros b flat; [reflexivity|]. cbn [List.app Sequence.place].
  destruct (position flat n); [|reflexivity]. destruct (next_name _ _ _); [|reflexivity].
  destruct (content (n_what n)) as [[o|l]|]; [apply IH| |reflexivity].
  destruct (rec l); [apply IH|reflexivity].
Qed.

(** Where a node of the sequence is. *)
Lemma block fuel before n after flat : flatten (S fuel) (before ++ n :: after) = inl flat ->
  exists flat_before block rest s name,
    flatten (S fuel) before = inl flat_before /\ flat = (flat_before ++ block ++ rest)%list /\
    position flat_before n = inl s /\ next_name sc (base_name n) (map f_name flat_before) = Some name /\
    ((exists o, content (n_what n) = inl (CElem o) /\ block = [mkFnode s o name]) \/
     (exists l subs, content (n_what n) = inl (CSeq l) /\ flatten fuel l = inl subs /\
        block = mkFnode s marker name :: map (moved s name) subs)).
Proof.
  cbn [Sequence.flatten]. rewrite place_app. destruct (place (flatten fuel) before []) as [fb|] eqn:E; [|discriminate].
  intros H. destruct (place_cons _ _ _ _ _ H) as (s & name & blk & H1 & H2 & H3 & H4).
  destruct (place_extends _ _ _ _ H4) as (rest & ->).
  exists fb, blk, rest, s, name. rewrite app_assoc. auto 8.
Qed.

Lemma place_stands rec nodes
  (Hrec : forall l subs n, In n nodes -> content (n_what n) = inl (CSeq l) -> rec l = inl subs ->
            forall p o, stands l p o <-> exists f, In f subs /\ f_s f = p /\ f_what f = o)
  (Href : forall n, In n nodes -> exists from, n_from n = inl from) :
  forall flat flat', place rec nodes flat = inl flat' ->
  forall p o, (exists f, In f flat' /\ f_s f = p /\ f_what f = o) <->
              (exists f, In f flat /\ f_s f = p /\ f_what f = o) \/ stands nodes p o.
Proof.
  induction nodes as [|n nodes IH]; intros flat flat' H p o.
  - cbn in H. assert (flat' = flat) by congruence. subst flat'. split; [tauto|].
    intros [?|Hs]; [assumption|]. inversion Hs; subst; contradiction.
  - destruct (place_cons _ _ _ _ _ H) as (s & name & blk & H1 & _ & H3 & H4).
    assert (IH' := IH (fun l subs m Hm => Hrec l subs m (or_intror Hm)) (fun m Hm => Href m (or_intror Hm)) _ _ H4 p o).
    clear IH H4. rewrite IH'. clear IH'.
    destruct (Href n (or_introl eq_refl)) as (from & Hfrom).
    unfold position in H1. rewrite Hfrom in H1. assert (Es : s = (n_s n + from)%R) by congruence. clear H1. subst s.
    assert (St : stands (n :: nodes) p o <-> stands nodes p o \/ exists f, In f blk /\ f_s f = p /\ f_what f = o).
    { destruct H3 as [(o' & Hc & ->)|(l & subs & Hc & Hr & ->)].
      - split.
        + intros Hs. inversion Hs as [l0 m o0 from0 Hi Hf Hc0|l0 m l' from0 Hi Hf Hc0|l0 m l' from0 p0 o0 Hi Hf Hc0 Hs0]; subst.
          * destruct Hi as [<-|Hi]; [|left; now apply stands_elem]. right.
            rewrite Hc in Hc0. assert (o' = o) by congruence. assert (from0 = from) by congruence. subst.
            eexists. split; [now left|]. split; reflexivity.
          * destruct Hi as [<-|Hi]; [congruence|]. left. now apply stands_start with (l' := l').
          * destruct Hi as [<-|Hi]; [congruence|]. left. now apply stands_in with (l' := l').
        + intros [Hs|(f & [<-|[]] & <- & <-)].
          * inversion Hs; subst.
            -- apply stands_elem; [now right|assumption|assumption].
            -- eapply stands_start; [right; eassumption|assumption|eassumption].
            -- eapply stands_in; [right; eassumption|assumption|eassumption|assumption].
          * cbn. apply stands_elem; [now left|assumption|assumption].
      - pose proof (Hrec l subs n (or_introl eq_refl) Hc Hr) as Hsub. split.
        + intros Hs. inversion Hs as [l0 m o0 from0 Hi Hf Hc0|l0 m l' from0 Hi Hf Hc0|l0 m l' from0 p0 o0 Hi Hf Hc0 Hs0]; subst.
          * destruct Hi as [<-|Hi]; [congruence|]. left. now apply stands_elem.
          * destruct Hi as [<-|Hi]; [|left; now apply stands_start with (l' := l')]. right.
            assert (from0 = from) by congruence. subst. eexists. split; [now left|]. split; reflexivity.
          * destruct Hi as [<-|Hi]; [|left; now apply stands_in with (l' := l')]. right.
            assert (from0 = from) by congruence. assert (l' = l) by congruence. subst.
            apply Hsub in Hs0. destruct Hs0 as (f & Hf1 & <- & <-).
            eexists. split; [right; apply in_map; exact Hf1|]. split; reflexivity.
        + intros [Hs|(f & [<-|Hf] & <- & <-)].
          * inversion Hs; subst.
            -- apply stands_elem; [now right|assumption|assumption].
            -- eapply stands_start; [right; eassumption|assumption|eassumption].
            -- eapply stands_in; [right; eassumption|assumption|eassumption|assumption].
          * cbn. eapply stands_start; [now left|assumption|eassumption].
          * apply in_map_iff in Hf. destruct Hf as (g & <- & Hg). cbn.
            eapply stands_in; [now left|assumption|eassumption|]. apply Hsub. eauto. }
    rewrite St. split.
    + intros [(f & Hf & A & B)|Hs]; [|tauto]. apply in_app_iff in Hf. destruct Hf as [Hf|Hf]; [left|right; right]; eauto.
    + intros [(f & Hf & A & B)|[Hs|(f & Hf & A & B)]]; [left|tauto|left]; exists f; rewrite in_app_iff; tauto.
Qed.

Lemma positions fuel : forall root flat, flatten fuel root = inl flat ->
  no_references elements sequences root ->
  forall p o, stands root p o <-> exists f, In f flat /\ f_s f = p /\ f_what f = o.
Proof.
  induction fuel as [|fuel IH]; intros root flat H Hr p o; [discriminate|]. cbn [Sequence.flatten] in H.
  rewrite (place_stands (flatten fuel) root) with (flat := []) (flat' := flat).
  - split; [tauto|]. intros [(f & [] & _)|?]; assumption.
  - intros l subs n Hn Hc Hf. apply IH; [exact Hf|]. intros l2 m H1 H2. apply (Hr l2 m); [|exact H2].
    clear H2. induction H1 as [|l3 n3 l4 H5 IH5 H6 H7].
    + eapply nested_in; [apply nested_root|exact Hn|exact Hc].
    + eapply nested_in; [exact IH5|exact H6|exact H7].
  - intros n Hn. apply (Hr root n); [apply nested_root|exact Hn].
  - exact H.
Qed.
End Dicts.

Lemma find_first flat from_ f : find (fun f => String.eqb from_ (f_name f)) flat = Some f ->
  exists a b, flat = (a ++ f :: b)%list /\ f_name f = from_ /\ forall g, In g a -> f_name g <> from_.
Proof.
  induction flat as [|g flat IH]; cbn [find]; [discriminate|]. destruct (String.eqb_spec from_ (f_name g)) as [E|N].
  - intros H. assert (g = f) by congruence. subst g. exists [], flat. repeat split; [now symmetry|intros g []].
  - intros H. destruct (IH H) as (a & b & -> & E & F). exists (g :: a), b. repeat split; [exact E|].
    intros h [<-|Hh]; [congruence|now apply F].
Qed.
Lemma order elements sequences sc fuel before after n flat :
  flatten elements sequences sc (S fuel) (before ++ n :: after) = inl flat ->
  exists flat_before block rest s name,
    flatten elements sequences sc (S fuel) before = inl flat_before /\ flat = (flat_before ++ block ++ rest)%list /\
    match n_from n with
    | inl from_ => s = (n_s n + from_)%R
    | inr from_ => exists a f b, flat_before = (a ++ f :: b)%list /\ f_name f = from_ /\
                                 (forall g, In g a -> f_name g <> from_) /\ s = (n_s n + f_s f)%R
    end /\
    ((exists o, content_of elements sequences (n_what n) = inl (CElem o) /\ block = [mkFnode s o name]) \/
     (exists l subs, content_of elements sequences (n_what n) = inl (CSeq l) /\
        flatten elements sequences sc fuel l = inl subs /\
        block = mkFnode s marker name ::
                map (fun sub => mkFnode (s + f_s sub) (f_what sub) (format sc name (f_name sub))) subs)).
Proof.
  intros H. destruct (block elements sequences sc fuel before n after flat H) as (fb & blk & rest & s & name & A & B & C & D & E).
  exists fb, blk, rest, s, name. split; [exact A|]. split; [exact B|]. split; [|exact E].
  unfold position in C. destruct (n_from n) as [from_|from_]; [congruence|].
  destruct (find _ fb) as [f|] eqn:F; [|discriminate]. destruct (find_first _ _ _ F) as (a & b & E1 & E2 & E3).
  exists a, f, b. repeat split; try assumption. congruence.
Qed.
Lemma next_name_full sc p names :
  exists n, next_name sc p names = Some n /\ ~ In n names /\
  ((~ In p names /\ n = p) \/
   (In p names /\ exists j, n = format sc p (decimal j) /\ 1 <= j /\
      forall k, 1 <= k < j -> In (format sc p (decimal k)) names)).
Proof.
  destruct (next_name_ends sc p names) as (n & H). exists n. split; [exact H|]. exact (next_name_spec sc p names n H).
Qed.
