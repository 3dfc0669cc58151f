(** Proofs about particle numbers, names and masses. *)
From Coq Require Import List NArith ZArith QArith Bool Lia String.
From Verif.Model Require Import Pdg.
From Verif.Spec Require Import Pdg.
Import ListNotations.

Local Open Scope Z_scope.

(** * Characters *)

Definition is_small (c : N) : bool := ((97 <=? c)%N && (c <=? 122)%N).
Definition smalls (s : text) : text := filter is_small s.
Definition figures (s : text) : text := filter is_digit s.

Definition plain_char (c : N) : N :=
  let d := lower_char (sub_char (to_normal_char c)) in
  if (d =? 962)%N then 963%N else d.

Lemma plain_map : forall s, plain_name s = map plain_char s.
Proof.
  intro s. unfold plain_name, to_normal_script, lower, digits_to_normalscript.
  rewrite !map_map. reflexivity.
Qed.

Lemma normal_low : forall c, (c <= 122)%N -> to_normal_char c = c.
Proof.
  intros c H. unfold to_normal_char, superscripts. cbn [find snd].
  repeat match goal with
  | |- context [(?k =? c)%N] => destruct (N.eqb_spec k c); [lia|]
  end. reflexivity.
Qed.

Lemma lower_low : forall c, (c <= 122)%N -> (lower_char c <= 122)%N.
Proof.
  intros c H. unfold lower_char.
  destruct (N.leb_spec 65 c), (N.leb_spec c 90), (N.leb_spec 913 c), (N.leb_spec c 937);
    cbn; lia.
Qed.

Lemma plain_low : forall c, (c <= 122)%N -> plain_char c = lower_char c.
Proof.
  intros c H. unfold plain_char. rewrite normal_low by exact H.
  unfold sub_char.
  destruct (N.eqb_spec c 8347); [lia|]. destruct (N.eqb_spec c 8337); [lia|].
  cbv zeta. pose proof (lower_low c H). destruct (N.eqb_spec (lower_char c) 962); [lia|].
  reflexivity.
Qed.

Lemma letter_low : forall c, letter c -> (c <= 122)%N.
Proof. unfold letter. intros; lia. Qed.

Lemma same_plain : forall c d, same_char c d -> plain_char c = plain_char d.
Proof.
  intros c d [<- | [(Hc & Hd & H) | H]].
  - reflexivity.
  - rewrite !plain_low by (apply letter_low; assumption).
    unfold letter in *. unfold lower_char.
    destruct (N.leb_spec 65 c), (N.leb_spec c 90), (N.leb_spec 913 c), (N.leb_spec c 937),
      (N.leb_spec 65 d), (N.leb_spec d 90), (N.leb_spec 913 d), (N.leb_spec d 937);
      cbn; lia.
  - unfold raised in H. cbn [In] in H.
    repeat (destruct H as [H | H]; [injection H as <- <-; reflexivity|]). contradiction.
Qed.

Lemma lower_idem : forall c, lower_char (lower_char c) = lower_char c.
Proof.
  intro c. unfold lower_char.
  destruct (N.leb_spec 65 c), (N.leb_spec c 90), (N.leb_spec 913 c), (N.leb_spec c 937);
    cbn [andb orb];
    repeat match goal with |- context [(?a <=? ?b)%N] => destruct (N.leb_spec a b) end;
    cbn; lia.
Qed.

Lemma lower_plain : forall c, lower_char (plain_char c) = plain_char c.
Proof.
  intro c. unfold plain_char. cbv zeta.
  destruct (N.eqb_spec (lower_char (sub_char (to_normal_char c))) 962); [reflexivity|].
  apply lower_idem.
Qed.

Lemma lower_plain_name : forall s, lower (plain_name s) = plain_name s.
Proof.
  intro s. rewrite plain_map. unfold lower. rewrite map_map.
  apply map_ext. exact lower_plain.
Qed.

(** * The same name in another case or script *)

Lemma plain_same : forall s s', Forall2 same_char s s' -> plain_name s = plain_name s'.
Proof.
  intros s s' H. rewrite !plain_map.
  induction H; [reflexivity|]. cbn. f_equal; [apply same_plain; assumption | assumption].
Qed.

Lemma from_name_same : forall s s', Forall2 same_char s s' ->
  get_pdg_id_from_name s = get_pdg_id_from_name s'.
Proof.
  intros s s' H. unfold get_pdg_id_from_name. rewrite (plain_same s s' H). reflexivity.
Qed.

(** * Texts of letters and digits *)

Definition small_text (w : text) : Prop := Forall (fun c => is_small c = true) w.
Definition digit_text (w : text) : Prop := Forall (fun c => is_digit c = true) w.

Lemma small_not_digit : forall c, is_small c = true -> is_digit c = false.
Proof.
  intros c H. unfold is_small, is_digit in *.
  destruct (N.leb_spec 97 c), (N.leb_spec c 122), (N.leb_spec 48 c), (N.leb_spec c 57);
    try discriminate; try reflexivity; lia.
Qed.

Lemma digit_not_small : forall c, is_digit c = true -> is_small c = false.
Proof.
  intros c H. destruct (is_small c) eqn:E; [|reflexivity].
  rewrite (small_not_digit c E) in H. discriminate.
Qed.

Lemma small_digit_neq : forall x d, is_small x = true -> is_digit d = true ->
  (x =? d)%N = false.
Proof.
  intros x d Hx Hd. destruct (N.eqb_spec x d) as [<-|]; [|reflexivity].
  rewrite (small_not_digit x Hx) in Hd. discriminate.
Qed.

Lemma starts_digit : forall w d s, w <> [] -> small_text w -> is_digit d = true ->
  starts w (d :: s) = false.
Proof.
  intros [|x w] d s Hn Hw Hd; [congruence|]. inversion Hw; subst.
  cbn. rewrite small_digit_neq by assumption. reflexivity.
Qed.

Lemma starts_app : forall w l ds, small_text w -> digit_text ds ->
  starts w (l ++ ds) = starts w l.
Proof.
  induction w as [|x w IH]; intros l ds Hw Hd; [reflexivity|].
  destruct l as [|c l].
  - destruct ds as [|d ds]; [reflexivity|]. inversion Hd; subst.
    cbn [app]. rewrite starts_digit; [reflexivity | congruence | assumption | assumption].
  - inversion Hw; subst. cbn. rewrite IH by assumption. reflexivity.
Qed.

Lemma starts_length : forall w s, starts w s = true -> (List.length w <= List.length s)%nat.
Proof.
  induction w as [|x w IH]; intros s H; [cbn; lia|].
  destruct s as [|c s]; [discriminate|]. cbn in H.
  apply andb_true_iff in H as [_ H]. apply IH in H. cbn. lia.
Qed.

Lemma contains_digits : forall w ds, w <> [] -> small_text w -> digit_text ds ->
  contains w ds = false.
Proof.
  intros w ds Hn Hw. induction 1 as [|d ds Hd Hds IH].
  - destruct w; [congruence | reflexivity].
  - cbn [contains]. rewrite starts_digit by assumption. exact IH.
Qed.

Lemma contains_front : forall w ds s, w <> [] -> small_text w -> digit_text ds ->
  contains w (ds ++ s) = contains w s.
Proof.
  intros w ds s Hn Hw. induction 1 as [|d ds Hd Hds IH]; [reflexivity|].
  cbn [app contains]. rewrite starts_digit by assumption. exact IH.
Qed.

Lemma contains_back : forall w l ds, w <> [] -> small_text w -> digit_text ds ->
  contains w (l ++ ds) = contains w l.
Proof.
  intros w l ds Hn Hw Hd. induction l as [|c l IH].
  - cbn [app]. rewrite contains_digits by assumption.
    destruct w; [congruence | reflexivity].
  - cbn [app contains]. rewrite IH.
    rewrite <- (starts_app w (c :: l) ds) by assumption. reflexivity.
Qed.

Lemma remove_digits : forall w ds, w <> [] -> small_text w -> digit_text ds ->
  remove_all w ds 0 = ds.
Proof.
  intros w ds Hn Hw. induction 1 as [|d ds Hd Hds IH]; [reflexivity|].
  cbn [remove_all]. rewrite starts_digit by assumption. rewrite IH. reflexivity.
Qed.

Lemma remove_front : forall w ds s, w <> [] -> small_text w -> digit_text ds ->
  remove_all w (ds ++ s) 0 = ds ++ remove_all w s 0.
Proof.
  intros w ds s Hn Hw. induction 1 as [|d ds Hd Hds IH]; [reflexivity|].
  cbn [app remove_all]. rewrite starts_digit by assumption. rewrite IH. reflexivity.
Qed.

Lemma remove_back : forall w l ds k, w <> [] -> small_text w -> digit_text ds ->
  (k <= List.length l)%nat -> remove_all w (l ++ ds) k = remove_all w l k ++ ds.
Proof.
  intros w l ds k Hn Hw Hd. revert k. induction l as [|c l IH]; intros k Hk.
  - cbn in Hk. replace k with O by lia. cbn [app]. rewrite remove_digits by assumption.
    reflexivity.
  - cbn [app remove_all]. destruct k as [|k].
    + change (c :: l ++ ds) with ((c :: l) ++ ds). rewrite starts_app by assumption.
      destruct (starts w (c :: l)) eqn:E.
      * apply IH. apply starts_length in E. cbn in E. lia.
      * cbn [app]. f_equal. apply IH. lia.
    + apply IH. cbn in Hk. lia.
Qed.

Lemma remove_small : forall w l k, small_text l -> small_text (remove_all w l k).
Proof.
  intros w l k H. revert k. induction H as [|c l Hc Hl IH]; intro k; [constructor|].
  cbn [remove_all]. destruct k; [|apply IH].
  destruct (starts w (c :: l)); [apply IH|]. constructor; [exact Hc | apply IH].
Qed.

Lemma numeric_mixed : forall d1 r d2, digit_text d1 -> small_text r -> digit_text d2 ->
  isnumeric (d1 ++ r ++ d2) = true -> r = [].
Proof.
  intros d1 r d2 H1 Hr H2 H. destruct r as [|c r]; [reflexivity|]. exfalso.
  assert (forallb is_digit (d1 ++ (c :: r) ++ d2) = true) as E.
  { unfold isnumeric in H. destruct (d1 ++ (c :: r) ++ d2); [discriminate | exact H]. }
  rewrite forallb_forall in E. inversion Hr; subst.
  specialize (E c). rewrite (small_not_digit c) in E by assumption.
  discriminate E. apply in_or_app. right. left. reflexivity.
Qed.

Lemma numeric_digits : forall ds, digit_text ds -> ds <> [] -> isnumeric ds = true.
Proof.
  intros ds H Hn. unfold isnumeric. destruct ds; [congruence|].
  apply forallb_forall. apply Forall_forall. exact H.
Qed.

(** * The elements *)

Definition all_elements : list (Z * text) := elements_long ++ elements.

Definition element_ok (e : text) : bool :=
  negb (text_eqb e []) && forallb is_small (lower e)
  && contains (lower e) (lower e) && text_eqb (remove_all (lower e) (lower e) 0) [].

Lemma elements_ok : forallb (fun p => element_ok (snd p)) all_elements = true.
Proof. vm_compute. reflexivity. Qed.

Lemma elements_apart :
  forallb (fun p => forallb (fun p' =>
    negb (contains (lower (snd p)) (lower (snd p'))
          && text_eqb (remove_all (lower (snd p)) (lower (snd p')) 0) [])
    || (fst p =? fst p')) all_elements) all_elements = true.
Proof. vm_compute. reflexivity. Qed.

Lemma text_eqb_true : forall a b, text_eqb a b = true <-> a = b.
Proof.
  induction a as [|x a IH]; intros [|y b]; cbn; try (split; congruence).
  rewrite andb_true_iff, N.eqb_eq, IH. split.
  - intros [-> ->]. reflexivity.
  - intro H. injection H as -> ->. tauto.
Qed.

Lemma element_facts : forall z e, In (z, e) all_elements ->
  e <> [] /\ small_text (lower e) /\ contains (lower e) (lower e) = true
  /\ remove_all (lower e) (lower e) 0 = [].
Proof.
  intros z e H. pose proof elements_ok as E. rewrite forallb_forall in E.
  specialize (E _ H). cbn [snd] in E. unfold element_ok in E.
  apply andb_true_iff in E as [E E4]. apply andb_true_iff in E as [E E3].
  apply andb_true_iff in E as [E1 E2]. apply text_eqb_true in E4.
  refine (conj _ (conj _ (conj E3 E4))).
  - intros ->. discriminate E1.
  - apply Forall_forall. apply forallb_forall. exact E2.
Qed.

Lemma apart : forall z e z' e', In (z, e) all_elements -> In (z', e') all_elements ->
  contains (lower e) (lower e') = true -> remove_all (lower e) (lower e') 0 = [] -> z = z'.
Proof.
  intros z e z' e' H H' C R. pose proof elements_apart as E. rewrite forallb_forall in E.
  specialize (E _ H). rewrite forallb_forall in E. specialize (E _ H').
  cbn [fst snd] in E. rewrite C in E.
  rewrite (proj2 (text_eqb_true _ _) R) in E. cbn in E. apply Z.eqb_eq in E. exact E.
Qed.

(** * Finding the element of an ion *)

Section Find.
  Variables (z : Z) (e d1 d2 : text).
  Hypothesis He : In (z, e) all_elements.
  Hypothesis H1 : digit_text d1.
  Hypothesis H2 : digit_text d2.
  Hypothesis Hpos : 0 < int_of_text (d1 ++ d2).

  Let x := d1 ++ lower e ++ d2.

  Lemma digits_nonempty : d1 ++ d2 <> [].
  Proof. intro E. rewrite E in Hpos. cbn in Hpos. lia. Qed.

  Lemma one_element : forall z' e', In (z', e') all_elements ->
    contains (lower e') x = contains (lower e') (lower e)
    /\ remove_all (lower e') x 0 = d1 ++ remove_all (lower e') (lower e) 0 ++ d2.
  Proof.
    intros z' e' H'. destruct (element_facts _ _ H') as (Hn & Hs & _ & _).
    assert (lower e' <> []) as Hn'.
    { intro E. apply Hn. destruct e'; [reflexivity | discriminate]. }
    unfold x. split.
    - rewrite contains_front by assumption. apply contains_back; assumption.
    - rewrite remove_front by assumption. f_equal. apply remove_back; try assumption.
      lia.
  Qed.

  Lemma find_cases : forall els, incl els all_elements ->
    find_element x els = None
    \/ find_element x els = Some (get_pdg_id_ion (int_of_text (d1 ++ d2)) z).
  Proof.
    induction els as [|[z' e'] els IH]; intro Hi; [left; reflexivity|].
    assert (In (z', e') all_elements) as H' by (apply Hi; left; reflexivity).
    assert (incl els all_elements) as Hi' by (intros p Hp; apply Hi; right; exact Hp).
    destruct (one_element _ _ H') as (C & R).
    destruct (element_facts _ _ He) as (_ & Hs & _ & _).
    cbn [find_element]. rewrite C, R.
    destruct (contains (lower e') (lower e)) eqn:E; [|apply IH; exact Hi'].
    cbv zeta.
    destruct (isnumeric (d1 ++ remove_all (lower e') (lower e) 0 ++ d2)) eqn:En;
      [|apply IH; exact Hi'].
    apply numeric_mixed in En; [|assumption | apply remove_small; exact Hs | assumption].
    rewrite En. cbn [app].
    replace (0 <? int_of_text (d1 ++ d2)) with true by (symmetry; apply Z.ltb_lt; exact Hpos).
    cbn [andb]. right.
    rewrite (apart _ _ _ _ H' He E En). reflexivity.
  Qed.

  Lemma find_here : forall els, incl els all_elements -> In (z, e) els ->
    find_element x els = Some (get_pdg_id_ion (int_of_text (d1 ++ d2)) z).
  Proof.
    induction els as [|[z' e'] els IH]; intros Hi Hin; [destruct Hin|].
    destruct (find_cases ((z', e') :: els) Hi) as [E|E]; [|exact E]. exfalso.
    assert (In (z', e') all_elements) as H' by (apply Hi; left; reflexivity).
    assert (incl els all_elements) as Hi' by (intros p Hp; apply Hi; right; exact Hp).
    destruct (one_element _ _ H') as (C & R).
    cbn [find_element] in E. rewrite C, R in E.
    destruct Hin as [Hin|Hin].
    - injection Hin as -> ->. destruct (element_facts _ _ He) as (_ & _ & Hc & Hr).
      rewrite Hc, Hr in E. cbv zeta in E. cbn [app] in E.
      rewrite numeric_digits in E.
      + replace (0 <? int_of_text (d1 ++ d2)) with true in E
          by (symmetry; apply Z.ltb_lt; exact Hpos).
        discriminate E.
      + apply Forall_app. split; assumption.
      + apply digits_nonempty.
    - specialize (IH Hi' Hin).
      destruct (contains (lower e') (lower e)); [|congruence]. cbv zeta in E.
      destruct (isnumeric _ && _); congruence.
  Qed.

  Lemma find_both :
    match find_element x elements_long with
    | Some r => r
    | None => match find_element x elements with Some r => r | None => ValueError end
    end = get_pdg_id_ion (int_of_text (d1 ++ d2)) z.
  Proof.
    assert (incl elements_long all_elements) as HL by (apply incl_appl; apply incl_refl).
    assert (incl elements all_elements) as HE by (apply incl_appr; apply incl_refl).
    pose proof He as H. unfold all_elements in H. apply in_app_or in H as [H|H].
    - rewrite (find_here _ HL H). reflexivity.
    - destruct (find_cases _ HL) as [E|E]; rewrite E; [|reflexivity].
      rewrite (find_here _ HE H). reflexivity.
  Qed.
End Find.

(** * The table of names *)

Lemma lookup_name_in : forall n i, lookup_name n = Some i -> In (n, i) pdg_inv.
Proof.
  intros n i. unfold lookup_name.
  assert (forall l f, fold_left (fun (found : option Z) e =>
            if text_eqb (fst e) n then Some (snd e) else found) l f = Some i ->
          f = Some i \/ In (n, i) l) as G.
  { induction l as [|[n' i'] l IH]; intros f H; [left; exact H|].
    cbn [fold_left fst snd] in H. apply IH in H as [H|H]; [|right; right; exact H].
    destruct (text_eqb n' n) eqn:E; [|left; exact H].
    right. left. apply text_eqb_true in E. congruence. }
  intro H. apply G in H as [H|H]; [discriminate | exact H].
Qed.

Definition agrees (n : text) (i : Z) (p : Z * text) : bool :=
  negb (text_eqb (smalls n) (lower (snd p)))
  || (int_of_text (figures n) =? 0)
  || match get_pdg_id_ion (int_of_text (figures n)) (fst p) with
     | Ret j => j =? i
     | _ => false
     end.

Lemma table_agrees :
  forallb (fun e => forallb (agrees (fst e) (snd e)) all_elements) pdg_inv = true.
Proof. vm_compute. reflexivity. Qed.

Lemma table_not_anti :
  forallb (fun e => forallb (fun p =>
    negb (text_eqb (u8 "anti" ++ smalls (fst e)) (lower (snd p)))) all_elements) pdg_inv
  = true.
Proof. vm_compute. reflexivity. Qed.

Lemma anti_not_element :
  forallb (fun p => negb (text_eqb (u8 "anti") (lower (snd p)))) all_elements = true.
Proof. vm_compute. reflexivity. Qed.

Definition is_sep (c : N) : bool :=
  ((c =? 95)%N || (c =? 45)%N || (c =? 32)%N || (c =? 46)%N).

Lemma sep_not_small : forall c, is_sep c = true -> is_small c = false.
Proof.
  intros c H. unfold is_sep in H. rewrite !orb_true_iff, !N.eqb_eq in H.
  destruct H as [[[->| ->]| ->]| ->]; reflexivity.
Qed.

Lemma sep_not_digit : forall c, is_sep c = true -> is_digit c = false.
Proof.
  intros c H. unfold is_sep in H. rewrite !orb_true_iff, !N.eqb_eq in H.
  destruct H as [[[->| ->]| ->]| ->]; reflexivity.
Qed.

Lemma filter_without : forall (f : N -> bool) s,
  (forall c, is_sep c = true -> f c = false) ->
  filter f (without_separators s) = filter f s.
Proof.
  intros f s H. induction s as [|c s IH]; [reflexivity|].
  unfold without_separators in *. cbn [filter].
  change ((c =? 95)%N || (c =? 45)%N || (c =? 32)%N || (c =? 46)%N) with (is_sep c).
  destruct (is_sep c) eqn:E; cbn [negb].
  - rewrite (H c E). exact IH.
  - cbn [filter]. rewrite IH. reflexivity.
Qed.

Lemma filter_all : forall (f : N -> bool) s, Forall (fun c => f c = true) s -> filter f s = s.
Proof.
  intros f s H. induction H as [|c s Hc Hs IH]; [reflexivity|].
  cbn. rewrite Hc, IH. reflexivity.
Qed.

Lemma filter_none : forall (f : N -> bool) s, Forall (fun c => f c = false) s -> filter f s = [].
Proof.
  intros f s H. induction H as [|c s Hc Hs IH]; [reflexivity|].
  cbn. rewrite Hc, IH. reflexivity.
Qed.

Lemma smalls_digits : forall d, digit_text d -> smalls d = [].
Proof.
  intros d H. apply filter_none. eapply Forall_impl; [|exact H].
  intros c Hc. apply digit_not_small. exact Hc.
Qed.

Lemma figures_smalls : forall l, small_text l -> figures l = [].
Proof.
  intros d H. apply filter_none. eapply Forall_impl; [|exact H].
  intros c Hc. apply small_not_digit. exact Hc.
Qed.

Lemma flip_smalls : forall s t, flip_end_sign s = Ret t -> smalls t = smalls s.
Proof.
  intros s t H. unfold flip_end_sign in H.
  destruct (rev s) as [|c1 r] eqn:E; [discriminate|]. cbv zeta in H.
  assert (s = rev r ++ [c1]) as -> by (rewrite <- (rev_involutive s), E; reflexivity).
  unfold smalls. rewrite filter_app.
  destruct r as [|c2 r'].
  - cbn [rev app tl] in *.
    repeat match type of H with
    | (if false then _ else _) = _ => cbv iota in H
    | (if ?b then _ else _) = _ =>
        let E := fresh "E" in destruct b eqn:E;
        [ apply N.eqb_eq in E; rewrite E; injection H as <-; reflexivity |]
    end.
    injection H as <-. reflexivity.
  - cbn [tl] in H. change (rev (c2 :: r')) with (rev r' ++ [c2]) in *.
    rewrite filter_app.
    assert (forall k u, Ret (rev r' ++ [u; u]) = Ret t -> (c1 =? k)%N && (c2 =? k)%N = true ->
      is_small k = false -> is_small u = false ->
      filter is_small t = (filter is_small (rev r') ++ filter is_small [c2])
                          ++ filter is_small [c1]) as P2.
    { intros k u Ht Ek Hk Hu. apply andb_true_iff in Ek as [E1 E2].
      apply N.eqb_eq in E1. apply N.eqb_eq in E2. subst. injection Ht as <-.
      rewrite filter_app. cbn [filter]. rewrite Hk, Hu, !app_nil_r. reflexivity. }
    assert (forall k u, Ret ((rev r' ++ [c2]) ++ [u]) = Ret t -> (c1 =? k)%N = true ->
      is_small k = false -> is_small u = false ->
      filter is_small t = (filter is_small (rev r') ++ filter is_small [c2])
                          ++ filter is_small [c1]) as P1.
    { intros k u Ht Ek Hk Hu. apply N.eqb_eq in Ek. subst. injection Ht as <-.
      rewrite !filter_app. cbn [filter]. rewrite Hk, Hu. reflexivity. }
    destruct ((c1 =? 8314)%N && (c2 =? 8314)%N) eqn:E1; [eapply P2; eauto; reflexivity|].
    destruct ((c1 =? 43)%N && (c2 =? 43)%N) eqn:E2; [eapply P2; eauto; reflexivity|].
    destruct ((c1 =? 8315)%N && (c2 =? 8315)%N) eqn:E3; [eapply P2; eauto; reflexivity|].
    destruct ((c1 =? 45)%N && (c2 =? 45)%N) eqn:E4; [eapply P2; eauto; reflexivity|].
    destruct (c1 =? 8314)%N eqn:E5; [eapply P1; eauto; reflexivity|].
    destruct (c1 =? 43)%N eqn:E6; [eapply P1; eauto; reflexivity|].
    destruct (c1 =? 8315)%N eqn:E7; [eapply P1; eauto; reflexivity|].
    destruct (c1 =? 45)%N eqn:E8; [eapply P1; eauto; reflexivity|].
    injection H as <-. rewrite !filter_app. reflexivity.
Qed.

Lemma starts_split : forall w s, starts w s = true -> s = w ++ skipn (List.length w) s.
Proof.
  induction w as [|x w IH]; intros s H; [reflexivity|].
  destruct s as [|c s]; [discriminate|]. cbn in H. apply andb_true_iff in H as [E H].
  apply N.eqb_eq in E. subst c. cbn. f_equal. apply IH. exact H.
Qed.

Lemma anti_cases : forall l, (exists t, anti_name l = Ret t /\
    (t = [] \/ smalls l = u8 "anti" ++ smalls t)) \/ smalls l = u8 "anti".
Proof.
  assert (forall w l, starts w l = true -> smalls w = u8 "anti" ->
    (exists t, flip_end_sign (skipn (List.length w) l) = Ret t /\
      (t = [] \/ smalls l = u8 "anti" ++ smalls t)) \/ smalls l = u8 "anti") as G.
  { intros w l H Hw. pose proof (starts_split w l H) as E.
    assert (smalls l = u8 "anti" ++ smalls (skipn (List.length w) l)) as El.
    { rewrite E at 1. unfold smalls at 1. rewrite filter_app. fold (smalls w).
      fold (smalls (skipn (List.length w) l)). rewrite Hw. reflexivity. }
    destruct (flip_end_sign (skipn (List.length w) l)) as [t| |] eqn:F.
    - left. exists t. split; [reflexivity|]. right.
      rewrite (flip_smalls _ _ F). exact El.
    - exfalso. unfold flip_end_sign in F.
      destruct (rev (skipn (List.length w) l)); [discriminate|]. cbv zeta in F.
      repeat match type of F with (if ?b then _ else _) = _ => destruct b; [discriminate|] end.
      discriminate.
    - right. unfold flip_end_sign in F.
      destruct (rev (skipn (List.length w) l)) eqn:R.
      + assert (skipn (List.length w) l = []) as S0.
        { rewrite <- (rev_involutive (skipn _ _)), R. reflexivity. }
        rewrite El, S0. reflexivity.
      + cbv zeta in F.
        repeat match type of F with (if ?b then _ else _) = _ => destruct b; [discriminate|] end.
        discriminate. }
  intro l. unfold anti_name.
  destruct (starts (u8 "anti-") l) eqn:E1; [apply (G (u8 "anti-")); [exact E1 | reflexivity]|].
  destruct (starts (u8 "anti ") l) eqn:E2; [apply (G (u8 "anti ")); [exact E2 | reflexivity]|].
  destruct (starts (u8 "anti") l) eqn:E3; [apply (G (u8 "anti")); [exact E3 | reflexivity]|].
  left. exists []. split; [reflexivity | left; reflexivity].
Qed.

(** * Every writing of an ion *)

Lemma plain_spelling : forall name z e d1 d2,
  In (z, e) all_elements -> digit_text d1 -> digit_text d2 ->
  0 < int_of_text (d1 ++ d2) ->
  without_separators (plain_name name) = d1 ++ lower e ++ d2 ->
  get_pdg_id_from_name name = get_pdg_id_ion (int_of_text (d1 ++ d2)) z.
Proof.
  intros name z e d1 d2 He H1 H2 Hpos Hx.
  destruct (element_facts _ _ He) as (_ & Hs & _ & _).
  assert (smalls (plain_name name) = lower e) as HS.
  { unfold smalls. rewrite <- (filter_without is_small) by exact sep_not_small.
    rewrite Hx, !filter_app. fold (smalls d1) (smalls d2).
    fold (smalls (lower e)).
    rewrite (smalls_digits d1), (smalls_digits d2), app_nil_r by assumption. cbn [app].
    apply filter_all. exact Hs. }
  assert (figures (plain_name name) = d1 ++ d2) as HF.
  { unfold figures. rewrite <- (filter_without is_digit) by exact sep_not_digit.
    rewrite Hx, !filter_app. rewrite (figures_smalls (lower e) Hs : filter is_digit (lower e) = []). cbn [app].
    rewrite !filter_all by assumption. reflexivity. }
  unfold get_pdg_id_from_name. cbv zeta.
  set (l := plain_name name) in *.
  assert (lower l = l) as HL by apply lower_plain_name.
  rewrite HL, Hx. rewrite (find_both z e d1 d2 He H1 H2 Hpos).
  assert (exists t, anti_name l = Ret t /\ lookup_name t = None) as (t & -> & Ht).
  { destruct (anti_cases l) as [(t & Et & Hc)|E].
    - exists t. split; [exact Et|]. destruct (lookup_name t) as [i|] eqn:El; [|reflexivity].
      exfalso. destruct Hc as [-> | Hc]; [vm_compute in El; discriminate|].
      apply lookup_name_in in El. pose proof table_not_anti as T.
      rewrite forallb_forall in T. specialize (T _ El). rewrite forallb_forall in T.
      specialize (T _ He). cbn [fst snd] in T. rewrite <- Hc, HS in T.
      rewrite (proj2 (text_eqb_true (lower e) (lower e)) eq_refl) in T. discriminate T.
    - exfalso. pose proof anti_not_element as T. rewrite forallb_forall in T.
      specialize (T _ He). cbn [snd] in T. rewrite <- E, HS in T.
      rewrite (proj2 (text_eqb_true (lower e) (lower e)) eq_refl) in T. discriminate T. }
  cbn [bind]. rewrite Ht.
  destruct (lookup_name l) as [i|] eqn:El; [|reflexivity].
  apply lookup_name_in in El. pose proof table_agrees as T.
  rewrite forallb_forall in T. specialize (T _ El). rewrite forallb_forall in T.
  specialize (T _ He). unfold agrees in T. cbn [fst snd] in T. rewrite HS, HF in T.
  rewrite (proj2 (text_eqb_true (lower e) (lower e)) eq_refl) in T. cbn [negb orb] in T.
  destruct (Z.eqb_spec (int_of_text (d1 ++ d2)) 0); [lia|]. cbn [orb] in T.
  destruct (get_pdg_id_ion (int_of_text (d1 ++ d2)) z); try discriminate.
  apply Z.eqb_eq in T. subst. reflexivity.
Qed.

Definition alnum (c : N) : Prop := letter c \/ (48 <= c <= 57)%N.

Lemma alnum_plain : forall c, alnum c ->
  plain_char c = lower_char c /\ is_sep (lower_char c) = false.
Proof.
  intros c H. split.
  - apply plain_low. unfold alnum, letter in H. lia.
  - unfold alnum, letter in H. unfold is_sep, lower_char.
    destruct (N.leb_spec 65 c), (N.leb_spec c 90), (N.leb_spec 913 c), (N.leb_spec c 937);
      cbn [andb orb];
      repeat match goal with |- context [(?a =? ?b)%N] => destruct (N.eqb_spec a b) end;
      cbn; try reflexivity; lia.
Qed.

Lemma separator_plain : forall c, separator c -> is_sep (plain_char c) = true.
Proof.
  intros c H. unfold separator in H. cbn [In] in H.
  destruct H as [<-|[<-|[<-|[<-|[]]]]]; reflexivity.
Qed.

Lemma without_cons : forall c s, without_separators (c :: s)
  = if is_sep c then without_separators s else c :: without_separators s.
Proof.
  intros c s. unfold without_separators, is_sep. cbn [filter].
  destruct ((c =? 95)%N || (c =? 45)%N || (c =? 32)%N || (c =? 46)%N); reflexivity.
Qed.

Lemma written_plain : forall s t, written s t -> Forall alnum t ->
  without_separators (plain_name s) = lower t.
Proof.
  intros s t H. rewrite plain_map. induction H as [|c s t Hc Hw IH|c d s t Hc Hw IH]; intro Ht.
  - reflexivity.
  - cbn [map]. rewrite without_cons, separator_plain by exact Hc. apply IH. exact Ht.
  - inversion Ht; subst. cbn [map]. rewrite without_cons.
    rewrite (same_plain _ _ Hc). destruct (alnum_plain d) as [-> ->]; [assumption|].
    cbn [lower map]. f_equal. apply IH. assumption.
Qed.

Lemma letters_elements :
  forallb (fun p => forallb (fun c => ((65 <=? c)%N && (c <=? 90)%N) ||
                                      ((97 <=? c)%N && (c <=? 122)%N)) (snd p)) all_elements
  = true.
Proof. vm_compute. reflexivity. Qed.

Lemma element_alnum : forall z e, In (z, e) all_elements -> Forall alnum e.
Proof.
  intros z e H. pose proof letters_elements as E. rewrite forallb_forall in E.
  specialize (E _ H). cbn [snd] in E. apply Forall_forall. rewrite forallb_forall in E.
  intros c Hc. specialize (E c Hc). unfold alnum, letter.
  rewrite orb_true_iff, !andb_true_iff, !N.leb_le in E. lia.
Qed.

Lemma digits_alnum : forall d, digits d -> Forall alnum d.
Proof. intros d H. eapply Forall_impl; [|exact H]. intros c Hc. right. exact Hc. Qed.

Lemma digits_text : forall d, digits d -> digit_text d.
Proof.
  intros d H. eapply Forall_impl; [|exact H]. intros c Hc. cbv beta in Hc. unfold is_digit.
  apply andb_true_iff. rewrite !N.leb_le. lia.
Qed.

Lemma lower_digits : forall d, digits d -> lower d = d.
Proof.
  intros d H. induction H as [|c d Hc Hd IH]; [reflexivity|].
  cbn [lower map]. f_equal; [|exact IH]. unfold lower_char.
  destruct (N.leb_spec 65 c), (N.leb_spec 913 c), (N.leb_spec c 90), (N.leb_spec c 937);
    cbn; try reflexivity; lia.
Qed.

Lemma int_spec : forall s, digits s ->
  int_of_text s = fold_left (fun x c => 10 * x + (Z.of_N c - 48)) s 0.
Proof.
  intros s H. unfold int_of_text. generalize 0. induction H as [|c s Hc Hs IH]; intro a.
  - reflexivity.
  - cbn [fold_left]. rewrite IH. f_equal. lia.
Qed.

Lemma names_in : forall z e, names_element z e -> In (z, e) all_elements.
Proof. intros z e [H|H]; unfold all_elements; apply in_or_app; [right | left]; exact H. Qed.

Lemma any_spelling : forall name z e d1 d2 a,
  names_element z e -> written name (d1 ++ e ++ d2) -> decimal a (d1 ++ d2) -> 0 < a ->
  get_pdg_id_from_name name = get_pdg_id_ion a z.
Proof.
  intros name z e d1 d2 a He Hw (Hd & Ha) Hpos. apply names_in in He.
  assert (digits d1 /\ digits d2) as (H1 & H2) by (apply Forall_app; exact Hd).
  rewrite Ha in *. rewrite <- (int_spec _ Hd) in *.
  apply plain_spelling with (e := e); try assumption; try (apply digits_text; assumption).
  rewrite (written_plain _ _ Hw).
  - unfold lower. rewrite !map_app.
    change (map lower_char) with lower. rewrite (lower_digits d1), (lower_digits d2) by assumption. reflexivity.
  - apply Forall_app. split; [apply digits_alnum; exact H1|].
    apply Forall_app. split; [eapply element_alnum; exact He | apply digits_alnum; exact H2].
Qed.

(** * Printing a number *)

Lemma uint_digits : forall d, digits (uint_text d).
Proof. induction d; cbn [uint_text]; constructor; try lia; assumption. Qed.

Lemma uint_acc : forall d p,
  fold_left (fun x c => 10 * x + (Z.of_N c - 48)) (uint_text d) (Zpos p)
  = Zpos (Pos.of_uint_acc d p).
Proof.
  induction d; intro p; cbn [uint_text fold_left Pos.of_uint_acc]; try reflexivity;
  match goal with
  | |- fold_left _ _ ?x = Zpos (Pos.of_uint_acc _ ?q) =>
      replace x with (Zpos q); [apply IHd|]
  end; try lia.
Qed.

Lemma uint_value : forall d,
  fold_left (fun x c => 10 * x + (Z.of_N c - 48)) (uint_text d) 0 = Z.of_N (N.of_uint d).
Proof.
  unfold N.of_uint.
  induction d; cbn [uint_text fold_left Pos.of_uint]; try reflexivity;
  match goal with
  | |- fold_left _ _ ?x = _ => let v := eval vm_compute in x in change x with v
  end; try (apply uint_acc). exact IHd.
Qed.

Lemma text_of_int_decimal : forall a, 0 <= a -> decimal a (text_of_int a).
Proof.
  intros a H. unfold text_of_int.
  assert (decimal a (uint_text (N.to_uint (Z.to_N a)))) as G.
  { split; [apply uint_digits|]. rewrite uint_value, DecimalN.Unsigned.of_to.
    rewrite Z2N.id by exact H. reflexivity. }
  destruct a; try exact G. lia.
Qed.

(** * Numbers of ions *)

Lemma ion_number : forall a z, 1 <= z -> 2 <= a -> z <= a ->
  get_pdg_id_ion a z = Ret (1000000000 + z * 10000 + a * 10).
Proof.
  intros a z Hz Ha H. unfold get_pdg_id_ion.
  destruct (Z.ltb_spec z 1); [lia|]. destruct (Z.ltb_spec a 2); [lia|].
  destruct (Z.ltb_spec a z); [lia|]. reflexivity.
Qed.

Lemma ion_number_inv : forall a z i, get_pdg_id_ion a z = Ret i ->
  1 <= z /\ 2 <= a /\ z <= a /\ i = 1000000000 + z * 10000 + a * 10.
Proof.
  intros a z i H. unfold get_pdg_id_ion in H.
  destruct (Z.ltb_spec z 1); [discriminate|]. destruct (Z.ltb_spec a 2); [discriminate|].
  destruct (Z.ltb_spec a z); [discriminate|]. cbn [orb] in H.
  assert (forall u v : Z, Ret u = Ret v -> u = v) as Inj by (intros u v E; congruence).
  apply Inj in H. lia.
Qed.

Lemma ion_digits_of : forall a z, 1 <= z <= 999 -> 0 <= a <= 999 ->
  ion_digits (1000000000 + z * 10000 + a * 10) = (z, a).
Proof.
  intros a z Hz Ha. unfold ion_digits. cbv zeta.
  replace (1000000000 + z * 10000 + a * 10 - 1000000000) with (z * 10000 + a * 10) by lia.
  assert ((z * 10000 + a * 10) ÷ 10000000 = 0) as -> by (Z.to_euclidean_division_equations; lia).
  assert ((z * 10000 + a * 10 - 0 * 10000000) ÷ 10000 = z) as ->
    by (Z.to_euclidean_division_equations; lia).
  f_equal. Z.to_euclidean_division_equations; lia.
Qed.

Lemma lookup_in : forall (A : Type) k (d : list (Z * A)) v, lookup k d = Some v -> In (k, v) d.
Proof.
  intros A k d v. induction d as [|[k' v'] d IH]; [discriminate|].
  cbn. destruct (Z.eqb_spec k' k) as [->|]; intro H.
  - left. congruence.
  - right. apply IH. exact H.
Qed.

Lemma table_keys :
  forallb (fun e => ((Z.abs (fst e) <? 1000000000)
                     || (fst e =? 1000010020) || (fst e =? 1000010030))) pdg_table = true.
Proof. vm_compute. reflexivity. Qed.

Lemma table_big : forall i, 1000000000 <= Z.abs i -> i <> 1000010020 -> i <> 1000010030 ->
  lookup i pdg_table = None.
Proof.
  intros i H H2 H3. destruct (lookup i pdg_table) as [v|] eqn:E; [|reflexivity].
  exfalso. apply lookup_in in E. pose proof table_keys as T. rewrite forallb_forall in T.
  specialize (T _ E). cbn [fst] in T. rewrite !orb_true_iff, Z.ltb_lt, !Z.eqb_eq in T. lia.
Qed.

Definition protons : list Z := map Z.of_nat (seq 1 118).

Lemma protons_in : forall z, 1 <= z <= 118 -> In z protons.
Proof.
  intros z H. unfold protons. apply in_map_iff. exists (Z.to_nat z). split; [lia|].
  apply in_seq. lia.
Qed.

Lemma elements_known :
  forallb (fun z => match lookup z elements, lookup z elements_long with
                    | Some _, Some _ => true | _, _ => false end) protons = true.
Proof. vm_compute. reflexivity. Qed.

Lemma element_known : forall z, 1 <= z <= 118 -> exists e e',
  lookup z elements = Some e /\ lookup z elements_long = Some e'.
Proof.
  intros z H. pose proof elements_known as T. rewrite forallb_forall in T.
  specialize (T _ (protons_in _ H)). destruct (lookup z elements) as [e|]; [|discriminate].
  destruct (lookup z elements_long) as [e'|]; [|discriminate]. exists e, e'. tauto.
Qed.

Lemma written_self : forall t, written t t.
Proof. induction t; constructor; [left; reflexivity | assumption]. Qed.

Lemma written_app : forall s t s' t', written s t -> written s' t' -> written (s ++ s') (t ++ t').
Proof.
  intros s t s' t' H H'. induction H; cbn; [exact H' | constructor; assumption
    | constructor; assumption].
Qed.

Lemma superscript_written : forall d, digits d -> written (digits_to_superscript d) d.
Proof.
  intros d H. induction H as [|c d Hc Hd IH]; [constructor|].
  cbn [digits_to_superscript map]. constructor; [|exact IH].
  assert (In c [48; 49; 50; 51; 52; 53; 54; 55; 56; 57]%N) as Hin.
  { cbn [In]. lia. }
  right. right. cbn [In] in Hin.
  repeat (destruct Hin as [<-|Hin]; [vm_compute; tauto|]). contradiction.
Qed.

Lemma hydrogens :
  forallb (fun i => forallb (fun b : bool * bool =>
    match get_properties_from_pdg_id i (fst b) (snd b) with
    | Ret (q, a, z, n) =>
        (q =? 1) && (a =? (i - 1000010000) / 10) && (z =? 1)
        && match get_pdg_id_from_name n with Ret j => j =? i | _ => false end
    | _ => false
    end) [(true, true); (true, false); (false, true); (false, false)])
  [1000010020; 1000010030] = true.
Proof. vm_compute. reflexivity. Qed.

Lemma flags_in : forall a b : bool,
  In (a, b) [(true, true); (true, false); (false, true); (false, false)].
Proof. intros [] []; cbn; tauto. Qed.

Lemma ion_properties : forall a z long subs, 1 <= z <= 118 -> 2 <= a <= 999 -> z <= a ->
  exists name,
    get_properties_from_pdg_id (1000000000 + z * 10000 + a * 10) long subs
      = Ret (z, a, z, name)
    /\ get_pdg_id_from_name name = Ret (1000000000 + z * 10000 + a * 10).
Proof.
  intros a z long subs Hz Ha H.
  destruct (Z.eq_dec (1000000000 + z * 10000 + a * 10) 1000010020) as [E2|N2];
  [|destruct (Z.eq_dec (1000000000 + z * 10000 + a * 10) 1000010030) as [E3|N3]].
  - assert (z = 1) by lia. assert (a = 2) by lia. subst.
    pose proof hydrogens as T. rewrite forallb_forall in T.
    specialize (T _ (or_introl eq_refl)). rewrite forallb_forall in T.
    specialize (T _ (flags_in long subs)). cbn [fst snd] in T. rewrite E2.
    destruct (get_properties_from_pdg_id 1000010020 long subs) as [[[[q a] z] n]| |];
      try discriminate.
    rewrite !andb_true_iff, !Z.eqb_eq in T. destruct T as [[[Tq Ta] Tz] Tn].
    destruct (get_pdg_id_from_name n) as [j| |] eqn:En; try discriminate.
    apply Z.eqb_eq in Tn. exists n. subst. split; [reflexivity | exact En].
  - assert (z = 1) by lia. assert (a = 3) by lia. subst.
    pose proof hydrogens as T. rewrite forallb_forall in T.
    specialize (T _ (or_intror (or_introl eq_refl))). rewrite forallb_forall in T.
    specialize (T _ (flags_in long subs)). cbn [fst snd] in T. rewrite E3.
    destruct (get_properties_from_pdg_id 1000010030 long subs) as [[[[q a] z] n]| |];
      try discriminate.
    rewrite !andb_true_iff, !Z.eqb_eq in T. destruct T as [[[Tq Ta] Tz] Tn].
    destruct (get_pdg_id_from_name n) as [j| |] eqn:En; try discriminate.
    apply Z.eqb_eq in Tn. exists n. subst. split; [reflexivity | exact En].
  - set (i := 1000000000 + z * 10000 + a * 10) in *.
    assert (lookup i pdg_table = None) as L by (apply table_big; [unfold i; lia | assumption
      | assumption]).
    assert (ion_digits i = (z, a)) as D by (apply ion_digits_of; lia).
    destruct (element_known z Hz) as (e & e' & Le & Le').
    destruct (text_of_int_decimal a ltac:(lia)) as (Td & Tv).
    assert (decimal a (text_of_int a)) as TD by (split; assumption).
    unfold get_properties_from_pdg_id, direct_properties. rewrite L, D.
    replace (1000000000 <? i) with true by (symmetry; apply Z.ltb_lt; unfold i; lia).
    unfold get_element_full_name_from_Z, get_element_name_from_Z. rewrite Le, Le'.
    assert (get_pdg_id_ion a z = Ret i) as G by (apply ion_number; lia).
    destruct long; [|destruct subs]; cbn [bind].
    + eexists. split; [reflexivity|]. rewrite <- G.
      apply any_spelling with (e := e') (d1 := []) (d2 := text_of_int a).
      * right. apply lookup_in. exact Le'.
      * cbn [app]. apply written_app; [apply written_self|].
        apply written_separator; [right; left; reflexivity | apply written_self].
      * exact TD.
      * lia.
    + eexists. split; [reflexivity|]. rewrite <- G.
      apply any_spelling with (e := e) (d1 := text_of_int a) (d2 := []).
      * left. apply lookup_in. exact Le.
      * apply written_app; [apply superscript_written; exact Td|].
        rewrite app_nil_r. apply written_self.
      * rewrite app_nil_r. exact TD.
      * lia.
    + eexists. split; [reflexivity|]. rewrite <- G.
      apply any_spelling with (e := e) (d1 := []) (d2 := text_of_int a).
      * left. apply lookup_in. exact Le.
      * apply written_self.
      * exact TD.
      * lia.
Qed.

Lemma ion_round_trip : forall a z, 1 <= z <= 118 -> 2 <= a <= 999 -> z <= a ->
  exists i, get_pdg_id_ion a z = Ret i
  /\ is_ion i = (z <? a)
  /\ forall long subs, exists name,
       get_properties_from_pdg_id i long subs = Ret (z, a, z, name)
       /\ get_pdg_id_from_name name = Ret i.
Proof.
  intros a z Hz Ha H. exists (1000000000 + z * 10000 + a * 10).
  refine (conj _ (conj _ _)).
  - apply ion_number; lia.
  - unfold is_ion. rewrite ion_digits_of by lia.
    replace (1000000000 <=? 1000000000 + z * 10000 + a * 10) with true
      by (symmetry; apply Z.leb_le; lia).
    replace (0 <? z) with true by (symmetry; apply Z.ltb_lt; lia). reflexivity.
  - intros long subs. apply ion_properties; assumption.
Qed.

(** * The particles of the table *)

Definition known_ids : list Z := map fst pdg_table ++ map (fun e => - fst e) pdg_table.

Lemma known_in : forall i, known i -> In i known_ids.
Proof.
  intros i [H|H]; apply in_or_app; [left; exact H|]. right.
  apply in_map_iff in H as ((k & v) & E & H). apply in_map_iff.
  exists (k, v). cbn [fst] in *. split; [lia | exact H].
Qed.

Lemma known_round :
  forallb (fun i => forallb (fun b : bool * bool =>
    match get_properties_from_pdg_id i (fst b) (snd b) with
    | Ret (q, a, z, n) => match get_pdg_id_from_name n with Ret j => j =? i | _ => false end
    | _ => false
    end) [(true, true); (true, false); (false, true); (false, false)]) known_ids = true.
Proof. vm_compute. reflexivity. Qed.

Lemma known_round_trip : forall i long subs, known i -> exists name,
  get_name_from_pdg_id i long subs = Ret name /\ get_pdg_id_from_name name = Ret i.
Proof.
  intros i long subs H. pose proof known_round as T. rewrite forallb_forall in T.
  specialize (T _ (known_in _ H)). rewrite forallb_forall in T.
  specialize (T _ (flags_in long subs)). cbn [fst snd] in T.
  unfold get_name_from_pdg_id.
  destruct (get_properties_from_pdg_id i long subs) as [[[[q a] z] n]| |]; try discriminate.
  exists n. split; [reflexivity|].
  destruct (get_pdg_id_from_name n) as [j| |]; try discriminate.
  apply Z.eqb_eq in T. subst. reflexivity.
Qed.

Lemma aliases_found :
  forallb (fun e => forallb (fun n =>
    match get_pdg_id_from_name n with Ret j => j =? fst e | _ => false end) (snd (snd e)))
  pdg_table = true.
Proof. vm_compute. reflexivity. Qed.

Lemma alias : forall i q names n s, In (i, (q, names)) pdg_table -> In n names ->
  Forall2 same_char s n -> get_pdg_id_from_name s = Ret i.
Proof.
  intros i q names n s H Hn Hs. rewrite (from_name_same _ _ Hs).
  pose proof aliases_found as T. rewrite forallb_forall in T. specialize (T _ H).
  rewrite forallb_forall in T. specialize (T _ Hn). cbn [fst] in T.
  destruct (get_pdg_id_from_name n) as [j| |]; try discriminate.
  apply Z.eqb_eq in T. subst. reflexivity.
Qed.

(** * Antiparticles *)

Definition opposite (x y : outcome (Z * Z * Z * text)) : bool :=
  match x, y with
  | Ret (q, a, z, _), Ret (q', a', z', _) => (q' =? - q) && (a' =? a) && (z' =? - z)
  | _, _ => false
  end.

Lemma known_opposite :
  forallb (fun i => forallb (fun b : bool * bool =>
    opposite (get_properties_from_pdg_id i (fst b) (snd b))
             (get_properties_from_pdg_id (- i) (fst b) (snd b)))
    [(true, true); (true, false); (false, true); (false, false)]) known_ids = true.
Proof. vm_compute. reflexivity. Qed.

Lemma opposite_known : forall i long subs q a z name, In i known_ids ->
  get_properties_from_pdg_id i long subs = Ret (q, a, z, name) ->
  exists name', get_properties_from_pdg_id (- i) long subs = Ret (- q, a, - z, name').
Proof.
  intros i long subs q a z name Hi H. pose proof known_opposite as T.
  rewrite forallb_forall in T. specialize (T _ Hi). rewrite forallb_forall in T.
  specialize (T _ (flags_in long subs)). cbn [fst snd] in T. rewrite H in T.
  destruct (get_properties_from_pdg_id (- i) long subs) as [[[[q' a'] z'] n']| |];
    try discriminate.
  cbn in T. rewrite !andb_true_iff, !Z.eqb_eq in T. destruct T as [[-> ->] ->].
  exists n'. reflexivity.
Qed.

Lemma flip_some : forall c s, exists t, flip_end_sign (c :: s) = Ret t.
Proof.
  intros c s. unfold flip_end_sign. cbn [rev].
  destruct (rev s ++ [c]) as [|c1 r] eqn:E; [destruct (rev s); discriminate|]. cbv zeta.
  repeat match goal with |- exists t, (if ?b then _ else _) = _ =>
    destruct b; [eexists; reflexivity|] end.
  eexists; reflexivity.
Qed.

Lemma in_known : forall i v, lookup i pdg_table = Some v -> In i known_ids.
Proof.
  intros i v H. apply lookup_in in H. apply in_or_app. left.
  change i with (fst (i, v)). apply in_map. exact H.
Qed.

Lemma in_known_opp : forall i v, lookup (- i) pdg_table = Some v -> In i known_ids.
Proof.
  intros i v H. apply lookup_in in H. apply in_or_app. right.
  apply in_map_iff. exists (- i, v). cbn [fst]. split; [lia | exact H].
Qed.

Lemma antiparticle : forall i long subs q a z name,
  get_properties_from_pdg_id i long subs = Ret (q, a, z, name) ->
  exists name', get_properties_from_pdg_id (- i) long subs = Ret (- q, a, - z, name').
Proof.
  intros i long subs q a z name H.
  destruct (lookup i pdg_table) as [v|] eqn:L.
  { eapply opposite_known; [eapply in_known; exact L | exact H]. }
  destruct (lookup (- i) pdg_table) as [v|] eqn:L'.
  { eapply opposite_known; [eapply in_known_opp; exact L' | exact H]. }
  unfold get_properties_from_pdg_id in *. rewrite L' in H. rewrite Z.opp_involutive. rewrite L.
  cbn [orb] in *.
  destruct (Z.ltb_spec 1000000000 i) as [B|B].
  - assert (direct_properties (- i) long subs = None) as ->.
    { unfold direct_properties. rewrite L'.
      replace (1000000000 <? - i) with false by (symmetry; apply Z.ltb_ge; lia). reflexivity. }
    replace (- i <? -1000000000) with true by (symmetry; apply Z.ltb_lt; lia).
    destruct (direct_properties i long subs) as [r|] eqn:D.
    + rewrite H. cbn [bind].
      destruct (flip_some 97%N (u8 "nti-" ++ name)) as (t & Ht).
      change (u8 "anti-" ++ name) with (97%N :: u8 "nti-" ++ name). rewrite Ht.
      cbn [bind]. exists t. reflexivity.
    + exfalso. destruct (i <? -1000000000) eqn:E; [apply Z.ltb_lt in E; lia | discriminate].
  - assert (direct_properties i long subs = None) as D.
    { unfold direct_properties. rewrite L.
      replace (1000000000 <? i) with false by (symmetry; apply Z.ltb_ge; lia). reflexivity. }
    rewrite D in H. destruct (Z.ltb_spec i (-1000000000)) as [B'|B']; [|discriminate].
    destruct (direct_properties (- i) long subs) as [r|]; [|discriminate].
    destruct r as [[[[q0 a0] z0] n0]| |]; try discriminate. cbn [bind] in H.
    destruct (flip_some 97%N (u8 "nti-" ++ n0)) as (t & Ht).
    change (u8 "anti-" ++ n0) with (97%N :: u8 "nti-" ++ n0) in H. rewrite Ht in H.
    cbn [bind] in H. injection H as <- <- <- <-. exists n0.
    rewrite !Z.opp_involutive. reflexivity.
Qed.

(** * Masses *)

Definition masses : list (Z * Q) :=
  Eval vm_compute in match mass_table with Ret t => t | _ => [] end.

Lemma mass_table_eq : mass_table = Ret masses.
Proof. vm_compute. reflexivity. Qed.

Definition from_mass (m : Q) (q : Z) (rtol : Q) : outcome Z :=
  bind (with_charge q (map fst (filter (fun e => mass_near m rtol (snd e)) masses)))
  (fun ids =>
  match ids with
  | [i] => Ret i
  | _ :: _ :: _ => ValueError
  | [] =>
      let a := round (m / U_MASS_EV) in
      if (0 <? q) && (1 <? a) then get_pdg_id_ion a q else ValueError
  end).

Lemma from_mass_eq : forall m q rtol, get_pdg_id_from_mass_charge m q rtol = from_mass m q rtol.
Proof.
  intros. unfold get_pdg_id_from_mass_charge. rewrite mass_table_eq. unfold from_mass.
  unfold bind at 1. cbv zeta. reflexivity.
Qed.

Definition charged_back (i : Z) (m : Q) : bool :=
  forallb (fun b : bool * bool =>
    match get_properties_from_pdg_id i (fst b) (snd b) with
    | Ret (q, _, _, _) =>
        (q =? 0) || match from_mass m q (1 # 1000) with Ret j => j =? i | _ => false end
    | _ => true
    end) [(true, true); (true, false); (false, true); (false, false)].

Lemma tabulated_back :
  forallb (fun e => charged_back (fst e) (snd e) && charged_back (- fst e) (snd e)) masses = true.
Proof. vm_compute. reflexivity. Qed.

Definition mass_numbers : list Z := map Z.of_nat (seq 2 998).

Definition no_clash (a : Z) : bool :=
  match filter (fun e => mass_near (inject_Z a * U_MASS_EV) (1 # 1000) (snd e)) masses with
  | [] => true
  | found =>
      forallb (fun z =>
        match lookup (1000000000 + z * 10000 + a * 10) masses with
        | Some _ => true
        | None => match with_charge z (map fst found) with Ret [] => true | _ => false end
        end) protons
  end.

Lemma no_clashes : forallb no_clash mass_numbers = true.
Proof. vm_compute. reflexivity. Qed.

Lemma round_multiple : forall a, round (inject_Z a * U_MASS_EV / U_MASS_EV) = a.
Proof.
  intro a. assert (inject_Z a * U_MASS_EV / U_MASS_EV == inject_Z a)%Q as E.
  { field. discriminate. }
  unfold round. cbv zeta. set (x := (inject_Z a * U_MASS_EV / U_MASS_EV)%Q) in *.
  unfold Qeq in E. cbn [Qnum Qden inject_Z] in E.
  assert (Qnum x = a * Zpos (Qden x)) as -> by lia.
  rewrite Z.div_mul by discriminate. rewrite Z.mod_mul by discriminate. reflexivity.
Qed.

Definition get_mass (i : Z) : outcome Q :=
  match lookup i masses with
  | Some m => Ret m
  | None =>
      match lookup (- i) masses with
      | Some m => Ret m
      | None =>
          if (1000000000 <? i) && true then
            bind (get_properties_from_pdg_id i false true) (fun p =>
            let '(_, a, _, _) := p in
            Ret (inject_Z a * U_MASS_EV)%Q)
          else ValueError
      end
  end.

Lemma get_mass_eq : forall i, get_mass_from_pdg_id i true None = get_mass i.
Proof.
  intros. unfold get_mass_from_pdg_id. rewrite mass_table_eq. unfold get_mass.
  unfold bind at 1. reflexivity.
Qed.

Lemma hydrogen_masses :
  match lookup 1000010020 masses with Some _ => true | None => false end
  && match lookup 1000010030 masses with Some _ => true | None => false end = true.
Proof. vm_compute. reflexivity. Qed.

Lemma elements_range :
  forallb (fun p => (1 <=? fst p) && (fst p <=? 118)) all_elements = true.
Proof. vm_compute. reflexivity. Qed.

Lemma ion_properties_inv : forall i long subs q a z name,
  lookup i pdg_table = None -> 1000000000 < i ->
  get_properties_from_pdg_id i long subs = Ret (q, a, z, name) ->
  ion_digits i = (z, a) /\ q = z /\ exists e, lookup z elements = Some e
    \/ lookup z elements_long = Some e.
Proof.
  intros i long subs q a z name LT B Hp.
  unfold get_properties_from_pdg_id, direct_properties in Hp. rewrite LT in Hp.
  replace (1000000000 <? i) with true in Hp by (symmetry; apply Z.ltb_lt; lia).
  destruct (ion_digits i) as [z' a'] eqn:D.
  unfold get_element_full_name_from_Z, get_element_name_from_Z in Hp.
  destruct long.
  - destruct (lookup z' elements_long) as [e|] eqn:Le; [|discriminate].
    cbn [bind] in Hp. injection Hp as <- <- <- _. split; [reflexivity|].
    split; [reflexivity|]. exists e. right. exact Le.
  - destruct (lookup z' elements) as [e|] eqn:Le; [|discriminate].
    cbn [bind] in Hp. injection Hp as <- <- <- _. split; [reflexivity|].
    split; [reflexivity|]. exists e. left. exact Le.
Qed.

Lemma opposite_masses :
  forallb (fun e => match lookup (- fst e) masses with Some _ => false | None => true end
                    && match lookup (fst e) masses with
                       | Some v => (Qnum v =? Qnum (snd e)) && Pos.eqb (Qden v) (Qden (snd e))
                       | None => false end) masses = true.
Proof. vm_compute. reflexivity. Qed.

Strategy opaque [masses pdg_table elements elements_long with_charge mass_near
  get_properties_from_pdg_id lookup].

Lemma mass_round_trip : forall i m long subs q a z name,
  get_mass_from_pdg_id i true None = Ret m ->
  get_properties_from_pdg_id i long subs = Ret (q, a, z, name) -> q <> 0 ->
  i <= 1000000000 \/ get_pdg_id_ion a z = Ret i ->
  get_pdg_id_from_mass_charge m q (1 # 1000) = Ret i.
Proof.
  intros i m long subs q a z name Hm Hp Hq Hi. rewrite from_mass_eq.
  rewrite get_mass_eq in Hm. unfold get_mass in Hm.
  assert (forall j v, In (j, v) masses -> i = j \/ i = - j -> m = v ->
    from_mass m q (1 # 1000) = Ret i) as G.
  { intros j v Hj Hij ->. pose proof tabulated_back as T. rewrite forallb_forall in T.
    specialize (T _ Hj). cbn [fst snd] in T. apply andb_true_iff in T as [T1 T2].
    assert (charged_back i v = true) as T by (destruct Hij as [-> | ->]; assumption).
    unfold charged_back in T. rewrite forallb_forall in T.
    specialize (T _ (flags_in long subs)). cbn [fst snd] in T. rewrite Hp in T.
    destruct (Z.eqb_spec q 0); [contradiction|]. cbn [orb] in T.
    destruct (from_mass v q (1 # 1000)) as [k| |]; try discriminate.
    apply Z.eqb_eq in T. subst. reflexivity. }
  destruct (lookup i masses) as [v|] eqn:L.
  { apply lookup_in in L. injection Hm as <-. eapply G; [exact L | left | ]; reflexivity. }
  destruct (lookup (- i) masses) as [v|] eqn:L'.
  { apply lookup_in in L'. injection Hm as <-. eapply G; [exact L' | right; lia | reflexivity]. }
  destruct (Z.ltb_spec 1000000000 i) as [B|B]; [|discriminate]. cbn [andb] in Hm.
  destruct Hi as [Hi|Hi]; [lia|]. pose proof (ion_number_inv _ _ _ Hi) as (Hz & Ha & Hza & Ei).
  pose proof hydrogen_masses as HM. apply andb_true_iff in HM as [HM2 HM3].
  assert (i <> 1000010020) as N2 by (intros ->; rewrite L in HM2; discriminate).
  assert (i <> 1000010030) as N3 by (intros ->; rewrite L in HM3; discriminate).
  assert (lookup i pdg_table = None) as LT by (apply table_big; lia || assumption).
  (* the digits of the number *)
  assert (ion_digits i = (z, a) /\ q = z /\ exists e, lookup z elements = Some e
          \/ lookup z elements_long = Some e) as (D & -> & e & Le).
  { eapply ion_properties_inv; [exact LT | exact B | exact Hp]. }
  assert (1 <= z <= 118) as Hz'.
  { pose proof elements_range as T. rewrite forallb_forall in T.
    assert (In (z, e) all_elements) as Hin.
    { unfold all_elements. apply in_or_app.
      destruct Le as [Le|Le]; apply lookup_in in Le; [right | left]; exact Le. }
    specialize (T _ Hin). cbn [fst] in T. rewrite andb_true_iff, !Z.leb_le in T. exact T. }
  assert (a <= 999) as Ha'.
  { unfold ion_digits in D. cbv zeta in D. injection D as Dz Da. subst i.
    clear - Dz Da Hz Ha Hz'. Z.to_euclidean_division_equations; lia. }
  assert (m = inject_Z a * U_MASS_EV)%Q as ->.
  { destruct (ion_properties a z false true) as (n & En & _); [lia..|].
    rewrite <- Ei in En. rewrite En in Hm. cbn [bind] in Hm. injection Hm as <-. reflexivity. }
  unfold from_mass. cbv zeta.
  assert (with_charge z (map fst (filter (fun e =>
    mass_near (inject_Z a * U_MASS_EV) (1 # 1000) (snd e)) masses)) = Ret []) as ->.
  { pose proof no_clashes as T. rewrite forallb_forall in T.
    assert (In a mass_numbers) as Hin.
    { unfold mass_numbers. apply in_map_iff. exists (Z.to_nat a). split; [lia|].
      apply in_seq. lia. }
    specialize (T _ Hin). unfold no_clash in T.
    destruct (filter _ masses) as [|f0 fs]; [reflexivity|].
    rewrite forallb_forall in T. specialize (T _ (protons_in _ Hz')).
    rewrite <- Ei, L in T.
    destruct (with_charge z (map fst (f0 :: fs))) as [[|? ?]| |]; try discriminate.
    reflexivity. }
  cbn [bind]. rewrite round_multiple.
  replace (0 <? z) with true by (symmetry; apply Z.ltb_lt; lia).
  replace (1 <? a) with true by (symmetry; apply Z.ltb_lt; lia).
  cbn [andb]. exact Hi.
Qed.

Lemma antiparticle_mass : forall i m, i <= 1000000000 ->
  get_mass_from_pdg_id i true None = Ret m -> get_mass_from_pdg_id (- i) true None = Ret m.
Proof.
  intros i m Hi H. rewrite get_mass_eq in *. unfold get_mass in *. rewrite Z.opp_involutive.
  pose proof opposite_masses as T. rewrite forallb_forall in T.
  destruct (lookup i masses) as [v|] eqn:L.
  - injection H as <-. apply lookup_in in L as Hin. specialize (T _ Hin). cbn [fst snd] in T.
    destruct (lookup (- i) masses); [discriminate | reflexivity].
  - destruct (lookup (- i) masses) as [v|] eqn:L'; [exact H|].
    replace (1000000000 <? i) with false in H by (symmetry; apply Z.ltb_ge; lia).
    discriminate.
Qed.
