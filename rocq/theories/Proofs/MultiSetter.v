(** Multisetters *)
From Coq Require Import ZArith Lia List Bool String Permutation.
From Verif.Model Require Import MultiSetter.
From Verif.Spec Require Import MultiSetter.
Import ListNotations.
Local Open Scope Z_scope.

(** * Values and bytes *)
Lemma of_bytes_of w : forall v, of_bytes (bytes_of w v) = v mod 256 ^ Z.of_nat w.
Proof.
  induction w as [|w IH]; intros v; [cbn; now rewrite Z.mod_1_r|].
  cbn [bytes_of of_bytes]. rewrite IH. rewrite Nat2Z.inj_succ, Z.pow_succ_r by lia.
  rewrite Z.rem_mul_r by lia. reflexivity.
Qed.
Lemma bytes_length w : forall v, List.length (bytes_of w v) = w.
Proof. induction w as [|w IH]; intros v; cbn; [reflexivity|now rewrite IH]. Qed.
Lemma decode_bytes t v : in_range t v -> decode t (bytes_of (width t) v) = v.
Proof.
  intros H. unfold decode. rewrite of_bytes_of.
  destruct t; cbn [width signed andb] in *; unfold in_range in H.
  - change (256 ^ Z.of_nat 8) with (2 ^ 64). now apply Z.mod_small.
  - change (256 ^ Z.of_nat 8) with (2 ^ 64). change (2 ^ (8 * Z.of_nat 8)) with (2 ^ 64).
    change (2 ^ 64 / 2) with (2 ^ 63).
    destruct (Z.leb_spec (2 ^ 63) (v mod 2 ^ 64)) as [L|L].
    + assert (v < 0). { destruct (Z.lt_ge_cases v 0); [assumption|]. rewrite Z.mod_small in L by lia. lia. }
      assert (E : v mod 2 ^ 64 = v + 2 ^ 64).
      { rewrite <- (Z_mod_plus_full v 1 (2 ^ 64)). rewrite Z.mod_small by lia. lia. }
      lia.
    + destruct (Z.lt_ge_cases v 0).
      * rewrite <- (Z_mod_plus_full v 1 (2 ^ 64)) in L. rewrite Z.mod_small in L by lia. lia.
      * apply Z.mod_small. lia.
  - change (256 ^ Z.of_nat 4) with (2 ^ 32). change (2 ^ (8 * Z.of_nat 4)) with (2 ^ 32).
    change (2 ^ 32 / 2) with (2 ^ 31).
    destruct (Z.leb_spec (2 ^ 31) (v mod 2 ^ 32)) as [L|L].
    + assert (v < 0). { destruct (Z.lt_ge_cases v 0); [assumption|]. rewrite Z.mod_small in L by lia. lia. }
      assert (E : v mod 2 ^ 32 = v + 2 ^ 32).
      { rewrite <- (Z_mod_plus_full v 1 (2 ^ 32)). rewrite Z.mod_small by lia. lia. }
      lia.
    + destruct (Z.lt_ge_cases v 0).
      * rewrite <- (Z_mod_plus_full v 1 (2 ^ 32)) in L. rewrite Z.mod_small in L by lia. lia.
      * apply Z.mod_small. lia.
Qed.

(** * Writes *)
Lemma perform_out ws : forall m a, ~ In a (map fst ws) -> perform ws m a = m a.
Proof.
  unfold perform. induction ws as [|w ws IH]; intros m a H; [reflexivity|]. cbn [fold_left]. cbn in H.
  rewrite IH by tauto. unfold write. destruct (Z.eqb_spec a (fst w)); [subst; tauto|reflexivity].
Qed.
Lemma perform_in ws : forall m a b, NoDup (map fst ws) -> In (a, b) ws -> perform ws m a = b.
Proof.
  unfold perform. induction ws as [|w ws IH]; intros m a b ND H; [destruct H|]. cbn [fold_left].
  cbn in ND. inversion ND as [|? ? N1 N2]; subst. destruct H as [->|H].
  - change (perform ws (write a b m) a = b). rewrite perform_out by exact N1. unfold write. now rewrite Z.eqb_refl.
  - now apply IH.
Qed.

Lemma writes_at_addresses l : forall a x, In x (map fst (writes_at a l)) <-> a <= x < a + Z.of_nat (List.length l).
Proof.
  induction l as [|b l IH]; intros a x; cbn [writes_at map In List.length fst].
  - lia.
  - rewrite IH, Nat2Z.inj_succ. lia.
Qed.
Lemma writes_at_NoDup l : forall a, NoDup (map fst (writes_at a l)).
Proof.
  induction l as [|b l IH]; intros a; cbn; constructor; [|apply IH].
  rewrite writes_at_addresses. lia.
Qed.
Lemma load_written l ws m : NoDup (map fst ws) -> forall a, (forall w, In w (writes_at a l) -> In w ws) ->
  load_bytes (List.length l) (perform ws m) a = l.
Proof.
  intros ND. induction l as [|b l IH]; intros a H; [reflexivity|]. cbn [List.length load_bytes]. f_equal.
  - apply perform_in; [exact ND|]. apply H. now left.
  - apply IH. intros w Hw. apply H. now right.
Qed.
Lemma load_untouched w : forall m m' a, (forall x, a <= x < a + Z.of_nat w -> m x = m' x) ->
  load_bytes w m a = load_bytes w m' a.
Proof.
  induction w as [|w IH]; intros m m' a H; [reflexivity|]. cbn [load_bytes]. f_equal; [apply H; lia|].
  apply IH. intros x Hx. apply H. lia.
Qed.

Definition w_of (t : dtype) : Z := Z.of_nat (width t).
Lemma thread_addresses t o v x : In x (map fst (set_thread t o v)) <-> 0 <= o /\ o <= x < o + w_of t.
Proof.
  unfold set_thread, store_writes. destruct (Z.leb_spec 0 o).
  - rewrite writes_at_addresses, bytes_length. unfold w_of. lia.
  - cbn. lia.
Qed.
Lemma all_addresses t offsets : forall values x, In x (map fst (all_writes t offsets values)) ->
  exists o, In o offsets /\ 0 <= o /\ o <= x < o + w_of t.
Proof.
  induction offsets as [|o offsets IH]; intros [|v values] x H; try destruct H.
  cbn [all_writes] in H. rewrite map_app, in_app_iff in H. destruct H as [H|H].
  - apply thread_addresses in H. exists o. split; [now left|lia].
  - destruct (IH _ _ H) as (o' & H1 & H2). exists o'. split; [now right|exact H2].
Qed.

(** Offsets which do not overlap *)
Inductive separate (t : dtype) : list Z -> Prop :=
| sep_nil : separate t []
| sep_cons o l : (forall o', In o' l -> 0 <= o -> 0 <= o' -> o + w_of t <= o' \/ o' + w_of t <= o) ->
                 separate t l -> separate t (o :: l).

Lemma all_NoDup t offsets : separate t offsets -> forall values, NoDup (map fst (all_writes t offsets values)).
Proof.
  induction 1 as [|o l H _ IH]; intros [|v values]; try constructor. cbn [all_writes]. rewrite map_app.
  assert (A : forall a b : list Z, NoDup a -> NoDup b -> (forall x, In x a -> ~ In x b) -> NoDup (a ++ b)).
  { clear. intros a b Ha Hb Hd. induction Ha as [|x a N D IH]; [exact Hb|]. cbn. constructor.
    - rewrite in_app_iff. intros [?|?]; [contradiction|]. apply (Hd x); [now left|assumption].
    - apply IH. intros y Hy. apply Hd. now right. }
  apply A; [| apply IH|].
  - unfold set_thread, store_writes. destruct (0 <=? o); [apply writes_at_NoDup|constructor].
  - intros x Hx Hy. apply thread_addresses in Hx. apply all_addresses in Hy. destruct Hy as (o' & Ho' & P & Q).
    specialize (H o' Ho'). lia.
Qed.

Fixpoint expected (offsets values : list Z) : list Z :=
  match offsets, values with
  | o :: offsets, v :: values => (if 0 <=? o then v else 0) :: expected offsets values
  | _, _ => []
  end.

Lemma thread_in t offsets : forall values i o v, nth_error offsets i = Some o -> nth_error values i = Some v ->
  forall w, In w (set_thread t o v) -> In w (all_writes t offsets values).
Proof.
  induction offsets as [|o' offsets IH]; intros [|v' values] [|i] o v Ho Hv w Hw; try discriminate; cbn in Ho, Hv; cbn [all_writes];
    apply in_or_app.
  - left. assert (o' = o /\ v' = v) as (-> & ->) by (split; congruence). exact Hw.
  - right. exact (IH values i o v Ho Hv w Hw).
Qed.

Lemma read_thread t offsets values m ws i o v :
  separate t offsets -> Permutation ws (all_writes t offsets values) ->
  nth_error offsets i = Some o -> nth_error values i = Some v -> in_range t v -> 0 <= o ->
  load t (perform ws m) o = v.
Proof.
  intros Hs P Ho Hv R Po. unfold load.
  rewrite <- (bytes_length (width t) v) at 1. rewrite load_written.
  - now apply decode_bytes.
  - eapply Permutation_NoDup; [apply Permutation_map, Permutation_sym; exact P|]. now apply all_NoDup.
  - intros w Hw. apply (Permutation_in w (Permutation_sym P)).
    apply (thread_in t offsets values i o v Ho Hv). unfold set_thread. destruct (Z.leb_spec 0 o); [exact Hw|lia].
Qed.

Lemma nth_error_ext {A} : forall (a b : list A), (forall i, nth_error a i = nth_error b i) -> a = b.
Proof.
  induction a as [|x a IH]; intros [|y b] H; [reflexivity|specialize (H O); discriminate|specialize (H O); discriminate|].
  pose proof (H O) as H0. cbn in H0. f_equal; [congruence|]. apply IH. intros i. exact (H (S i)).
Qed.
Lemma nth_error_get t m offsets i : nth_error (get_values t offsets m) i = option_map (get_thread t m) (nth_error offsets i).
Proof. unfold get_values. apply nth_error_map. Qed.
Lemma nth_error_expected offsets : forall values i, List.length offsets = List.length values ->
  nth_error (expected offsets values) i =
  match nth_error offsets i, nth_error values i with Some o, Some v => Some (if 0 <=? o then v else 0) | _, _ => None end.
Proof.
  induction offsets as [|o offsets IH]; intros [|v values] i H; try discriminate.
  - now destruct i.
  - destruct i as [|i]; cbn; [reflexivity|]. apply IH. cbn in H. congruence.
Qed.

Lemma read_back t offsets values m ws :
  separate t offsets -> List.length offsets = List.length values -> Forall (in_range t) values ->
  Permutation ws (all_writes t offsets values) ->
  get_values t offsets (perform ws m) = expected offsets values.
Proof.
  intros Hs Hl Hr P. apply nth_error_ext. intros i. rewrite nth_error_get, nth_error_expected by exact Hl.
  destruct (nth_error offsets i) as [o|] eqn:Eo; [|reflexivity].
  destruct (nth_error values i) as [v|] eqn:Ev.
  - cbn [option_map]. f_equal. unfold get_thread. destruct (Z.leb_spec 0 o); [|reflexivity].
    eapply read_thread; try eassumption. rewrite Forall_forall in Hr. apply Hr. now apply nth_error_In in Ev.
  - apply nth_error_None in Ev. assert (nth_error offsets i <> None) by congruence. apply nth_error_Some in H. lia.
Qed.

(** * Elements *)
Lemma dtype_eqb_spec a b : dtype_eqb a b = true <-> a = b.
Proof. destruct a, b; cbn; split; congruence. Qed.

Lemma extract_located ob name index t skip o : extract_offset ob name index t skip = Some o ->
  located ob name index t o \/ (o = -1 /\ skip = true /\ forall a, ~ located ob name index t a).
Proof.
  unfold extract_offset, located. destruct (ob_field ob name) as [[t' p|t' p n]|]; [| |discriminate].
  - destruct index as [i|].
    + destruct skip; [|discriminate]. intros H. right. split; [congruence|]. split; [reflexivity|].
      intros a (q & n & E & _). congruence.
    + destruct (dtype_eqb t' t) eqn:E.
      * apply dtype_eqb_spec in E. subst t'. intros H. left. exists p. split; [reflexivity|congruence].
      * destruct skip; [|discriminate]. intros H. right. split; [congruence|]. split; [reflexivity|].
        intros a (q & Eq & _). assert (t' = t) by congruence. apply dtype_eqb_spec in H0. congruence.
  - destruct index as [i|].
    + destruct (dtype_eqb t' t) eqn:E.
      * apply dtype_eqb_spec in E. subst t'. destruct ((0 <=? i) && (i <? n)) eqn:B; [|discriminate].
        apply andb_true_iff in B. destruct B as (B1 & B2). apply Z.leb_le in B1. apply Z.ltb_lt in B2.
        intros H. left. exists p, n. split; [reflexivity|]. split; [lia|congruence].
      * destruct skip; [|discriminate]. intros H. right. split; [congruence|]. split; [reflexivity|].
        intros a (q & m & Eq & _). assert (t' = t) by congruence. apply dtype_eqb_spec in H0. congruence.
    + destruct skip; [|discriminate]. intros H. right. split; [congruence|]. split; [reflexivity|].
      intros a (q & E & _). congruence.
Qed.
Lemma width_pos t : 0 < w_of t. Proof. destruct t; reflexivity. Qed.
(** The attribute lies inside its element. *)
Lemma located_in ob name index t a : laid_out ob -> located ob name index t a ->
  exists f, ob_field ob name = Some f /\
    ob_base ob + fst (extent f) <= a /\ a + w_of t <= ob_base ob + snd (extent f) /\
    0 <= a /\ ob_base ob <= a /\ a + w_of t <= ob_base ob + ob_size ob.
Proof.
  intros (B & In & _) L. unfold located in L. unfold w_of. destruct index as [i|].
  - destruct L as (p & n & E & Hi & ->). specialize (In _ _ E). exists (Array t p n). split; [exact E|]. cbn [extent fst snd] in *. nia.
  - destruct L as (p & E & ->). specialize (In _ _ E). exists (Scalar t p). split; [exact E|]. cbn [extent fst snd] in *. lia.
Qed.

Lemma offsets_nth obs name index t skip : forall offsets, offsets_of obs name index t skip = Some offsets ->
  List.length offsets = List.length obs /\
  forall i ob, nth_error obs i = Some ob -> exists o, nth_error offsets i = Some o /\ extract_offset ob name index t skip = Some o.
Proof.
  induction obs as [|ob obs IH]; intros offsets H; cbn in H.
  - assert (offsets = []) by congruence. subst. split; [reflexivity|]. intros [|i] ob E; discriminate.
  - destruct (extract_offset ob name index t skip) as [o|] eqn:Eo; [|discriminate].
    destruct (offsets_of obs name index t skip) as [l|]; [|discriminate].
    assert (offsets = o :: l) by congruence. subst. destruct (IH l eq_refl) as (L & N). split; [cbn; now rewrite L|].
    intros [|i] ob' E; cbn in E |- *.
    + assert (ob' = ob) by congruence. subst. eauto.
    + exact (N i ob' E).
Qed.
Lemma offsets_in obs name index t skip : forall offsets o, offsets_of obs name index t skip = Some offsets -> In o offsets ->
  exists ob, In ob obs /\ extract_offset ob name index t skip = Some o.
Proof.
  intros offsets o H Ho. destruct (offsets_nth _ _ _ _ _ _ H) as (L & N).
  apply In_nth_error in Ho. destruct Ho as (i & Ei).
  destruct (nth_error obs i) as [ob|] eqn:E.
  - destruct (N i ob E) as (o' & E1 & E2). exists ob. split; [now apply nth_error_In in E|congruence].
  - apply nth_error_None in E. assert (nth_error offsets i <> None) by congruence. apply nth_error_Some in H0. lia.
Qed.

Lemma offsets_separate obs name index t skip offsets :
  all_apart obs -> Forall laid_out obs -> offsets_of obs name index t skip = Some offsets -> separate t offsets.
Proof.
  intros A. revert offsets. induction A as [|ob l Hob _ IH]; intros offsets F H; cbn in H.
  - assert (offsets = []) by congruence. subst. constructor.
  - destruct (extract_offset ob name index t skip) as [o|] eqn:Eo; [|discriminate].
    destruct (offsets_of l name index t skip) as [os|] eqn:El; [|discriminate].
    assert (offsets = o :: os) by congruence. subst. clear H. inversion F as [|? ? F1 F2]; subst.
    constructor; [|now apply IH].
    intros o' Ho' P P'. destruct (offsets_in _ _ _ _ _ _ _ El Ho') as (ob' & Hin & E').
    rewrite Forall_forall in F2.
    destruct (extract_located _ _ _ _ _ _ Eo) as [L|(-> & _)]; [|lia].
    destruct (extract_located _ _ _ _ _ _ E') as [L'|(-> & _)]; [|lia].
    destruct (located_in _ _ _ _ _ F1 L) as (f & _ & _ & _ & _ & B1 & B2).
    destruct (located_in _ _ _ _ _ (F2 _ Hin) L') as (f' & _ & _ & _ & _ & B3 & B4).
    destruct (Hob ob' Hin); lia.
Qed.

(** * What the user sees *)
Section User.
Variables (obs : list object) (name : string) (index : option Z) (t : dtype) (skip : bool) (offsets values : list Z).
Hypothesis Hap : all_apart obs.
Hypothesis Hlay : Forall laid_out obs.
Hypothesis Hoff : offsets_of obs name index t skip = Some offsets.
Hypothesis Hlen : List.length values = List.length obs.
Hypothesis Hran : Forall (in_range t) values.
Variables (ws : list (Z * Z)) (m : memory).
Hypothesis Hws : Permutation ws (all_writes t offsets values).

Lemma lengths : List.length offsets = List.length values.
Proof. rewrite Hlen. exact (proj1 (offsets_nth _ _ _ _ _ _ Hoff)). Qed.

Lemma set_get : get_values t offsets (perform ws m) = expected offsets values.
Proof. apply read_back; [now apply (offsets_separate obs name index t skip)|exact lengths|exact Hran|exact Hws]. Qed.

Lemma set_attribute i ob v : nth_error obs i = Some ob -> nth_error values i = Some v ->
  (exists a, located ob name index t a) -> attribute t (perform ws m) ob name index v.
Proof.
  intros Eo Ev (a0 & L0). destruct (offsets_nth _ _ _ _ _ _ Hoff) as (_ & N). destruct (N i ob Eo) as (o & E1 & E2).
  destruct (extract_located _ _ _ _ _ _ E2) as [L|(_ & _ & Hn)]; [|destruct (Hn a0 L0)].
  exists o. split; [exact L|].
  assert (LO : laid_out ob) by (rewrite Forall_forall in Hlay; apply Hlay; now apply nth_error_In in Eo).
  destruct (located_in _ _ _ _ _ LO L) as (f & _ & _ & _ & P & _).
  eapply read_thread; try eassumption.
  - now apply (offsets_separate obs name index t skip).
  - rewrite Forall_forall in Hran. apply Hran. now apply nth_error_In in Ev.
Qed.

Lemma set_frame ob' name' index' t' a :
  laid_out ob' -> located ob' name' index' t' a ->
  (forall ob, In ob obs -> apart ob' ob \/ (ob' = ob /\ (name', index') <> (name, index))) ->
  load t' (perform ws m) a = load t' m a.
Proof.
  intros LO L Hd. unfold load. f_equal. apply load_untouched. intros x Hx. apply perform_out. intros Hin.
  assert (Hin' : In x (map fst (all_writes t offsets values))) by (eapply Permutation_in; [apply Permutation_map; exact Hws|exact Hin]).
  destruct (all_addresses _ _ _ _ Hin') as (o & Ho & Po & Bo).
  destruct (offsets_in _ _ _ _ _ _ _ Hoff Ho) as (ob & Hob & Eo).
  destruct (extract_located _ _ _ _ _ _ Eo) as [Lo|(-> & _)]; [|lia].
  assert (LOb : laid_out ob) by (rewrite Forall_forall in Hlay; now apply Hlay).
  destruct (located_in _ _ _ _ _ LO L) as (f' & F1 & F2 & F3 & F4 & F5 & F6).
  destruct (located_in _ _ _ _ _ LOb Lo) as (f & G1 & G2 & G3 & G4 & G5 & G6).
  change (Z.of_nat (width t')) with (w_of t') in Hx.
  destruct (Hd ob Hob) as [[A|A]|(-> & Hne)]; [lia|lia|].
  destruct (string_dec name' name) as [->|Hn].
  - assert (Hi : index' <> index) by congruence.
    destruct index as [i|], index' as [i'|]; cbn in L, Lo.
    + destruct L as (p' & n' & E' & Hi' & ->), Lo as (p & n & E & Hi0 & ->).
      assert (t' = t /\ p' = p) as (-> & ->) by (split; congruence). unfold w_of in *.
      assert (i <> i') by congruence. pose proof (width_pos t). unfold w_of in *. nia.
    + destruct L as (p' & E' & _), Lo as (p & n & E & _). congruence.
    + destruct L as (p' & n' & E' & _), Lo as (p & E & _). congruence.
    + congruence.
  - destruct LOb as (_ & _ & Sep). specialize (Sep name' name f' f F1 G1 Hn). lia.
Qed.
End User.

(** All types agree: the values are those given. *)
Lemma expected_all offsets : forall values, List.length offsets = List.length values ->
  (forall o, In o offsets -> 0 <= o) -> expected offsets values = values.
Proof.
  induction offsets as [|o offsets IH]; intros [|v values] L H; try discriminate; [reflexivity|]. cbn.
  assert (0 <= o) by (apply H; now left). destruct (Z.leb_spec 0 o); [|lia]. f_equal. apply IH; [cbn in L; congruence|].
  intros o' Ho'. apply H. now right.
Qed.
Lemma set_get_all obs name index t offsets values ws m :
  all_apart obs -> Forall laid_out obs -> offsets_of obs name index t false = Some offsets ->
  List.length values = List.length obs -> Forall (in_range t) values ->
  Permutation ws (all_writes t offsets values) ->
  get_values t offsets (perform ws m) = values.
Proof.
  intros A F O L R P. rewrite (set_get obs name index t false offsets values A F O L R ws m P).
  apply expected_all.
  - exact (lengths obs name index t false offsets values O L).
  - intros o Ho. destruct (offsets_in _ _ _ _ _ _ _ O Ho) as (ob & Hob & E).
    destruct (extract_located _ _ _ _ _ _ E) as [Lo|(_ & X & _)]; [|discriminate].
    rewrite Forall_forall in F. destruct (located_in _ _ _ _ _ (F _ Hob) Lo) as (f & _ & _ & _ & P' & _). exact P'.
Qed.

(** * Setting what was read changes nothing *)
Definition is_byte (b : Z) : Prop := 0 <= b < 256.
Lemma bytes_of_mod w : forall v, bytes_of w (v mod 256 ^ Z.of_nat w) = bytes_of w v.
Proof.
  induction w as [|w IH]; intros v; [reflexivity|]. cbn [bytes_of].
  rewrite Nat2Z.inj_succ, Z.pow_succ_r by lia. rewrite Z.rem_mul_r by lia.
  rewrite (Z.mul_comm 256). rewrite Z.mod_add, Z.div_add by lia. rewrite Z.mod_mod by lia. f_equal.
  rewrite (Z.div_small (v mod 256) 256) by (apply Z.mod_pos_bound; lia). rewrite Z.add_0_l. apply IH.
Qed.
Lemma bytes_of_bytes l : Forall is_byte l -> bytes_of (List.length l) (of_bytes l) = l.
Proof.
  induction 1 as [|b l Hb _ IH]; [reflexivity|]. cbn [List.length bytes_of of_bytes]. unfold is_byte in Hb.
  rewrite (Z.mul_comm 256), Z.mod_add by lia. rewrite Z.div_add by lia.
  rewrite Z.mod_small, Z.div_small by lia. now rewrite Z.add_0_l, IH.
Qed.
Lemma load_bytes_length w : forall m a, List.length (load_bytes w m a) = w.
Proof. induction w as [|w IH]; intros m a; cbn; [reflexivity|now rewrite IH]. Qed.
Lemma bytes_of_load t m a : (forall x, is_byte (m x)) ->
  bytes_of (width t) (load t m a) = load_bytes (width t) m a.
Proof.
  intros Hm. unfold load, decode. set (l := load_bytes (width t) m a).
  assert (B : Forall is_byte l).
  { unfold l. generalize (width t) a. intros w. induction w as [|w IH]; intros b; cbn; constructor; [apply Hm|apply IH]. }
  assert (L : List.length l = width t) by apply load_bytes_length.
  assert (E : bytes_of (width t) (of_bytes l) = l) by (rewrite <- L; now apply bytes_of_bytes).
  assert (P : 2 ^ (8 * Z.of_nat (width t)) = 256 ^ Z.of_nat (width t)) by (rewrite Z.pow_mul_r by lia; reflexivity).
  destruct (signed t && _); [|exact E]. rewrite P, <- bytes_of_mod.
  replace (of_bytes l - 256 ^ Z.of_nat (width t)) with (of_bytes l + (-1) * 256 ^ Z.of_nat (width t)) by lia.
  rewrite Z_mod_plus_full. now rewrite bytes_of_mod.
Qed.
Lemma writes_load w m : forall a b, In b (writes_at a (load_bytes w m a)) -> snd b = m (fst b).
Proof. induction w as [|w IH]; intros a b H; cbn in H; [destruct H|]. destruct H as [<-|H]; [reflexivity|exact (IH _ _ H)]. Qed.
Lemma perform_same ws : forall m m', (forall x, m' x = m x) -> (forall b, In b ws -> snd b = m (fst b)) -> forall x, perform ws m' x = m x.
Proof.
  unfold perform. induction ws as [|w ws IH]; intros m m' E H x; [apply E|]. cbn [fold_left]. apply IH.
  - intros y. unfold write. destruct (Z.eqb_spec y (fst w)) as [->|]; [apply H; now left|apply E].
  - intros b Hb. apply H. now right.
Qed.
Lemma set_what_was_read t offsets m ws : (forall x, is_byte (m x)) ->
  Permutation ws (all_writes t offsets (get_values t offsets m)) -> forall x, perform ws m x = m x.
Proof.
  intros Hm P. apply perform_same; [reflexivity|]. intros b Hb. apply (Permutation_in _ P) in Hb. clear P.
  unfold get_values in Hb. induction offsets as [|o offsets IH]; [destruct Hb|]. cbn [map all_writes] in Hb.
  apply in_app_iff in Hb. destruct Hb as [Hb|Hb]; [|now apply IH]. unfold set_thread, get_thread, store_writes in Hb.
  destruct (0 <=? o); [|destruct Hb]. rewrite bytes_of_load in Hb by exact Hm. exact (writes_load _ _ _ _ Hb).
Qed.

(** * An element given twice *)
Lemma given_twice t o v1 v2 m : v1 <> v2 -> get_values t [o; o] m <> [v1; v2].
Proof. unfold get_values. cbn. intros H E. congruence. Qed.

(** The attributes of another type, with skip_inconsistent_type_check *)
Lemma skipped obs name index t offsets values ws m i ob v :
  all_apart obs -> Forall laid_out obs -> offsets_of obs name index t true = Some offsets ->
  List.length values = List.length obs -> Forall (in_range t) values ->
  Permutation ws (all_writes t offsets values) ->
  nth_error obs i = Some ob -> nth_error values i = Some v ->
  ((exists a, located ob name index t a) -> nth_error (get_values t offsets (perform ws m)) i = Some v) /\
  ((forall a, ~ located ob name index t a) ->
   nth_error (get_values t offsets (perform ws m)) i = Some 0 /\
   forall name' index' t' a, located ob name' index' t' a -> load t' (perform ws m) a = load t' m a).
Proof.
  intros A F O L R P Eo Ev. rewrite (set_get obs name index t true offsets values A F O L R ws m P).
  rewrite nth_error_expected by exact (lengths obs name index t true offsets values O L).
  destruct (offsets_nth _ _ _ _ _ _ O) as (_ & N). destruct (N i ob Eo) as (o & E1 & E2). rewrite E1, Ev.
  assert (LO : laid_out ob) by (rewrite Forall_forall in F; apply F; now apply nth_error_In in Eo).
  destruct (extract_located _ _ _ _ _ _ E2) as [Lo|(-> & _ & Hn)].
  - destruct (located_in _ _ _ _ _ LO Lo) as (f & _ & _ & _ & P' & _). split.
    + intros _. destruct (Z.leb_spec 0 o); [reflexivity|lia].
    + intros H. destruct (H o Lo).
  - split; [intros (a & La); destruct (Hn a La)|]. intros _. split; [reflexivity|].
    intros name' index' t' a La. unfold load. f_equal. apply load_untouched. intros x Hx. apply perform_out. intros Hin.
    assert (Hin' : In x (map fst (all_writes t offsets values))) by (eapply Permutation_in; [apply Permutation_map; exact P|exact Hin]).
    destruct (all_addresses _ _ _ _ Hin') as (o' & Ho' & Po' & Bo').
    apply In_nth_error in Ho'. destruct Ho' as (j & Ej).
    destruct (nth_error obs j) as [ob'|] eqn:Ejo.
    2:{ apply nth_error_None in Ejo. assert (X : nth_error offsets j <> None) by congruence. apply nth_error_Some in X.
        pose proof (proj1 (offsets_nth _ _ _ _ _ _ O)). lia. }
    destruct (N j ob' Ejo) as (o2 & E3 & E4). assert (o2 = o') by congruence. subst o2.
    destruct (extract_located _ _ _ _ _ _ E4) as [L4|(-> & _)]; [|lia].
    assert (LO' : laid_out ob') by (rewrite Forall_forall in F; apply F; now apply nth_error_In in Ejo).
    destruct (located_in _ _ _ _ _ LO La) as (f' & F1 & F2 & F3 & F4 & F5 & F6).
    destruct (located_in _ _ _ _ _ LO' L4) as (f & G1 & G2 & G3 & G4 & G5 & G6).
    change (Z.of_nat (width t')) with (w_of t') in Hx.
    assert (D : i <> j) by (intros ->; assert (o' = -1) by congruence; lia).
    assert (Ap : apart ob ob').
    { clear - A Eo Ejo D. revert i j Eo Ejo D. induction A as [|o1 l H _ IH]; intros [|i] [|j] Eo Ejo D; cbn in Eo, Ejo; try discriminate.
      - congruence.
      - assert (o1 = ob) by congruence. subst. apply H. now apply nth_error_In in Ejo.
      - assert (o1 = ob') by congruence. subst. apply nth_error_In in Eo. destruct (H _ Eo); [right|left]; assumption.
      - apply (IH i j); congruence. }
    destruct Ap; lia.
Qed.
