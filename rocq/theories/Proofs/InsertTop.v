From Coq Require Import ZArith QArith Qabs List Bool String Arith Lia Lqa Permutation.
From Verif.Model Require Import Composer.
From Verif.Spec Require Import Composer.
From Verif.Model Require Import Line Slicing Insert.
From Verif.Spec Require Import Line Slicing LineEdit Insert.
From Verif.Proofs Require Import LineBase Slices Cuts Insert.
From Verif.Proofs Require OrderingTop Gaps Composer.
Import ListNotations.
Local Open Scope Q_scope.

(** * The insertions *)
Lemma rows_nth' len thick places s f i : (i < List.length places)%nat ->
  exists r, nth_error (Verif.Model.Composer.rows len thick places s f) i = Some r.
Proof.
  intro L. destruct (nth_error (Verif.Model.Composer.rows len thick places s f) i) eqn:E; [eauto|].
  apply nth_error_None in E. unfold Verif.Model.Composer.rows in E. rewrite map_length, seq_length in E. lia.
Qed.
Lemma nth_skipn {A} : forall n (l : list A) i, nth_error (skipn n l) i = nth_error l (n + i).
Proof. induction n as [|n IH]; intros [|x l] i; cbn; try reflexivity; [destruct i; reflexivity|apply IH]. Qed.
Lemma line_places_length names tab : List.length names = List.length tab -> List.length (line_places names tab) = List.length names.
Proof. intro E. unfold line_places. rewrite map_length, combine_length. lia. Qed.

Lemma ins_spec v stol names tab what places ins s f : List.length names = List.length tab ->
  Verif.Model.Composer.resolve (len_of v) ACenter (line_places names tab ++ what) = Some (s, f) ->
  insertions v stol names tab what = Some (places, ins) ->
  places = line_places names tab ++ what /\
  NoDup (map rp_index ins) /\ List.length (skipn (List.length names) s) = List.length what /\
  (forall r, In r ins -> exists j p u, nth_error what j = Some p /\ nth_error (skipn (List.length names) s) j = Some u /\
     rp_index r = (List.length names + j)%nat /\ rp_start r = u /\ rp_length r = len_of v (pl_name p) /\
     pl_name (nth (rp_index r) places (plain EmptyString)) = pl_name p) /\
  (forall j p u, nth_error what j = Some p -> nth_error (skipn (List.length names) s) j = Some u ->
     exists r, In r ins /\ rp_index r = (List.length names + j)%nat /\ rp_start r = u /\ rp_length r = len_of v (pl_name p) /\
       pl_name (nth (rp_index r) places (plain EmptyString)) = pl_name p) /\
  (forall p, In p what -> exists l, s_length v (pl_name p) = Some l).
Proof.
  intros Ln R H. unfold insertions in H. destruct (existsb _ what) eqn:Ex; [discriminate|]. rewrite R in H.
  destruct (sort_places stol false _) as [sorted|] eqn:So; [|discriminate]. assert (Ep : places = line_places names tab ++ what) by congruence.
  assert (Ei : ins = filter (fun p => (List.length names <=? rp_index p)%nat) sorted) by congruence. clear H. subst places. split; [reflexivity|].
  set (places := line_places names tab ++ what) in *. set (rws := Verif.Model.Composer.rows (len_of v) (thick_of v) places s f) in *.
  pose proof (OrderingTop.sort_permutation _ _ _ _ So) as P. destruct (Verif.Proofs.Composer.resolve_solves _ _ _ _ _ R) as ((Ls & _) & _).
  assert (Lp : List.length (line_places names tab) = List.length names) by (apply line_places_length, Ln).
  assert (Lpl : List.length places = (List.length names + List.length what)%nat) by (unfold places; rewrite app_length, Lp; reflexivity).
  assert (NDs : NoDup (map rp_index sorted)).
  { eapply Permutation_NoDup; [apply Permutation_map, P|]. apply NoDup_nth_error. intros i j Hi E. rewrite map_length in Hi. rewrite !nth_error_map in E.
    destruct (nth_error rws i) as [p|] eqn:E1; [|apply nth_error_None in E1; lia]. destruct (nth_error rws j) as [q|] eqn:E2; [|discriminate]. cbn in E.
    apply Gaps.rows_nth in E1, E2. destruct E1 as (E1 & _), E2 as (E2 & _). congruence. }
  split; [|split; [|split; [|split]]].
  - subst ins. clear - NDs. induction sorted as [|r l IH]; cbn; [constructor|]. cbn in NDs. inversion NDs as [|x xs Hn ND]; subst.
    destruct (_ <=? _)%nat; cbn; [constructor; [|auto]|auto]. intro X. apply Hn. apply in_map_iff in X. destruct X as (y & Ey & Hy). apply filter_In in Hy. apply in_map_iff. exists y. tauto.
  - rewrite skipn_length, Ls. fold places. lia.
  - intros r Hr. subst ins. apply filter_In in Hr. destruct Hr as (Hr & Le). apply Nat.leb_le in Le. apply (Permutation_in _ (Permutation_sym P)) in Hr.
    apply In_nth_error in Hr. destruct Hr as (i & Hi). destruct (Gaps.rows_nth _ _ _ _ _ _ _ Hi) as (E1 & E2 & E3 & E4). rewrite E1 in Le.
    set (j := (i - List.length names)%nat). assert (Ej : i = (List.length names + j)%nat) by lia.
    assert (Hp : exists p, nth_error what j = Some p). { destruct (nth_error what j) eqn:X; [eauto|]. apply nth_error_None in X. fold places in E2. lia. }
    assert (Hu : exists u, nth_error (skipn (List.length names) s) j = Some u).
    { destruct (nth_error (skipn (List.length names) s) j) eqn:X; [eauto|]. apply nth_error_None in X. rewrite skipn_length in X. fold places in E2, Ls. lia. }
    destruct Hp as (p & Hp), Hu as (u & Hu). exists j, p, u. split; [exact Hp|]. split; [exact Hu|].
    assert (Np : nth i places (plain EmptyString) = p).
    { apply nth_error_nth. unfold places. rewrite nth_error_app2 by lia. rewrite Lp. replace (i - List.length names)%nat with j by lia. exact Hp. }
    rewrite E1. split; [exact Ej|]. split; [|split; [|rewrite Np; reflexivity]].
    + rewrite E3. apply nth_error_nth. rewrite nth_skipn in Hu. rewrite Ej. exact Hu.
    + rewrite E4. fold places. rewrite Np. reflexivity.
  - intros j p u Hp Hu. assert (Lj : (j < List.length what)%nat) by (apply nth_error_Some; congruence).
    destruct (rows_nth' (len_of v) (thick_of v) places s f (List.length names + j)) as (r & Hr); [lia|]. fold rws in Hr.
    destruct (Gaps.rows_nth _ _ _ _ _ _ _ Hr) as (E1 & E2 & E3 & E4). exists r.
    assert (Np : nth (List.length names + j) places (plain EmptyString) = p).
    { apply nth_error_nth. unfold places. rewrite nth_error_app2 by lia. rewrite Lp. replace (List.length names + j - List.length names)%nat with j by lia. exact Hp. }
    split; [|split; [exact E1|split; [|split]]].
    + subst ins. apply filter_In. split; [eapply Permutation_in; [exact P|eapply nth_error_In, Hr]|]. apply Nat.leb_le. lia.
    + rewrite E3. apply nth_error_nth. rewrite nth_skipn in Hu. exact Hu.
    + rewrite E4, Np. reflexivity.
    + rewrite E1, Np. reflexivity.
  - intros p Hp. destruct (s_length v (pl_name p)) as [l|] eqn:Rp; [eauto|].
    exfalso. apply not_true_iff_false in Ex. apply Ex, existsb_exists. exists p. rewrite Rp. auto.
Qed.

(** * Boundaries of the cut line *)
Lemma scan_mono l : (forall x, In x l -> 0 <= x) -> forall s i j a b, (i <= j)%nat -> nth_error (scan s l) i = Some a -> nth_error (scan s l) j = Some b -> a <= b.
Proof.
  induction l as [|x l IH]; intros P s i j a b Le Ha Hb; cbn [scan] in *.
  - destruct i as [|[|i]], j as [|[|j]]; cbn in *; try discriminate; try lia. injection Ha as <-. injection Hb as <-. lra.
  - assert (P' : forall y, In y l -> 0 <= y) by (intros y Hy; apply P; right; exact Hy). destruct i as [|i], j as [|j]; cbn [nth_error] in *; try lia.
    + injection Ha as <-. injection Hb as <-. lra.
    + injection Ha as <-. assert (F : exists r, scan (s + x) l = (s + x) :: r) by (destruct l; cbn; eauto). destruct F as (r & F).
      assert (s + x <= b). { apply (IH P' (s + x) 0%nat j); [lia|rewrite F; reflexivity|exact Hb]. } pose proof (P x (or_introl eq_refl)). lra.
    + eapply (IH P' (s + x) i j); [lia|exact Ha|exact Hb].
Qed.
Lemma scan_first s l : nth_error (scan s l) 0 = Some s. Proof. destruct l; reflexivity. Qed.
Lemma scan_last l : forall s, exists z, nth_error (scan s l) (List.length l) = Some z /\ z == s + qsum l.
Proof.
  induction l as [|x l IH]; intro s; cbn; [exists s; split; [reflexivity|ring]|]. destruct (IH (s + x)) as (z & Hz & Ez). exists z. split; [exact Hz|]. lra.
Qed.
Lemma scan_cover l : forall s x, s <= x -> x < s + qsum l -> exists i a b, nth_error (scan s l) i = Some a /\ nth_error (scan s l) (S i) = Some b /\ (i < List.length l)%nat /\ a <= x /\ x < b.
Proof.
  induction l as [|y l IH]; intros s x H1 H2; cbn [qsum scan] in *; [lra|]. destruct (Qlt_le_dec x (s + y)) as [H|H].
  - exists 0%nat, s, (s + y). split; [reflexivity|]. split; [apply (scan_first (s + y) l)|]. cbn [List.length]. repeat split; auto; lia.
  - destruct (IH (s + y) x H) as (i & a & b & A & B & C & D & E); [lra|]. exists (S i), a, b. cbn [nth_error List.length]. repeat split; auto; lia.
Qed.

(** * Sources of the new table *)
Lemma filter_number {A} (g : A -> bool) (l : list A) : forall k,
  filter g l = map snd (filter (fun p => g (snd p)) (combine (seq k (List.length l)) l)).
Proof. induction l as [|x l IH]; intro k; cbn; [reflexivity|]. destruct (g x); cbn; rewrite (IH (S k)); reflexivity. Qed.
Lemma sorted_seq {A} (g : nat * A -> bool) : forall (l : list A) k c c' x y, (c < c')%nat ->
  nth_error (filter g (combine (seq k (List.length l)) l)) c = Some x -> nth_error (filter g (combine (seq k (List.length l)) l)) c' = Some y -> (fst x < fst y)%nat.
Proof.
  assert (Lo : forall (l : list A) k c x, nth_error (filter g (combine (seq k (List.length l)) l)) c = Some x -> (k <= fst x)%nat).
  { intros l k c x H. apply nth_error_In in H. apply filter_In in H. destruct H as (H & _). destruct x as [i a]. apply in_combine_l in H. apply in_seq in H. cbn. lia. }
  induction l as [|z l IH]; intros k c c' x y L Hx Hy; cbn in *; [destruct c; discriminate|]. destruct (g (k, z)).
  - destruct c' as [|c']; [lia|]. destruct c as [|c]; cbn in *.
    + injection Hx as <-. apply Lo in Hy. cbn. lia.
    + eapply (IH (S k) c c'); eauto. lia.
  - eapply (IH (S k) c c'); eauto.
Qed.

Lemma nodup_app2 {A} (l m : list A) : NoDup l -> NoDup m -> (forall x, In x l -> ~ In x m) -> NoDup (l ++ m).
Proof.
  intros Nl Nm D. induction l as [|x l IH]; [exact Nm|]. inversion Nl as [|y ys Hn Hl]; subst. cbn. constructor.
  - rewrite in_app_iff. intros [H|H]; [contradiction|]. apply (D x (or_introl eq_refl) H).
  - apply IH; [exact Hl|]. intros y Hy. apply D. right. exact Hy.
Qed.

Lemma nth_error_ext_len {A} : forall l l' : list A, List.length l = List.length l' -> (forall c, (c < List.length l)%nat -> nth_error l c = nth_error l' c) -> l = l'.
Proof.
  induction l as [|x l IH]; intros [|y l'] L H; cbn in L; try discriminate; [reflexivity|]. pose proof (H 0%nat ltac:(cbn; lia)) as H0. cbn in H0. injection H0 as ->. f_equal. apply IH; [lia|].
  intros c Hc. apply (H (S c)). cbn. lia.
Qed.

Section Sources.
Variables (tol : Q) (ref : nat -> nat) (nl : nat) (places : list place) (ins : list rplace) (names1 : list string) (tab1 : list crow)
  (keep : crow -> bool) (req : list (string * (Q * Q))) (len : string -> Q).
Hypothesis NDi : NoDup (map rp_index ins).
Hypothesis Ins1 : forall r, In r ins -> exists j n, nth_error req j = Some (n, (rp_start r, rp_end r)) /\ rp_index r = (nl + j)%nat /\ rp_length r = len n /\
   pl_name (nth (rp_index r) places (plain EmptyString)) = n.
Hypothesis Ins2 : forall j x, nth_error req j = Some x -> exists r, In r ins /\ rp_index r = (nl + j)%nat.

Definition kept := filter (fun p => keep (snd p)) (combine names1 tab1).
Definition kidx := map fst (filter (fun p => keep (snd (snd p))) (number (combine names1 tab1))).
Definition table := map (renumber ref) (number ins) ++ map (kept_row (List.length ins)) (number (map snd kept)).
Definition tnames := map (fun p => pl_name (nth (rp_index p) places (plain EmptyString))) ins ++ map fst kept.
Definition srcs : list (nat + nat) := map (fun r => inl (rp_index r - nl)%nat) ins ++ map inr kidx.

Lemma kept_eq : kept = map snd (filter (fun p => keep (snd (snd p))) (number (combine names1 tab1))).
Proof. unfold kept, number. apply (filter_number (fun p => keep (snd p))). Qed.
Lemma kidx_length : List.length kidx = List.length kept.
Proof. rewrite kept_eq. unfold kidx. rewrite !map_length. reflexivity. Qed.
Lemma table_length : List.length table = (List.length ins + List.length kept)%nat.
Proof. unfold table. rewrite app_length, !map_length. unfold number. rewrite !combine_length, !seq_length, map_length. lia. Qed.
Lemma srcs_length : List.length srcs = List.length table.
Proof. rewrite table_length. unfold srcs. rewrite app_length, !map_length, kidx_length. reflexivity. Qed.

Lemma kidx_nth c i : nth_error kidx c = Some i -> exists n cr, nth_error kept c = Some (n, cr) /\ nth_error names1 i = Some n /\ nth_error tab1 i = Some cr /\ keep cr = true.
Proof.
  unfold kidx. rewrite kept_eq, !nth_error_map. destruct (nth_error (filter _ _) c) as [[i' [n cr]]|] eqn:E; [|discriminate]. cbn. intros [= ->]. exists n, cr. split; [reflexivity|].
  apply nth_error_In in E. apply filter_In in E. destruct E as (E & K). cbn in K. apply In_nth_error in E. destruct E as (k & E). apply number_nth in E. cbn in E. destruct E as (<- & E).
  apply combine_nth_error in E. cbn in E. tauto.
Qed.
Lemma kidx_in i n cr : nth_error names1 i = Some n -> nth_error tab1 i = Some cr -> keep cr = true -> In i kidx.
Proof.
  intros Hn Hc K. unfold kidx. apply in_map_iff. exists (i, (n, cr)). split; [reflexivity|]. apply filter_In. split; [|exact K].
  apply nth_error_In with (n := i). apply number_nth. split; [reflexivity|]. apply combine_nth_error. auto.
Qed.
Lemma kidx_mono c c' i i' : (c < c')%nat -> nth_error kidx c = Some i -> nth_error kidx c' = Some i' -> (i < i')%nat.
Proof.
  unfold kidx. rewrite !nth_error_map. intros L. destruct (nth_error _ c) as [x|] eqn:E1; [|discriminate]. destruct (nth_error _ c') as [y|] eqn:E2; [|discriminate].
  intros [= <-] [= <-]. eapply sorted_seq; [exact L|exact E1|exact E2].
Qed.

Lemma table_ins c r : (c < List.length ins)%nat -> nth_error table c = Some r ->
  exists j n, nth_error srcs c = Some (inl j) /\ nth_error req j = Some (n, (rp_start r, rp_end r)) /\ nth_error tnames c = Some n /\ rp_index r = c /\ rp_length r = len n.
Proof.
  intros L H. unfold table in H. rewrite nth_error_app1 in H by (rewrite map_length; unfold number; rewrite combine_length, seq_length; lia).
  rewrite nth_error_map in H. destruct (nth_error (number ins) c) as [[i r0]|] eqn:E; [|discriminate]. apply number_nth in E. cbn in E. destruct E as (-> & E).
  assert (Er : r = renumber ref (c, r0)) by (cbn [option_map] in H; congruence). subst r. clear H.
  destruct (Ins1 r0 (nth_error_In _ _ E)) as (j & n & A & B & C & D). exists j, n. split; [|split; [exact A|split; [|split; [reflexivity|exact C]]]].
  - unfold srcs. rewrite nth_error_app1 by (rewrite map_length; exact L). rewrite nth_error_map, E. cbn [option_map]. rewrite B. do 2 f_equal. lia.
  - unfold tnames. rewrite nth_error_app1 by (rewrite map_length; exact L). rewrite nth_error_map, E. cbn [option_map]. rewrite D. reflexivity.
Qed.
Lemma table_kept c r : nth_error table (List.length ins + c) = Some r ->
  exists i n cr, nth_error srcs (List.length ins + c) = Some (inr i) /\ nth_error kidx c = Some i /\ nth_error names1 i = Some n /\ nth_error tab1 i = Some cr /\ keep cr = true /\
    rp_start r = cr_start cr /\ rp_length r = cr_len cr /\ rp_from r = None /\ nth_error tnames (List.length ins + c) = Some n /\ rp_index r = (List.length ins + c)%nat.
Proof.
  intro H. unfold table in H.
  assert (Lm : List.length (map (renumber ref) (number ins)) = List.length ins) by (rewrite map_length; unfold number; rewrite combine_length, seq_length; lia).
  rewrite nth_error_app2 in H by lia. rewrite Lm in H. replace (List.length ins + c - List.length ins)%nat with c in H by lia. rewrite nth_error_map in H.
  destruct (nth_error (number (map snd kept)) c) as [[i0 cr0]|] eqn:E; [|discriminate]. apply number_nth in E. cbn [fst snd] in E. destruct E as (-> & E).
  assert (Er : r = kept_row (List.length ins) (c, cr0)) by (cbn [option_map] in H; congruence). subst r. clear H.
  assert (Hi : exists i, nth_error kidx c = Some i). { destruct (nth_error kidx c) eqn:X; [eauto|]. apply nth_error_None in X. rewrite kidx_length in X. assert (c < List.length (map snd kept))%nat by (apply nth_error_Some; congruence). rewrite map_length in H. lia. }
  destruct Hi as (i & Hi). destruct (kidx_nth c i Hi) as (n & cr & K & N & T & Kp). rewrite nth_error_map, K in E. cbn in E. injection E as <-.
  exists i, n, cr. split; [|repeat split; auto].
  - unfold srcs. rewrite nth_error_app2 by (rewrite map_length; lia). rewrite map_length. replace (List.length ins + c - List.length ins)%nat with c by lia. rewrite nth_error_map, Hi. reflexivity.
  - unfold tnames. rewrite nth_error_app2 by (rewrite map_length; lia). rewrite map_length. replace (List.length ins + c - List.length ins)%nat with c by lia. rewrite nth_error_map, K. reflexivity.
Qed.
Lemma table_num : numbered table.
Proof.
  intros c r H. destruct (lt_dec c (List.length ins)) as [L|L].
  - destruct (table_ins c r L H) as (j & n & _ & _ & _ & E & _). exact E.
  - replace c with (List.length ins + (c - List.length ins))%nat in H by lia. destruct (table_kept _ _ H) as (i & n & cr & X). destruct X as (_ & _ & _ & _ & _ & _ & _ & _ & _ & E). lia.
Qed.
Lemma srcs_nodup : NoDup srcs.
Proof.
  unfold srcs. assert (A : NoDup (map (fun r => inl (rp_index r - nl)%nat) ins : list (nat + nat))).
  { assert (Ge : forall r, In r ins -> (nl <= rp_index r)%nat) by (intros r Hr; destruct (Ins1 r Hr) as (j & n & _ & E & _); lia).
    clear - NDi Ge. induction ins as [|r l IH]; cbn in *; [constructor|]. inversion NDi as [|x xs Hn ND]; subst. constructor.
    - intro X. apply in_map_iff in X. destruct X as (r' & E & Hr'). injection E as E. apply Hn. apply in_map_iff. exists r'. split; [|exact Hr'].
      pose proof (Ge r (or_introl eq_refl)). pose proof (Ge r' (or_intror Hr')). lia.
    - apply IH; [exact ND|]. intros r' Hr'. apply Ge. right. exact Hr'. }
  assert (B : NoDup (map inr kidx : list (nat + nat))).
  { apply NoDup_nth_error. intros i j Hi E. rewrite map_length in Hi. rewrite !nth_error_map in E. destruct (nth_error kidx i) as [x|] eqn:E1; [|apply nth_error_None in E1; lia].
    destruct (nth_error kidx j) as [y|] eqn:E2; [|discriminate]. cbn in E. injection E as ->. destruct (Nat.lt_trichotomy i j) as [C|[C|C]]; [|exact C|].
    - pose proof (kidx_mono _ _ _ _ C E1 E2). lia.
    - pose proof (kidx_mono _ _ _ _ C E2 E1). lia. }
  apply nodup_app2; [exact A|exact B|]. intros x Hx Hy. apply in_map_iff in Hx, Hy. destruct Hx as (r & <- & _), Hy as (i & E & _). discriminate.
Qed.
Lemma srcs_inl j : In (inl j) srcs <-> (j < List.length req)%nat.
Proof.
  unfold srcs. rewrite in_app_iff, !in_map_iff. split.
  - intros [(r & E & Hr)|(i & E & _)]; [|discriminate]. injection E as <-. destruct (Ins1 r Hr) as (j & n & A & B & _). replace (rp_index r - nl)%nat with j by lia. apply nth_error_Some. congruence.
  - intro L. left. destruct (nth_error req j) as [x|] eqn:E; [|apply nth_error_None in E; lia]. destruct (Ins2 j x E) as (r & Hr & Ei). exists r. split; [f_equal; lia|exact Hr].
Qed.
Lemma srcs_inr i : In (inr i) srcs <-> exists n cr, nth_error names1 i = Some n /\ nth_error tab1 i = Some cr /\ keep cr = true.
Proof.
  unfold srcs. rewrite in_app_iff, !in_map_iff. split.
  - intros [(r & E & Hr)|(i' & E & H)]; [discriminate|]. injection E as ->. apply In_nth_error in H. destruct H as (c & H). destruct (kidx_nth c i H) as (n & cr & _ & X). eauto.
  - intros (n & cr & A & B & C). right. exists i. split; [reflexivity|]. eapply kidx_in; eassumption.
Qed.
Lemma tnames_length : List.length tnames = List.length table.
Proof. rewrite table_length. unfold tnames. rewrite app_length, !map_length. reflexivity. Qed.
End Sources.

(** * The whole line *)
Lemma well_apart_sub tol l l' : well_apart tol l -> (forall x, In x l' -> exists y, In y l /\ y == x) -> well_apart tol l'.
Proof.
  intros W S a b Ha Hb. destruct (S a Ha) as (a' & Ha' & Ea), (S b Hb) as (b' & Hb' & Eb). destruct (W a' b' Ha' Hb') as [E|E]; [left; lra|right].
  rewrite <- Ea, <- Eb. exact E.
Qed.
Lemma disjoint_sym i j : disjoint i j -> disjoint j i. Proof. unfold disjoint. tauto. Qed.

Lemma bounds_prefix v : forall names s bs i, bounds v s names = Some bs -> (i <= List.length names)%nat ->
  exists l a, line_length v (firstn i names) = Some l /\ nth_error bs i = Some a /\ a == s + l.
Proof.
  induction names as [|n names IH]; intros s bs i B L; cbn in B.
  - injection B as <-. destruct i; [|cbn in L; lia]. exists 0, s. cbn. repeat split; auto. ring.
  - destruct (s_length v n) as [l|] eqn:Sl; [|discriminate]. destruct (bounds v (s + l) names) as [b|] eqn:Bn; [|discriminate]. injection B as <-.
    destruct i as [|i]; [exists 0, s; cbn; repeat split; auto; ring|]. destruct (IH _ _ i Bn) as (x & a & A1 & A2 & A3); [cbn in L; lia|].
    exists (l + x), a. cbn [firstn line_length nth_error]. rewrite Sl, A1. repeat split; auto. rewrite A3. ring.
Qed.
Lemma bounds_place v names bs i n : bounds v 0 names = Some bs -> nth_error names i = Some n ->
  exists a b, nth_error bs i = Some a /\ nth_error bs (S i) = Some b /\ at_place v names i n a b.
Proof.
  intros B H. assert (L : (i < List.length names)%nat) by (apply nth_error_Some; congruence).
  destruct (bounds_prefix v names 0 bs i B) as (x & a & A1 & A2 & A3); [lia|]. destruct (bounds_prefix v names 0 bs (S i) B) as (y & b & B1 & B2 & B3); [lia|].
  exists a, b. split; [exact A2|]. split; [exact B2|]. split; [exact H|]. exists x, y. repeat split; auto; lra.
Qed.
Lemma spans_unique v names i a b a' b' : spans v names i a b -> spans v names i a' b' -> a == a' /\ b == b'.
Proof. intros (x & y & A1 & A2 & _ & A3 & A4) (x' & y' & B1 & B2 & _ & B3 & B4). rewrite A1 in B1. rewrite A2 in B2. injection B1 as <-. injection B2 as <-. split; lra. Qed.
Lemma spans_comp v names i a b a' b' : a == a' -> b == b' -> spans v names i a b -> spans v names i a' b'.
Proof. intros E1 E2 (x & y & A1 & A2 & A0 & A3 & A4). exists x, y. repeat split; auto; lra. Qed.
Lemma map_snd_combine {A} (l : list A) : map snd (combine l l) = l.
Proof. induction l; cbn; congruence. Qed.
Lemma len_keeps v v' n l : keeps v v' -> s_length v n = Some l -> s_length v' n = Some (len_of v n).
Proof. intros K H. unfold len_of. rewrite H. eapply s_length_keeps; eassumption. Qed.
Lemma disjoint_comp a b a' b' i : a == a' -> b == b' -> disjoint (a, b) i -> disjoint (a', b') i.
Proof. unfold disjoint. cbn. intros. lra. Qed.

Section Core.
Variables (v : env) (rows : list (string * string)) (what : list place) (stol tol : Q) (ref : nat -> nat).
Variables (old s : list Q) (f : list (option nat * option anchor)) (tab : list crow) (L : Q).
Let names := map snd rows.
Let req := requested (len_of v) (map pl_name what) (skipn (List.length names) s).
Hypothesis C : cache_ok v.
Hypothesis E : edge_names_ok v.
Hypothesis ND : NoDup (map fst rows).
Hypothesis Tp : 0 < stol.
Hypothesis Tt : stol <= tol.
Hypothesis B : bounds v 0 names = Some old.
Hypothesis HL : line_length v names = Some L.
Hypothesis Ht : crows v 0 rows = Some tab.
Hypothesis R : Verif.Model.Composer.resolve (len_of v) ACenter (line_places names tab ++ what) = Some (s, f).
Hypothesis P1 : forall n l, In n names -> s_length v n = Some l -> 0 <= l.
Hypothesis P2 : forall n u w, In (n, (u, w)) req -> 0 <= u /\ u <= w /\ w <= L.
Hypothesis Dj : forall i j x y, nth_error req i = Some x -> nth_error req j = Some y -> i <> j -> disjoint (snd x) (snd y).
Hypothesis Ap : well_apart tol (old ++ map (fun x => fst (snd x)) req ++ map (fun x => snd (snd x)) req).

Lemma tab_len : List.length names = List.length tab.
Proof.
  destruct (crows_spec v rows 0 old B) as (tab' & Ct & _ & _ & FT). rewrite Ht in Ct. injection Ct as <-. unfold names. rewrite map_length.
  clear - FT. induction FT; cbn; congruence.
Qed.
Lemma req_nth j p u : nth_error what j = Some p -> nth_error (skipn (List.length names) s) j = Some u ->
  nth_error req j = Some (pl_name p, (u, u + len_of v (pl_name p))).
Proof.
  intros Hp Hu. unfold req, requested. rewrite nth_error_map.
  assert (X : nth_error (combine (map pl_name what) (skipn (List.length names) s)) j = Some (pl_name p, u)); [|rewrite X; reflexivity].
  apply combine_nth_error. cbn. split; [rewrite nth_error_map, Hp; reflexivity|exact Hu].
Qed.

Variables (places : list place) (ins : list rplace) (v1 : env) (names1 : list string) (tab1 : list crow).
Hypothesis Hi : insertions v stol names tab what = Some (places, ins).
Let ss := map rp_start ins ++ map rp_end ins.
Hypothesis Hc : cut_at_s v rows tol ss = Some (v1, names1).
Hypothesis H1 : crows v1 0 (combine names1 names1) = Some tab1.
Let keep := fun r => negb (removed tol ins (cr_start r) (cr_start r + cr_len r)).

Lemma ins_req r : In r ins -> exists j n, nth_error req j = Some (n, (rp_start r, rp_end r)) /\ rp_index r = (List.length names + j)%nat /\
  rp_length r = len_of v n /\ pl_name (nth (rp_index r) places (plain EmptyString)) = n /\ (exists l, s_length v n = Some l).
Proof.
  intro Hr. destruct (ins_spec v stol names tab what places ins s f tab_len R Hi) as (_ & _ & _ & A & _ & D). destruct (A r Hr) as (j & p & u & X1 & X2 & X3 & X4 & X5 & X6).
  exists j, (pl_name p). split; [|split; [exact X3|split; [exact X5|split; [exact X6|]]]].
  - rewrite (req_nth j p u X1 X2). unfold rp_end. rewrite X4, X5. reflexivity.
  - apply D. eapply nth_error_In, X1.
Qed.
Lemma req_ins j x : nth_error req j = Some x -> exists r, In r ins /\ rp_index r = (List.length names + j)%nat.
Proof.
  intro Hx. destruct (ins_spec v stol names tab what places ins s f tab_len R Hi) as (_ & _ & Ln & _ & A & _).
  assert (Lj : (j < List.length req)%nat) by (apply nth_error_Some; congruence). unfold req, requested in Lj. rewrite map_length, combine_length, map_length in Lj.
  destruct (nth_error what j) as [p|] eqn:X1; [|apply nth_error_None in X1; lia]. destruct (nth_error (skipn (List.length names) s) j) as [u|] eqn:X2; [|apply nth_error_None in X2; lia].
  destruct (A j p u X1 X2) as (r & Y1 & Y2 & _). eauto.
Qed.
Lemma req_ins' n u w : In (n, (u, w)) req -> exists r, In r ins /\ rp_start r = u /\ rp_end r = w.
Proof.
  intro H. apply In_nth_error in H. destruct H as (j & Hj). destruct (req_ins j _ Hj) as (r & Hr & Ei). exists r. split; [exact Hr|].
  destruct (ins_req r Hr) as (j' & n' & A1 & A2 & _). assert (j = j') by lia. subst j'. rewrite Hj in A1. injection A1 as _ -> ->. auto.
Qed.
Lemma in_ss c : In c ss <-> exists n u w, In (n, (u, w)) req /\ (c = u \/ c = w).
Proof.
  unfold ss. rewrite in_app_iff, !in_map_iff. split.
  - intros [(r & <- & Hr)|(r & <- & Hr)]; destruct (ins_req r Hr) as (j & n & A & _); exists n, (rp_start r), (rp_end r); (split; [eapply nth_error_In, A|auto]).
  - intros (n & u & w & H & [->| ->]); destruct (req_ins' n u w H) as (r & A & <- & <-); [left|right]; exists r; auto.
Qed.
Lemma ins_bounds r : In r ins -> 0 <= rp_start r /\ rp_start r <= rp_end r /\ rp_end r <= L.
Proof. intro Hr. destruct (ins_req r Hr) as (j & n & A & _). eapply P2. eapply nth_error_In, A. Qed.

Lemma tol_pos : 0 < tol. Proof. lra. Qed.
Lemma all_apart : well_apart tol (old ++ ss).
Proof.
  eapply well_apart_sub; [exact Ap|]. intros x Hx. exists x. split; [|reflexivity]. apply in_app_iff in Hx. apply in_app_iff. destruct Hx as [Hx|Hx]; [auto|right].
  apply in_ss in Hx. destruct Hx as (n & u & w & Hx & [->| ->]); apply in_app_iff; [left|right]; apply in_map_iff; exists (n, (u, w)); auto.
Qed.

(** facts on the cut line *)
Lemma cut_facts : keeps v v1 /\ cache_ok v1 /\ edge_names_ok v1 /\
  exists new L1, bounds v1 0 names1 = Some new /\ line_length v1 names1 = Some L1 /\ L1 == L /\
   (forall x, In x new -> exists y, In y (old ++ ss) /\ y == x) /\
   (forall c, In c ss -> at_boundary c new) /\
   (forall n l, In n names1 -> s_length v1 n = Some l -> 0 <= l).
Proof.
  assert (Tn : 0 <= tol) by (pose proof tol_pos; lra).
  destruct (cut_at_s_ok v rows tol ss v1 names1 old C E ND Tn B Hc) as (K & C1 & E1 & new & L0 & L1 & A1 & A2 & A3 & A4 & A5 & A6 & A7 & chunks & _ & _ & _ & _ & A8).
  split; [exact K|]. split; [exact C1|]. split; [exact E1|]. exists new, L1. split; [exact A1|]. split; [exact A3|]. fold names in A2. rewrite HL in A2. injection A2 as <-. split; [exact A4|]. split; [|split].
  - intros x Hx. destruct (A6 x) as [(b & Hb & Eb)|(b & Hb & Eb)]; [exists x; split; [exact Hx|reflexivity]| |]; exists b; (split; [apply in_app_iff; auto|exact Eb]).
  - intros c Hs. assert (P : 0 <= c). { pose proof Hs as Hs'. apply in_ss in Hs'. destruct Hs' as (n & u & w & Hx & Ec). destruct (P2 n u w Hx) as (Q1 & Q2 & Q3). destruct Ec as [->| ->]; lra. }
    destruct (A7 c Hs P) as [H|(b & Hb & Nb)]; [exact H|]. apply A5. exists b. split; [exact Hb|].
    destruct (all_apart c b) as [X|X]; [apply in_app_iff; auto|apply in_app_iff; auto|lra|]. unfold near in Nb. pose proof tol_pos. lra.
  - apply A8. exact P1.
Qed.

Lemma rows1 : exists new, bounds v1 0 names1 = Some new /\ chain 0 tab1 /\ new = scan 0 (map cr_len tab1) /\ List.length names1 = List.length tab1 /\
  (forall i n r, nth_error names1 i = Some n -> nth_error tab1 i = Some r -> s_length v1 n = Some (cr_len r) /\ at_place v1 names1 i n (cr_start r) (cr_start r + cr_len r)) /\
  (forall r, In r tab1 -> 0 <= cr_len r).
Proof.
  destruct cut_facts as (_ & _ & _ & new & L1 & A1 & A2 & A3 & _ & _ & Pn). assert (A1' := A1). rewrite <- (map_snd_combine names1) in A1'.
  destruct (crows_spec v1 (combine names1 names1) 0 new A1') as (tab' & Ct & Ch & Eb & FT). rewrite H1 in Ct. injection Ct as <-.
  assert (Ln : List.length names1 = List.length tab1). { rewrite <- (map_snd_combine names1) at 1. rewrite map_length. clear - FT. induction FT; cbn; congruence. }
  assert (Sl : forall i n r, nth_error names1 i = Some n -> nth_error tab1 i = Some r -> s_length v1 n = Some (cr_len r)).
  { intros i n r Hn Hr. assert (Hcm : nth_error (combine names1 names1) i = Some (n, n)) by (apply combine_nth_error; auto).
    destruct (forall2_nth _ _ _ _ _ FT Hcm) as (r' & Hr' & _ & X & _). rewrite Hr in Hr'. injection Hr' as <-. exact X. }
  exists new. split; [exact A1|]. split; [exact Ch|]. split; [exact Eb|]. split; [exact Ln|]. split.
  - intros i n r Hn Hr. split; [eapply Sl; eassumption|]. destruct (bounds_place v1 names1 new i n A1 Hn) as (a & b & X1 & X2 & X3).
    destruct (scan_nth_lens tab1 0 i r Ch Hr) as (a' & b' & Y1 & Y2 & Y3 & Y4). rewrite <- Eb in Y1, Y2. rewrite X1 in Y1. rewrite X2 in Y2. injection Y1 as ->. injection Y2 as ->. subst a' b'. exact X3.
  - intros r Hr. apply In_nth_error in Hr. destruct Hr as (i & Hr). destruct (nth_error names1 i) as [n|] eqn:Hn.
    + eapply Pn; [eapply nth_error_In, Hn|]. eapply Sl; eassumption.
    + apply nth_error_None in Hn. assert (i < List.length tab1)%nat by (apply nth_error_Some; congruence). lia.
Qed.

Lemma row1_facts r : In r tab1 -> 0 <= cr_len r /\ 0 <= cr_start r /\ cr_start r + cr_len r <= L /\
  (exists y, In y (old ++ ss) /\ y == cr_start r) /\ (exists y, In y (old ++ ss) /\ y == cr_start r + cr_len r) /\
  (forall c, In c ss -> c <= cr_start r \/ cr_start r + cr_len r <= c).
Proof.
  intro Hr. destruct cut_facts as (_ & _ & _ & new' & L1 & A1 & A2 & A3 & A4 & A5 & _). destruct rows1 as (new & B1 & Ch & En & Ln & Pl & Pos). rewrite A1 in B1. injection B1 as ->.
  pose proof (Pos r Hr) as P. apply In_nth_error in Hr. destruct Hr as (i & Hr). destruct (scan_nth_lens tab1 0 i r Ch Hr) as (a & b & Y1 & Y2 & -> & ->). rewrite <- En in Y1, Y2.
  assert (Mono : forall i j a b, (i <= j)%nat -> nth_error new i = Some a -> nth_error new j = Some b -> a <= b).
  { rewrite En. apply scan_mono. intros x Hx. apply in_map_iff in Hx. destruct Hx as (r' & <- & Hr'). apply Pos, Hr'. }
  split; [exact P|]. split; [|split; [|split; [|split]]].
  - apply (Mono 0%nat i); [lia| |exact Y1]. rewrite En. apply scan_first.
  - assert (Lt : (i < List.length names1)%nat) by (rewrite Ln; apply nth_error_Some; congruence).
    destruct (bounds_prefix v1 names1 0 new (List.length names1) A1 (le_n _)) as (l & z & Z1 & Z2 & Z3). rewrite firstn_all, A2 in Z1. injection Z1 as <-.
    pose proof (Mono (S i) (List.length names1) _ _ ltac:(lia) Y2 Z2). lra.
  - apply A4. eapply nth_error_In, Y1.
  - apply A4. eapply nth_error_In, Y2.
  - intros c Hs. destruct (A5 c Hs) as (y & Hy & Ey). apply In_nth_error in Hy. destruct Hy as (k & Hk). destruct (le_lt_dec k i) as [Le|Lt].
    + left. pose proof (Mono _ _ _ _ Le Hk Y1). lra.
    + right. pose proof (Mono (S i) k _ _ ltac:(lia) Y2 Hk). lra.
Qed.

Lemma keep_iff r : In r tab1 -> keep r = true <-> forall x, In x req -> disjoint (cr_start r, cr_start r + cr_len r) (snd x).
Proof.
  intro Hr. destruct (row1_facts r Hr) as (Q1 & Q2 & Q3 & Q4 & Q5 & Q6). unfold keep. rewrite negb_true_iff.
  assert (One : forall q, In q ins -> removed_by tol (rp_start q) (rp_end q) (cr_start r) (cr_start r + cr_len r) = false <-> disjoint (cr_start r, cr_start r + cr_len r) (rp_start q, rp_end q)).
  { intros q Hq. unfold disjoint. cbn [fst snd]. destruct (ins_bounds q Hq) as (I1 & I2 & I3).
    assert (S1 : In (rp_start q) ss) by (unfold ss; apply in_app_iff; left; apply in_map, Hq). assert (S2 : In (rp_end q) ss) by (unfold ss; apply in_app_iff; right; apply in_map, Hq).
    apply removed_by_iff; [apply tol_pos|lra|exact I2|apply Q6, S1|apply Q6, S2|].
    eapply well_apart_sub; [apply all_apart|]. intros x [<-|[<-|[<-|[<-|[]]]]]; [exact Q4|exact Q5|exists (rp_start q)|exists (rp_end q)]; (split; [apply in_app_iff; right; assumption|reflexivity]). }
  unfold removed. split.
  - intros H x Hx. destruct x as [n [u w]]. cbn [snd]. destruct (req_ins' n u w Hx) as (q & Hq & <- & <-). apply One; [exact Hq|].
    destruct (removed_by _ _ _ _ _) eqn:X; [|reflexivity]. exfalso. apply not_true_iff_false in H. apply H, existsb_exists. exists q. auto.
  - intro H. apply not_true_iff_false. intro X. apply existsb_exists in X. destruct X as (q & Hq & X). destruct (ins_req q Hq) as (j & n & A & _).
    apply nth_error_In in A. apply H in A. apply One in A; [|exact Hq]. congruence.
Qed.

Lemma end_kept : removed tol ins L L = false.
Proof.
  apply not_true_iff_false. intro X. apply existsb_exists in X. destruct X as (q & Hq & X). destruct (ins_bounds q Hq) as (I1 & I2 & I3).
  assert (S1 : In (rp_start q) ss) by (unfold ss; apply in_app_iff; left; apply in_map, Hq). assert (S2 : In (rp_end q) ss) by (unfold ss; apply in_app_iff; right; apply in_map, Hq).
  enough (removed_by tol (rp_start q) (rp_end q) L L = false) by congruence.
  apply removed_by_iff; [apply tol_pos|lra|exact I2|left; lra|left; lra| |right; exact I3].
  destruct (bounds_prefix v names 0 old (List.length names) B (le_n _)) as (l & z & Z1 & Z2 & Z3). rewrite firstn_all, HL in Z1. injection Z1 as <-.
  eapply well_apart_sub; [apply all_apart|].
  intros x [<-|[<-|[<-|[<-|[]]]]]; [exists z|exists z|exists (rp_start q)|exists (rp_end q)]; (split; [apply in_app_iff|]); auto; try lra; try reflexivity; left; eapply nth_error_In, Z2.
Qed.

Let nl := List.length names.
Let U := table ref ins names1 tab1 keep.
Let N := tnames places ins names1 tab1 keep.
Let SR := srcs nl ins names1 tab1 keep.
Lemma Ins1 r : In r ins -> exists j n, nth_error req j = Some (n, (rp_start r, rp_end r)) /\ rp_index r = (nl + j)%nat /\ rp_length r = len_of v n /\
   pl_name (nth (rp_index r) places (plain EmptyString)) = n.
Proof. intro H. destruct (ins_req r H) as (j & n & A & B' & C' & D & _). exists j, n. auto. Qed.
Lemma ndi : NoDup (map rp_index ins).
Proof. exact (proj1 (proj2 (ins_spec v stol names tab what places ins s f tab_len R Hi))). Qed.
Lemma ln1 : List.length names1 = List.length tab1.
Proof. destruct rows1 as (_ & _ & _ & _ & X & _). exact X. Qed.

Lemma entry c r : nth_error U c = Some r ->
  (exists j n, nth_error SR c = Some (inl j) /\ nth_error req j = Some (n, (rp_start r, rp_end r)) /\ nth_error N c = Some n /\ rp_length r = len_of v n) \/
  (exists i n cr, nth_error SR c = Some (inr i) /\ nth_error names1 i = Some n /\ nth_error tab1 i = Some cr /\ keep cr = true /\
     rp_start r = cr_start cr /\ rp_length r = cr_len cr /\ rp_from r = None /\ nth_error N c = Some n).
Proof.
  intro H. destruct (lt_dec c (List.length ins)) as [Lt|Ge].
  - left. destruct (table_ins ref nl places ins names1 tab1 keep req (len_of v) Ins1 c r Lt H) as (j & n & A1 & A2 & A3 & _ & A4). exists j, n. auto.
  - right. assert (Ec : c = (List.length ins + (c - List.length ins))%nat) by lia. rewrite Ec in H. unfold U in H.
    destruct (table_kept ref nl places ins names1 tab1 keep _ _ H) as (i & n & cr & A1 & _ & A3 & A4 & A5 & A6 & A7 & A8 & A9 & _).
    rewrite <- Ec in A1, A9. exists i, n, cr. repeat split; auto.
Qed.
Lemma U_num : numbered U. Proof. exact (table_num ref nl places ins names1 tab1 keep req (len_of v) Ins1). Qed.

Lemma tab_disjoint i i' r r' : (i < i')%nat -> nth_error tab1 i = Some r -> nth_error tab1 i' = Some r' -> cr_start r + cr_len r <= cr_start r'.
Proof.
  intros Lt Hr Hr'. destruct rows1 as (new & _ & Ch & En & _ & _ & Pos). destruct (scan_nth_lens tab1 0 i r Ch Hr) as (a & b & _ & Y2 & _ & ->).
  destruct (scan_nth_lens tab1 0 i' r' Ch Hr') as (a' & b' & Y1 & _ & -> & _).
  apply (scan_mono (map cr_len tab1)) with (s := 0) (i := S i) (j := i'); [|lia|exact Y2|exact Y1].
  intros x Hx. apply in_map_iff in Hx. destruct Hx as (r0 & <- & Hr0). apply Pos, Hr0.
Qed.
Lemma srcs_inj c c' x : nth_error SR c = Some x -> nth_error SR c' = Some x -> c = c'.
Proof.
  intros A A'. pose proof (srcs_nodup nl places ins names1 tab1 keep req (len_of v) ndi Ins1) as NDS. apply (proj1 (NoDup_nth_error _) NDS); [apply nth_error_Some; unfold SR in A; congruence|].
  unfold SR in A, A'. congruence.
Qed.
Lemma U_disj : apart_rows U.
Proof.
  intros c c' p q Hp Hq Ne. assert (Ends : forall (r : rplace) cr, rp_start r = cr_start cr -> rp_length r = cr_len cr -> ival r = (cr_start cr, cr_start cr + cr_len cr)).
  { intros r cr E1 E2. unfold ival, rp_end. rewrite E1, E2. reflexivity. }
  destruct (entry c p Hp) as [(j & n & A1 & A2 & A3 & A4)|(i & n & cr & A1 & A2 & A3 & A4 & A5 & A6 & A7 & A8)];
  destruct (entry c' q Hq) as [(j' & n' & B1 & B2 & B3 & B4)|(i' & n' & cr' & B1 & B2 & B3 & B4 & B5 & B6 & B7 & B8)].
  - apply (Dj j j' _ _ A2 B2). intros ->. apply Ne. eapply srcs_inj; eassumption.
  - apply disjoint_sym. rewrite (Ends q cr' B5 B6). apply (proj1 (keep_iff cr' (nth_error_In _ _ B3)) B4 _ (nth_error_In _ _ A2)).
  - rewrite (Ends p cr A5 A6). apply (proj1 (keep_iff cr (nth_error_In _ _ A3)) A4 _ (nth_error_In _ _ B2)).
  - rewrite (Ends p cr A5 A6), (Ends q cr' B5 B6). unfold disjoint. cbn [fst snd]. destruct (Nat.lt_trichotomy i i') as [X|[X|X]].
    + left. eapply tab_disjoint; eassumption.
    + exfalso. subst i'. apply Ne. eapply srcs_inj; eassumption.
    + right. eapply tab_disjoint; eassumption.
Qed.
Lemma U_pos p : In p U -> 0 <= rp_length p /\ 0 <= rp_start p /\ rp_end p <= L /\
  (exists y, In y (old ++ ss) /\ y == rp_start p) /\ (exists y, In y (old ++ ss) /\ y == rp_end p).
Proof.
  intro H. apply In_nth_error in H. destruct H as (c & H). destruct (entry c p H) as [(j & n & A1 & A2 & A3 & A4)|(i & n & cr & A1 & A2 & A3 & A4 & A5 & A6 & A7 & A8)].
  - apply nth_error_In in A2. destruct (P2 _ _ _ A2) as (Q1 & Q2 & Q3). split; [unfold rp_end in Q2; lra|]. split; [exact Q1|]. split; [exact Q3|].
    split; [exists (rp_start p)|exists (rp_end p)]; (split; [|reflexivity]); apply in_app_iff; right; apply in_ss; exists n, (rp_start p), (rp_end p); auto.
  - destruct (row1_facts cr (nth_error_In _ _ A3)) as (Q1 & Q2 & Q3 & Q4 & Q5 & _). unfold rp_end. rewrite A5, A6. auto.
Qed.
Lemma U_apart p q : In p U -> In q U -> well_apart tol [rp_start p; rp_end p; rp_start q; rp_end q].
Proof.
  intros Hp Hq. destruct (U_pos p Hp) as (_ & _ & _ & X1 & X2), (U_pos q Hq) as (_ & _ & _ & X3 & X4).
  eapply well_apart_sub; [apply all_apart|]. intros x [<-|[<-|[<-|[<-|[]]]]]; assumption.
Qed.
Lemma in_table_ins r : In r ins -> exists p, In p U /\ rp_start p = rp_start r /\ rp_end p = rp_end r.
Proof.
  intro H. apply In_nth_error in H. destruct H as (c & H). exists (renumber ref (c, r)). split; [|split; reflexivity].
  unfold U, table. apply in_app_iff. left. apply in_map. apply nth_error_In with (n := c). apply number_nth. auto.
Qed.
Lemma in_table_kept i n cr : nth_error names1 i = Some n -> nth_error tab1 i = Some cr -> keep cr = true -> exists p, In p U /\ rp_start p = cr_start cr /\ rp_length p = cr_len cr.
Proof.
  intros Hn Hr K. assert (Hin : In (n, cr) (kept names1 tab1 keep)).
  { apply filter_In. split; [|exact K]. apply nth_error_In with (n := i). apply combine_nth_error. auto. }
  apply (in_map snd) in Hin. cbn in Hin. apply In_nth_error in Hin. destruct Hin as (c & Hin). exists (kept_row (List.length ins) (c, cr)). split; [|split; reflexivity].
  unfold U, table. apply in_app_iff. right. apply in_map. apply nth_error_In with (n := c). apply number_nth. auto.
Qed.
Lemma U_cover x : 0 <= x -> x < L -> exists p, In p U /\ rp_start p <= x /\ x < rp_end p.
Proof.
  intros X0 XL. destruct cut_facts as (_ & _ & _ & new' & L1 & A1 & A2 & A3 & _). destruct rows1 as (new & B1 & Ch & En & Ln & Pl & Pos). rewrite A1 in B1. injection B1 as ->.
  destruct (bounds_prefix v1 names1 0 new (List.length names1) A1 (le_n _)) as (l & z & Z1 & Z2 & Z3). rewrite firstn_all, A2 in Z1. injection Z1 as <-.
  destruct (scan_last (map cr_len tab1) 0) as (z' & Z4 & Z5). rewrite map_length, <- Ln, <- En, Z2 in Z4. injection Z4 as <-.
  destruct (scan_cover (map cr_len tab1) 0 x X0) as (i & a & b & Y1 & Y2 & Y3 & Y4 & Y5); [lra|]. rewrite map_length in Y3.
  destruct (nth_error tab1 i) as [cr|] eqn:Hr; [|apply nth_error_None in Hr; lia]. destruct (nth_error names1 i) as [n|] eqn:Hn; [|apply nth_error_None in Hn; lia].
  destruct (scan_nth_lens tab1 0 i cr Ch Hr) as (a' & b' & W1 & W2 & -> & ->). rewrite Y1 in W1. rewrite Y2 in W2. injection W1 as ->. injection W2 as ->.
  destruct (keep cr) eqn:K.
  - destruct (in_table_kept i n cr Hn Hr K) as (p & Hp & E1 & E2). exists p. split; [exact Hp|]. unfold rp_end. rewrite E1, E2. auto.
  - destruct (existsb (fun q => negb (Qle_bool (cr_start cr + cr_len cr) (rp_start q)) && negb (Qle_bool (rp_end q) (cr_start cr))) ins) eqn:Ex.
    + apply existsb_exists in Ex. destruct Ex as (q & Hq & X). apply andb_true_iff in X. destruct X as (X1 & X2). apply negb_true_iff in X1, X2.
      apply not_true_iff_false in X1, X2. rewrite Qle_bool_iff in X1, X2. apply Qnot_le_lt in X1, X2.
      assert (S1 : In (rp_start q) ss) by (unfold ss; apply in_app_iff; left; apply in_map, Hq). assert (S2 : In (rp_end q) ss) by (unfold ss; apply in_app_iff; right; apply in_map, Hq).
      destruct (row1_facts cr (nth_error_In _ _ Hr)) as (_ & _ & _ & _ & _ & Q6). pose proof (Q6 _ S1). pose proof (Q6 _ S2).
      destruct (in_table_ins q Hq) as (p & Hp & E1 & E2). exists p. rewrite E1, E2. split; [exact Hp|]. lra.
    + exfalso. apply not_true_iff_false in K. apply K. apply keep_iff; [eapply nth_error_In, Hr|]. intros [m [u w]] Hx. cbn [snd]. destruct (req_ins' m u w Hx) as (q & Hq & <- & <-).
      unfold disjoint. cbn [fst snd]. apply not_true_iff_false in Ex. destruct (Qlt_le_dec (rp_start q) (cr_start cr + cr_len cr)) as [G1|G1]; [|auto]. destruct (Qlt_le_dec (cr_start cr) (rp_end q)) as [G2|G2]; [|auto].
      exfalso. apply Ex, existsb_exists. exists q. split; [exact Hq|]. apply andb_true_iff. rewrite !negb_true_iff. split; apply not_true_iff_false; rewrite Qle_bool_iff; lra.
Qed.
Lemma L_pos : 0 <= L.
Proof.
  destruct (line_lens v _ _ HL) as (lens & OL & ->). clear - OL P1. unfold lens_ok in OL. unfold names in *. revert lens OL P1.
  induction (map snd rows) as [|n l IH]; intros lens OL P1; inversion OL as [|x y xs ys (l' & X1 & X2) F]; subst; cbn [qsum]; [lra|].
  pose proof (P1 n l' (or_introl eq_refl) X1). assert (0 <= qsum ys); [|lra]. apply IH; [exact F|]. intros m k Hm. apply P1. right. exact Hm.
Qed.

Variables (sorted : list rplace).
Hypothesis So : sort_places stol true U = Some sorted.
Let name := fun i => nth i N EmptyString.
Let names' := map (fun p => name (rp_index p)) sorted.

Lemma U_tiled : Forall (fun g => g == 0) (gaps 0 sorted) /\ fold_left (fun _ p => rp_end p) sorted 0 == L.
Proof.
  apply (tiled tol stol L U Tp Tt U_num U_disj) with (allow := true); [|exact U_apart|exact U_cover|exact So|exact L_pos].
  intros p Hp. destruct (U_pos p Hp) as (A1 & A2 & A3 & _). auto.
Qed.
Lemma entry_length p : In p sorted -> exists l, s_length v1 (name (rp_index p)) = Some l /\ l == rp_length p.
Proof.
  intro H. apply (in_res stol U true sorted So) in H. apply In_nth_error in H. destruct H as (c & H). rewrite (U_num c p H).
  destruct cut_facts as (K & _). unfold name.
  destruct (entry c p H) as [(j & n & A1 & A2 & A3 & A4)|(i & n & cr & A1 & A2 & A3 & A4 & A5 & A6 & A7 & A8)].
  - rewrite (nth_error_nth _ _ _ A3). exists (len_of v n). split; [|rewrite A4; reflexivity].
    assert (Hr : exists l, s_length v n = Some l).
    { destruct (ins_spec v stol names tab what places ins s f tab_len R Hi) as (_ & _ & _ & _ & _ & D). unfold req, requested in A2. rewrite nth_error_map in A2.
      destruct (nth_error (combine (map pl_name what) _) j) as [[m u]|] eqn:X; [|discriminate]. apply combine_nth_error in X. destruct X as (X & _). cbn [fst snd option_map] in A2, X.
      assert (m = n) by congruence. subst m. rewrite nth_error_map in X. destruct (nth_error what j) as [q|] eqn:Y; [|discriminate]. cbn in X. injection X as <-. apply D. eapply nth_error_In, Y. }
    destruct Hr as (l & Hl). eapply len_keeps; eassumption.
  - rewrite (nth_error_nth _ _ _ A8). exists (cr_len cr). split; [|rewrite A6; reflexivity]. destruct rows1 as (_ & _ & _ & _ & _ & Pl & _). eapply Pl; eassumption.
Qed.
Lemma generated : generate tol None sorted = Some (map (fun p => PElem (rp_index p) (rp_length p)) sorted).
Proof.
  unfold generate. destruct U_tiled as (G & _). assert (T0 : 0 <= tol) by (pose proof tol_pos; lra). pose proof (fill_zero tol T0 sorted 0 G) as F. destruct sorted as [|p l]; [reflexivity|]. rewrite F. reflexivity.
Qed.
Lemma new_length : exists L', line_length v1 names' = Some L' /\ L' == L.
Proof.
  destruct U_tiled as (G & El). destruct (zero_gaps_spans v1 name sorted 0 G entry_length) as (z & Hz & Ez). exists z. split; [exact Hz|]. lra.
Qed.
Lemma new_arranged : exists src, arranged v1 names1 names' req src.
Proof.
  destruct U_tiled as (G & _). pose (src := map (fun p => nth (rp_index p) SR (inl 0%nat)) sorted). exists src.
  pose proof (srcs_nodup nl places ins names1 tab1 keep req (len_of v) ndi Ins1) as NDS.
  assert (PermS : Permutation SR src).
  { assert (E0 : SR = map (fun p => nth (rp_index p) SR (inl 0%nat)) U).
    { apply nth_error_ext_len; [rewrite map_length; apply srcs_length|]. intros c Hc'. rewrite nth_error_map. destruct (nth_error U c) as [p|] eqn:X; [|apply nth_error_None in X; unfold SR in Hc'; rewrite (srcs_length ref) in Hc'; unfold U in X; lia].
      cbn. rewrite (U_num c p X). apply nth_error_nth'. exact Hc'. }
    rewrite E0 at 1. apply Permutation_map. exact (perm stol U true sorted So). }
  assert (Pick : forall k x, nth_error src k = Some x -> exists p c, nth_error sorted k = Some p /\ nth_error U c = Some p /\ rp_index p = c /\ nth_error SR c = Some x).
  { intros k x H. unfold src in H. rewrite nth_error_map in H. destruct (nth_error sorted k) as [p|] eqn:X; [|discriminate]. cbn in H. injection H as <-.
    pose proof (in_res stol U true sorted So p (nth_error_In _ _ X)) as Hu. apply In_nth_error in Hu. destruct Hu as (c & Hu). exists p, c. split; [reflexivity|]. split; [exact Hu|]. pose proof (U_num c p Hu) as Ec. split; [exact Ec|].
    rewrite Ec. apply nth_error_nth'. unfold SR. rewrite (srcs_length ref). apply nth_error_Some. unfold U in Hu. congruence. }
  assert (Place : forall k p, nth_error sorted k = Some p -> at_place v1 names' k (name (rp_index p)) (rp_start p) (rp_end p)).
  { intros k p H. apply names_spans; [exact G|exact entry_length|exact H]. }
  split; [unfold src, names'; rewrite !map_length; reflexivity|]. split; [eapply Permutation_NoDup; eassumption|]. split; [|split; [|split; [|split]]].
  - intro j. rewrite <- (srcs_inl nl places ins names1 tab1 keep req (len_of v) Ins1 req_ins j). split; intro H; (eapply Permutation_in; [|exact H]); [apply Permutation_sym|]; exact PermS.
  - intro i. assert (X : In (inr i) src <-> In (inr i) SR) by (split; intro H; (eapply Permutation_in; [|exact H]); [apply Permutation_sym|]; exact PermS). rewrite X. unfold SR. rewrite (srcs_inr ref).
    destruct rows1 as (new & B1 & Ch & En & Ln & Pl & Pos). split.
    + intros (n & cr & Hn & Hr & K). destruct (Pl i n cr Hn Hr) as (_ & Pl1). exists n, (cr_start cr), (cr_start cr + cr_len cr). split; [exact Pl1|]. exact (proj1 (keep_iff cr (nth_error_In _ _ Hr)) K).
    + intros (n & a & b & (Hn & Sp) & D). assert (Li : (i < List.length tab1)%nat) by (rewrite <- Ln; apply nth_error_Some; congruence).
      destruct (nth_error tab1 i) as [cr|] eqn:Hr; [|apply nth_error_None in Hr; lia]. exists n, cr. split; [exact Hn|]. split; [reflexivity|]. apply keep_iff; [eapply nth_error_In, Hr|].
      destruct (Pl i n cr Hn Hr) as (_ & _ & Sp'). destruct (spans_unique _ _ _ _ _ _ _ Sp Sp') as (E1 & E2). intros x Hx. eapply disjoint_comp; [exact E1|exact E2|]. apply D, Hx.
  - intros k j H. destruct (Pick k _ H) as (p & c & X1 & X2 & X3 & X4). destruct (entry c p X2) as [(j' & n & A1 & A2 & A3 & A4)|(i & n & cr & A1 & _)]; [|congruence].
    assert (j' = j) by congruence. subst j'. exists n, (rp_start p), (rp_end p). split; [exact A2|]. pose proof (Place k p X1) as Pk. rewrite X3 in Pk. unfold name in Pk. rewrite (nth_error_nth _ _ _ A3) in Pk. exact Pk.
  - intros k i n a b H (Hn & Sp). destruct (Pick k _ H) as (p & c & X1 & X2 & X3 & X4). destruct (entry c p X2) as [(j' & n' & A1 & _)|(i' & n' & cr & A1 & A2 & A3 & A4 & A5 & A6 & A7 & A8)]; [congruence|].
    assert (i' = i) by congruence. subst i'. rewrite Hn in A2. injection A2 as <-. pose proof (Place k p X1) as (Pk1 & Pk2). rewrite X3 in Pk1. unfold name in Pk1. rewrite (nth_error_nth _ _ _ A8) in Pk1. split; [exact Pk1|].
    destruct rows1 as (_ & _ & _ & _ & _ & Pl & _). destruct (Pl i n cr Hn A3) as (_ & _ & Sp'). destruct (spans_unique _ _ _ _ _ _ _ Sp' Sp) as (E1 & E2).
    eapply spans_comp; [| |exact Pk2]; [rewrite A5; exact E1|unfold rp_end; rewrite A5, A6; exact E2].
  - intros k k' i i' H H' Lt. destruct (Pick k _ H) as (p & c & X1 & X2 & X3 & X4). destruct (Pick k' _ H') as (p' & c' & X1' & X2' & X3' & X4').
    destruct (entry c p X2) as [(j0 & n0 & A1 & _)|(i0 & n & cr & A1 & A2 & A3 & A4 & A5 & A6 & A7 & A8)]; [congruence|]. assert (i0 = i) by congruence. subst i0.
    destruct (entry c' p' X2') as [(j0 & n0 & A1' & _)|(i0 & n' & cr' & A1' & A2' & A3' & A4' & A5' & A6' & A7' & A8')]; [congruence|]. assert (i0 = i') by congruence. subst i0.
    assert (Lc : (c < c')%nat).
    { assert (Ge : forall d i, nth_error SR d = Some (inr i) -> exists e, d = (List.length ins + e)%nat /\ nth_error (kidx names1 tab1 keep) e = Some i).
      { intros d i0 Hd. unfold SR, srcs in Hd. destruct (lt_dec d (List.length ins)) as [X|X].
        - rewrite nth_error_app1 in Hd by (rewrite map_length; exact X). rewrite nth_error_map in Hd. destruct (nth_error ins d); discriminate.
        - rewrite nth_error_app2 in Hd by (rewrite map_length; lia). rewrite map_length, nth_error_map in Hd. destruct (nth_error (kidx _ _ _) _) as [z|] eqn:Z; [|discriminate]. cbn in Hd. injection Hd as <-.
          exists (d - List.length ins)%nat. split; [lia|exact Z]. }
      destruct (Ge c i A1) as (e & -> & He). destruct (Ge c' i' A1') as (e' & -> & He'). destruct (Nat.lt_trichotomy e e') as [X|[X|X]]; [lia| |].
      - subst e'. rewrite He in He'. injection He' as ->. lia.
      - pose proof (kidx_mono names1 tab1 keep _ _ _ _ X He' He). lia. }
    assert (Bf : before sorted p p').
    { apply (order_kept tol stol L U Tp Tt U_num U_disj) with (allow := true) (i := c) (j := c'); auto; [|exact U_apart|].
      - intros q Hq. destruct (U_pos q Hq) as (Q1 & Q2 & Q3 & _). auto.
      - unfold rp_end. rewrite A5, A6, A5'. exact (tab_disjoint i i' cr cr' Lt A3 A3'). }
    apply before_nth in Bf. destruct Bf as (a & b & Lab & Ha & Hb).
    assert (NDx : NoDup (map rp_index sorted)) by (apply (nodup_res stol U U_num true sorted So)).
    assert (Un : forall d d' q, nth_error sorted d = Some q -> nth_error sorted d' = Some q -> d = d').
    { intros d d' q Hd Hd'. apply (proj1 (NoDup_nth_error _) NDx); [rewrite map_length; apply nth_error_Some; congruence|]. rewrite !nth_error_map, Hd, Hd'. reflexivity. }
    rewrite <- (Un a k p Ha X1), <- (Un b k' p' Hb X1'). exact Lab.
Qed.
End Core.

Lemma put_result (x : env * list string) a b : Some x = Some (a, b) -> x = (a, b). Proof. congruence. Qed.

Theorem insert_ok v rows what stol tol ref v' names' old s f tab L :
  cache_ok v -> edge_names_ok v -> NoDup (map fst rows) -> 0 < stol -> stol <= tol ->
  bounds v 0 (map snd rows) = Some old -> line_length v (map snd rows) = Some L -> crows v 0 rows = Some tab ->
  Verif.Model.Composer.resolve (len_of v) ACenter (line_places (map snd rows) tab ++ what) = Some (s, f) ->
  (forall n l, In n (map snd rows) -> s_length v n = Some l -> 0 <= l) ->
  let req := requested (len_of v) (map pl_name what) (skipn (List.length rows) s) in
  insertable tol L old req ->
  insert v rows what stol tol ref = Some (v', names') ->
  keeps v v' /\ cache_ok v' /\ edge_names_ok v'
  /\ (exists L', line_length v' names' = Some L' /\ L' == L)
  /\ exists ss names1 src, cut_at_s v rows tol ss = Some (v', names1)
     /\ (forall c, In c ss <-> exists n u w, In (n, (u, w)) req /\ (c = u \/ c = w))
     /\ arranged v' names1 names' req src.
Proof.
  intros C E ND Tp Tt B HL Ht R P1 req (P2 & Dj & Ap) H. subst req.
  assert (Er : skipn (List.length rows) s = skipn (List.length (map snd rows)) s) by (rewrite map_length; reflexivity). rewrite Er in *. clear Er.
  unfold insert in H. rewrite Ht in H. destruct (insertions v stol (map snd rows) tab what) as [[places ins]|] eqn:Hi; [|discriminate].
  destruct (cut_at_s v rows tol (map rp_start ins ++ map rp_end ins)) as [[v1 names1]|] eqn:Hc; [|discriminate].
  destruct (crows v1 0 (combine names1 names1)) as [tab1|] eqn:H1; [|discriminate].
  destruct (line_length v1 names1) as [L1|]; [|discriminate]. destruct (removed tol ins L1 L1); [discriminate|].
  match type of H with match sort_places stol true ?u with _ => _ end = _ => destruct (sort_places stol true u) as [sorted|] eqn:So; [|discriminate] end.
  pose proof (generated v rows what stol tol ref old s f tab L C E ND Tp Tt B HL Ht R P1 P2 Dj Ap places ins v1 names1 tab1 Hi Hc H1 sorted So) as G.
  rewrite G in H. rewrite put_elems in H. apply put_result in H.
  pose proof (cut_facts v rows what stol tol old s f tab L C E ND Tp Tt B HL Ht R P1 P2 Ap places ins v1 names1 Hi Hc) as (K & C1 & E1 & _).
  assert (v1 = v') by congruence. subst v'. split; [exact K|]. split; [exact C1|]. split; [exact E1|].
  apply (f_equal snd) in H. cbn [snd] in H. subst names'. split.
  - exact (new_length v rows what stol tol ref old s f tab L C E ND Tp Tt B HL Ht R P1 P2 Dj Ap places ins v1 names1 tab1 Hi Hc H1 sorted So).
  - destruct (new_arranged v rows what stol tol ref old s f tab L C E ND Tp Tt B HL Ht R P1 P2 Dj Ap places ins v1 names1 tab1 Hi Hc H1 sorted So) as (src & A).
    exists (map rp_start ins ++ map rp_end ins), names1, src. split; [exact Hc|]. split; [|exact A].
    exact (in_ss v rows what stol old s f tab B Ht R places ins Hi).
Qed.
