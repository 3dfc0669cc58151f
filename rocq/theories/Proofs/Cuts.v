(** Cutting a line at given positions. *)
From Coq Require Import ZArith QArith Qabs Qfield List Bool String Ascii Arith Lia Lqa.
From Verif.Model Require Import Line Slicing.
From Verif.Spec Require Import Line Slicing.
From Verif.Proofs Require Import LineBase Slicing Slices.
Import ListNotations.
Local Open Scope Q_scope.

Lemma qltb_iff a b : Qltb a b = true <-> a < b.
Proof. unfold Qltb. rewrite negb_true_iff. split; intro H; [apply Qnot_le_lt; intro C; apply Qle_bool_iff in C; congruence|].
  destruct (Qle_bool b a) eqn:E; [apply Qle_bool_iff in E; lra|reflexivity]. Qed.
Lemma qltb_false a b : Qltb a b = false <-> b <= a.
Proof. unfold Qltb. rewrite negb_false_iff. apply Qle_bool_iff. Qed.
Lemma isclose_iff tol a b : isclose tol a b = true <-> near tol a b.
Proof. apply Qle_bool_iff. Qed.
Lemma isclose_false tol a b : isclose tol a b = false -> ~ near tol a b.
Proof. intros H C. apply isclose_iff in C. congruence. Qed.
Lemma near_eq tol a b : 0 <= tol -> a == b -> near tol a b.
Proof. intros T E. unfold near. assert (a - b == 0) as -> by lra. exact T. Qed.

Lemma forall2_impl {A B} (P Q : A -> B -> Prop) l1 l2 : (forall a b, P a b -> Q a b) -> Forall2 P l1 l2 -> Forall2 Q l1 l2.
Proof. intros H F. induction F; constructor; auto. Qed.

(** * Sorted sets *)
Fixpoint sset (l : list Q) : Prop := match l with [] => True | x :: r => (forall y, In y r -> x < y) /\ sset r end.
Lemma insert_in x l c : In c (insert_s x l) -> c = x \/ In c l.
Proof.
  induction l as [|y r IH]; cbn; [intuition|]. destruct (Qltb x y); [cbn; intuition|]. destruct (Qltb y x); cbn; intuition.
Qed.
Lemma insert_keeps x l c : In c l -> In c (insert_s x l).
Proof. induction l as [|y r IH]; cbn; [intuition|]. destruct (Qltb x y); [cbn; intuition|]. destruct (Qltb y x); cbn; intuition. Qed.
Lemma insert_adds x l : at_boundary x (insert_s x l).
Proof.
  induction l as [|y r (b & H & E)]; cbn; [exists x; cbn; intuition|]. destruct (Qltb x y) eqn:A; [exists x; cbn; intuition|].
  destruct (Qltb y x) eqn:B; [exists b; cbn; intuition|]. exists y. split; [left; reflexivity|].
  apply qltb_false in A, B. lra.
Qed.
Lemma insert_sset x l : sset l -> sset (insert_s x l).
Proof.
  induction l as [|y r IH]; intro H; cbn [insert_s]; [cbn; intuition|]. destruct (Qltb x y) eqn:A.
  - apply qltb_iff in A. split; [|exact H]. intros z [<-|Hz]; [exact A|]. destruct H as [H _]. specialize (H z Hz). lra.
  - destruct (Qltb y x) eqn:B; [|exact H]. apply qltb_iff in B. destruct H as [H1 H2]. split; [|apply IH, H2].
    intros z Hz. apply insert_in in Hz. destruct Hz as [->|Hz]; [exact B|auto].
Qed.
Lemma sorted_set_spec l : sset (sorted_set l) /\ (forall c, In c (sorted_set l) -> In c l) /\ (forall c, In c l -> at_boundary c (sorted_set l)).
Proof.
  unfold sorted_set.
  assert (G : forall l acc, sset acc -> let r := fold_left (fun acc x => insert_s x acc) l acc in
    sset r /\ (forall c, In c r -> In c l \/ In c acc) /\ (forall c, In c acc -> In c r) /\ (forall c, In c l -> at_boundary c r)).
  { clear. induction l as [|x l IH]; intros acc S; cbn [fold_left].
    - split; [exact S|]. split; [auto|]. split; [auto|]. intros c [].
    - destruct (IH (insert_s x acc) (insert_sset x acc S)) as (H1 & H2 & H3 & H4). split; [exact H1|]. split; [|split].
      + intros c Hc. destruct (H2 c Hc) as [H|H]; [left; right; exact H|]. apply insert_in in H. destruct H as [->|H]; [left; left; reflexivity|auto].
      + intros c Hc. apply H3, insert_keeps, Hc.
      + intros c [<-|Hc]; [|auto]. destruct (insert_adds x acc) as (b & Hb & E). exists b. auto. }
  destruct (G l [] I) as (H1 & H2 & _ & H4). split; [exact H1|]. split; [|exact H4]. intros c Hc. destruct (H2 c Hc) as [H|[]]. exact H.
Qed.

(** * The loop *)
Fixpoint cut_row (tol : Q) (name : string) (start fin : Q) (k : list Q -> option (list (string * Q))) (ss : list Q) :=
  match ss with
  | [] => Some []
  | c :: cs =>
      if isclose tol c start then cut_row tol name start fin k cs
      else if isclose tol c fin then cut_row tol name start fin k cs
      else if Qltb start c && Qltb c fin then add_cut (name, c - start) (cut_row tol name start fin k cs)
      else if Qltb c start then cut_row tol name start fin k cs
      else k ss
  end.
Lemma cuts_cons tol row r ss : cuts tol (row :: r) ss =
  if cr_thick row then cut_row tol (cr_name row) (cr_start row) (cr_start row + cr_len row) (cuts tol r) ss else cuts tol r ss.
Proof. cbn [cuts]. destruct (cr_thick row); [cbn [negb]|reflexivity]. induction ss as [|c cs IH]; [reflexivity|]. cbn [cut_row]. rewrite <- IH. reflexivity. Qed.
Lemma cuts_nil tol tab : cuts tol tab [] = Some [].
Proof. induction tab as [|row r IH]; [reflexivity|]. rewrite cuts_cons. destruct (cr_thick row); [reflexivity|exact IH]. Qed.

Definition named (row : crow) (cs : list Q) : list (string * Q) := map (fun c => (cr_name row, c - cr_start row)) cs.

Lemma cut_row_spec tol name start fin k : 0 <= tol -> k [] = Some [] -> forall ss l, sset ss -> cut_row tol name start fin k ss = Some l ->
  exists cs rest l', l = map (fun c => (name, c - start)) cs ++ l' /\ k rest = Some l' /\ sset cs /\ sset rest
    /\ (forall c, In c cs -> In c ss /\ inside tol c start fin)
    /\ (forall c, In c rest -> In c ss /\ fin < c)
    /\ (forall c, In c ss -> start <= c -> near tol c start \/ near tol c fin \/ In c cs \/ In c rest).
Proof.
  intros T K. induction ss as [|c ss IH]; intros l S H; cbn [cut_row] in H.
  - injection H as <-. exists [], [], []. cbn. intuition.
  - destruct S as [S1 S2].
    assert (Drop : cut_row tol name start fin k ss = Some l -> (start <= c -> near tol c start \/ near tol c fin) ->
      exists cs rest l', l = map (fun c => (name, c - start)) cs ++ l' /\ k rest = Some l' /\ sset cs /\ sset rest
        /\ (forall x, In x cs -> In x (c :: ss) /\ inside tol x start fin)
        /\ (forall x, In x rest -> In x (c :: ss) /\ fin < x)
        /\ (forall x, In x (c :: ss) -> start <= x -> near tol x start \/ near tol x fin \/ In x cs \/ In x rest)).
    { intros H' N. destruct (IH l S2 H') as (cs & rest & l' & A1 & A2 & A3 & A4 & A5 & A6 & A7). exists cs, rest, l'.
      split; [exact A1|]. split; [exact A2|]. split; [exact A3|]. split; [exact A4|]. split; [|split].
      - intros x Hx. destruct (A5 x Hx). cbn. auto.
      - intros x Hx. destruct (A6 x Hx). cbn. auto.
      - intros x [<-|Hx] Sx; [destruct (N Sx); auto|]. apply A7; assumption. }
    destruct (isclose tol c start) eqn:C1; [apply (Drop H); intros _; left; apply isclose_iff, C1|].
    destruct (isclose tol c fin) eqn:C2; [apply (Drop H); intros _; right; apply isclose_iff, C2|].
    apply isclose_false in C1 as N1. apply isclose_false in C2 as N2.
    destruct (Qltb start c && Qltb c fin) eqn:In1.
    + apply andb_true_iff in In1. destruct In1 as [I1 I2]. apply qltb_iff in I1, I2.
      destruct (cut_row tol name start fin k ss) as [l0|] eqn:R; [|discriminate]. cbn in H. injection H as <-.
      destruct (IH l0 S2 eq_refl) as (cs & rest & l' & A1 & A2 & A3 & A4 & A5 & A6 & A7). exists (c :: cs), rest, l'.
      split; [subst l0; reflexivity|]. split; [exact A2|]. split; [split; [|exact A3]|].
      { intros y Hy. apply S1, (proj1 (A5 y Hy)). }
      split; [exact A4|]. split; [|split].
      * intros x [<-|Hx]; [split; [left; reflexivity|split; [exact I1|split; [exact I2|split; assumption]]]|]. destruct (A5 x Hx). cbn. auto.
      * intros x Hx. destruct (A6 x Hx). cbn. auto.
      * intros x [<-|Hx] Sx; [cbn; auto|]. destruct (A7 x Hx Sx) as [?|[?|[?|?]]]; cbn; auto.
    + destruct (Qltb c start) eqn:Lt.
      * apply (Drop H). apply qltb_iff in Lt. intro. lra.
      * apply qltb_false in Lt.
        assert (F : fin < c).
        { destruct (Qlt_le_dec fin c); [assumption|exfalso].
          assert (E1 : start < c) by (destruct (Qle_lt_or_eq _ _ Lt) as [|E]; [assumption|exfalso; apply N1, near_eq; [exact T|symmetry; exact E]]).
          assert (E2 : c < fin) by (destruct (Qle_lt_or_eq _ _ q) as [|E]; [assumption|exfalso; apply N2, near_eq; [exact T|exact E]]).
          apply qltb_iff in E1, E2. rewrite E1, E2 in In1. discriminate. }
        exists [], (c :: ss), l. cbn [map app]. split; [reflexivity|]. split; [exact H|]. split; [exact I|]. split; [split; assumption|].
        split; [intros x []|]. split; [|auto]. intros x [<-|Hx]; [split; [left; reflexivity|exact F]|]. split; [right; exact Hx|]. specialize (S1 x Hx). lra.
Qed.

Fixpoint chain (s : Q) (tab : list crow) : Prop :=
  match tab with
  | [] => True
  | r :: t => cr_start r = s /\ (cr_thick r = false -> cr_len r = 0) /\ chain (s + cr_len r) t
  end.
Definition row_cuts (tol : Q) (ss : list Q) (row : crow) (cs : list Q) : Prop :=
  (cs <> [] -> cr_thick row = true) /\ sset cs /\
  forall c, In c cs -> In c ss /\ inside tol c (cr_start row) (cr_start row + cr_len row).
Definition flat (tab : list crow) (css : list (list Q)) : list (string * Q) :=
  List.concat (map (fun p => named (fst p) (snd p)) (combine tab css)).

Lemma scan_at b s s' l : s == s' -> at_boundary b (scan s l) -> at_boundary b (scan s' l).
Proof.
  revert s s'. induction l as [|x l IH]; intros s s' E (y & Hy & Ey); cbn [scan] in Hy.
  - destruct Hy as [<-|[]]. exists s'. split; [left; reflexivity|]. lra.
  - destruct Hy as [<-|Hy]; [exists s'; split; [left; reflexivity|]; lra|].
    destruct (IH (s + x) (s' + x)) as (z & Hz & Ez); [lra|exists y; auto|]. exists z. split; [right; exact Hz|exact Ez].
Qed.
Lemma scan_eq b s s' l : s == s' -> at_boundary b (scan s l) <-> at_boundary b (scan s' l).
Proof. intro E. split; apply scan_at; [exact E|symmetry; exact E]. Qed.
Lemma near_comp tol a b b' : b == b' -> near tol a b -> near tol a b'.
Proof. unfold near. intros E H. rewrite <- E. exact H. Qed.

Lemma cuts_spec tol : 0 <= tol -> forall tab s ss l, chain s tab -> sset ss -> cuts tol tab ss = Some l ->
  exists css, Forall2 (row_cuts tol ss) tab css /\ l = flat tab css /\
    forall c, In c ss -> s <= c -> (exists b, In b (scan s (map cr_len tab)) /\ near tol c b) \/ exists cs, In cs css /\ In c cs.
Proof.
  intros T. induction tab as [|row tab IH]; intros s ss l Ch S H.
  - cbn in H. destruct ss; [|discriminate]. injection H as <-. exists []. split; [constructor|]. split; [reflexivity|]. intros c [].
  - rewrite cuts_cons in H. destruct Ch as (St & Th & Ch). destruct (cr_thick row) eqn:Tk.
    + destruct (cut_row_spec tol _ _ _ _ T (cuts_nil tol tab) ss l S H) as (cs & rest & l' & A1 & A2 & A3 & A4 & A5 & A6 & A7).
      destruct (IH _ rest l' Ch A4 A2) as (css & B1 & B2 & B3). exists (cs :: css). split; [|split].
      * constructor; [split; [intros _; exact Tk|split; [exact A3|exact A5]]|]. eapply forall2_impl; [|exact B1].
        intros r c0 (P1 & P2 & P3). split; [exact P1|]. split; [exact P2|]. intros c Hc. destruct (P3 c Hc) as [P4 P5]. split; [apply A6, P4|exact P5].
      * subst l l'. reflexivity.
      * intros c Hc Sc. destruct (A7 c Hc) as [N|[N|[N|N]]]; [rewrite St; exact Sc| | | |].
        -- left. exists s. split; [left; reflexivity|]. rewrite <- St. exact N.
        -- left. destruct tab as [|r2 t2]; (exists (s + cr_len row); split; [right; left; reflexivity|]; rewrite <- St; exact N).
        -- right. exists cs. split; [left; reflexivity|exact N].
        -- destruct (A6 c N) as [_ F]. destruct (B3 c N) as [(b & Hb & Nb)|(cs' & H1 & H2)]; [rewrite St in F; lra| |].
           ++ left. exists b. split; [right; exact Hb|exact Nb].
           ++ right. exists cs'. split; [right; exact H1|exact H2].
    + specialize (Th eq_refl). destruct (IH _ ss l Ch S H) as (css & B1 & B2 & B3). exists ([] :: css). split; [|split].
      * constructor; [|exact B1]. split; [congruence|]. split; [exact I|intros c []].
      * exact B2.
      * intros c Hc Sc. destruct (B3 c Hc) as [(b & Hb & Nb)|(cs' & H1 & H2)]; [rewrite Th; lra| |].
        -- left. exists b. split; [right; exact Hb|exact Nb].
        -- right. exists cs'. split; [right; exact H1|exact H2].
Qed.

Lemma chain_thin s tab : chain s tab -> Forall (fun r => cr_thick r = false) tab -> qsum (map cr_len tab) == 0.
Proof.
  revert s. induction tab as [|r t IH]; intros s C F; cbn; [reflexivity|]. destruct C as (_ & Z & C). inversion F as [|x y F1 F2]; subst.
  rewrite (Z F1), (IH _ C F2). reflexivity.
Qed.
Lemma cuts_defined tol : 0 <= tol -> forall tab s ss, chain s tab -> Forall (fun r => 0 <= cr_len r) tab -> sset ss ->
  (forall c, In c ss -> c <= s + qsum (map cr_len tab)) ->
  (Exists (fun r => cr_thick r = true) tab \/ forall c, In c ss -> s < c) -> exists l, cuts tol tab ss = Some l.
Proof.
  intros T. induction tab as [|row tab IH]; intros s ss Ch Ps S B E.
  - destruct ss as [|c ss]; [exists []; reflexivity|exfalso]. destruct E as [E|E]; [inversion E|].
    specialize (E c (or_introl eq_refl)). specialize (B c (or_introl eq_refl)). cbn in B. lra.
  - rewrite cuts_cons. destruct Ch as (St & Th & Ch). inversion Ps as [|x y P1 P2]; subst x y. cbn [map qsum] in B. destruct (cr_thick row) eqn:Tk.
    + revert S B. clear E. induction ss as [|c ss IHs]; intros S B; cbn [cut_row]; [eauto|]. destruct S as [S1 S2].
      assert (R : exists l, cut_row tol (cr_name row) (cr_start row) (cr_start row + cr_len row) (cuts tol tab) ss = Some l).
      { apply IHs; [exact S2|]. intros x Hx. apply B. right. exact Hx. }
      destruct (isclose tol c (cr_start row)) eqn:C1; [exact R|]. destruct (isclose tol c (cr_start row + cr_len row)) eqn:C2; [exact R|].
      destruct (Qltb (cr_start row) c && Qltb c (cr_start row + cr_len row)) eqn:In1; [destruct R as (l & ->); cbn; eauto|].
      destruct (Qltb c (cr_start row)) eqn:Lt; [exact R|]. apply isclose_false in C1, C2. apply qltb_false in Lt.
      assert (F : cr_start row + cr_len row < c).
      { destruct (Qlt_le_dec (cr_start row + cr_len row) c); [assumption|exfalso].
        assert (E1 : cr_start row < c) by (destruct (Qle_lt_or_eq _ _ Lt) as [|E]; [assumption|exfalso; apply C1, near_eq; [exact T|symmetry; exact E]]).
        assert (E2 : c < cr_start row + cr_len row) by (destruct (Qle_lt_or_eq _ _ q) as [|E]; [assumption|exfalso; apply C2, near_eq; [exact T|exact E]]).
        apply qltb_iff in E1, E2. rewrite E1, E2 in In1. discriminate. }
      apply (IH (s + cr_len row)); [exact Ch|exact P2|split; assumption| |].
      * intros x Hx. specialize (B x Hx). lra.
      * right. intros x [<-|Hx]; [rewrite <- St; exact F|]. specialize (S1 x Hx). rewrite <- St. lra.
    + specialize (Th eq_refl). apply (IH (s + cr_len row)); [exact Ch|exact P2|exact S| |].
      * intros x Hx. specialize (B x Hx). lra.
      * destruct E as [E|E]; [left; inversion E; subst; [congruence|assumption]|right]. intros c Hc. rewrite Th. specialize (E c Hc). lra.
Qed.

(** * The table *)
Lemma crows_spec v : forall rows s bs, bounds v s (map snd rows) = Some bs ->
  exists tab, crows v s rows = Some tab /\ chain s tab /\ bs = scan s (map cr_len tab) /\
    Forall2 (fun row r => cr_name r = fst row /\ s_length v (snd row) = Some (cr_len r) /\
       exists t e, resolve v (snd row) = Some (t, e) /\ thick e = cr_thick r) rows tab.
Proof.
  induction rows as [|[nn n] rows IH]; intros s bs H; cbn in H.
  - injection H as <-. exists []. cbn. auto.
  - destruct (s_length v n) as [l|] eqn:L; [|discriminate]. destruct (bounds v (s + l) (map snd rows)) as [b|] eqn:B; [|discriminate]. injection H as <-.
    destruct (IH _ _ B) as (tab & H1 & H2 & H3 & H4). cbn [crows]. unfold s_length in L. destruct (resolve v n) as [[t e]|] eqn:R; [|discriminate].
    assert (L' : s_length v n = Some l) by (unfold s_length; rewrite R; exact L). rewrite L', H1. eexists. split; [reflexivity|].
    split; [cbn [chain cr_start cr_len cr_thick]; split; [reflexivity|split; [|exact H2]]|split].
    + intro Tk. rewrite Tk in L. congruence.
    + cbn. rewrite H3. reflexivity.
    + constructor; [|exact H4]. cbn. split; [reflexivity|]. split; [exact L'|]. exists t, e. rewrite R. auto.
Qed.

(** * The strategies *)
Lemma find_app {A} (f : A -> bool) l1 l2 : List.find f (l1 ++ l2) = match List.find f l1 with Some x => Some x | None => List.find f l2 end.
Proof. induction l1 as [|x l1 IH]; cbn; [reflexivity|]. destruct (f x); [reflexivity|exact IH]. Qed.
Lemma find_only {A} (f : A -> bool) x l : In x l -> f x = true -> (forall y, In y l -> f y = true -> y = x) -> List.find f l = Some x.
Proof.
  induction l as [|y l IH]; intros Hin Fx U; [destruct Hin|]. cbn. destruct (f y) eqn:Fy.
  - f_equal. apply U; [left; reflexivity|exact Fy].
  - destruct Hin as [->|Hin]; [congruence|]. apply IH; [exact Hin|exact Fx|]. intros z Hz. apply U. right. exact Hz.
Qed.

Definition cut_scheme (l : list (string * Q)) (nn : string) : option scheme :=
  match cuts_of nn l with [] => None | cs => Some (Custom cs MThick) end.
Lemma cuts_of_in nn l : In nn (map fst l) <-> cuts_of nn l <> [].
Proof.
  unfold cuts_of. induction l as [|[m x] l IH]; cbn; [intuition|]. destruct (String.eqb_spec nn m).
  - cbn. split; [discriminate|]. intros _. left. auto.
  - rewrite <- IH. intuition congruence.
Qed.

Lemma scheme_cut v n l nn e0 t e : lookup v n = Some e0 -> resolve v n = Some (t, e) ->
  scheme_for_element (cut_strategies l) nn e0 e = Some (cut_scheme l nn).
Proof.
  intros L R. unfold scheme_for_element, cut_strategies.
  set (g := fun m => mkStrategy (Some (Custom (cuts_of m l) MThick)) (Some (String.eqb m)) None).
  set (f := fun s => match_element s nn e0 e).
  assert (Fg : forall m, f (g m) = String.eqb m nn).
  { intro m. unfold f, g, match_element. cbn. destruct (is_drift_elem e0); [reflexivity|apply andb_true_r]. }
  cbn [rev]. rewrite <- app_assoc, find_app. destruct (in_dec string_dec nn (map fst l)) as [I|N].
  - rewrite (find_only f (g nn)).
    + cbn. unfold cut_scheme. apply cuts_of_in in I. destruct (cuts_of nn l); [congruence|reflexivity].
    + apply -> in_rev. apply in_map. apply nodup_In. exact I.
    + rewrite Fg. apply String.eqb_refl.
    + intros y Hy Fy. apply in_rev in Hy. apply in_map_iff in Hy. destruct Hy as (m & <- & _). rewrite Fg in Fy. apply String.eqb_eq in Fy. subst m. reflexivity.
  - assert (X : List.find f (rev (map g (nodup string_dec (map fst l)))) = None).
    { destruct (List.find f (rev (map g (nodup string_dec (map fst l))))) as [y|] eqn:Fy; [exfalso|reflexivity].
      apply find_some in Fy. destruct Fy as [Hy Fy]. apply in_rev in Hy. apply in_map_iff in Hy. destruct Hy as (m & <- & Hm).
      rewrite Fg in Fy. apply String.eqb_eq in Fy. subst m. apply nodup_In in Hm. contradiction. }
    rewrite X. cbn [app List.find]. unfold cut_scheme.
    assert (Z : cuts_of nn l = []) by (destruct (cuts_of nn l) eqn:Q; [reflexivity|exfalso; apply N, cuts_of_in; congruence]). rewrite Z.
    unfold f at 1. unfold match_element. cbn [st_name st_type]. destruct (is_drift_elem e0) eqn:D; [|reflexivity].
    unfold f, match_element. cbn [st_name st_type drifts_untouched]. rewrite D.
    assert (e = e0) as -> by (unfold resolve in R; rewrite L in R; destruct e0; cbn in D; try discriminate; congruence). rewrite D. reflexivity.
Qed.

(** the cuts of a row *)
Lemma cuts_of_app nn a b : cuts_of nn (a ++ b) = cuts_of nn a ++ cuts_of nn b.
Proof. unfold cuts_of. rewrite filter_app, map_app. reflexivity. Qed.
Lemma cuts_of_named row cs : cuts_of (cr_name row) (named row cs) = map (fun c => c - cr_start row) cs.
Proof. unfold cuts_of, named. induction cs as [|c cs IH]; cbn; [reflexivity|]. rewrite String.eqb_refl. cbn. f_equal. exact IH. Qed.
Lemma cuts_of_other nn row cs : nn <> cr_name row -> cuts_of nn (named row cs) = [].
Proof. intro N. unfold cuts_of, named. induction cs as [|c cs IH]; cbn; [reflexivity|]. destruct (String.eqb_spec nn (cr_name row)); [contradiction|]. exact IH. Qed.
Lemma cuts_of_flat_other nn tab css : ~ In nn (map cr_name tab) -> cuts_of nn (flat tab css) = [].
Proof.
  revert css. induction tab as [|r t IH]; intros css N; [reflexivity|]. destruct css as [|cs css]; [reflexivity|].
  unfold flat. cbn [combine map List.concat fst snd]. rewrite cuts_of_app, cuts_of_other; [|intro E; apply N; left; auto].
  apply IH. intro H. apply N. right. exact H.
Qed.
Lemma cuts_of_flat tol ss tab css : NoDup (map cr_name tab) -> Forall2 (row_cuts tol ss) tab css ->
  Forall2 (fun row cs => cuts_of (cr_name row) (flat tab css) = map (fun c => c - cr_start row) cs) tab css.
Proof.
  intros ND F. induction F as [|row cs tab css H F IH]; [constructor|]. cbn [map] in ND. inversion ND as [|x y N1 N2]; subst.
  unfold flat. cbn [combine map List.concat fst snd]. fold (flat tab css). constructor.
  - rewrite cuts_of_app, cuts_of_named, (cuts_of_flat_other _ _ _ N1). apply app_nil_r.
  - assert (G : Forall2 (fun r c => In r tab -> cuts_of (cr_name r) (named row cs ++ flat tab css) = map (fun x => x - cr_start r) c) tab css).
    { eapply forall2_impl; [|apply IH, N2]. intros r c Hr Hin. rewrite cuts_of_app, Hr, cuts_of_other; [reflexivity|].
      intro E. apply N1. rewrite <- E. apply in_map, Hin. }
    assert (Cl : forall (P : crow -> list Q -> Prop) l1 l2 sub, Forall2 (fun r c => In r sub -> P r c) l1 l2 -> (forall x, In x l1 -> In x sub) -> Forall2 P l1 l2).
    { clear. intros P l1 l2 sub F. induction F; intro I; constructor; [apply H, I; left; reflexivity|]. apply IHF. intros; apply I; right; assumption. }
    eapply Cl; [exact G|auto].
Qed.

(** * Boundaries *)
Lemma scan_app b : forall l1 l2 s, at_boundary b (scan s (l1 ++ l2)) <-> at_boundary b (scan s l1) \/ at_boundary b (scan (s + qsum l1) l2).
Proof.
  induction l1 as [|x l1 IH]; intros l2 s.
  - cbn [app qsum]. split.
    + intro H. right. eapply scan_at; [|exact H]. lra.
    + intros [(y & [<-|[]] & E)|H].
      * destruct l2; (exists s; split; [left; reflexivity|exact E]).
      * eapply scan_at; [|exact H]. lra.
  - cbn [app scan qsum]. specialize (IH l2 (s + x)). split.
    + intros (y & [<-|Hy] & E); [left; exists s; split; [left; reflexivity|exact E]|].
      destruct (proj1 IH) as [(z & Hz & Ez)|H]; [exists y; auto|left; exists z; split; [right; exact Hz|exact Ez]|right].
      eapply scan_at; [|exact H]. lra.
    + intros [(y & [<-|Hy] & E)|H].
      * exists s. split; [left; reflexivity|exact E].
      * destruct (proj2 IH) as (z & Hz & Ez); [left; exists y; auto|]. exists z. split; [right; exact Hz|exact Ez].
      * destruct (proj2 IH) as (z & Hz & Ez); [right; eapply scan_at; [|exact H]; lra|]. exists z. split; [right; exact Hz|exact Ez].
Qed.
Lemma scan_zeros b k : forall s, at_boundary b (scan s (repeat 0 k)) <-> b == s.
Proof.
  induction k as [|k IH]; intro s; cbn [repeat scan].
  - split; [intros (y & [<-|[]] & E); lra|]. intro E. exists s. split; [left; reflexivity|lra].
  - split.
    + intros (y & [<-|Hy] & E); [lra|]. assert (b == s + 0) by (apply IH; exists y; auto). lra.
    + intro E. exists s. split; [left; reflexivity|lra].
Qed.
Lemma scan_custom b len : ~ len == 0 -> forall l x a,
  at_boundary b (scan a (map (fun w => len * w) (map (fun y => y / len) (diffs x (l ++ [len])))))
  <-> b == a \/ exists y, In y (l ++ [len]) /\ b == a + (y - x).
Proof.
  intro N. induction l as [|y l IH]; intros x a; cbn [app diffs map scan].
  - assert (Q : len * ((len - x) / len) == len - x) by (field; exact N). split.
    + intros (z & [<-|[<-|[]]] & E); [left; lra|right]. exists len. split; [left; reflexivity|]. rewrite <- E, Q. reflexivity.
    + intros [E|(y & [<-|[]] & E)]; [exists a; split; [left; reflexivity|lra]|].
      exists (a + len * ((len - x) / len)). split; [right; left; reflexivity|]. rewrite Q, E. reflexivity.
  - assert (Q : len * ((y - x) / len) == y - x) by (field; exact N). specialize (IH y (a + len * ((y - x) / len))). split.
    + intros (z & [<-|Hz] & E); [left; lra|]. destruct (proj1 IH) as [E1|(w & Hw & Ew)]; [exists z; auto| |]; right.
      * exists y. split; [left; reflexivity|]. rewrite E1, Q. reflexivity.
      * exists w. split; [right; exact Hw|]. rewrite Ew, Q. ring.
    + intros [E|(w & [<-|Hw] & E)]; [exists a; split; [left; reflexivity|lra]| |].
      * destruct (proj2 IH) as (z & Hz & Ez); [left; rewrite E, Q; reflexivity|]. exists z. split; [right; exact Hz|exact Ez].
      * destruct (proj2 IH) as (z & Hz & Ez); [right; exists w; split; [exact Hw|rewrite E, Q; ring]|]. exists z. split; [right; exact Hz|exact Ez].
Qed.
Lemma layout_lens_thick dr len ws : (forall x, In x ws -> snd x = true) -> layout_lens dr len ws = map (fun w => len * w) (drifts ws).
Proof.
  induction ws as [|[w b] ws IH]; intro T; [reflexivity|]. assert (b = true) as -> by (apply (T (w, b)); left; reflexivity).
  unfold drifts. cbn. f_equal. apply IH. intros x Hx. apply T. right. exact Hx.
Qed.

Lemma iter_all_thick c len ws : iter_weights c len = Some ws -> mode_of c = MThick -> forall x, In x ws -> snd x = true.
Proof.
  intros W M x Hx. unfold iter_weights in W. destruct (zero_custom _ _); [discriminate|]. destruct (element_weights _); [|discriminate].
  injection W as <-. rewrite M in Hx. eapply weave_all_thick; exact Hx.
Qed.

Lemma inc_of_sset a b l : a < b -> sset l -> (forall c, In c l -> a < c /\ c < b) -> increasing 0 (map (fun c => c - a) l) (b - a).
Proof.
  intros H S B. assert (G : forall l x, x < b -> sset l -> (forall c, In c l -> x < c /\ c < b) -> increasing (x - a) (map (fun c => c - a) l) (b - a)).
  { clear. induction l as [|y l IH]; intros x Hx S B; cbn; [lra|]. destruct S as [S1 S2]. destruct (B y (or_introl eq_refl)). split; [lra|].
    apply IH; [lra|exact S2|]. intros c Hc. split; [apply S1, Hc|apply B; right; exact Hc]. }
  specialize (G l a H S B). assert (Z : forall l x y z, x == y -> increasing x l z -> increasing y l z).
  { clear. destruct l as [|w l]; cbn; intros x y z E I; [lra|]. destruct I. split; [lra|assumption]. }
  eapply Z; [|exact G]. ring.
Qed.
Lemma inc_end l : forall a b b', b == b' -> increasing a l b -> increasing a l b'.
Proof. induction l as [|x l IH]; cbn; intros a b b' E H; [lra|]. destruct H. split; [assumption|eapply IH; eassumption]. Qed.

Lemma row_bounds l v v' row r cs chunk tol ss : keeps v v' ->
  s_length v (snd row) = Some (cr_len r) -> cr_name r = fst row ->
  (exists t e, resolve v (snd row) = Some (t, e) /\ thick e = cr_thick r) ->
  cuts_of (cr_name r) l = map (fun c => c - cr_start r) cs -> row_cuts tol ss r cs ->
  row_sliced (cut_strategies l) v v' row chunk ->
  (cs = [] -> chunk = [snd row]) /\
  exists lens, lens_ok v' chunk lens /\ qsum lens == cr_len r /\
    (forall b, at_boundary b (scan (cr_start r) lens) <-> b == cr_start r \/ b == cr_start r + cr_len r \/ at_boundary b cs) /\
    (0 <= cr_len r -> forall l, In l lens -> 0 <= l).
Proof.
  intros K S Nm (t0 & e1 & R1 & Tk) Cu (RC1 & RC2 & RC3) (e0 & t & e & L & R & Out).
  rewrite R in R1. injection R1 as <- <-. pose proof (scheme_cut v (snd row) l (fst row) e0 t e L R) as Sc. rewrite <- Nm in Sc.
  assert (Plain : chunk = [snd row] -> cs = [] -> (cs = [] -> chunk = [snd row]) /\
    exists lens, lens_ok v' chunk lens /\ qsum lens == cr_len r /\
      (forall b, at_boundary b (scan (cr_start r) lens) <-> b == cr_start r \/ b == cr_start r + cr_len r \/ at_boundary b cs) /\
      (0 <= cr_len r -> forall l, In l lens -> 0 <= l)).
  { intros -> ->. split; [reflexivity|]. exists [cr_len r]. split; [|split; [|split]].
    - constructor; [|constructor]. exists (cr_len r). split; [eapply s_length_keeps; eassumption|reflexivity].
    - cbn. ring.
    - intro b. cbn [scan]. split.
      + intros (y & [<-|[<-|[]]] & E); [left; lra|right; left; lra].
      + intros [E|[E|(y & [] & _)]]; [exists (cr_start r); split; [left; reflexivity|lra]|].
        exists (cr_start r + cr_len r). split; [right; left; reflexivity|lra].
    - intros P l0 [<-|[]]. exact P. }
  destruct Out as [(Ch & [Sk|Sn])|(c & len & ws & Sk & Sn & El & W & Fr)].
  - apply Plain; [exact Ch|]. destruct cs as [|c cs]; [reflexivity|exfalso].
    destruct (RC3 c (or_introl eq_refl)) as [_ (I1 & I2 & _)]. rewrite RC1 in Tk by discriminate.
    unfold skip in Sk. rewrite Tk in Sk. cbn in Sk. unfold resolve in R. rewrite L in R. destruct e0 as [cl l0 g| | |]; try discriminate.
    injection R as <- <-. apply Qeq_bool_iff in Sk. unfold s_length, resolve in S. rewrite L, Tk in S. cbn in S. injection S as S. rewrite <- S in I2. lra.
  - apply Plain; [exact Ch|]. rewrite Nm in Sc. rewrite Sn in Sc. injection Sc as Sc. unfold cut_scheme in Sc. rewrite <- Nm, Cu in Sc. destruct cs; [reflexivity|discriminate].
  - rewrite <- Nm in Sn. rewrite Sn in Sc. injection Sc as Sc. unfold cut_scheme in Sc. rewrite Cu in Sc.
    destruct cs as [|c1 cs']; [discriminate|]. set (cs := c1 :: cs') in *.
    assert (Ec : c = Custom (map (fun c => c - cr_start r) cs) MThick) by (unfold cs in *; cbn in Sc |- *; congruence).
    clear Sc. subst c. split; [discriminate|].
    destruct Fr as (pre & body & post & -> & Z & F). apply resolve_iff in R as R0. destruct R0 as [_ Lt].
    assert (len = cr_len r) as ->.
    { unfold s_length in S. rewrite R in S. unfold skip in Sk. apply orb_false_iff in Sk. destruct Sk as [Sk _]. apply negb_false_iff in Sk.
      rewrite Sk, El in S. congruence. }
    destruct (slice_parent_own v t e _ Lt El) as (cl & lp & g & P & Q).
    exists (repeat 0 (List.length pre) ++ layout_lens (drift_like e) (cr_len r) ws ++ repeat 0 (List.length post)). split; [|split; [|split]].
    + apply Forall2_app; [|apply Forall2_app].
      * apply zeros_lens. intros n Hn. apply Z, in_app_iff. auto.
      * eapply lens_eq; [|eapply real_lens; [apply K, P|exact F]]. apply layout_piece; [exact Q|].
        unfold auto_drift. destruct e; cbn; try discriminate. reflexivity.
      * apply zeros_lens. intros n Hn. apply Z, in_app_iff. auto.
    + rewrite !qsum_app, !qsum_repeat, layout_lens_sum, (iter_drifts _ _ _ W), drift_weights_sum; [ring|].
      unfold iter_weights in W. destruct (zero_custom _ _); [discriminate|reflexivity].
    + assert (N : ~ cr_len r == 0).
      { destruct (RC3 c1 (or_introl eq_refl)) as [_ (I1 & I2 & _)]. lra. }
      assert (Sum : qsum (layout_lens (drift_like e) (cr_len r) ws) == cr_len r).
      { rewrite layout_lens_sum, (iter_drifts _ _ _ W), drift_weights_sum; [ring|].
        unfold iter_weights in W. destruct (zero_custom _ _); [discriminate|reflexivity]. }
      assert (All : forall x, In x ws -> snd x = true).
      { apply (iter_all_thick _ _ _ W). reflexivity. }
      intro b. rewrite scan_app, scan_zeros.
      rewrite (scan_eq b (cr_start r + qsum (repeat 0 (List.length pre))) (cr_start r)) by (rewrite qsum_repeat; ring).
      rewrite scan_app, scan_zeros. rewrite Sum.
      rewrite (layout_lens_thick _ _ _ All), (iter_drifts _ _ _ W). cbn [drift_weights]. rewrite (scan_custom b _ N).
      split.
      * intros [E|[[E|(y & Hy & E)]|E]]; [left; exact E|left; rewrite E; ring| |right; left; rewrite E; ring].
        apply in_app_iff in Hy. destruct Hy as [Hy|[<-|[]]]; [|right; left; rewrite E; ring].
        apply in_map_iff in Hy. destruct Hy as (c & <- & Hc). right. right. exists c. split; [exact Hc|]. rewrite E. ring.
      * intros [E|[E|(c & Hc & E)]]; [left; exact E|right; right; rewrite E; ring|right; left; right].
        exists (c - cr_start r). split; [apply in_app_iff; left; apply in_map_iff; exists c; auto|]. rewrite <- E. ring.
    + intros Pos l0 Hl. apply in_app_iff in Hl. destruct Hl as [Hl|Hl]; [apply repeat_spec in Hl; subst; apply Qle_refl|].
      apply in_app_iff in Hl. destruct Hl as [Hl|Hl]; [|apply repeat_spec in Hl; subst; apply Qle_refl].
      rewrite (layout_lens_thick _ _ _ (iter_all_thick _ _ _ W eq_refl)) in Hl. apply in_map_iff in Hl. destruct Hl as (w & <- & Hw).
      assert (Inc : increasing 0 (map (fun c => c - cr_start r) cs) (cr_len r)).
      { eapply inc_end; [|apply (inc_of_sset (cr_start r) (cr_start r + cr_len r))]; [ring| |exact RC2|].
        - destruct (RC3 c1 (or_introl eq_refl)) as [_ (I1 & I2 & _)]. lra.
        - intros c Hc. destruct (RC3 c Hc) as [_ (I1 & I2 & _)]. split; assumption. }
      assert (Uw : usable (Custom (map (fun c => c - cr_start r) cs) MThick) (cr_len r)) by (split; [discriminate|exact Inc]).
      destruct (weights_positive _ _ _ Uw W) as (Pw & _). apply Qmult_le_0_compat; [exact Pos|]. apply Qlt_le_weak, Pw, Hw.
Qed.

(** * All rows *)
Lemma rows_bounds l v v' tol ss : keeps v v' -> forall rows tab css chunks s, chain s tab ->
  Forall2 (fun row r => cr_name r = fst row /\ s_length v (snd row) = Some (cr_len r) /\
       exists t e, resolve v (snd row) = Some (t, e) /\ thick e = cr_thick r) rows tab ->
  Forall2 (fun r cs => cuts_of (cr_name r) l = map (fun c => c - cr_start r) cs) tab css ->
  Forall2 (row_cuts tol ss) tab css ->
  Forall2 (row_sliced (cut_strategies l) v v') rows chunks ->
  exists lens, lens_ok v' (List.concat chunks) lens /\ qsum lens == qsum (map cr_len tab) /\
    (forall b, at_boundary b (scan s lens) <-> at_boundary b (scan s (map cr_len tab)) \/ exists cs, In cs css /\ at_boundary b cs) /\
    (forall i row, nth_error rows i = Some row -> nth_error css i = Some [] -> nth_error chunks i = Some [snd row]) /\
    Forall2 (fun r chunk => exists l, line_length v' chunk = Some l /\ l == cr_len r) tab chunks /\
    (Forall (fun r => 0 <= cr_len r) tab -> forall l, In l lens -> 0 <= l).
Proof.
  intros K. induction rows as [|row rows IH]; intros tab css chunks s Ch FT FC FR FS;
    inversion FT as [|x1 r x3 tab' (Nm & Sl & Rs) FT']; subst.
  - inversion FS; subst. inversion FC; subst. exists []. split; [constructor|]. split; [reflexivity|]. split.
    + intro b. cbn [map]. split; [auto|]. intros [H|(cs & [] & _)]. exact H.
    + split; [intros i row H; destruct i; discriminate|]. split; [constructor|intros _ l0 []].
  - inversion FC as [|y1 cs y3 css' Cu FC']; subst. inversion FR as [|z1 z2 z3 z4 RC FR']; subst. inversion FS as [|w1 chunk w3 chunks' RSl FS']; subst.
    destruct Ch as (St & Th & Ch).
    destruct (row_bounds l v v' row r cs chunk tol ss K Sl Nm Rs Cu RC RSl) as (U & lens1 & A1 & A2 & A3 & A4).
    destruct (IH tab' css' chunks' (s + cr_len r) Ch FT' FC' FR' FS') as (lens2 & B1 & B2 & B3 & B4 & B5 & B6).
    exists (lens1 ++ lens2). split; [|split; [|split; [|split; [|split]]]].
    + cbn. apply Forall2_app; assumption.
    + rewrite qsum_app, A2, B2. reflexivity.
    + intro b. rewrite scan_app. rewrite <- St. rewrite A3. rewrite St. cbn [map scan].
      assert (X : at_boundary b (scan (s + qsum lens1) lens2) <-> at_boundary b (scan (s + cr_len r) lens2)).
      { split; apply scan_at; rewrite A2; reflexivity. }
      rewrite X, B3. clear X. split.
      * intros [[E|[E|E]]|[(y & Hy & E)|(c & Hc & E)]].
        -- left. exists s. split; [left; reflexivity|lra].
        -- left. destruct tab'; (exists (s + cr_len r); split; [right; left; reflexivity|lra]).
        -- right. exists cs. split; [left; reflexivity|exact E].
        -- left. exists y. split; [right; exact Hy|exact E].
        -- right. exists c. split; [right; exact Hc|exact E].
      * intros [(y & [<-|Hy] & E)|(c & [<-|Hc] & E)].
        -- left. left. lra.
        -- right. left. exists y. auto.
        -- left. right. right. exact E.
        -- right. right. exists c. auto.
    + intros [|i] rw Hr Hc; cbn in *.
      * injection Hr as <-. injection Hc as ->. rewrite (U eq_refl). reflexivity.
      * apply B4; assumption.
    + constructor; [|exact B5]. destruct (lens_line v' _ _ A1) as (l0 & H1 & H2). exists l0. split; [exact H1|]. rewrite H2. exact A2.
    + intros P l0 Hl. inversion P as [|? ? P1 P2]; subst. apply in_app_iff in Hl. destruct Hl as [Hl|Hl]; [exact (A4 P1 l0 Hl)|exact (B6 P2 l0 Hl)].
Qed.

Lemma scan_nth_lens tab : forall s i r, chain s tab -> nth_error tab i = Some r ->
  exists a b, nth_error (scan s (map cr_len tab)) i = Some a /\ nth_error (scan s (map cr_len tab)) (S i) = Some b /\ a = cr_start r /\ b = (cr_start r + cr_len r).
Proof.
  induction tab as [|r0 tab IH]; intros s i r Ch H; [destruct i; discriminate|]. destruct Ch as (St & _ & Ch). destruct i as [|i].
  - cbn in H. injection H as ->. exists s, (s + cr_len r). cbn. rewrite St. destruct tab; auto.
  - cbn in H. cbn [map scan nth_error]. destruct (IH _ i r Ch H) as (a & b & H1 & H2 & H3). exists a, b. auto.
Qed.

Lemma forall2_nth {A B} (P : A -> B -> Prop) l1 l2 i a : Forall2 P l1 l2 -> nth_error l1 i = Some a -> exists b, nth_error l2 i = Some b /\ P a b.
Proof. intros F. revert i. induction F; intros [|i] H0; cbn in *; try discriminate; [injection H0 as <-; eauto|auto]. Qed.

Theorem cut_at_s_ok v rows tol ss v' names old :
  cache_ok v -> edge_names_ok v -> NoDup (map fst rows) -> 0 <= tol -> bounds v 0 (map snd rows) = Some old ->
  cut_at_s v rows tol ss = Some (v', names) ->
  keeps v v' /\ cache_ok v' /\ edge_names_ok v' /\
  exists new L L', bounds v' 0 names = Some new /\
    line_length v (map snd rows) = Some L /\ line_length v' names = Some L' /\ L' == L /\
    (forall b, at_boundary b old -> at_boundary b new) /\
    (forall b, at_boundary b new -> at_boundary b old \/ at_boundary b ss) /\
    (forall c, In c ss -> 0 <= c -> at_boundary c new \/ exists b, In b old /\ near tol c b) /\
    exists chunks, names = List.concat chunks /\ List.length chunks = List.length rows /\
      (forall i row a b, nth_error rows i = Some row -> nth_error old i = Some a -> nth_error old (S i) = Some b ->
        (forall c, In c ss -> ~ inside tol c a b) -> nth_error chunks i = Some [snd row]) /\
      Forall2 (fun row chunk => exists l l', s_length v (snd row) = Some l /\ line_length v' chunk = Some l' /\ l' == l) rows chunks /\
      ((forall n l, In n (map snd rows) -> s_length v n = Some l -> 0 <= l) -> forall n l, In n names -> s_length v' n = Some l -> 0 <= l).
Proof.
  intros C E ND T B H. unfold cut_at_s in H. destruct (crows_spec v rows 0 old B) as (tab & Ct & Ch & Eo & FT). rewrite Ct in H.
  destruct (cuts tol tab (sorted_set ss)) as [l|] eqn:Cu; [|discriminate].
  destruct (sorted_set_spec ss) as (S1 & S2 & S3).
  destruct (cuts_spec tol T tab 0 _ l Ch S1 Cu) as (css & FR & El & Cov).
  assert (Names : map cr_name tab = map fst rows).
  { clear - FT. induction FT as [|r c rs cs (H & _) _ IH]; cbn; congruence. }
  assert (FC : Forall2 (fun r cs => cuts_of (cr_name r) l = map (fun c => c - cr_start r) cs) tab css).
  { subst l. eapply cuts_of_flat; [rewrite Names; exact ND|exact FR]. }
  assert (Sl : Forall (fun r => s_length v (snd r) <> None) rows).
  { clear - FT. induction FT as [|r c rs cs (_ & H & _) _ IH]; constructor; [congruence|exact IH]. }
  destruct (slice_rows_ok _ _ rows v v' names C E Sl H) as (Ft & chunks & En & FS).
  destruct (rows_bounds l v v' tol _ (fits_keeps _ _ Ft) rows tab css chunks 0 Ch FT FC FR FS) as (lens & A1 & A2 & A3 & A4 & A5 & A6).
  split; [apply fits_keeps, Ft|]. split; [apply Ft|]. split; [apply Ft|].
  destruct (lens_bounds v' _ _ A1 0 0 (Qeq_refl _)) as (new & Bn & Fn).
  destruct (lens_line v' _ _ A1) as (L' & Ln & EL').
  destruct (bounds_lens v _ _ _ B) as (olens & OL & Eo2).
  destruct (lens_line v _ _ OL) as (L & Lo & EL).
  assert (SumOld : qsum olens == qsum (map cr_len tab)).
  { clear - OL FT. unfold lens_ok in OL. revert olens OL. induction FT as [|r c rs cs (_ & H & _) _ IH]; intros olens OL; inversion OL as [|x l xs ls (l' & H1 & H2) F]; subst; [reflexivity|].
    cbn. rewrite (IH _ F). rewrite H in H1. injection H1 as <-. rewrite H2. reflexivity. }
  assert (NewAt : forall b, at_boundary b new <-> at_boundary b (scan 0 lens)).
  { clear - Fn. intro b. split; intros (y & Hy & Ey).
    - apply In_nth_error in Hy. destruct Hy as (i & Hi). destruct (forall2_nth _ _ _ _ _ Fn Hi) as (z & Hz & Ez). exists z. split; [eapply nth_error_In; exact Hz|]. lra.
    - assert (Fn' : Forall2 (fun a b => b == a) (scan 0 lens) new) by (clear - Fn; induction Fn; constructor; assumption).
      apply In_nth_error in Hy. destruct Hy as (i & Hi). destruct (forall2_nth _ _ _ _ _ Fn' Hi) as (z & Hz & Ez). exists z. split; [eapply nth_error_In; exact Hz|]. lra. }
  exists new, L, L'. rewrite En. split; [exact Bn|]. split; [exact Lo|]. split; [exact Ln|]. split; [rewrite EL', A2, EL, SumOld; reflexivity|].
  split; [|split; [|split]].
  - intros b Hb. apply NewAt, A3. left. rewrite <- Eo. exact Hb.
  - intros b Hb. apply NewAt, A3 in Hb. destruct Hb as [Hb|(cs & Hcs & c & Hc & Ec)]; [left; rewrite Eo; exact Hb|right].
    apply In_nth_error in Hcs. destruct Hcs as (i & Hi).
    assert (FR' : Forall2 (fun cs r => row_cuts tol (sorted_set ss) r cs) css tab) by (clear - FR; induction FR; constructor; assumption).
    destruct (forall2_nth _ _ _ _ _ FR' Hi) as (r & _ & (_ & _ & RC)). destruct (RC c Hc) as [Hin _]. exists c. split; [apply S2, Hin|exact Ec].
  - intros c Hc Pc. destruct (S3 c Hc) as (c' & Hc' & Ec'). destruct (Cov c' Hc') as [(b & Hb & Nb)|(cs & Hcs & Hin)]; [lra| |].
    + right. exists b. split; [rewrite Eo; exact Hb|]. unfold near in *. rewrite <- Ec'. exact Nb.
    + left. apply NewAt, A3. right. exists cs. split; [exact Hcs|]. exists c'. auto.
  - exists chunks. split; [reflexivity|]. split; [clear - FS; induction FS; cbn; congruence|]. split; [|split].
    + intros i row a b Hr Ha Hb No. apply A4; [exact Hr|].
    destruct (forall2_nth _ _ _ _ _ FT Hr) as (r & Hr2 & _). destruct (forall2_nth _ _ _ _ _ FR Hr2) as (cs & Hcs & (_ & _ & RC)).
    rewrite Hcs. f_equal. destruct cs as [|c cs]; [reflexivity|exfalso]. destruct (RC c (or_introl eq_refl)) as [Hin Ins].
    destruct (scan_nth_lens tab 0 i r Ch Hr2) as (a' & b' & X1 & X2 & -> & ->). rewrite <- Eo in X1, X2. rewrite X1 in Ha. rewrite X2 in Hb.
    injection Ha as <-. injection Hb as <-. apply (No c); [apply S2, Hin|exact Ins].
    + clear - A5 FT. revert chunks A5. induction FT as [|rw r rws rs (_ & H & _) _ IH]; intros chunks A5; inversion A5 as [|? ch ? chs (l & H1 & H2) A5']; subst; constructor; [|apply IH, A5'].
      exists (cr_len r), l. auto.
    + intros P n l0 Hn Hl. assert (Pt : Forall (fun r => 0 <= cr_len r) tab).
      { clear - P FT. induction FT as [|rw r rws rs (_ & H & _) _ IH]; constructor; [apply (P (snd rw)); [left; reflexivity|exact H]|]. apply IH. intros n l0 Hn. apply P. right. exact Hn. }
      specialize (A6 Pt). clear - A1 A6 Hn Hl. induction A1 as [|m k ms ks (k' & H1 & H2) _ IH]; [destruct Hn|]. destruct Hn as [->|Hn].
      * rewrite Hl in H1. injection H1 as <-. assert (Pk := A6 k (or_introl eq_refl)). lra.
      * apply IH; [|exact Hn]. intros x Hx. apply A6. right. exact Hx.
Qed.

Theorem cut_at_s_defined v rows tol ss L : cache_ok v -> edge_names_ok v -> NoDup (map fst rows) -> 0 <= tol ->
  line_length v (map snd rows) = Some L ->
  (forall n l, In n (map snd rows) -> s_length v n = Some l -> 0 <= l) ->
  (forall c, In c ss -> c <= L) ->
  (exists n t e, In n (map snd rows) /\ resolve v n = Some (t, e) /\ thick e = true) ->
  exists r, cut_at_s v rows tol ss = Some r.
Proof.
  intros C E ND T Hl Pos B (n0 & t0 & e0 & Hn0 & Rn0 & Tn0).
  destruct (line_lens v _ _ Hl) as (olens & OL & EL). destruct (lens_bounds v _ _ OL 0 0 (Qeq_refl _)) as (old & Bo & _).
  destruct (crows_spec v rows 0 old Bo) as (tab & Ct & Ch & Eo & FT).
  assert (SumOld : qsum olens == qsum (map cr_len tab)).
  { clear - OL FT. unfold lens_ok in OL. revert olens OL. induction FT as [|r c rs cs (_ & H & _) _ IH]; intros olens OL; inversion OL as [|x l xs ls (l' & H1 & H2) F]; subst; [reflexivity|].
    cbn. rewrite (IH _ F). rewrite H in H1. injection H1 as <-. rewrite H2. reflexivity. }
  destruct (sorted_set_spec ss) as (S1 & S2 & S3).
  assert (Pt : Forall (fun r => 0 <= cr_len r) tab).
  { clear - FT Pos. induction FT as [|r c rs cs (_ & H & _) _ IH]; constructor.
    - eapply Pos; [left; reflexivity|exact H].
    - apply IH. intros n l Hn. apply Pos. right. exact Hn. }
  assert (Ex : Exists (fun r => cr_thick r = true) tab).
  { clear - FT Hn0 Rn0 Tn0. induction FT as [|r c rs cs (_ & _ & (t & e & R & Tk)) _ IH]; [destruct Hn0|]. destruct Hn0 as [E|Hn].
    - left. rewrite <- Tk. rewrite E, Rn0 in R. injection R as <- <-. exact Tn0.
    - right. apply IH, Hn. }
  destruct (cuts_defined tol T tab 0 (sorted_set ss) Ch Pt S1) as (l & Cu); [|left; exact Ex|].
  { intros c Hc. rewrite <- SumOld, <- EL. specialize (B c (S2 c Hc)). lra. }
  unfold cut_at_s. rewrite Ct, Cu. destruct (cuts_spec tol T tab 0 _ l Ch S1 Cu) as (css & FR & El & _).
  assert (Names : map cr_name tab = map fst rows).
  { clear - FT. induction FT as [|r c rs cs (H & _) _ IH]; cbn; congruence. }
  assert (FC : Forall2 (fun r cs => cuts_of (cr_name r) l = map (fun c => c - cr_start r) cs) tab css).
  { subst l. eapply cuts_of_flat; [rewrite Names; exact ND|exact FR]. }
  apply slice_rows_defined; [exact C|exact E|]. apply Forall_forall. intros row Hrow. apply In_nth_error in Hrow. destruct Hrow as (i & Hi).
  destruct (forall2_nth _ _ _ _ _ FT Hi) as (r & Hr & (Nm & Sl & (t & e & R & Tk))).
  destruct (forall2_nth _ _ _ _ _ FC Hr) as (cs & Hcs & Cs). destruct (forall2_nth _ _ _ _ _ FR Hr) as (cs' & Hcs' & (_ & RC2 & RC3)).
  rewrite Hcs in Hcs'. injection Hcs' as <-.
  assert (Lk : exists e1, lookup v (snd row) = Some e1) by (unfold resolve in R; destruct (lookup v (snd row)); [eauto|discriminate]).
  destruct Lk as (e1 & Lk). exists (cr_len r), e1, t, e. split; [exact Sl|]. split; [exact Lk|]. split; [exact R|]. intros _.
  eexists. split; [eapply scheme_cut; eassumption|]. intros c Hc. unfold cut_scheme in Hc. rewrite <- Nm, Cs in Hc.
  destruct cs as [|c0 cs]; [discriminate|]. assert (Ec : c = Custom (map (fun x => x - cr_start r) (c0 :: cs)) MThick) by (cbn in Hc |- *; congruence).
  clear Hc. subst c. split; [discriminate|].
  destruct (RC3 c0 (or_introl eq_refl)) as (_ & I1 & I2 & _).
  apply inc_end with (b := cr_start r + cr_len r - cr_start r); [ring|]. apply inc_of_sset; [lra|exact RC2|].
  intros x Hx. destruct (RC3 x Hx) as (_ & J1 & J2 & _). auto.
Qed.
