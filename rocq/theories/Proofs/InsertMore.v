From Coq Require Import ZArith QArith Qabs List Bool String Arith Lia Lqa Permutation.
From Verif.Model Require Import Composer.
From Verif.Spec Require Import Composer.
From Verif.Model Require Import Line Slicing Insert.
From Verif.Spec Require Import Line Slicing LineEdit Insert.
From Verif.Proofs Require Import LineBase Slices Cuts Insert InsertTop.
From Verif.Proofs Require OrderingTop Ordering Gaps Composer Remove.
Import ListNotations.
Local Open Scope Q_scope.

(** * Elements away from the insertions *)
Lemma concat_index {A} : forall (chunks : list (list A)) i x, nth_error chunks i = Some [x] ->
  nth_error (List.concat chunks) (List.length (List.concat (firstn i chunks))) = Some x.
Proof.
  induction chunks as [|c chunks IH]; intros [|i] x H; try discriminate; cbn [firstn List.concat] in *; cbn [nth_error] in H.
  - injection H as ->. reflexivity.
  - rewrite app_length, nth_error_app2 by lia. replace (_ + _ - _)%nat with (List.length (List.concat (firstn i chunks))) by lia. apply IH, H.
Qed.
Lemma firstn_concat {A} : forall (chunks : list (list A)) i, firstn (List.length (List.concat (firstn i chunks))) (List.concat chunks) = List.concat (firstn i chunks).
Proof.
  intros chunks i. rewrite <- (firstn_skipn i chunks) at 2. rewrite concat_app, firstn_app, Nat.sub_diag. cbn. rewrite app_nil_r. apply firstn_all.
Qed.
Lemma concat_lt {A} : forall (chunks : list (list A)) i j x, (i < j)%nat -> nth_error chunks i = Some [x] ->
  (List.length (List.concat (firstn i chunks)) < List.length (List.concat (firstn j chunks)))%nat.
Proof.
  induction chunks as [|c chunks IH]; intros [|i] [|j] x L H; try discriminate; try lia; cbn [firstn List.concat] in *; cbn [nth_error] in H; rewrite ?app_length.
  - injection H as ->. cbn. lia.
  - cbn in L. assert (i < j)%nat by lia. pose proof (IH i j x H0 H). lia.
Qed.

Section Old.
Variables (v v' : env) (rows : list (string * string)) (tol : Q) (ss : list Q) (names1 names' : list string) (old : list Q)
  (req : list (string * (Q * Q))) (src : list (nat + nat)).
Hypothesis C : cache_ok v.
Hypothesis E : edge_names_ok v.
Hypothesis ND : NoDup (map fst rows).
Hypothesis Tp : 0 <= tol.
Hypothesis B : bounds v 0 (map snd rows) = Some old.
Hypothesis Hc : cut_at_s v rows tol ss = Some (v', names1).
Hypothesis Hss : forall c, In c ss <-> exists n u w, In (n, (u, w)) req /\ (c = u \/ c = w).
Hypothesis P2 : forall n u w, In (n, (u, w)) req -> u <= w.
Hypothesis A : arranged v' names1 names' req src.

Lemma cut_index : exists idx : nat -> nat,
  (forall i n a b, at_place v (map snd rows) i n a b -> untouched req a b -> at_place v' names1 (idx i) n a b) /\
  (forall i j n a b, (i < j)%nat -> at_place v (map snd rows) i n a b -> untouched req a b -> (idx i < idx j)%nat).
Proof.
  destruct (cut_at_s_ok v rows tol ss v' names1 old C E ND Tp B Hc) as (K & _ & _ & new & L0 & L1 & _ & _ & _ & _ & _ & _ & _ & chunks & En & Ln & Un & Fl & _).
  assert (SP : same_positions v v' (map snd rows) chunks 0).
  { apply Remove.chunk_positions; [lra|]. clear - Fl. induction Fl as [|r c rs cs (l & l' & H1 & H2 & H3) _ IH]; cbn [map]; constructor; [|exact IH].
    exists l, l'. split; [exact H1|]. split; [exact H2|]. apply Qabs_case; intros; lra. }
  assert (Ch : forall i n a b, at_place v (map snd rows) i n a b -> untouched req a b -> nth_error chunks i = Some [n]).
  { intros i n a b (Hn & Sp) Un'. destruct (bounds_place v _ old i n B Hn) as (a0 & b0 & X1 & X2 & (_ & X3)). destruct (spans_unique _ _ _ _ _ _ _ Sp X3) as (Ea & Eb).
    rewrite nth_error_map in Hn. destruct (nth_error rows i) as [row|] eqn:Hr; [|discriminate]. cbn in Hn. injection Hn as <-.
    apply (Un i row a0 b0 Hr X1 X2). intros c Hs (I1 & I2 & _ & _). apply Hss in Hs. destruct Hs as (n & u & w & Hx & Ec). pose proof (P2 n u w Hx) as Huw. pose proof (Un' _ Hx) as D. unfold disjoint in D. cbn in D.
    destruct Ec as [->| ->]; lra. }
  exists (fun i => List.length (List.concat (firstn i chunks))). split.
  - intros i n a b Pl Un'. pose proof (Ch i n a b Pl Un') as Hch. destruct Pl as (Hn & Sp). subst names1. split; [apply concat_index, Hch|].
    destruct Sp as (x & y & X1 & X2 & X3 & X4 & X5). destruct (SP i) as (p & q & Y1 & Y2 & Y3). destruct (SP (S i)) as (p' & q' & Z1 & Z2 & Z3).
    rewrite X1 in Y1. injection Y1 as <-. rewrite X2 in Z1. injection Z1 as <-. exists q, q'. rewrite firstn_concat. split; [exact Y2|].
    assert (Fs : firstn (S i) chunks = firstn i chunks ++ [[n]]).
    { clear - Hch. revert i Hch. induction chunks as [|c l IH]; intros [|i] H; try discriminate; [cbn in H; injection H as ->; reflexivity|].
      change (firstn (S (S i)) (c :: l)) with (c :: firstn (S i) l). rewrite (IH i H). reflexivity. }
    assert (Ls : S (List.length (List.concat (firstn i chunks))) = List.length (List.concat (firstn (S i) chunks))) by (rewrite Fs, concat_app, app_length; cbn; lia).
    rewrite Ls, firstn_concat. split; [exact Z2|]. split; [apply nth_error_Some; rewrite (concat_index chunks i n Hch); discriminate|].
    split; [revert Y3|revert Z3]; apply Qabs_case; intros; lra.
  - intros i j n a b Lt Pl Un'. eapply concat_lt; [exact Lt|]. eapply Ch; eassumption.
Qed.

Theorem old_kept :
  (forall i n a b, at_place v (map snd rows) i n a b -> untouched req a b -> exists k, at_place v' names' k n a b) /\
  (forall i j n m a b a' b', (i < j)%nat -> at_place v (map snd rows) i n a b -> untouched req a b -> at_place v (map snd rows) j m a' b' -> untouched req a' b' ->
     exists k k', (k < k')%nat /\ at_place v' names' k n a b /\ at_place v' names' k' m a' b').
Proof.
  destruct cut_index as (idx & I1 & I2). destruct A as (_ & _ & _ & A4 & _ & A6 & A7).
  assert (One : forall i n a b, at_place v (map snd rows) i n a b -> untouched req a b -> exists k, nth_error src k = Some (inr (idx i)) /\ at_place v' names' k n a b).
  { intros i n a b Pl Un. pose proof (I1 i n a b Pl Un) as Q. assert (Hin : In (inr (idx i)) src) by (apply A4; eauto). apply In_nth_error in Hin. destruct Hin as (k & Hk). exists k. split; [exact Hk|]. eapply A6; eassumption. }
  split.
  - intros i n a b Pl Un. destruct (One i n a b Pl Un) as (k & _ & X). eauto.
  - intros i j n m a b a' b' Lt Pl Un Pl' Un'. destruct (One i n a b Pl Un) as (k & Hk & X). destruct (One j m a' b' Pl' Un') as (k' & Hk' & X'). exists k, k'. split; [|auto].
    eapply A7; [exact Hk|exact Hk'|]. eapply I2; eassumption.
Qed.
End Old.

Theorem insert_old v rows what stol tol ref v' names' old s f tab L :
  cache_ok v -> edge_names_ok v -> NoDup (map fst rows) -> 0 < stol -> stol <= tol ->
  bounds v 0 (map snd rows) = Some old -> line_length v (map snd rows) = Some L -> crows v 0 rows = Some tab ->
  Verif.Model.Composer.resolve (len_of v) ACenter (line_places (map snd rows) tab ++ what) = Some (s, f) ->
  (forall n l, In n (map snd rows) -> s_length v n = Some l -> 0 <= l) ->
  let req := requested (len_of v) (map pl_name what) (skipn (List.length rows) s) in
  insertable tol L old req ->
  insert v rows what stol tol ref = Some (v', names') ->
  (forall n u w, In (n, (u, w)) req -> exists k, at_place v' names' k n u w)
  /\ (forall i n a b, at_place v (map snd rows) i n a b -> untouched req a b -> exists k, at_place v' names' k n a b)
  /\ (forall i j n m a b a' b', (i < j)%nat -> at_place v (map snd rows) i n a b -> untouched req a b ->
        at_place v (map snd rows) j m a' b' -> untouched req a' b' ->
        exists k k', (k < k')%nat /\ at_place v' names' k n a b /\ at_place v' names' k' m a' b').
Proof.
  intros C E ND Tp Tt B HL Ht R P1 req In H. destruct (insert_ok v rows what stol tol ref v' names' old s f tab L C E ND Tp Tt B HL Ht R P1 In H) as (_ & _ & _ & _ & ss & names1 & src & Hc & Hss & A).
  fold req in Hss, A. split.
  - intros n u w Hx. apply In_nth_error in Hx. destruct Hx as (j & Hj). destruct A as (_ & _ & A3 & _ & A5 & _). assert (Hin : List.In (inl j) src) by (apply A3, nth_error_Some; congruence).
    apply In_nth_error in Hin. destruct Hin as (k & Hk). destruct (A5 k j Hk) as (n' & u' & w' & X & Y). rewrite Hj in X. injection X as <- <- <-. eauto.
  - apply (old_kept v v' rows tol ss names1 names' old req src); auto; [lra|]. intros n u w Hx. destruct In as (P2 & _). destruct (P2 n u w Hx). lra.
Qed.

(** * Absolute insertions *)
Lemma in_groups tol l : forall g p, In g (group_same_s tol l) -> In p g -> In p l.
Proof.
  intros g p Hg Hp. assert (X : List.concat (group_same_s tol l) = l).
  { unfold group_same_s. destruct l as [|q r]; [reflexivity|]. assert (Y : forall r cur prev, List.concat (group_from tol cur prev r) = cur ++ r).
    { induction r0 as [|z r0 IH]; intros cur prev; cbn [group_from List.concat]; [rewrite app_nil_r; cbn; rewrite ?app_nil_r; reflexivity|]. destruct (starts_group tol prev z); cbn [List.concat]; rewrite IH; [reflexivity|]. rewrite <- app_assoc. reflexivity. }
    rewrite Y. reflexivity. }
  rewrite <- X. apply in_concat. exists g. auto.
Qed.
Lemma sort_free tol allow ps : (forall p, In p ps -> rp_from p = None) -> exists res, sort_places tol allow ps = Some res.
Proof.
  intro F. unfold sort_places. set (sorted := stable_sort _ ps).
  assert (Fs : forall p, In p sorted -> rp_from p = None). { intros p Hp. apply F. eapply Permutation_in; [apply Permutation_sym; unfold sorted; apply Ordering.sort_perm|exact Hp]. }
  assert (Fg : forall g, In g (group_same_s tol sorted) -> forallb (fun p => match rp_from p with None => true | Some _ => false end) g = true).
  { intros g Hg. apply forallb_forall. intros p Hp. rewrite (Fs p); [reflexivity|]. eapply in_groups; eassumption. }
  assert (X : forall gs gi k, (forall g, In g gs -> forallb (fun p => match rp_from p with None => true | Some _ => false end) g = true) -> exists r, order_groups gi allow k gs = Some r); [|apply X, Fg].
  induction gs as [|g gs IH]; intros gi k Fg'; cbn [order_groups]; [eauto|].
  unfold order_group at 1. rewrite (Fg' g (or_introl eq_refl)), orb_true_r. destruct (IH gi (S k) (fun g' H => Fg' g' (or_intror H))) as (r & ->). eauto.
Qed.

Lemma step_free len ref ps i st : (forall p, In p ps -> absolute p) -> Forall (eq (None, None)) (r_from st) -> Forall (eq (None, None)) (r_from (fst (resolve_step len ref ps st i))).
Proof.
  intros Ab F. unfold resolve_step. destruct (nth_error ps i) as [p|] eqn:Hp; [|exact F]. destruct (get (r_s st) i); [exact F|].
  destruct (Ab p (nth_error_In _ _ Hp)) as (A1 & A2 & A3). unfold resolve_place. destruct (pl_at p) as [a|]; [|contradiction]. rewrite A1. cbn [fst r_from].
  clear - F. revert i. induction F as [|x l H F IH]; intros [|i]; cbn; try constructor; auto.
Qed.
Lemma scan_free len ref ps idx : (forall p, In p ps -> absolute p) -> forall st, Forall (eq (None, None)) (r_from st) -> Forall (eq (None, None)) (r_from (fst (resolve_scan len ref ps st idx))).
Proof.
  intro Ab. induction idx as [|i idx IH]; intros st F; cbn [resolve_scan]; [exact F|]. pose proof (step_free len ref ps i st Ab F) as F1. destruct (resolve_step len ref ps st i) as [s1 b1].
  cbn [fst] in F1. pose proof (IH s1 F1) as F2. destruct (resolve_scan len ref ps s1 idx) as [s2 b2]. exact F2.
Qed.
Lemma loop_free len ref ps fuel : (forall p, In p ps -> absolute p) -> forall st st', Forall (eq (None, None)) (r_from st) -> Verif.Model.Composer.resolve_loop len ref fuel ps st = Some st' -> Forall (eq (None, None)) (r_from st').
Proof.
  intro Ab. induction fuel as [|fuel IH]; intros st st' F H; cbn [Verif.Model.Composer.resolve_loop] in H; [discriminate|]. pose proof (scan_free len ref ps (seq 0 (List.length ps)) Ab st F) as F1.
  destruct (resolve_scan len ref ps st (seq 0 (List.length ps))) as [s1 b1]. cbn [fst] in F1. destruct b1; [eapply IH; eassumption|]. injection H as <-. exact F1.
Qed.
Lemma resolve_free len ref ps s f : (forall p, In p ps -> absolute p) -> Verif.Model.Composer.resolve len ref ps = Some (s, f) -> Forall (eq (None, None)) f.
Proof.
  intros Ab H. unfold Verif.Model.Composer.resolve in H. destruct (forallb place_ok ps); [|discriminate].
  destruct (Verif.Model.Composer.resolve_loop len ref (S (List.length ps)) ps (resolve_init ps)) as [st|] eqn:E; [|discriminate]. destruct (all_some (r_s st)); [|discriminate]. apply (f_equal (fun o => match o with Some x => snd x | None => [] end)) in H. cbn in H. subst f.
  eapply loop_free; [exact Ab| |exact E]. assert (Bl : forall n, Forall (eq (None, None)) (repeat (@None nat, @None anchor) n)) by (induction n; cbn; constructor; auto).
  unfold resolve_init. destruct ps as [|p ps0]; [apply Bl|]. destruct (pl_at p); apply Bl.
Qed.
Lemma absolute_resolves len ref ps : (forall p, In p ps -> absolute p) -> exists s f, Verif.Model.Composer.resolve len ref ps = Some (s, f).
Proof.
  intro Ab. assert (Ok : forallb place_ok ps = true).
  { apply forallb_forall. intros p Hp. destruct (Ab p Hp) as (A1 & A2 & A3). unfold place_ok. rewrite A1, A2. destruct (pl_at p); reflexivity. }
  destruct (Verif.Model.Composer.resolve len ref ps) as [[s f]|] eqn:E; [eauto|]. apply Verif.Proofs.Composer.resolve_iff in E; [|exact Ok]. destruct E as (i & L & N). exfalso. apply N.
  destruct (nth_error ps i) as [p|] eqn:Hp; [|apply nth_error_None in Hp; lia]. destruct (Ab p (nth_error_In _ _ Hp)) as (A1 & A2 & A3). destruct (pl_at p) as [a|] eqn:Ea; [|contradiction].
  eapply g_abs; eassumption.
Qed.
Lemma rows_free len thick places s f : Forall (eq (None, None)) f -> forall p, In p (Verif.Model.Composer.rows len thick places s f) -> rp_from p = None.
Proof.
  intros F p H. unfold Verif.Model.Composer.rows in H. apply in_map_iff in H. destruct H as (i & <- & _). cbn [rp_from].
  assert (X : nth i f (None, None) = (None, None)); [|rewrite X; reflexivity]. clear - F. revert i. induction F as [|x l <- F IH]; intros [|i]; cbn; auto.
Qed.

Theorem insert_positions v rows what tab old : bounds v 0 (map snd rows) = Some old -> crows v 0 rows = Some tab -> (forall p, In p what -> absolute p) ->
  exists s f, Verif.Model.Composer.resolve (len_of v) ACenter (line_places (map snd rows) tab ++ what) = Some (s, f) /\
  Forall2 (fun p u => exists a, pl_at p = Some a /\ u + anchor_offset (dflt ACenter (pl_anchor p)) (len_of v (pl_name p)) == a) what (skipn (List.length rows) s).
Proof.
  intros B Ht Ab. destruct (absolute_resolves (len_of v) ACenter (line_places (map snd rows) tab ++ what)) as (s & f & R).
  { intros p Hp. apply in_app_iff in Hp. destruct Hp as [Hp|Hp]; [|apply Ab, Hp]. unfold line_places in Hp. apply in_map_iff in Hp. destruct Hp as (x & <- & _). repeat split; discriminate. }
  exists s, f. split; [exact R|]. destruct (Verif.Proofs.Composer.resolve_solves _ _ _ _ _ R) as ((Ls & So) & _).
  pose proof (tab_len v rows old tab B Ht) as Lt. pose proof (line_places_length (map snd rows) tab Lt) as Lp. rewrite app_length, Lp, map_length in Ls.
  assert (PW : forall j p u, nth_error what j = Some p -> nth_error (skipn (List.length rows) s) j = Some u -> exists a, pl_at p = Some a /\ u + anchor_offset (dflt ACenter (pl_anchor p)) (len_of v (pl_name p)) == a).
  { intros j p u Hp Hu. rewrite nth_skipn in Hu. destruct (So (List.length rows + j)%nat p) as (si & H1 & H2).
    - rewrite nth_error_app2 by (rewrite Lp, map_length; lia). rewrite Lp, map_length. replace (_ + j - _)%nat with j by lia. exact Hp.
    - rewrite Hu in H1. injection H1 as <-. unfold holds in H2. destruct (Ab p (nth_error_In _ _ Hp)) as (A1 & A2 & A3). destruct (pl_at p) as [a|]; [|contradiction]. rewrite A1 in H2. exists a. auto. }
  assert (Ln : List.length what = List.length (skipn (List.length rows) s)) by (rewrite skipn_length; lia). clear - PW Ln.
  revert what PW Ln. induction (skipn (List.length rows) s) as [|u l IH]; intros [|p what] PW Ln; try discriminate; constructor.
  - apply (PW 0%nat); reflexivity.
  - apply IH; [|cbn in Ln; lia]. intros j q w Hq Hw. apply (PW (S j)); assumption.
Qed.

Theorem insert_defined v rows what stol tol ref old s f tab L :
  cache_ok v -> edge_names_ok v -> NoDup (map fst rows) -> 0 < stol -> stol <= tol ->
  bounds v 0 (map snd rows) = Some old -> line_length v (map snd rows) = Some L -> crows v 0 rows = Some tab ->
  (forall p, In p what -> absolute p /\ exists l, s_length v (pl_name p) = Some l) ->
  (exists n t e, In n (map snd rows) /\ resolve v n = Some (t, e) /\ thick e = true) ->
  Verif.Model.Composer.resolve (len_of v) ACenter (line_places (map snd rows) tab ++ what) = Some (s, f) ->
  (forall n l, In n (map snd rows) -> s_length v n = Some l -> 0 <= l) ->
  insertable tol L old (requested (len_of v) (map pl_name what) (skipn (List.length rows) s)) ->
  exists v' names', insert v rows what stol tol ref = Some (v', names').
Proof.
  intros C E ND Tp Tt B HL Ht Ab Tk R P1 (P2 & Dj & Ap).
  assert (Er : skipn (List.length rows) s = skipn (List.length (map snd rows)) s) by (rewrite map_length; reflexivity). rewrite Er in *. clear Er.
  assert (Free : Forall (eq (None, None)) f).
  { eapply resolve_free; [|exact R]. intros p Hp. apply in_app_iff in Hp. destruct Hp as [Hp|Hp]; [|apply Ab, Hp]. unfold line_places in Hp. apply in_map_iff in Hp. destruct Hp as (x & <- & _). repeat split; discriminate. }
  assert (Hi : exists places ins, insertions v stol (map snd rows) tab what = Some (places, ins) /\ forall p, In p ins -> rp_from p = None).
  { unfold insertions. rewrite R. destruct (existsb _ what) eqn:Ex.
    - exfalso. apply existsb_exists in Ex. destruct Ex as (p & Hp & X). destruct (Ab p Hp) as (_ & l & Hl). rewrite Hl in X. discriminate.
    - destruct (sort_free stol false _ (rows_free (len_of v) (thick_of v) (line_places (map snd rows) tab ++ what) s f Free)) as (res & So). rewrite So. eexists; eexists. split; [reflexivity|].
      intros p Hp. apply filter_In in Hp. destruct Hp as (Hp & _). eapply rows_free; [exact Free|]. eapply Permutation_in; [apply Permutation_sym, (OrderingTop.sort_permutation _ _ _ _ So)|exact Hp]. }
  destruct Hi as (places & ins & Hi & Fi). unfold insert. rewrite Ht, Hi.
  destruct (cut_at_s_defined v rows tol (map rp_start ins ++ map rp_end ins) L C E ND ltac:(lra) HL P1) as ([v1 names1] & Hc); [|exact Tk|].
  { intros c Hs. apply (in_ss v rows what stol old s f tab B Ht R places ins Hi) in Hs. destruct Hs as (n & u & w & Hx & Ec). destruct (P2 n u w Hx) as (Q1 & Q2 & Q3). destruct Ec as [->| ->]; lra. }
  rewrite Hc.
  pose proof (cut_facts v rows what stol tol old s f tab L C E ND Tp Tt B HL Ht R P1 P2 Ap places ins v1 names1 Hi Hc) as (K & C1 & E1 & new & L1 & B1 & HL1 & EL & _).
  assert (B1' := B1). rewrite <- (map_snd_combine names1) in B1'. destruct (crows_spec v1 (combine names1 names1) 0 new B1') as (tab1 & H1 & _). rewrite H1, HL1.
  assert (Rm : removed tol ins L1 L1 = false).
  { pose proof (end_kept v rows what stol tol old s f tab L Tp Tt B HL Ht R P2 Ap places ins Hi) as X. rewrite <- X. unfold removed.
    assert (Q : forall x y, x == y -> forall z, Qle_bool x z = Qle_bool y z /\ Qle_bool z x = Qle_bool z y).
    { intros x y Exy z. split; apply eq_true_iff_eq; rewrite !Qle_bool_iff; rewrite Exy; reflexivity. }
    clear - EL Q. induction ins as [|p l IH]; cbn [existsb]; [reflexivity|]. rewrite IH. f_equal. unfold removed_by, geb.
    rewrite !(proj1 (Q L1 L EL _)), !(proj2 (Q L1 L EL _)). reflexivity. }
  rewrite Rm. match goal with |- context [sort_places stol true ?u] => destruct (sort_free stol true u) as (sorted & So) end.
  { intros p Hp. apply in_app_iff in Hp. destruct Hp as [Hp|Hp].
    - apply in_map_iff in Hp. destruct Hp as ([i r] & <- & Hr). cbn. unfold number in Hr. apply in_combine_r in Hr. rewrite (Fi r Hr). reflexivity.
    - apply in_map_iff in Hp. destruct Hp as ([i r] & <- & Hr). reflexivity. }
  rewrite So.
  pose proof (generated v rows what stol tol ref old s f tab L C E ND Tp Tt B HL Ht R P1 P2 Dj Ap places ins v1 names1 tab1 Hi Hc H1 sorted So) as G. rewrite G, put_elems. eauto.
Qed.
