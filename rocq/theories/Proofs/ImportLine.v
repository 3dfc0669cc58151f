(** Proofs about importing lines *)
From Coq Require Import QArith List Bool String Ascii Arith Lia DecimalString.
From Verif.Model Require Import Line ImportLine.
From Verif.Spec Require Import ImportLine.
From Verif.Proofs Require LineBase.
Import ListNotations.
Local Open Scope list_scope.
Local Open Scope string_scope.

(** * Names of generated drifts *)
Lemma digits_uint u : all_digits (NilEmpty.string_of_uint u) = true.
Proof. induction u; cbn [NilEmpty.string_of_uint all_digits]; try rewrite IHu; reflexivity. Qed.
Lemma substring_all s : substring 0 (String.length s) s = s.
Proof. induction s as [|c s IH]; cbn; [reflexivity|now rewrite IH]. Qed.
Lemma generated_drift k : generated_name (drift_name k) = true.
Proof.
  unfold generated_name, drift_name.
  assert (P : prefix "||drift_" ("||drift_" ++ dec k) = true) by (cbn; destruct (dec k); reflexivity).
  rewrite P. cbn [andb].
  assert (S : substring 8 (String.length ("||drift_" ++ dec k) - 8) ("||drift_" ++ dec k) = dec k).
  { cbn [String.append String.length Nat.sub substring]. rewrite Nat.sub_0_r. apply substring_all. }
  rewrite S. unfold dec at 2. rewrite digits_uint, andb_true_r.
  destruct (String.eqb_spec (dec k) "") as [E|N]; [elim (LineBase.dec_nonempty k E)|reflexivity].
Qed.

Lemma get_in {A} (d : list (string * A)) n : has d n = true -> In n (map fst d).
Proof.
  unfold has. induction d as [|[m e] r IH]; cbn; [discriminate|]. destruct (String.eqb_spec n m); [left; congruence|right; auto].
Qed.
Lemma fresh_range f d i : (i <= fresh f d i <= i + f)%nat.
Proof.
  revert i; induction f as [|f IH]; intros i; cbn [fresh]; [lia|]. destruct (has d _); [|lia]. specialize (IH (S i)). lia.
Qed.
Lemma fresh_skips f d i j : (i <= j < fresh f d i)%nat -> has d (drift_name j) = true.
Proof.
  revert i; induction f as [|f IH]; intros i; cbn [fresh]; [lia|]. destruct (has d (drift_name i)) eqn:E; [|lia].
  intros H. destruct (Nat.eq_dec i j) as [->|N]; [exact E|]. apply (IH (S i)). lia.
Qed.
Lemma fresh_end f d i : (fresh f d i < i + f)%nat -> has d (drift_name (fresh f d i)) = false.
Proof.
  revert i; induction f as [|f IH]; intros i; cbn [fresh]; [lia|]. destruct (has d (drift_name i)) eqn:E; [|intros _; exact E].
  intros H. apply IH. lia.
Qed.
Lemma a_drift_fresh d c : get d (drift_name (a_drift d c)) = None.
Proof.
  unfold a_drift. set (f := S (List.length d)). pose proof (fresh_range f d (S c)) as R.
  destruct (Nat.lt_ge_cases (fresh f d (S c)) (S c + f)) as [H|H].
  - apply fresh_end in H. unfold has in H. destruct (get d _); [discriminate|reflexivity].
  - exfalso. set (l := map drift_name (seq (S c) f)).
    assert (N : NoDup l).
    { unfold l. apply FinFun.Injective_map_NoDup; [intros a b; apply LineBase.drift_name_inj|apply seq_NoDup]. }
    assert (I : incl l (map fst d)).
    { intros x Hx. unfold l in Hx. apply in_map_iff in Hx as (j & <- & Hj). apply in_seq in Hj. apply get_in.
      apply (fresh_skips f d (S c)). lia. }
    apply (NoDup_incl_length N) in I. unfold l in I. rewrite !map_length, seq_length in I. unfold f in I. lia.
Qed.

(** * The invariant *)
Section Import.
Variables (src d0 : elems) (rename : list (string * string)) (suffix : string) (names : list string).
Hypothesis Hfree : free_names rename suffix d0 src names.
Hypothesis Hms : markers_plain src.
Hypothesis Hmd : markers_plain d0.

Definition like (e e' : el) : Prop :=
  el_marker e' = el_marker e /\ el_allowed e' = el_allowed e /\ el_class e' = el_class e /\ el_attrs e' = el_attrs e.
Definition parent_ok (og : string -> option string) (e e' : el) : Prop :=
  match el_parent e with
  | None => el_parent e' = None
  | Some p => exists p', el_parent e' = Some p' /\ og p' = Some p
  end.
Record inv (og : string -> option string) (pend : list string) (st : state) : Prop := {
  i_already : forall n k, get (snd st) n = Some k -> og k = Some n;
  i_copy : forall k n, og k = Some n -> exists e e', get src n = Some e /\ get (fst (fst st)) k = Some e' /\ like e e'
             /\ (el_parent e = None -> el_parent e' = None) /\ (~ In k pend -> parent_ok og e e');
  i_used : forall k n, og k = Some n -> used src names n;
  i_key : forall k n, og k = Some n -> k = n \/ k = other_name rename suffix n
             \/ generated_name k = true;
  i_rest : forall k, og k = None -> get (fst (fst st)) k = get d0 k;
  i_old : forall k n, og k = Some n -> get d0 k = None \/ (get d0 k = Some plain_marker /\ get src n = Some plain_marker)
}.
Definition extends (og og' : string -> option string) : Prop := forall k n, og k = Some n -> og' k = Some n.

(** the new name of an element belongs to nothing else *)
Lemma name_free og pend d c al name e new c' : inv og pend (d, c, al) -> used src names name -> get src name = Some e ->
  new_name_of rename suffix d c name e = (c', new) ->
  (og new = None \/ og new = Some name) /\
  (new = name \/ new = other_name rename suffix name \/ generated_name new = true) /\
  (get d0 new = None \/ (get d0 new = Some plain_marker /\ e = plain_marker)).
Proof.
  intros I U E N.
  assert (Other : new = other_name rename suffix name -> (og new = None \/ og new = Some name) /\
    (new = name \/ new = other_name rename suffix name \/ generated_name new = true) /\
    (get d0 new = None \/ (get d0 new = Some plain_marker /\ e = plain_marker))).
  { intros ->. destruct (Hfree name U) as (F1 & F2 & F3 & F4). split; [|split; auto].
    destruct (og (other_name rename suffix name)) as [m|] eqn:O; [|now left]. right.
    pose proof (i_used _ _ _ I _ _ O) as Um. destruct (i_key _ _ _ I _ _ O) as [K|[K|K]].
    - elim (F3 m Um K).
    - now rewrite (F4 m Um K).
    - congruence. }
  unfold new_name_of in N. destruct (get rename name) as [r|] eqn:R.
  - injection N as _ <-. apply Other. unfold other_name. now rewrite R.
  - destruct (generated_name name && length_is_number e) eqn:G.
    + injection N as _ <-. pose proof (a_drift_fresh d c) as F. set (k := drift_name (a_drift d c)) in *.
      assert (O : og k = None).
      { destruct (og k) as [m|] eqn:O; [|reflexivity]. destruct (i_copy _ _ _ I _ _ O) as (? & ? & _ & G' & _). cbn [fst] in G'. congruence. }
      split; [now left|]. split.
      * right. right. apply generated_drift.
      * left. rewrite <- (i_rest _ _ _ I _ O). exact F.
    + destruct (get d name) as [x|] eqn:D.
      * destruct (el_marker e && el_marker x) eqn:M.
        -- injection N as _ <-. apply andb_true_iff in M as [M1 M2]. pose proof (Hms _ _ E M1) as ->. split; [|split; auto].
           ++ destruct (og name) as [m|] eqn:O; [|now left]. right.
              destruct (i_copy _ _ _ I _ _ O) as (y & y' & S & G' & (L & _) & _). cbn [fst] in G'. rewrite D in G'. injection G' as <-.
              destruct (i_key _ _ _ I _ _ O) as [K|[K|K]].
              ** congruence.
              ** pose proof (i_used _ _ _ I _ _ O) as Um. destruct (Hfree m Um) as (_ & _ & F3 & _). elim (F3 name U). congruence.
              ** rewrite K in G. discriminate.
           ++ destruct (og name) as [m|] eqn:O.
              ** destruct (i_old _ _ _ I _ _ O) as [H|[H _]]; auto.
              ** right. rewrite <- (i_rest _ _ _ I _ O). cbn [fst]. split; [|reflexivity]. rewrite D. f_equal. apply (Hmd name); [|exact M2].
                 rewrite <- (i_rest _ _ _ I _ O). exact D.
        -- injection N as _ <-. apply Other. unfold other_name. now rewrite R.
      * injection N as _ <-.
        assert (O : og name = None).
        { destruct (og name) as [m|] eqn:O; [|reflexivity]. destruct (i_copy _ _ _ I _ _ O) as (? & ? & _ & G' & _). cbn [fst] in G'. congruence. }
        split; [now left|]. split; [now left|]. left. rewrite <- (i_rest _ _ _ I _ O). exact D.
Qed.

(** [new] is now a copy of [name]; its parent is looked after later *)
Definition grow (og : string -> option string) (new name : string) : string -> option string :=
  fun k => if String.eqb k new then Some name else og k.
Lemma grow_extends og new name : og new = None \/ og new = Some name -> extends og (grow og new name).
Proof. intros H k n E. unfold grow. destruct (String.eqb_spec k new) as [->|N]; [destruct H; congruence|exact E]. Qed.
Lemma parent_grow og og' e e' : extends og og' -> parent_ok og e e' -> parent_ok og' e e'.
Proof. intros X. unfold parent_ok. destruct (el_parent e); [|auto]. intros (p' & H & O). eauto. Qed.
Lemma put_inv og pend d c al name e new c' : inv og pend (d, c, al) -> used src names name -> get src name = Some e ->
  new_name_of rename suffix d c name e = (c', new) ->
  inv (grow og new name) (if el_parent e then new :: pend else pend) ((new, e) :: d, c', (name, new) :: al).
Proof.
  intros I U E N. destruct (name_free _ _ _ _ _ _ _ _ _ I U E N) as (H1 & H2 & H3).
  pose proof (grow_extends og new name H1) as X. split; cbn [fst snd].
  - intros n k. cbn. destruct (String.eqb_spec n name) as [->|Nn].
    + intros K. injection K as <-. unfold grow. now rewrite String.eqb_refl.
    + intros K. apply X. exact (i_already _ _ _ I _ _ K).
  - intros k n. unfold grow at 1. cbn. destruct (String.eqb_spec k new) as [->|Nk].
    + intros K. injection K as <-. exists e, e. split; [exact E|]. split; [reflexivity|]. split; [repeat split|]. split; [auto|].
      unfold parent_ok. destruct (el_parent e) as [p|]; [intros C; elim C; now left|reflexivity].
    + intros K. destruct (i_copy _ _ _ I _ _ K) as (y & y' & S & G & L & P0 & P). exists y, y'. repeat split; auto; try apply L.
      intros C. eapply parent_grow; [exact X|]. apply P. destruct (el_parent e); [|exact C]. intros Q. apply C. now right.
  - intros k n. unfold grow. destruct (String.eqb_spec k new); [intros K; injection K as <-; exact U|apply (i_used _ _ _ I)].
  - intros k n. unfold grow. destruct (String.eqb_spec k new) as [->|Nk]; [|apply (i_key _ _ _ I)].
    intros K. injection K as <-. exact H2.
  - intros k. unfold grow. cbn. destruct (String.eqb_spec k new); [discriminate|]. apply (i_rest _ _ _ I).
  - intros k n. unfold grow. destruct (String.eqb_spec k new) as [->|Nk]; [|apply (i_old _ _ _ I)].
    intros K. injection K as <-. destruct H3 as [H|[H ->]]; auto.
Qed.
Lemma set_parent_get d n p k : get (set_parent d n p) k =
  match get d n with
  | Some e => if String.eqb k n then Some (mkEl (el_marker e) (el_allowed e) (el_class e) (el_attrs e) (Some p)) else get d k
  | None => get d k
  end.
Proof. unfold set_parent. destruct (get d n); reflexivity. Qed.
Lemma parent_inv og pend d c al name e new p p' : inv og (new :: pend) (d, c, al) -> og new = Some name -> get src name = Some e ->
  el_parent e = Some p -> get al p = Some p' -> inv og pend (set_parent d new p', c, al).
Proof.
  intros I O E P A. destruct (i_copy _ _ _ I _ _ O) as (y & y' & S & G & L & P0 & _). rewrite E in S. injection S as <-. cbn [fst] in G.
  split; cbn [fst snd].
  - exact (i_already _ _ _ I).
  - intros k n K. rewrite set_parent_get, G. destruct (String.eqb_spec k new) as [->|N].
    + rewrite O in K. injection K as <-. exists e. eexists. split; [exact E|]. split; [reflexivity|]. split; [exact L|]. split.
      * congruence.
      * intros _. unfold parent_ok. rewrite P. cbn. exists p'. split; [reflexivity|]. exact (i_already _ _ _ I _ _ A).
    + destruct (i_copy _ _ _ I _ _ K) as (z & z' & S & G' & L' & P0' & P'). exists z, z'. repeat split; auto; try apply L'.
      intros C. apply P'. intros [Q|Q]; [congruence|auto].
  - exact (i_used _ _ _ I).
  - exact (i_key _ _ _ I).
  - intros k K. rewrite set_parent_get, G. destruct (String.eqb_spec k new) as [->|N]; [congruence|]. exact (i_rest _ _ _ I _ K).
  - exact (i_old _ _ _ I).
Qed.

Lemma element_inv fuel : forall og pend st name st' new, inv og pend st -> used src names name ->
  import_element fuel src rename suffix st name = Some (st', new) ->
  exists og', extends og og' /\ inv og' pend st' /\ og' new = Some name.
Proof.
  induction fuel as [|f IH]; cbn [import_element]; [discriminate|]. intros og pend [[d c] al] name st' new I U H.
  destruct (get src name) as [e|] eqn:E; [|discriminate]. destruct (negb (el_allowed e)); [discriminate|].
  destruct (new_name_of rename suffix d c name e) as [c1 new1] eqn:N.
  pose proof (put_inv _ _ _ _ _ _ _ _ _ I U E N) as I1.
  destruct (name_free _ _ _ _ _ _ _ _ _ I U E N) as (H1 & _ & _). pose proof (grow_extends og new1 name H1) as X.
  assert (O1 : grow og new1 name new1 = Some name) by (unfold grow; now rewrite String.eqb_refl).
  destruct (el_parent e) as [p|] eqn:P.
  - assert (Q : exists og2 d2 c2 al2 p', extends (grow og new1 name) og2 /\ inv og2 (new1 :: pend) (d2, c2, al2) /\ get al2 p = Some p'
       /\ (st', new) = ((set_parent d2 new1 p', c2, al2), new1)).
    { destruct (has ((name, new1) :: al) p) eqn:Hp.
      - destruct (get ((name, new1) :: al) p) as [p'|] eqn:A; [|discriminate]. injection H as <- <-.
        exists (grow og new1 name), ((new1, e) :: d), c1, ((name, new1) :: al), p'. split; [intros k n K; exact K|]. split; [exact I1|]. split; [exact A|reflexivity].
      - destruct (import_element f src rename suffix ((new1, e) :: d, c1, (name, new1) :: al) p) as [[st2 n2]|] eqn:R; [|discriminate].
        destruct st2 as [[d2 c2] al2]. destruct (get al2 p) as [p'|] eqn:A; [|discriminate]. injection H as <- <-.
        destruct (IH _ _ _ _ _ _ I1 (used_parent _ _ _ _ _ U E P) R) as (og2 & X2 & I2 & _).
        exists og2, d2, c2, al2, p'. auto. }
    destruct Q as (og2 & d2 & c2 & al2 & p' & X2 & I2 & A & Eq). injection Eq as -> ->.
    exists og2. split; [intros k n K; apply X2, X, K|]. split; [|apply X2, O1].
    exact (parent_inv _ _ _ _ _ _ _ _ _ _ I2 (X2 _ _ O1) E P A).
  - injection H as <- <-. exists (grow og new1 name). auto.
Qed.

Lemma names_inv ns : forall og st st' l, inv og [] st -> (forall n, In n ns -> used src names n) ->
  import_names src rename suffix st ns = Some (st', l) ->
  exists og', extends og og' /\ inv og' [] st' /\ map og' l = map Some ns.
Proof.
  induction ns as [|n r IH]; cbn [import_names]; intros og st st' l I U H.
  - injection H as <- <-. exists og. split; [intros k n K; exact K|]. split; [exact I|reflexivity].
  - destruct (import_element _ _ _ _ st n) as [[st1 new]|] eqn:E; [|discriminate].
    destruct (import_names src rename suffix st1 r) as [[st2 l2]|] eqn:R; [|discriminate]. injection H as <- <-.
    destruct (element_inv _ _ _ _ _ _ _ I (U n (or_introl eq_refl)) E) as (og1 & X1 & I1 & O1).
    destruct (IH og1 st1 st2 l2 I1 (fun m Hm => U m (or_intror Hm)) R) as (og2 & X2 & I2 & M).
    exists og2. split; [intros k m K; apply X2, X1, K|]. split; [exact I2|]. cbn [map]. rewrite M, (X2 _ _ O1). reflexivity.
Qed.

Lemma inv_0 c : inv (fun _ => None) [] (d0, c, []).
Proof. split; cbn; try discriminate. reflexivity. Qed.

Lemma names_ok c st' l : import_names src rename suffix (d0, c, []) names = Some (st', l) ->
  exists origin, map origin l = map Some names /\ copies src (fst (fst st')) origin /\
    (forall n e, get d0 n = Some e -> get (fst (fst st')) n = Some e).
Proof.
  intros H. destruct (names_inv names _ _ _ _ (inv_0 c) (used_name src names) H) as (og & _ & I & M). exists og. split; [exact M|]. split.
  - intros k n K. destruct (i_copy _ _ _ I _ _ K) as (e & e' & S & G & (L1 & L2 & L3 & L4) & _ & P). exists e, e'. repeat split; auto.
    exact (P (fun f => f)).
  - intros n e E. destruct (og n) as [m|] eqn:O; [|now rewrite (i_rest _ _ _ I _ O)].
    destruct (i_old _ _ _ I _ _ O) as [N|[N S]]; [congruence|]. rewrite E in N. injection N as ->.
    destruct (i_copy _ _ _ I _ _ O) as (y & y' & S' & G & (L1 & L2 & L3 & L4) & P0 & _). rewrite S in S'. injection S' as <-.
    rewrite G. specialize (P0 eq_refl). destruct y' as [a b c' a' p]. cbn in *. subst. reflexivity.
Qed.
End Import.

(** * Whole lines *)
Lemma get_app {A} (a b : list (string * A)) x : get (a ++ b)%list x = match get a x with Some q => Some q | None => get b x end.
Proof. induction a as [|[m e] r IH]; cbn; [reflexivity|]. destruct (String.eqb x m); [reflexivity|exact IH]. Qed.

Lemma import_ok suffix rename line_name overwrite v src src_vars names v' l :
  let suf := match suffix with Some s => s | None => "/" ++ line_name end in
  free_names rename suf (ev_elems v) src names -> markers_plain src -> markers_plain (ev_elems v) ->
  import_line suffix rename line_name overwrite v src src_vars names = Some (v', l) ->
  (exists origin, map origin l = map Some names /\ copies src (ev_elems v') origin) /\
  (forall n e, get (ev_elems v) n = Some e -> get (ev_elems v') n = Some e) /\
  (forall x, get (ev_vars v') x = if overwrite
     then match get src_vars x with Some q => Some q | None => get (ev_vars v) x end
     else match get (ev_vars v) x with Some q => Some q | None => get src_vars x end).
Proof.
  cbv zeta. intros F M1 M2 H. unfold import_line in H.
  destruct (import_names _ _ _ _ names) as [[[[d c] al] l2]|] eqn:E; [|discriminate]. injection H as <- <-.
  destruct (names_ok _ _ _ _ _ F M1 M2 _ _ _ E) as (og & A & B & C). split; [exists og; auto|]. split; [exact C|].
  intros x. cbn [ev_vars]. unfold merge_vars. destruct overwrite; apply get_app.
Qed.

Lemma eval_same v w t : (forall x, occurs x t -> get v x = get w x) -> eval v t = eval w t.
Proof.
  induction t as [q|y|a IHa b IHb|a IHa b IHb]; cbn; intros H; [reflexivity|now rewrite (H y eq_refl)| |]; rewrite IHa, IHb; auto.
Qed.
Lemma values_same v w e e' : el_attrs e' = el_attrs e -> same_variables v w e -> values v e' = values w e.
Proof.
  intros E H. unfold values. rewrite E. apply map_ext_in. intros [a t] I. cbn. f_equal. apply eval_same. intros x O. exact (H a t x I O).
Qed.

Lemma import_values suffix rename line_name overwrite v src src_vars names v' l :
  let suf := match suffix with Some s => s | None => "/" ++ line_name end in
  free_names rename suf (ev_elems v) src names -> markers_plain src -> markers_plain (ev_elems v) ->
  import_line suffix rename line_name overwrite v src src_vars names = Some (v', l) ->
  (forall i n k, nth_error names i = Some n -> nth_error l i = Some k ->
     exists e e', get src n = Some e /\ get (ev_elems v') k = Some e' /\
       (same_variables (ev_vars v') src_vars e -> values (ev_vars v') e' = values src_vars e)) /\
  (forall n e, get (ev_elems v) n = Some e -> (overwrite = true -> same_variables (ev_vars v') (ev_vars v) e) ->
     (forall a t x, In (a, t) (el_attrs e) -> occurs x t -> get (ev_vars v) x <> None) ->
     get (ev_elems v') n = Some e /\ values (ev_vars v') e = values (ev_vars v) e).
Proof.
  cbv zeta. intros F M1 M2 H. destruct (import_ok _ _ _ _ _ _ _ _ _ _ F M1 M2 H) as ((og & A & B) & C & D). split.
  - intros i n k Hn Hk. assert (O : og k = Some n).
    { apply (map_nth_error og) in Hk. apply (map_nth_error Some) in Hn. congruence. }
    destruct (B k n O) as (e & e' & S & G & _ & _ & _ & At & _). exists e, e'. split; [exact S|]. split; [exact G|]. now apply values_same.
  - intros n e E Ho Hd. split; [auto|]. apply values_same; [reflexivity|]. destruct overwrite; [auto|].
    intros a t x I O. rewrite D. specialize (Hd a t x I O). destruct (get (ev_vars v) x); [reflexivity|congruence].
Qed.

(** * Imports succeed *)
Section Succeed.
Variables (src : elems) (rename : list (string * string)) (suffix : string) (names : list string).
Hypothesis Hall : forall n, used src names n -> exists e, get src n = Some e /\ el_allowed e = true.

Definition todo (al : list (string * string)) : nat := List.length (filter (fun k => negb (has al k)) (map fst src)).
Lemma has_cons {A} (al : list (string * A)) n k m : has ((n, k) :: al) m = String.eqb m n || has al m.
Proof. unfold has. cbn. destruct (String.eqb m n); reflexivity. Qed.
Lemma filter_less {A} (f g : A -> bool) l : (forall x, g x = true -> f x = true) -> (List.length (filter g l) <= List.length (filter f l))%nat.
Proof.
  intros H. induction l as [|x r IH]; cbn; [lia|]. specialize (H x). destruct (g x); [rewrite H by reflexivity; cbn; lia|destruct (f x); cbn; lia].
Qed.
Lemma filter_strict {A} (f g : A -> bool) l y : (forall x, g x = true -> f x = true) -> In y l -> f y = true -> g y = false ->
  (List.length (filter g l) < List.length (filter f l))%nat.
Proof.
  intros H I F G. induction l as [|x r IH]; [destruct I|]. cbn. destruct I as [->|I].
  - rewrite F, G. cbn. pose proof (filter_less f g r H). lia.
  - specialize (IH I). pose proof (H x). destruct (g x); [rewrite H0 by reflexivity; cbn; lia|destruct (f x); cbn; lia].
Qed.
Lemma get_key n (e : el) : get src n = Some e -> In n (map fst src).
Proof. intros H. apply get_in. unfold has. now rewrite H. Qed.
Lemma todo_less al n k e : get src n = Some e -> has al n = false -> (todo ((n, k) :: al) < todo al)%nat.
Proof.
  intros E H. apply (filter_strict _ _ _ n).
  - intros x. rewrite has_cons. destruct (String.eqb x n), (has al x); cbn; congruence.
  - exact (get_key _ _ E).
  - now rewrite H.
  - now rewrite has_cons, String.eqb_refl.
Qed.
Lemma todo_first al n k e : get src n = Some e -> (todo ((n, k) :: al) < List.length src)%nat.
Proof.
  intros E. unfold todo. rewrite <- (map_length fst src).
  replace (List.length (map fst src)) with (List.length (filter (fun _ => true) (map fst src))).
  - apply (filter_strict _ _ _ n); [reflexivity|exact (get_key _ _ E)|reflexivity|now rewrite has_cons, String.eqb_refl].
  - clear. induction (map fst src) as [|x r IH]; cbn; [reflexivity|now rewrite IH].
Qed.

Lemma element_keeps fuel : forall st name st' new, import_element fuel src rename suffix st name = Some (st', new) ->
  has (snd st') name = true /\ forall n, has (snd st) n = true -> has (snd st') n = true.
Proof.
  induction fuel as [|f IH]; cbn [import_element]; [discriminate|]. intros [[d c] al] name st' new H.
  destruct (get src name) as [e|]; [|discriminate]. destruct (negb _); [discriminate|].
  destruct (new_name_of _ _ _ _ _ _) as [c1 new1].
  assert (K : forall al' : list (string * string), (forall n, has ((name, new1) :: al) n = true -> has al' n = true) ->
     has al' name = true /\ (forall n, has al n = true -> has al' n = true)).
  { intros al' M. split; [apply M; now rewrite has_cons, String.eqb_refl|]. intros n Hn. apply M. rewrite has_cons, Hn. apply orb_true_r. }
  cbn [snd]. destruct (el_parent e) as [p|].
  - destruct (has ((name, new1) :: al) p) eqn:Hp.
    + destruct (get ((name, new1) :: al) p); [|discriminate]. injection H as <- <-. apply K. auto.
    + destruct (import_element f _ _ _ _ p) as [[[[d2 c2] al2] n2]|] eqn:R; [|discriminate]. destruct (get al2 p); [|discriminate].
      injection H as <- <-. apply K. exact (proj2 (IH _ _ _ _ R)).
  - injection H as <- <-. apply K. auto.
Qed.
Lemma element_body f d c al name (e : el) : get src name = Some e -> el_allowed e = true ->
  (forall st p, el_parent e = Some p -> has (snd st) p = false -> (exists k, snd st = (name, k) :: al) ->
     exists r, import_element f src rename suffix st p = Some r) ->
  exists r, import_element (S f) src rename suffix (d, c, al) name = Some r.
Proof.
  intros E A R. cbn [import_element]. rewrite E, A. cbn [negb]. destruct (new_name_of _ _ _ _ _ _) as [c1 new1].
  destruct (el_parent e) as [p|]; [|eauto]. destruct (has ((name, new1) :: al) p) eqn:Hp.
  - unfold has in Hp. destruct (get _ p); [eauto|discriminate].
  - destruct (R ((new1, e) :: d, c1, (name, new1) :: al) p eq_refl Hp (ex_intro _ new1 eq_refl)) as ([[[d2 c2] al2] n2] & Q). rewrite Q.
    destruct (element_keeps _ _ _ _ _ Q) as (K & _). unfold has in K. cbn [snd] in K. destruct (get al2 p); [eauto|discriminate].
Qed.
Lemma element_succeeds fuel : forall st name, used src names name -> has (snd st) name = false -> (todo (snd st) <= fuel)%nat ->
  exists r, import_element fuel src rename suffix st name = Some r.
Proof.
  induction fuel as [|f IH]; intros [[d c] al] name U N T; destruct (Hall name U) as (e & E & A); cbn [snd] in *.
  - pose proof (todo_less al name name e E N). lia.
  - apply (element_body f d c al name e E A). intros st p P Hp (k & S). apply IH; [exact (used_parent _ _ _ _ _ U E P)|exact Hp|].
    rewrite S. pose proof (todo_less al name k e E N). lia.
Qed.
Lemma names_succeed ns : forall st, (forall n, In n ns -> used src names n) -> exists r, import_names src rename suffix st ns = Some r.
Proof.
  induction ns as [|n r IH]; intros st U; cbn [import_names]; [eauto|].
  assert (S : exists q, import_element (S (List.length src)) src rename suffix st n = Some q).
  { destruct st as [[d c] al]. destruct (Hall n (U n (or_introl eq_refl))) as (e & E & A). apply (element_body _ d c al n e E A).
    intros st p P Hp (k & S). apply element_succeeds; [exact (used_parent _ _ _ _ _ (U n (or_introl eq_refl)) E P)|exact Hp|].
    rewrite S. pose proof (todo_first al n k e E). lia. }
  destruct S as ([st1 new] & ->). destruct (IH st1 (fun m Hm => U m (or_intror Hm))) as ([st2 l] & ->). eauto.
Qed.
End Succeed.

Lemma import_succeeds suffix rename line_name overwrite v src src_vars names :
  (forall n, used src names n -> exists e, get src n = Some e /\ el_allowed e = true) ->
  exists r, import_line suffix rename line_name overwrite v src src_vars names = Some r.
Proof.
  intros H. unfold import_line.
  destruct (names_succeed src rename (match suffix with Some s => s | None => "/" ++ line_name end) names H names (ev_elems v, ev_counter v, []) (used_name src names))
    as ([[[d c] al] l] & ->). eauto.
Qed.

(** * Names which are kept *)
Lemma names_kept src suffix ns : NoDup ns -> forall d c al,
  (forall n, In n ns -> exists e, get src n = Some e /\ el_allowed e = true /\ el_parent e = None /\ generated_name n = false /\ get d n = None) ->
  exists st, import_names src [] suffix (d, c, al) ns = Some (st, ns).
Proof.
  induction 1 as [|n r Nn Nr IH]; intros d c al H; cbn [import_names]; [eauto|].
  destruct (H n (or_introl eq_refl)) as (e & E & A & P & G & D).
  cbn [import_element]. rewrite E, A. cbn [negb]. unfold new_name_of. cbn [get]. rewrite G. cbn [andb]. rewrite D, P.
  destruct (IH ((n, e) :: d) c ((n, n) :: al)) as (st & ->); [|eauto].
  intros m Hm. destruct (H m (or_intror Hm)) as (x & X & XA & XP & XG & XD). exists x. repeat split; auto.
  cbn. destruct (String.eqb_spec m n) as [->|]; [contradiction|exact XD].
Qed.
Lemma import_kept suffix line_name overwrite v src src_vars names : NoDup names ->
  (forall n, In n names -> exists e, get src n = Some e /\ el_allowed e = true /\ el_parent e = None /\ generated_name n = false /\
     get (ev_elems v) n = None) ->
  exists v', import_line suffix [] line_name overwrite v src src_vars names = Some (v', names).
Proof.
  intros N H. unfold import_line. cbv zeta.
  destruct (names_kept src (match suffix with Some s => s | None => "/" ++ line_name end) names N (ev_elems v) (ev_counter v) [] H)
    as ([[d c] al] & Q).
  unfold elems in *. rewrite Q. eauto.
Qed.
