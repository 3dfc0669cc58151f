(** Names, dictionaries and replicas. *)
From Coq Require Import ZArith QArith List Bool String Ascii Arith Lia FinFun DecimalString DecimalNat Decimal.
From Verif.Model Require Import Line.
From Verif.Spec Require Import Line.
Import ListNotations.
Local Open Scope nat_scope.

(** * Decimal names *)
Lemma dec_inj m n : dec m = dec n -> m = n.
Proof.
  unfold dec. intro H. apply (f_equal NilEmpty.uint_of_string) in H. rewrite !NilEmpty.usu in H.
  injection H as H. apply DecimalNat.Unsigned.to_uint_inj, H.
Qed.

Lemma append_inj p a b : (p ++ a = p ++ b)%string -> a = b.
Proof. induction p; cbn; intro H; [exact H|]. injection H as H. auto. Qed.

Lemma append_assoc a b c : ((a ++ b) ++ c = a ++ (b ++ c))%string.
Proof. induction a; cbn; congruence. Qed.

Fixpoint last_char (s : string) : option ascii :=
  match s with
  | EmptyString => None
  | String c EmptyString => Some c
  | String _ r => last_char r
  end.
Lemma last_append a b : b <> EmptyString -> last_char (a ++ b) = last_char b.
Proof.
  intro H. induction a as [|x a IH]; cbn; [reflexivity|]. destruct (a ++ b)%string eqn:E; [|exact IH].
  destruct a; cbn in E; [contradiction|discriminate].
Qed.

Definition digit (c : ascii) : bool := match c with "0" | "1" | "2" | "3" | "4" | "5" | "6" | "7" | "8" | "9" => true | _ => false end%char.
Lemma uint_last d : d <> Decimal.Nil -> exists c, last_char (NilEmpty.string_of_uint d) = Some c /\ digit c = true.
Proof.
  induction d; intro H; try congruence; cbn;
    (destruct (NilEmpty.string_of_uint d) eqn:E;
     [eexists; split; reflexivity|
      assert (D : d <> Decimal.Nil) by (intros ->; discriminate); destruct (IHd D) as (c & H1 & H2); exists c; auto]).
Qed.
Lemma to_uint_nonnil n : Nat.to_uint n <> Decimal.Nil.
Proof. intro H. apply (f_equal Nat.of_uint) in H as H2. rewrite DecimalNat.Unsigned.of_to in H2. cbn in H2. subst n. discriminate. Qed.
Lemma dec_last n : exists c, last_char (dec n) = Some c /\ digit c = true.
Proof. apply uint_last, to_uint_nonnil. Qed.
Lemma dec_nonempty n : dec n <> EmptyString.
Proof. intro H. destruct (dec_last n) as (c & E & _). rewrite H in E. discriminate. Qed.
Lemma last_dec a n : exists c, last_char (a ++ dec n) = Some c /\ digit c = true.
Proof. rewrite last_append by apply dec_nonempty. apply dec_last. Qed.

Lemma not_edge a n b : (a ++ dec n <> b ++ "_entry" /\ a ++ dec n <> b ++ "_exit")%string.
Proof.
  destruct (last_dec a n) as (c & E & D).
  split; intro H; rewrite H, last_append in E by discriminate; cbn in E; injection E as <-; discriminate.
Qed.

(** * Dictionaries *)
Lemma find_in d n e : find d n = Some e -> In n (map fst d).
Proof. induction d as [|[m x] d IH]; cbn; [discriminate|]. destruct (String.eqb_spec n m); [auto|]. intro H. right. auto. Qed.
Lemma in_find d n : In n (map fst d) -> exists e, find d n = Some e.
Proof. induction d as [|[m x] d IH]; cbn; [contradiction|]. destruct (String.eqb_spec n m); [eauto|]. intros [->|H]; [congruence|auto]. Qed.
Lemma mem_true d n : mem d n = true <-> In n (map fst d).
Proof.
  unfold mem. split.
  - destruct (find d n) eqn:E; [|discriminate]. intros _. eapply find_in; exact E.
  - intro H. destruct (in_find d n H) as (e & ->). reflexivity.
Qed.

Lemma lookup_set v n e m : lookup (set_elem v n e) m = if String.eqb m n then Some e else lookup v m.
Proof. reflexivity. Qed.

(** * Fresh names *)
Lemma fresh_spec fuel d mk i : mem d (mk (fresh fuel d mk i)) = false
  \/ (fresh fuel d mk i = i + fuel /\ forall j, i <= j < i + fuel -> mem d (mk j) = true).
Proof.
  revert i. induction fuel as [|fuel IH]; intro i; cbn [fresh].
  - right. split; [lia|]. intros j H. lia.
  - destruct (mem d (mk i)) eqn:E; [|left; exact E]. destruct (IH (S i)) as [H|[H1 H2]]; [left; exact H|right].
    split; [lia|]. intros j H. destruct (Nat.eq_dec j i) as [->|]; [exact E|]. apply H2. lia.
Qed.

Lemma fresh_new d mk i : (forall a b, mk a = mk b -> a = b) -> mem d (mk (fresh_index d mk i)) = false.
Proof.
  intro Inj. unfold fresh_index. destruct (fresh_spec (S (List.length d)) d mk i) as [H|[_ H]]; [exact H|exfalso].
  set (l := map mk (seq i (S (List.length d)))).
  assert (ND : NoDup l).
  { unfold l. apply FinFun.Injective_map_NoDup; [intros a b; apply Inj|apply seq_NoDup]. }
  assert (Inc : incl l (map fst d)).
  { intros x Hx. unfold l in Hx. apply in_map_iff in Hx. destruct Hx as (j & <- & Hj). apply in_seq in Hj. apply mem_true, H. lia. }
  pose proof (NoDup_incl_length ND Inc) as L. unfold l in L. rewrite !map_length, seq_length in L. lia.
Qed.

Lemma mem_lookup v n : mem (en_dict v) n = false <-> lookup v n = None.
Proof. unfold mem, lookup. destruct (find (en_dict v) n); split; congruence. Qed.

(** * Growing environments *)
Definition grows (v v' : env) : Prop := keeps v v' /\ List.length (en_dict v) <= List.length (en_dict v').
Lemma grows_refl v : grows v v.
Proof. split; [intros n e H; exact H|lia]. Qed.
Lemma grows_trans a b c : grows a b -> grows b c -> grows a c.
Proof. intros [K1 L1] [K2 L2]. split; [intros n e H; auto|lia]. Qed.
Lemma grows_set v n e : lookup v n = None \/ lookup v n = Some e -> grows v (set_elem v n e).
Proof.
  intro H. split; [|cbn; lia]. intros m x Hm. rewrite lookup_set. destruct (String.eqb_spec m n); [|exact Hm]. subst m.
  destruct H; congruence.
Qed.

(** * Replicas *)
Lemma resolve_loop_sound fuel v : forall vis t r, resolve_loop fuel v vis t = Some r -> leads v t r.
Proof.
  induction fuel as [|fuel IH]; intros vis t r H; cbn [resolve_loop] in H; [discriminate|].
  destruct (lookup v t) as [e|] eqn:E; [|discriminate]. destruct e as [c l g|k p w o|b p o|p].
  1-3: injection H as <-; eapply leads_here; [exact E|discriminate].
  destruct (existsb (String.eqb p) vis); [discriminate|]. eapply leads_next; [exact E|]. eapply IH; exact H.
Qed.

(** the names on the way *)
Inductive path (v : env) : string -> list string -> string -> Prop :=
| path_here n e : lookup v n = Some e -> (forall p, e <> EReplica p) -> path v n [n] n
| path_next n p l t : lookup v n = Some (EReplica p) -> path v p l t -> path v n (n :: l) t.

Lemma leads_path v n t : leads v n t -> exists l, path v n l t.
Proof. induction 1 as [n e H N|n p t H L [l P]]; [exists [n]; eapply path_here; eassumption|exists (n :: l); eapply path_next; eassumption]. Qed.

Lemma path_unique v n l t : path v n l t -> forall l' t', path v n l' t' -> l = l' /\ t = t'.
Proof.
  induction 1 as [n e H N|n p l t H P IH]; intros l' t' P'; inversion P'; subst.
  - auto.
  - exfalso. rewrite H in H0. injection H0 as ->. eapply N; reflexivity.
  - exfalso. rewrite H in H0. injection H0 as <-. eapply H1; reflexivity.
  - rewrite H in H0. injection H0 as <-. destruct (IH _ _ H1) as [-> ->]. auto.
Qed.

Lemma path_suffix v n l t : path v n l t -> forall m, In m l -> exists a b, l = a ++ b /\ path v m b t.
Proof.
  induction 1 as [n e H N|n p l t H P IH]; intros m Hm.
  - destruct Hm as [<-|[]]. exists [], [n]. split; [reflexivity|]. eapply path_here; eassumption.
  - destruct Hm as [<-|Hm]; [exists [], (n :: l); split; [reflexivity|]; eapply path_next; eassumption|].
    destruct (IH m Hm) as (a & b & -> & Pb). exists (n :: a), b. auto.
Qed.

Lemma path_nodup v n l t : path v n l t -> NoDup l.
Proof.
  induction 1 as [n e H N|n p l t H P IH]; [repeat constructor; auto|]. constructor; [|exact IH]. intro Hn.
  destruct (path_suffix _ _ _ _ P n Hn) as (a & b & E & Pb).
  assert (P2 : path v n (n :: l) t) by (eapply path_next; eassumption).
  destruct (path_unique _ _ _ _ P2 _ _ Pb) as [E2 _]. rewrite <- E2 in E.
  apply (f_equal (@List.length string)) in E. rewrite app_length in E. cbn in E. lia.
Qed.

Lemma path_in v n l t : path v n l t -> incl l (map fst (en_dict v)).
Proof.
  induction 1 as [n e H N|n p l t H P IH]; intros m Hm.
  - destruct Hm as [<-|[]]. eapply find_in; exact H.
  - destruct Hm as [<-|Hm]; [eapply find_in; exact H|auto].
Qed.

Lemma path_resolve v n l t : path v n l t -> forall fuel vis, List.length l <= fuel ->
  (forall m, In m l -> m = n \/ ~ In m vis) -> resolve_loop fuel v vis n = Some t.
Proof.
  intro P. pose proof (path_nodup _ _ _ _ P) as ND. revert ND.
  induction P as [n e H N|n p l t H P IH]; intros ND fuel vis L V; (destruct fuel as [|fuel]; [cbn in L; lia|]); cbn [resolve_loop].
  - rewrite H. destruct e; try reflexivity. exfalso. eapply N; reflexivity.
  - rewrite H. inversion ND as [|x y Hn ND']; subst.
    assert (Pl : In p l) by (inversion P; cbn; auto).
    assert (E : existsb (String.eqb p) vis = false).
    { destruct (existsb (String.eqb p) vis) eqn:E; [exfalso|reflexivity]. apply existsb_exists in E. destruct E as (x & Hx & Ex).
      apply String.eqb_eq in Ex. subst x. destruct (V p) as [->|C]; [right; exact Pl|contradiction|contradiction]. }
    rewrite E. apply IH; [exact ND'|cbn in L; lia|]. intros m Hm. destruct (string_dec m p); [auto|right]. intros [C|C]; [congruence|].
    destruct (V m) as [->|C2]; [right; exact Hm|contradiction|contradiction].
Qed.

Theorem resolve_replica_iff v p t : resolve_replica v p = Some t <-> leads v p t.
Proof.
  split; [apply resolve_loop_sound|]. intro L. destruct (leads_path _ _ _ L) as (l & P). unfold resolve_replica.
  apply (path_resolve v p l t P).
  - pose proof (NoDup_incl_length (path_nodup _ _ _ _ P) (path_in _ _ _ _ P)) as X. rewrite map_length in X. lia.
  - intros m Hm. destruct (string_dec m p); [auto|right]. intros [C|[]]. congruence.
Qed.

Lemma leads_unique v n t t' : leads v n t -> leads v n t' -> t = t'.
Proof.
  intros A B. destruct (leads_path _ _ _ A) as (l & P). destruct (leads_path _ _ _ B) as (l' & P'). eapply path_unique; eassumption.
Qed.

Lemma leads_keeps v v' n t : keeps v v' -> leads v n t -> leads v' n t.
Proof. intros K L. induction L; [eapply leads_here; eauto|eapply leads_next; eauto]. Qed.

Lemma leads_end v n t : leads v n t -> exists e, lookup v t = Some e /\ forall p, e <> EReplica p.
Proof. induction 1; eauto. Qed.

(** the element behind a name, by [leads] *)
Theorem resolve_iff v n t e : resolve v n = Some (t, e) <-> leads v n t /\ lookup v t = Some e.
Proof.
  unfold resolve. split.
  - destruct (lookup v n) as [x|] eqn:E; [|discriminate]. destruct x as [c l g|k p w o|b p o|p].
    1-3: intros [= <- <-]; split; [eapply leads_here; [exact E|discriminate]|exact E].
    destruct (resolve_replica v p) as [t'|] eqn:R; [|discriminate]. destruct (lookup v t') as [e'|] eqn:E'; [|discriminate].
    intros [= <- <-]. split; [|exact E']. eapply leads_next; [exact E|]. apply resolve_replica_iff, R.
  - intros [L E]. inversion L as [m x H N|m p t' H L']; subst.
    + rewrite E. rewrite E in H. injection H as <-. destruct e; try reflexivity. exfalso. eapply N; reflexivity.
    + rewrite H. apply resolve_replica_iff in L'. rewrite L', E. reflexivity.
Qed.

Lemma resolve_keeps v v' n r : keeps v v' -> resolve v n = Some r -> resolve v' n = Some r.
Proof.
  intros K H. destruct r as [t e]. apply resolve_iff in H. destruct H as [L E]. apply resolve_iff.
  split; [eapply leads_keeps; eassumption|apply K, E].
Qed.
Lemma elem_length_keeps v v' e l : keeps v v' -> elem_length v e = Some l -> elem_length v' e = Some l.
Proof.
  intros K. destruct e as [c x g|k p w o|b p o|p]; cbn; auto. destruct (lookup v p) as [x|] eqn:E; [|discriminate].
  rewrite (K _ _ E). auto.
Qed.
Lemma s_length_keeps v v' n l : keeps v v' -> s_length v n = Some l -> s_length v' n = Some l.
Proof.
  intros K. unfold s_length. destruct (resolve v n) as [[t e]|] eqn:E; [|discriminate]. rewrite (resolve_keeps _ _ _ _ K E).
  destruct (thick e); [apply elem_length_keeps, K|auto].
Qed.
Lemma line_length_keeps v v' names l : keeps v v' -> line_length v names = Some l -> line_length v' names = Some l.
Proof.
  intros K. revert l. induction names as [|n r IH]; intros l; cbn; [auto|].
  destruct (s_length v n) as [a|] eqn:E; [|discriminate]. destruct (line_length v r) as [b|]; [|discriminate].
  rewrite (s_length_keeps _ _ _ _ K E), (IH b eq_refl). auto.
Qed.

Lemma line_length_app v a b x y : line_length v a = Some x -> line_length v b = Some y ->
  exists z, line_length v (a ++ b) = Some z /\ (z == x + y)%Q.
Proof.
  revert x. induction a as [|n a IH]; intros x Ha Hb; cbn in *.
  - injection Ha as <-. exists y. split; [exact Hb|ring].
  - destruct (s_length v n) as [l|]; [|discriminate]. destruct (line_length v a) as [m|]; [|discriminate]. injection Ha as <-.
    destruct (IH m eq_refl Hb) as (z & -> & E). exists (l + z)%Q. split; [reflexivity|]. rewrite E. ring.
Qed.

(** * Drift names *)
Lemma drift_name_inj a b : drift_name a = drift_name b -> a = b.
Proof. unfold drift_name. intro H. apply append_inj in H. apply dec_inj, H. Qed.

Lemma a_drift_name_spec v v' n : a_drift_name v = (v', n) ->
  en_dict v' = en_dict v /\ en_cache v' = en_cache v /\ lookup v n = None /\ exists k, n = drift_name k.
Proof.
  unfold a_drift_name. set (k := fresh_index _ _ _). intro H. pose proof (f_equal fst H) as H1. pose proof (f_equal snd H) as H2. cbn [fst snd] in H1, H2.
  subst v' n. cbn [en_dict en_cache]. split; [reflexivity|]. split; [reflexivity|]. split; [|exists k; reflexivity].
  apply mem_lookup. unfold k. apply fresh_new, drift_name_inj.
Qed.

Lemma cached_in c l n : cached c l = Some n -> exists k, In (k, n) c /\ (k == l)%Q.
Proof.
  induction c as [|[k m] c IH]; cbn; [discriminate|]. destruct (Qeq_bool k l) eqn:E.
  - intros [= <-]. exists k. split; [auto|]. apply Qeq_bool_iff, E.
  - intro H. destruct (IH H) as (k' & H1 & H2). eauto.
Qed.

Theorem get_drift_spec v l v' n : cache_ok v -> get_drift v l = (v', n) ->
  grows v v' /\ cache_ok v' /\ (exists l' t, lookup v' n = Some (EOwn CDrift l' t) /\ (l' == l)%Q)
  /\ forall m e, lookup v' m = Some e -> lookup v m = Some e \/ exists k, m = drift_name k.
Proof.
  intros C H. unfold get_drift in H. destruct (cached (en_cache v) l) as [m|] eqn:E.
  - injection H as <- <-. split; [apply grows_refl|]. split; [exact C|]. split; [|auto].
    apply cached_in in E. destruct E as (k & Hin & Ek). destruct (C k m Hin) as (l' & t & H1 & H2). exists l', t. split; [exact H1|].
    rewrite H2. exact Ek.
  - destruct (a_drift_name v) as [v1 m] eqn:A. destruct (a_drift_name_spec _ _ _ A) as (D & Ca & N & (k & K)). injection H as <- <-.
    assert (L : forall x, lookup (mkEnv ((m, EOwn CDrift l 0) :: en_dict v1) (en_counter v1) ((l, m) :: en_cache v1)) x
      = if String.eqb x m then Some (EOwn CDrift l 0) else lookup v x).
    { intro x. unfold lookup. cbn. rewrite D. reflexivity. }
    assert (G : keeps v (mkEnv ((m, EOwn CDrift l 0) :: en_dict v1) (en_counter v1) ((l, m) :: en_cache v1))).
    { intros x e Hx. rewrite L. destruct (String.eqb_spec x m); [subst x; congruence|exact Hx]. }
    split; [split; [exact G|cbn; rewrite D; lia]|]. split; [|split].
    + intros l0 n0 [Hin|Hin].
      * injection Hin as <- <-. exists l, 0. rewrite L, String.eqb_refl. split; reflexivity.
      * rewrite Ca in Hin. destruct (C _ _ Hin) as (l' & t & H1 & H2). exists l', t. split; [apply G, H1|exact H2].
    + exists l, 0. rewrite L, String.eqb_refl. split; reflexivity.
    + intros x e. rewrite L. destruct (String.eqb_spec x m); [subst x; eauto|auto].
Qed.
