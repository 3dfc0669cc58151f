(** The line of a flattened sequence *)
From Coq Require Import Reals Lra Lia List Bool String Ascii Arith Permutation.
From Verif.Model Require Import Sequence.
From Verif.Spec Require Import Sequence.
From Verif.Proofs Require Import Sequence SequenceNames.
Import ListNotations.
Local Open Scope R_scope.
Local Open Scope string_scope.

Definition esum (l : list entry) : R := fold_right (fun e a => length_of (snd e) + a) 0 l.
Lemma esum_app a b : esum (a ++ b) = esum a + esum b.
Proof. unfold esum. induction a as [|e a IH]; cbn; [ring|rewrite IH; ring]. Qed.

Lemma offset_reference r o : offset r o = - reference r o.
Proof. unfold offset, reference. destruct (o_thick o); [destruct r; field|ring]. Qed.
Lemma size_length o : size (Some o) = length_of o.
Proof. reflexivity. Qed.

Lemma drift_named sc names n : next_name sc "drift" names = Some n -> drift_name sc n /\ ~ In n names.
Proof.
  intros H. destruct (next_name_spec _ _ _ _ H) as (N & [(_ & ->)|(_ & j & -> & _)]); (split; [|exact N]).
  - now left.
  - right. now exists j.
Qed.

Section Build.
Variables (sc : scheme) (r : refer).
Notation add_drifts := (add_drifts sc r).
Notation node_start n := (f_s n - reference r (f_what n)).

Lemma add_drifts_cons n nodes acc last res : add_drifts (n :: nodes) acc last = Some res ->
  exists gap, last <= node_start n /\
    add_drifts nodes (acc ++ gap ++ [(f_name n, f_what n)]) (node_start n + length_of (f_what n)) = Some res /\
    ((gap = [] /\ last = node_start n) \/
     (exists name, gap = [(name, drift (node_start n - last))] /\ next_name sc "drift" (map fst acc) = Some name /\
                   last < node_start n)).
Proof.
  cbn [Sequence.add_drifts]. rewrite offset_reference. change (f_s n + - reference r (f_what n)) with (node_start n).
  destruct (Rlt_dec (node_start n) last); [discriminate|].
  destruct (Rlt_dec last (node_start n)).
  - destruct (next_name _ _ _) as [name|] eqn:E; [|discriminate]. intros H.
    exists [(name, drift (node_start n - last))]. split; [lra|]. split.
    + rewrite app_assoc. exact H.
    + right. exists name. auto.
  - intros H. exists []. split; [lra|]. split; [exact H|]. left. split; [reflexivity|lra].
Qed.

Definition placed_in (nodes : list fnode) (e : entry) : Prop :=
  (exists n, In n nodes /\ e = (f_name n, f_what n)) \/ (exists ds, 0 <= ds /\ snd e = drift ds).

Lemma add_drifts_spec nodes : forall acc last acc' last', add_drifts nodes acc last = Some (acc', last') ->
  esum acc = last -> NoDup (map fst acc) -> distinct sc nodes ->
  (forall n, In n nodes -> ~ In (f_name n) (map fst acc)) ->
  NoDup (map fst acc') /\ esum acc' = last' /\ (exists new, acc' = (acc ++ new)%list /\ forall e, In e new -> placed_in nodes e) /\
  (forall a n b, nodes = (a ++ n :: b)%list -> exists x y, acc' = (x ++ (f_name n, f_what n) :: y)%list /\ esum x = node_start n).
Proof.
  induction nodes as [|n nodes IH]; intros acc last acc' last' H Hs ND (NDn & Dn) Fresh.
  - cbn in H. assert (acc' = acc /\ last' = last) as (-> & ->) by (split; congruence).
    split; [exact ND|]. split; [exact Hs|]. split; [exists []; rewrite app_nil_r; split; [reflexivity|intros e []]|].
    intros [|? ?] m b E; discriminate E.
  - destruct (add_drifts_cons _ _ _ _ _ H) as (gap & Hle & H' & Hgap). clear H.
    inversion NDn as [|? ? N1 N2]; subst.
    assert (G : esum gap = node_start n - esum acc /\ NoDup (map fst (acc ++ gap)) /\
                (forall m, In m (n :: nodes) -> ~ In (f_name m) (map fst (acc ++ gap))) /\
                (forall e, In e gap -> placed_in (n :: nodes) e)).
    { destruct Hgap as [(-> & E)|(name & -> & Hname & Hlt)].
      - rewrite app_nil_r. cbn [esum fold_right]. repeat split; [cbn; lra|exact ND|exact Fresh|intros e []].
      - destruct (drift_named _ _ _ Hname) as (Dname & Fname). repeat split.
        + cbn. unfold length_of. cbn. lra.
        + rewrite map_app. apply NoDup_append; [exact ND|constructor; [intros []|constructor]|].
          intros x Hx [<-|[]]. contradiction.
        + intros m Hm Hin. rewrite map_app in Hin. apply in_app_iff in Hin. destruct Hin as [Hin|[Hin|[]]].
          * exact (Fresh m Hm Hin).
          * apply (Dn m Hm). cbn in Hin. now rewrite <- Hin.
        + intros e [<-|[]]. right. eexists. split; [|reflexivity]. lra. }
    destruct G as (G1 & G2 & G3 & G4).
    assert (S1 : esum (acc ++ gap ++ [(f_name n, f_what n)]) = node_start n + length_of (f_what n)).
    { rewrite !esum_app, G1. cbn. ring. }
    destruct (IH _ _ _ _ H' S1) as (R1 & R2 & (new & R3 & R3') & R4).
    + rewrite app_assoc, map_app. apply NoDup_append; [exact G2|constructor; [intros []|constructor]|].
      intros x Hx [<-|[]]. exact (G3 n (or_introl eq_refl) Hx).
    + split; [exact N2|]. intros m Hm. apply Dn. now right.
    + intros m Hm Hin. rewrite app_assoc, map_app in Hin. apply in_app_iff in Hin. destruct Hin as [Hin|[Hin|[]]].
      * exact (G3 m (or_intror Hm) Hin).
      * cbn in Hin. apply N1. rewrite Hin. now apply in_map.
    + split; [exact R1|]. split; [exact R2|]. split.
      * exists (gap ++ [(f_name n, f_what n)] ++ new)%list. split.
        { rewrite R3. rewrite <- !app_assoc. reflexivity. }
        intros e He. apply in_app_iff in He. destruct He as [He|[<-|He]].
        -- exact (G4 e He).
        -- left. exists n. split; [now left|reflexivity].
        -- destruct (R3' e He) as [(m & Hm & Em)|Hd]; [left; exists m; split; [now right|exact Em]|now right].
      * intros [|m a] k b E.
        -- cbn in E. assert (n = k) by congruence. subst k. exists (acc ++ gap)%list, new. split.
           { rewrite R3. rewrite <- !app_assoc. reflexivity. }
           rewrite esum_app, G1. ring.
        -- cbn in E. assert (E' : nodes = (a ++ k :: b)%list) by congruence. exact (R4 a k b E').
Qed.

Lemma find_in (m : list entry) (e : entry) : NoDup (map fst m) -> In e m -> find (fun d => String.eqb (fst e) (fst d)) m = Some e.
Proof.
  intros NDm Hm. induction m as [|d m IH]; [destruct Hm|]. cbn [find]. cbn in NDm. inversion NDm as [|? ? N1 N2]; subst.
  destruct Hm as [->|Hm].
  - now rewrite String.eqb_refl.
  - destruct (String.eqb_spec (fst e) (fst d)) as [E|_]; [|now apply IH].
    destruct N1. rewrite <- E. now apply in_map.
Qed.
Lemma lookup_in (l : list entry) (e : entry) : NoDup (map fst l) -> In e l -> lookup l (fst e) = Some (snd e).
Proof.
  intros ND He. unfold lookup. pose proof (find_in (rev l) e) as F.
  unfold entry in *. rewrite F; [reflexivity| |now rewrite <- in_rev].
  rewrite map_rev. now apply NoDup_rev.
Qed.
Lemma line_map l : NoDup (map fst l) -> line_elements l = map (fun e => (fst e, Some (snd e))) l.
Proof. intros ND. apply map_ext_in. intros e He. now rewrite (lookup_in l e ND He). Qed.
Lemma total_map l : total (map (fun e => (fst e, Some (snd e))) l) = esum l.
Proof. unfold total, esum. induction l as [|e l IH]; cbn; [reflexivity|]. now rewrite IH. Qed.

Lemma build_spec nodes length l : build sc r nodes length = Some l -> distinct sc nodes ->
  NoDup (map fst l) /\ total (line_elements l) = length /\
  (forall a n b, nodes = (a ++ n :: b)%list ->
     exists x y, line_elements l = (x ++ (f_name n, Some (f_what n)) :: y)%list /\
                 total x + reference r (f_what n) = f_s n) /\
  (forall e, In e (line_elements l) ->
     (exists n, In n nodes /\ e = (f_name n, Some (f_what n))) \/ (exists ds, 0 <= ds /\ snd e = Some (drift ds))).
Proof.
  unfold build. destruct (add_drifts nodes [] 0) as [(acc, last)|] eqn:E; [|discriminate].
  destruct (Rlt_dec length last) as [|Hle]; [discriminate|].
  destruct (next_name sc "drift" (map fst acc)) as [name|] eqn:En; [|discriminate].
  intros H D. assert (El : l = (acc ++ [(name, drift (length - last))])%list) by congruence. clear H.
  destruct (add_drifts_spec nodes [] 0 acc last E eq_refl (NoDup_nil _) D (fun n _ X => X)) as (R1 & R2 & (new & R3 & R3') & R4).
  cbn in R3. subst new. destruct (drift_named _ _ _ En) as (_ & Fname).
  assert (ND : NoDup (map fst l)).
  { rewrite El, map_app. apply NoDup_append; [exact R1|constructor; [intros []|constructor]|].
    intros x Hx [<-|[]]. contradiction. }
  rewrite (line_map l ND), total_map. split; [exact ND|]. split; [|split].
  - rewrite El, esum_app, R2. cbn. unfold length_of. cbn. lra.
  - intros a n b En'. destruct (R4 a n b En') as (x & y & Ex & Sx).
    exists (map (fun e => (fst e, Some (snd e))) x), (map (fun e => (fst e, Some (snd e))) (y ++ [(name, drift (length - last))])).
    split; [rewrite El, Ex, <- app_assoc, map_app; reflexivity|]. rewrite total_map, Sx. ring.
  - intros e He. apply in_map_iff in He. destruct He as (d & <- & Hd). rewrite El in Hd. apply in_app_iff in Hd.
    destruct Hd as [Hd|[<-|[]]].
    + destruct (R3' d Hd) as [(n & Hn & ->)|(ds & Hds & Eds)]; [left; exists n; auto|right; exists ds]. cbn. now rewrite Eds.
    + right. exists (length - last). split; [lra|reflexivity].
Qed.

Lemma add_drifts_fits nodes : forall acc last length,
  fits r nodes last length <-> exists acc' last', add_drifts nodes acc last = Some (acc', last') /\ last' <= length.
Proof.
  induction nodes as [|n nodes IH]; intros acc last length.
  - cbn. split; [eauto|]. intros (a & b & E & L). assert (b = last) by congruence. now subst b.
  - cbn [fits Sequence.add_drifts]. rewrite offset_reference. change (f_s n + - reference r (f_what n)) with (node_start n).
    destruct (Rlt_dec (node_start n) last).
    + split; [intros (? & _); lra|]. intros (a & b & E & _). discriminate.
    + destruct (Rlt_dec last (node_start n)).
      * destruct (next_name_ends sc "drift" (map fst acc)) as (name & ->).
        rewrite size_length, <- IH. split; [tauto|]. intros X. split; [lra|exact X].
      * rewrite size_length, <- IH. split; [tauto|]. intros X. split; [lra|exact X].
Qed.
Lemma build_defined nodes length : fits r nodes 0 length <-> exists l, build sc r nodes length = Some l.
Proof.
  rewrite (add_drifts_fits nodes [] 0 length). unfold build. split.
  - intros (acc & last & -> & L). destruct (Rlt_dec length last); [lra|].
    destruct (next_name_ends sc "drift" (map fst acc)) as (name & ->). eauto.
  - intros (l & H). destruct (add_drifts nodes [] 0) as [(acc, last)|]; [|discriminate].
    destruct (Rlt_dec length last); [discriminate|]. exists acc, last. split; [reflexivity|lra].
Qed.
End Build.

(** * auto_reorder *)
Lemma insert_perm f l : Permutation (f :: l) (insert f l).
Proof.
  induction l as [|g l IH]; cbn [insert]; [apply Permutation_refl|]. destruct (Rlt_dec (f_s g) (f_s f)); [|apply Permutation_refl].
  eapply perm_trans; [apply perm_swap|]. now constructor.
Qed.
Lemma sort_perm l : Permutation l (sort l).
Proof. induction l as [|f l IH]; cbn [sort]; [apply perm_nil|]. eapply perm_trans; [|apply insert_perm]. now constructor. Qed.
Lemma distinct_perm sc a b : Permutation a b -> distinct sc a -> distinct sc b.
Proof.
  intros P (ND & D). split.
  - eapply Permutation_NoDup; [apply Permutation_map; exact P|exact ND].
  - intros n Hn. apply D. eapply Permutation_in; [apply Permutation_sym; exact P|exact Hn].
Qed.

(** * The whole *)
Lemma placed_as_requested elements sequences sc fuel reorder r root flat length l :
  flatten elements sequences sc fuel root = inl flat -> distinct sc flat ->
  from_sequence elements sequences sc fuel reorder r root length = Some l ->
  NoDup (map fst l) /\ total (line_elements l) = length /\
  (forall n, In n flat -> exists x y, line_elements l = (x ++ (f_name n, Some (f_what n)) :: y)%list /\
                                      total x + reference r (f_what n) = f_s n) /\
  (forall e, In e (line_elements l) ->
     (exists n, In n flat /\ e = (f_name n, Some (f_what n))) \/ (exists ds, 0 <= ds /\ snd e = Some (drift ds))).
Proof.
  intros Hf D H. unfold from_sequence in H. rewrite Hf in H.
  set (nodes := if reorder then sort flat else flat) in H.
  assert (P : Permutation flat nodes) by (unfold nodes; destruct reorder; [apply sort_perm|apply Permutation_refl]).
  destruct (build_spec sc r nodes length l H (distinct_perm sc _ _ P D)) as (R1 & R2 & R3 & R4).
  split; [exact R1|]. split; [exact R2|]. split.
  - intros n Hn. apply (Permutation_in _ P) in Hn. apply in_split in Hn. destruct Hn as (a & b & E). exact (R3 a n b E).
  - intros e He. destruct (R4 e He) as [(n & Hn & E)|?]; [left|now right].
    exists n. split; [|exact E]. apply (Permutation_in _ (Permutation_sym P)). exact Hn.
Qed.

Lemma distinct_plain elements sequences c fuel root flat :
  ~ is_digit c -> without c "drift" -> plain_names elements sequences c root -> no_drift_names elements sequences root ->
  flatten elements sequences (separator c) fuel root = inl flat -> distinct (separator c) flat.
Proof.
  intros Hc Hd Hp Hn H. split.
  - exact (unique_names elements sequences c fuel root flat Hc Hp H).
  - intros n Hin. destruct (no_drifts elements sequences c fuel root flat Hc Hd Hp Hn H (f_name n) (in_map f_name _ _ Hin)) as (A & B).
    intros [E|(i & E)]; [exact (A E)|exact (B i E)].
Qed.

Lemma line_defined elements sequences sc fuel r root flat length :
  flatten elements sequences sc fuel root = inl flat ->
  (fits r flat 0 length <-> exists l, from_sequence elements sequences sc fuel false r root length = Some l).
Proof. intros H. unfold from_sequence. rewrite H. apply build_defined. Qed.

(** Sorting *)
Fixpoint sorted (l : list fnode) : Prop :=
  match l with [] => True | f :: l => (forall g, In g l -> f_s f <= f_s g) /\ sorted l end.
Lemma insert_in f l g : In g (insert f l) <-> f = g \/ In g l.
Proof.
  split; intros H.
  - apply (Permutation_in _ (Permutation_sym (insert_perm f l))) in H. exact H.
  - apply (Permutation_in _ (insert_perm f l)). exact H.
Qed.
Lemma insert_sorted f l : sorted l -> sorted (insert f l).
Proof.
  induction l as [|g l IH]; intros H; [cbn; tauto|]. cbn [insert]. destruct H as (H1 & H2).
  destruct (Rlt_dec (f_s g) (f_s f)).
  - split; [|now apply IH]. intros h Hh. apply insert_in in Hh. destruct Hh as [<-|Hh]; [lra|now apply H1].
  - split; [|split; assumption]. intros h [<-|Hh]; [lra|]. specialize (H1 h Hh). lra.
Qed.
Lemma sort_sorted l : sorted (sort l).
Proof. induction l as [|f l IH]; [exact I|]. cbn [sort]. now apply insert_sorted. Qed.

Lemma reference_entry o : reference Entry o = 0.
Proof. unfold reference. now destruct (o_thick o). Qed.
Lemma fits_sorted l : forall from length, fits Entry l from length ->
  (forall f, In f l -> 0 <= o_length (f_what f)) ->
  sorted l /\ forall f, In f l -> from <= f_s f.
Proof.
  induction l as [|n l IH]; intros from length H P; [split; [exact I|intros f []]|].
  destruct H as (H1 & H2). rewrite reference_entry in *.
  destruct (IH _ _ H2) as (S & B); [intros f Hf; apply P; now right|].
  assert (L : 0 <= size (Some (f_what n))).
  { cbn. specialize (P n (or_introl eq_refl)). destruct (o_thick (f_what n)); lra. }
  split.
  - split; [|exact S]. intros g Hg. specialize (B g Hg). lra.
  - intros f [<-|Hf]; [lra|]. specialize (B f Hf). lra.
Qed.
Lemma sorted_unique a : forall b, Permutation a b -> sorted a -> sorted b -> NoDup (map f_s a) -> a = b.
Proof.
  induction a as [|f a IH]; intros b P Sa Sb ND.
  - apply Permutation_nil in P. now subst b.
  - destruct b as [|g b]; [apply Permutation_sym, Permutation_nil in P; discriminate|].
    assert (E : f = g).
    { assert (Hf : In f (g :: b)) by (apply (Permutation_in _ P); now left).
      assert (Hg : In g (f :: a)) by (apply (Permutation_in _ (Permutation_sym P)); now left).
      destruct Hf as [->|Hf]; [reflexivity|]. destruct Hg as [->|Hg]; [reflexivity|].
      cbn in ND. inversion ND as [|? ? N _]; subst. destruct N.
      replace (f_s f) with (f_s g); [now apply in_map|].
      destruct Sa as (A1 & _), Sb as (B1 & _). specialize (A1 g Hg). specialize (B1 f Hf). lra. }
    subst g. f_equal. apply IH.
    + now apply Permutation_cons_inv in P.
    + apply Sa.
    + apply Sb.
    + cbn in ND. now inversion ND.
Qed.
Lemma reorder_defined elements sequences sc fuel root flat flat' length :
  flatten elements sequences sc fuel root = inl flat ->
  Permutation flat flat' -> fits Entry flat' 0 length -> NoDup (map f_s flat) ->
  (forall f, In f flat -> 0 <= o_length (f_what f)) ->
  exists l, from_sequence elements sequences sc fuel true Entry root length = Some l.
Proof.
  intros H P F ND L. unfold from_sequence. rewrite H. apply build_defined.
  replace (sort flat) with flat'; [exact F|]. apply sorted_unique.
  - eapply perm_trans; [apply Permutation_sym; exact P|apply sort_perm].
  - apply (fits_sorted flat' 0 length F). intros f Hf. apply L. apply (Permutation_in _ (Permutation_sym P)). exact Hf.
  - apply sort_sorted.
  - eapply Permutation_NoDup; [apply Permutation_map; exact P|exact ND].
Qed.
