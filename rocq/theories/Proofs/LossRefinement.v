(** Proofs about the refinement of loss locations *)
From Coq Require Import QArith Qround ZArith List Bool Arith Lia Lqa Permutation Sorted.
From Verif.Model Require Import LossRefinement.
From Verif.Spec Require Import LossRefinement.
Import ListNotations.
Local Open Scope list_scope.

(** * Apertures *)
Lemma apertures_in l : forall a i, In i (apertures_from a l) <-> (a <= i)%nat /\ exists e, nth_error l (i - a) = Some e /\ e_aperture e = true.
Proof.
  induction l as [|e r IH]; intros a i; cbn [apertures_from].
  - split; [contradiction|]. intros (_ & e & H & _). destruct (i - a)%nat; discriminate.
  - assert (R : In i (apertures_from (S a) r) <-> (S a <= i)%nat /\ exists e0, nth_error (e :: r) (i - a) = Some e0 /\ e_aperture e0 = true).
    { rewrite IH. split; intros (L & x & H); (split; [lia|]); exists x; replace (i - a)%nat with (S (i - S a)) in * by lia; exact H. }
    destruct (e_aperture e) eqn:A; cbn [In]; rewrite R; clear R; split.
    + intros [<-|(L & H)]; [split; [lia|]; exists e; now rewrite Nat.sub_diag|split; [lia|exact H]].
    + intros (L & x & H). destruct (Nat.eq_dec a i); [now left|right]. split; [lia|eauto].
    + intros (L & H). split; [lia|exact H].
    + intros (L & x & H & X). split; [|eauto]. destruct (Nat.eq_dec a i) as [<-|]; [|lia]. rewrite Nat.sub_diag in H. cbn in H. congruence.
Qed.
Lemma apertures_ok l i : In i (find_apertures l) <-> is_aperture l i.
Proof. unfold find_apertures, is_aperture. rewrite apertures_in, Nat.sub_0_r. split; [tauto|]. intros H. split; [lia|exact H]. Qed.
Lemma apertures_sorted l a : StronglySorted lt (apertures_from a l).
Proof.
  revert a. induction l as [|e r IH]; intros a; cbn [apertures_from]; [constructor|]. destruct (e_aperture e); [|apply IH].
  constructor; [apply IH|]. apply Forall_forall. intros x H. apply apertures_in in H. lia.
Qed.
Lemma index_nth i l k : index_of i l = Some k -> nth_error l k = Some i.
Proof.
  revert k. induction l as [|x r IH]; intros k; cbn; [discriminate|]. destruct (Nat.eqb_spec x i) as [->|].
  - intros H. injection H as <-. reflexivity.
  - destruct (index_of i r) as [j|]; [|discriminate]. cbn. intros H. injection H as <-. now apply IH.
Qed.
Lemma in_index i l : In i l -> exists k, index_of i l = Some k.
Proof.
  induction l as [|x r IH]; cbn; [contradiction|]. destruct (Nat.eqb_spec x i); [eauto|]. intros [H|H]; [contradiction|].
  destruct (IH H) as (k & ->). cbn. eauto.
Qed.
Lemma sorted_between l j a b x : StronglySorted lt l -> nth_error l j = Some a -> nth_error l (S j) = Some b -> In x l -> (x <= a \/ b <= x)%nat.
Proof.
  intros S. revert j. induction S as [|y r S IH F]; intros j A B I; [destruct j; discriminate|]. destruct j as [|j].
  - cbn in A. injection A as ->. destruct I as [->|I]; [left; lia|]. right. cbn in B. destruct r as [|z r]; [discriminate|]. injection B as ->.
    destruct I as [->|I]; [lia|]. apply StronglySorted_inv in S as [_ S]. rewrite Forall_forall in S. specialize (S x I). lia.
  - cbn in A. destruct I as [->|I].
    + left. rewrite Forall_forall in F. apply nth_error_In in A. specialize (F a A). lia.
    + exact (IH j A B I).
Qed.
Lemma sorted_lt l j a b : StronglySorted lt l -> nth_error l j = Some a -> nth_error l (S j) = Some b -> (a < b)%nat.
Proof.
  intros S. revert j. induction S as [|y r S IH F]; intros j A B; [destruct j; discriminate|]. destruct j as [|j].
  - cbn in A, B. injection A as ->. rewrite Forall_forall in F. apply F. destruct r as [|z r]; [discriminate|]. injection B as ->. now left.
  - exact (IH j A B).
Qed.
Lemma previous_index l i1 j : index_of i1 (find_apertures l) = Some (S j) -> previous_aperture l (nth j (find_apertures l) 0%nat) i1.
Proof.
  intros H. apply index_nth in H. pose proof (apertures_sorted l 0) as St. fold (find_apertures l) in St.
  destruct (nth_error (find_apertures l) j) as [a|] eqn:A.
  2: { apply nth_error_None in A. assert (S j < length (find_apertures l))%nat by (apply nth_error_Some; congruence). lia. }
  rewrite (nth_error_nth _ _ 0%nat A). split; [apply apertures_ok; eauto using nth_error_In|]. split; [apply apertures_ok; eauto using nth_error_In|].
  split; [exact (sorted_lt _ _ _ _ St A H)|]. intros i Hi C. apply apertures_ok in C. destruct (sorted_between _ _ _ _ _ St A H C); lia.
Qed.
Lemma previous_unique l i0 i0' i1 : previous_aperture l i0 i1 -> previous_aperture l i0' i1 -> i0 = i0'.
Proof.
  intros (A & _ & L & N) (A' & _ & L' & N'). destruct (Nat.lt_trichotomy i0 i0') as [C|[C|C]]; [|exact C|].
  - elim (N i0' ltac:(lia) A').
  - elim (N' i0 ltac:(lia) A).
Qed.
Lemma index_previous l i0 i1 : previous_aperture l i0 i1 -> exists j, index_of i1 (find_apertures l) = Some (S j) /\ nth j (find_apertures l) 0%nat = i0.
Proof.
  intros P. pose proof P as (A & A1 & L & N). apply apertures_ok in A1. destruct (in_index _ _ A1) as ([|j] & K).
  - exfalso. apply index_nth in K. apply apertures_ok in A. pose proof (apertures_sorted l 0) as St. fold (find_apertures l) in St.
    destruct (find_apertures l) as [|x r]; [discriminate|]. cbn in K. injection K as ->. apply StronglySorted_inv in St as [_ St]. rewrite Forall_forall in St.
    destruct A as [->|A]; [lia|]. specialize (St i0 A). lia.
  - exists j. split; [exact K|]. exact (previous_unique _ _ _ _ (previous_index _ _ _ K) P).
Qed.

(** * Positions *)
Lemma s_succ l i e : nth_error l i = Some e -> (s_at l (S i) == s_at l i + e_length e)%Q.
Proof.
  unfold s_at. revert i. induction l as [|x r IH]; intros [|i] H; try discriminate.
  - cbn in H. injection H as ->. cbn. lra.
  - cbn in H. cbn [firstn map fold_right]. rewrite (IH i H). cbn [firstn map fold_right]. lra.
Qed.
Lemma s_end l i : nth_error l i = None -> (s_at l (S i) == s_at l i)%Q.
Proof. intros H. apply nth_error_None in H. unfold s_at. rewrite !firstn_all2 by lia. reflexivity. Qed.
Lemma thin_or_thick l i0 n : sound l ->
  ((s_at l (i0 + n) == s_at l i0)%Q /\ forall i e, (i0 <= i < i0 + n)%nat -> nth_error l i = Some e -> e_thick e = false) \/
  (exists k e, (i0 <= k < i0 + n)%nat /\ nth_error l k = Some e /\ e_thick e = true /\
     (s_at l k == s_at l i0)%Q /\ forall i x, (i0 <= i < k)%nat -> nth_error l i = Some x -> e_thick x = false).
Proof.
  intros S. induction n as [|n IH].
  - left. rewrite Nat.add_0_r. split; [reflexivity|lia].
  - destruct IH as [[E T]|(k & e & K & H)]; [|right; exists k, e; split; [lia|exact H]].
    destruct (nth_error l (i0 + n)) as [e|] eqn:N.
    + destruct (e_thick e) eqn:Th.
      * right. exists (i0 + n)%nat, e. split; [lia|]. auto.
      * left. split.
        -- rewrite Nat.add_succ_r, (s_succ _ _ _ N), E. destruct (S e (nth_error_In _ _ N)) as (_ & Z & _). rewrite (Z Th). lra.
        -- intros i x Hi X. destruct (Nat.eq_dec i (i0 + n)) as [->|]; [congruence|apply (T i); [lia|exact X]].
    + left. split; [rewrite Nat.add_succ_r, s_end by exact N; exact E|]. intros i x Hi X.
      destruct (Nat.eq_dec i (i0 + n)) as [->|]; [congruence|apply (T i); [lia|exact X]].
Qed.
Lemma thin_or_thick_up l i1 n : sound l -> (n <= i1)%nat ->
  ((s_at l i1 == s_at l (i1 - n))%Q /\ forall i e, (i1 - n <= i < i1)%nat -> nth_error l i = Some e -> e_thick e = false) \/
  (exists k e, (i1 - n <= k < i1)%nat /\ nth_error l k = Some e /\ e_thick e = true /\
     (s_at l (S k) == s_at l i1)%Q /\ forall i x, (k < i < i1)%nat -> nth_error l i = Some x -> e_thick x = false).
Proof.
  intros S. induction n as [|n IH]; intros Hn.
  - left. rewrite Nat.sub_0_r. split; [reflexivity|lia].
  - destruct (IH ltac:(lia)) as [[E T]|(k & e & K & H)]; [|right; exists k, e; split; [lia|exact H]].
    set (j := (i1 - Datatypes.S n)%nat). replace (i1 - n)%nat with (Datatypes.S j) in * by (unfold j; lia).
    destruct (nth_error l j) as [e|] eqn:N.
    + destruct (e_thick e) eqn:Th.
      * right. exists j, e. split; [unfold j; lia|]. split; [exact N|]. split; [exact Th|]. split; [now rewrite E|]. intros i x Hi. apply T. lia.
      * left. split.
        -- rewrite E, (s_succ _ _ _ N). destruct (S e (nth_error_In _ _ N)) as (_ & Z & _). rewrite (Z Th). lra.
        -- intros i x Hi X. destruct (Nat.eq_dec i j) as [->|]; [congruence|apply (T i); [lia|exact X]].
    + left. split; [rewrite E; now apply s_end|]. intros i x Hi X.
      destruct (Nat.eq_dec i j) as [->|]; [congruence|apply (T i); [lia|exact X]].
Qed.
Lemma between_thick l i0 i1 : sound l -> previous_aperture l i0 i1 -> (s_at l i0 < s_at l i1)%Q ->
  exists a b, first_thick l i0 a /\ (a <= b < i1)%nat /\ (s_at l a == s_at l i0)%Q /\ (s_at l (S b) == s_at l i1)%Q /\
    (exists e, nth_error l b = Some e /\ e_thick e = true) /\
    (forall i e, (b < i <= i1)%nat -> nth_error l i = Some e -> e_thick e = false).
Proof.
  intros S (A & A1 & L & _) G. destruct (thin_or_thick l i0 (i1 - i0) S) as [[E _]|(a & e & Ka & Na & Ta & Ea & Fa)].
  { replace (i0 + (i1 - i0))%nat with i1 in E by lia. rewrite E in G. lra. }
  destruct (thin_or_thick_up l i1 (i1 - i0) S ltac:(lia)) as [[E _]|(b & e' & Kb & Nb & Tb & Eb & Fb)].
  { replace (i1 - (i1 - i0))%nat with i0 in E by lia. rewrite E in G. lra. }
  exists a, b. assert (La : (i0 < a)%nat).
  { destruct (Nat.eq_dec a i0) as [->|]; [|lia]. destruct A as (x & X & Ax). destruct (S x (nth_error_In _ _ X)) as (_ & _ & Z). specialize (Z Ax). congruence. }
  split; [split; [exact La|split; [eauto|exact Fa]]|]. split.
  - split; [|lia]. destruct (Nat.le_gt_cases a b) as [|C]; [assumption|]. rewrite (Fa b e' ltac:(lia) Nb) in Tb. discriminate.
  - split; [exact Ea|]. split; [exact Eb|]. split; [eauto|]. intros i x Hi X. destruct (Nat.eq_dec i i1) as [->|]; [|apply (Fb i x); [lia|exact X]].
    destruct A1 as (y & Y & Ay). rewrite X in Y. injection Y as <-. destruct (S x (nth_error_In _ _ X)) as (_ & _ & Z). exact (Z Ay).
Qed.

(** * The grid *)
Lemma steps_snoc d l a b : steps d (l ++ [a]) -> (b - a == d)%Q -> steps d (l ++ [a; b]).
Proof.
  induction l as [|x r IH]; intros H E.
  - cbn. auto.
  - destruct r as [|y r]; cbn in *; [tauto|]. destruct H as [H1 H2]. split; [exact H1|]. exact (IH H2 E).
Qed.
Lemma steps_map s0 d n : forall a, steps d (map (fun i => s0 + inject_Z (Z.of_nat i) * d)%Q (seq a n)).
Proof.
  induction n as [|n IH]; intros a; [exact I|]. destruct n as [|n]; [exact I|]. change (seq a (S (S n))) with (a :: S a :: seq (S (S a)) n).
  cbn [map steps]. split; [|exact (IH (S a))]. rewrite Nat2Z.inj_succ. unfold Z.succ. rewrite inject_Z_plus. change (inject_Z 1) with 1%Q. ring.
Qed.
Lemma steps_ext d l l' : Forall2 Qeq l l' -> steps d l -> steps d l'.
Proof.
  intros F. induction F as [|a b l l' E F IH]; [auto|]. destruct F as [|a' b' l l' E' F]; [auto|]. cbn. intros [H1 H2]. split; [now rewrite <- E, <- E'|exact (IH H2)].
Qed.
Lemma grid_ok s0 s1 ds : (0 < ds)%Q -> (s0 <= s1)%Q -> exists d, (0 <= d <= ds)%Q /\ steps d (s0 :: locations s0 s1 ds ++ [s1]).
Proof.
  intros Hd Hs. unfold locations. set (n := n_segments s0 s1 ds).
  assert (Hx : (0 <= (s1 - s0) / ds)%Q) by (apply Qle_shift_div_l; [exact Hd|lra]).
  assert (C : ((s1 - s0) / ds <= inject_Z (Z.of_nat n))%Q).
  { unfold n, n_segments. pose proof (Qle_ceiling ((s1 - s0) / ds)) as Q. rewrite Z2Nat.id; [exact Q|]. rewrite (Zle_Qle 0). change (inject_Z 0) with 0%Q. lra. }
  assert (L : (s1 - s0 <= inject_Z (Z.of_nat n) * ds)%Q).
  { apply (Qmult_le_r _ _ ds Hd) in C. setoid_replace ((s1 - s0) / ds * ds)%Q with (s1 - s0)%Q in C by (field; lra). exact C. }
  destruct (Nat.leb_spec n 1) as [N|N].
  - exists (s1 - s0)%Q. cbn. split; [|split; [reflexivity|exact I]]. split; [lra|].
    assert (inject_Z (Z.of_nat n) <= 1)%Q by (change 1%Q with (inject_Z 1); rewrite <- Zle_Qle; lia). nra.
  - set (q := inject_Z (Z.of_nat n)) in *. assert (Hq : (0 < q)%Q) by (unfold q; change 0%Q with (inject_Z 0); rewrite <- Zlt_Qlt; lia).
    exists ((s1 - s0) / q)%Q. split.
    + split; [apply Qle_shift_div_l; [exact Hq|lra]|apply Qle_shift_div_r; [exact Hq|lra]].
    + apply (steps_ext _ (map (fun i => s0 + inject_Z (Z.of_nat i) * ((s1 - s0) / q))%Q (seq 0 (n + 1)))); [|apply steps_map].
      replace (n + 1)%nat with (S (n - 1 + 1)) by lia. cbn [seq map]. rewrite seq_app, map_app. constructor; [change (inject_Z (Z.of_nat 0)) with 0%Q; ring|].
      apply Forall2_app; [clear; induction (map (fun i => s0 + inject_Z (Z.of_nat i) * ((s1 - s0) / q))%Q (seq 1 (n - 1))); constructor; [reflexivity|assumption]|].
      cbn [seq map]. constructor; [|constructor]. replace (1 + (n - 1))%nat with n by lia. fold q. field. lra.
Qed.

(** * Searching thick elements *)
Lemma py_nat {A} (l : list A) i : py_get l (Z.of_nat i) = nth_error l i.
Proof. unfold py_get. rewrite (proj2 (Z.leb_le 0 (Z.of_nat i))) by lia. now rewrite Nat2Z.id. Qed.
Lemma down_found l n : forall i fuel e, (n < fuel)%nat -> nth_error l (i + n) = Some e -> e_thick e = true ->
  (forall j x, (i <= j < i + n)%nat -> nth_error l j = Some x -> e_thick x = false) -> adjacent fuel l (Z.of_nat i) 1 = Some (Z.of_nat (i + n)).
Proof.
  induction n as [|n IH]; intros i [|fuel] e F N T B; try lia; cbn [adjacent]; rewrite py_nat.
  - rewrite Nat.add_0_r in N |- *. now rewrite N, T.
  - destruct (nth_error l i) as [x|] eqn:X.
    2: { apply nth_error_None in X. assert (i + S n < length l)%nat by (apply nth_error_Some; congruence). lia. }
    rewrite (B i x ltac:(lia) X). replace (Z.of_nat i + 1)%Z with (Z.of_nat (S i)) by lia. replace (i + S n)%nat with (S i + n)%nat in * by lia.
    apply (IH (S i) fuel e); [lia|exact N|exact T|]. intros j y Hj. apply B. lia.
Qed.
Lemma up_found l n : forall i fuel e, (n < fuel)%nat -> (n <= i)%nat -> (i < length l)%nat -> nth_error l (i - n) = Some e -> e_thick e = true ->
  (forall j x, (i - n < j <= i)%nat -> nth_error l j = Some x -> e_thick x = false) -> adjacent fuel l (Z.of_nat i) (-1) = Some (Z.of_nat (i - n)).
Proof.
  induction n as [|n IH]; intros i [|fuel] e F Hi Li N T B; try lia; cbn [adjacent]; rewrite py_nat.
  - rewrite Nat.sub_0_r in N |- *. now rewrite N, T.
  - destruct (nth_error l i) as [x|] eqn:X; [|apply nth_error_None in X; lia]. rewrite (B i x ltac:(lia) X).
    replace (Z.of_nat i + -1)%Z with (Z.of_nat (i - 1)) by lia. replace (i - S n)%nat with (i - 1 - n)%nat in * by lia.
    apply (IH (i - 1)%nat fuel e); [lia|lia|lia|exact N|exact T|]. intros j y Hj. apply B. lia.
Qed.
Lemma find_down l i0 a : first_thick l i0 a -> find_adjacent_thick l i0 false = Some (Z.of_nat a).
Proof.
  intros (L & (e & N & T) & F). unfold find_adjacent_thick. assert (a < length l)%nat by (apply nth_error_Some; congruence).
  replace a with (i0 + (a - i0))%nat in * by lia. apply (down_found l _ _ _ e); [lia|exact N|exact T|exact F].
Qed.
Lemma first_unique l i0 a a' : first_thick l i0 a -> first_thick l i0 a' -> a = a'.
Proof. intros H H'. apply find_down in H, H'. rewrite H in H'. injection H' as H'. lia. Qed.
Lemma find_up l b i1 e : (b < i1)%nat -> (i1 < length l)%nat -> nth_error l b = Some e -> e_thick e = true ->
  (forall i e, (b < i <= i1)%nat -> nth_error l i = Some e -> e_thick e = false) -> find_adjacent_thick l i1 true = Some (Z.of_nat b).
Proof.
  intros L L1 N T F. unfold find_adjacent_thick. replace b with (i1 - (i1 - b))%nat in * by lia. apply (up_found l _ _ _ e); [lia|lia|exact L1|exact N|exact T|exact F].
Qed.

(** * Particles *)
Lemma in_skipn {A} (x : A) n : forall m i, In x (skipn (i + n) m) -> In x (skipn i m).
Proof.
  induction m as [|y m IH]; intros i H; [now rewrite skipn_nil in *|]. destruct i as [|i]; [|cbn in *; exact (IH i H)].
  cbn [Nat.add skipn] in *. destruct n as [|n]; [exact H|]. right. cbn in H. rewrite <- (firstn_skipn n m). apply in_app_iff. now right.
Qed.
Section Refine.
Context {D : Type}.
Variables (forward back : nat -> D -> D) (fly : nat -> Q -> D -> D) (outside : nat -> nat -> Q -> D -> bool).
Variable reorder : list (nat * (Q * D)) -> list (nat * (Q * D)).
Hypothesis Hreorder : forall l, Permutation (reorder l) l.

Lemma insert_swap (x y : nat * (Q * D)) l : fst x <> fst y -> insert_by x (insert_by y l) = insert_by y (insert_by x l).
Proof.
  intros N. induction l as [|z r IH]; cbn.
  - destruct (Nat.leb_spec (fst x) (fst y)), (Nat.leb_spec (fst y) (fst x)); try reflexivity; lia.
  - destruct (Nat.leb_spec (fst y) (fst z)), (Nat.leb_spec (fst x) (fst z)); cbn;
      repeat match goal with |- context [(?a <=? ?b)%nat] => destruct (Nat.leb_spec a b) end; try reflexivity; try lia. now rewrite IH.
Qed.
Lemma sort_perm (l l' : list (nat * (Q * D))) : Permutation l l' -> NoDup (map fst l) -> sort_by_id l = sort_by_id l'.
Proof.
  induction 1 as [|x l l' P IH|x y l|l l' l'' P IH P' IH']; intros N; cbn.
  - reflexivity.
  - inversion_clear N. unfold sort_by_id in IH. now rewrite IH.
  - inversion_clear N as [|? ? I _]. apply insert_swap. intros E. apply I. left. congruence.
  - rewrite IH by exact N. apply IH'. exact (Permutation_NoDup (Permutation_map fst P) N).
Qed.
Lemma sort_seq (vs : list (Q * D)) : forall a, sort_by_id (combine (seq a (length vs)) vs) = combine (seq a (length vs)) vs.
Proof.
  induction vs as [|v r IH]; intros a; [reflexivity|]. cbn [length seq combine]. unfold sort_by_id in *. cbn [fold_right]. rewrite IH.
  destruct r as [|w r]; [reflexivity|]. cbn [length seq combine insert_by fst]. rewrite (proj2 (Nat.leb_le a (S a))) by lia. reflexivity.
Qed.
Lemma map_combine_seq (vs : list (Q * D)) a : map snd (combine (seq a (length vs)) vs) = vs.
Proof. revert a. induction vs as [|v r IH]; intros a; cbn; [reflexivity|now rewrite IH]. Qed.
Lemma map_combine_fst (vs : list (Q * D)) a : map fst (combine (seq a (length vs)) vs) = seq a (length vs).
Proof. revert a. induction vs as [|v r IH]; intros a; cbn; [reflexivity|now rewrite IH]. Qed.
Lemma scatter_map i (f : @particle D -> Q * D) ps : scatter i ps (map f (filter (lost_at i) ps)) =
  map (fun p => if lost_at i p then mkParticle (p_state p) (p_at p) (fst (f p)) (snd (f p)) else p) ps.
Proof.
  induction ps as [|p r IH]; [reflexivity|]. cbn [filter scatter map]. destruct (lost_at i p); cbn [map]; [|now rewrite IH].
  destruct (f p). cbn [fst snd]. now rewrite IH.
Qed.
Lemma single_map l ds i0 i1 i_start ps : refine_single back fly outside reorder l ds i0 i1 i_start ps =
  map (fun p => if lost_at i1 p then let v := refine_particle back fly outside l ds i0 i1 i_start (p_data p) in mkParticle (p_state p) (p_at p) (fst v) (snd v) else p) ps.
Proof.
  unfold refine_single. set (f := fun p : @particle D => refine_particle back fly outside l ds i0 i1 i_start (p_data p)).
  rewrite <- (map_length f). set (vs := map f (filter (lost_at i1) ps)).
  rewrite (sort_perm _ (combine (seq 0 (length vs)) vs)), sort_seq, map_combine_seq.
  - unfold vs. apply scatter_map.
  - apply Hreorder.
  - apply (Permutation_NoDup (l := map fst (combine (seq 0 (length vs)) vs))); [apply Permutation_map; symmetry; apply Hreorder|].
    rewrite map_combine_fst. apply seq_NoDup.
Qed.

(** what one aperture does to a particle *)
Definition upd (l : line) (ds : Q) (i1 : nat) (p : @particle D) : particle :=
  if lost_at i1 p then
    match index_of i1 (find_apertures l) with
    | Some (S j) =>
        let i0 := nth j (find_apertures l) 0%nat in
        if Qle_bool (s_at l i1 - s_at l i0) ds then p
        else match find_adjacent_thick l i0 false with
             | Some k => let v := refine_particle back fly outside l ds i0 i1 (Z.to_nat k) (p_data p) in mkParticle (p_state p) (p_at p) (fst v) (snd v)
             | None => p
             end
    | _ => p
    end
  else p.
Lemma upd_same l ds i p : p_state (upd l ds i p) = p_state p /\ p_at (upd l ds i p) = p_at p.
Proof.
  unfold upd. destruct (lost_at i p); [|auto]. destruct (index_of _ _) as [[|j]|]; [auto| |auto]. cbv zeta. destruct (Qle_bool _ _); [auto|].
  destruct (find_adjacent_thick _ _ _); auto.
Qed.
Lemma upd_other l ds i p : p_at p <> i -> upd l ds i p = p.
Proof. intros N. unfold upd, lost_at. rewrite (proj2 (Nat.eqb_neq _ _) N), andb_false_r. reflexivity. Qed.
Lemma upd_id l ds i ps : existsb (lost_at i) ps = false -> map (upd l ds i) ps = ps.
Proof.
  intros H. rewrite <- (map_id ps) at 2. apply map_ext_in. intros p I. unfold upd. destruct (lost_at i p) eqn:E; [|reflexivity].
  exfalso. assert (existsb (lost_at i) ps = true) by (apply existsb_exists; eauto). congruence.
Qed.

Section Loop.
Variables (l : line) (ds : Q).
Hypothesis Hl : sound l.
Hypothesis Hds : (0 < ds)%Q.
Lemma loop_map aps : (forall i1, In i1 aps -> is_aperture l i1) ->
  (forall i0 i1, In i1 aps -> previous_aperture l i0 i1 -> existsb e_skip (between l i0 i1) = false) ->
  (forall i0 i1, In i1 aps -> previous_aperture l i0 i1 -> forallb e_back (between l i0 i1) = true) ->
  forall ps, refine_loop back fly outside reorder l ds aps ps = Some (fold_left (fun ps i => map (upd l ds i) ps) aps ps).
Proof.
  induction aps as [|i1 r IH]; intros A S B ps; [reflexivity|]. cbn [refine_loop fold_left].
  assert (Rec : forall ps, refine_loop back fly outside reorder l ds r ps = Some (fold_left (fun ps i => map (upd l ds i) ps) r ps)).
  { intros qs. apply IH; [intros i Hi; apply A; now right|intros i j Hj; apply S; now right|intros i j Hj; apply B; now right]. }
  destruct (existsb (lost_at i1) ps) eqn:E; cbn [negb]; [|now rewrite upd_id by exact E].
  assert (Id : forall f : @particle D -> particle, (forall p, lost_at i1 p = true -> upd l ds i1 p = f p) -> map (upd l ds i1) ps = map (fun p => if lost_at i1 p then f p else p) ps).
  { intros f Hf. apply map_ext. intros p. destruct (lost_at i1 p) eqn:Lp; [now apply Hf|]. unfold upd. now rewrite Lp. }
  destruct (in_index i1 (find_apertures l)) as ([|j] & K); [apply apertures_ok, A; now left| |].
  - rewrite K, Rec. do 2 f_equal. rewrite (Id (fun p => p)); [|intros p Lp; unfold upd; now rewrite Lp, K].
    symmetry. rewrite <- (map_id ps) at 2. apply map_ext. intros p. destruct (lost_at i1 p); reflexivity.
  - rewrite K. pose proof (previous_index _ _ _ K) as P. set (i0 := nth j (find_apertures l) 0%nat) in *. rewrite (S i0 i1 (or_introl eq_refl) P).
    destruct (Qle_bool (s_at l i1 - s_at l i0) ds) eqn:G.
    + rewrite Rec. do 2 f_equal. rewrite (Id (fun p => p)); [|intros p Lp; unfold upd; rewrite Lp, K; fold i0; cbv zeta; now rewrite G].
      symmetry. rewrite <- (map_id ps) at 2. apply map_ext. intros p. destruct (lost_at i1 p); reflexivity.
    + assert (Gap : (s_at l i0 < s_at l i1)%Q).
      { destruct (Qlt_le_dec (s_at l i0) (s_at l i1)) as [X|X]; [exact X|]. assert (Qle_bool (s_at l i1 - s_at l i0) ds = true) by (apply Qle_bool_iff; lra). congruence. }
      destruct (between_thick l i0 i1 Hl P Gap) as (a & b & Fa & Lab & _ & _ & (e & Nb & Tb) & Fb).
      assert (L1 : (i1 < length l)%nat) by (destruct P as (_ & (x & X & _) & _); apply nth_error_Some; congruence).
      rewrite (find_up l b i1 e ltac:(lia) L1 Nb Tb Fb), (find_down l i0 a Fa), Nat2Z.id.
      assert (Bk : forallb e_back (between l a i1) = true).
      { apply forallb_forall. intros x X. specialize (B i0 i1 (or_introl eq_refl) P). rewrite forallb_forall in B. apply B. unfold between in *.
        destruct Fa as (La & _). replace a with (i0 + (a - i0))%nat in X by lia. exact (in_skipn _ _ _ _ X). }
      rewrite Bk, Rec, single_map. do 2 f_equal. symmetry. apply Id. intros p Lp. unfold upd. rewrite Lp, K. fold i0. cbv zeta. rewrite G, (find_down l i0 a Fa), Nat2Z.id. reflexivity.
Qed.
Lemma fold_maps aps : forall ps : list (@particle D), fold_left (fun ps i => map (upd l ds i) ps) aps ps = map (fun p => fold_left (fun p i => upd l ds i p) aps p) ps.
Proof. induction aps as [|i r IH]; intros ps; cbn [fold_left]; [now rewrite map_id|]. rewrite IH, map_map. reflexivity. Qed.
Lemma fold_other aps : forall p, ~ In (p_at p) aps -> fold_left (fun p i => upd l ds i p) aps p = p.
Proof.
  induction aps as [|i r IH]; intros p N; [reflexivity|]. cbn [fold_left]. rewrite upd_other by (intros E; apply N; now left). apply IH. intros C. apply N. now right.
Qed.
Lemma fold_one aps : NoDup aps -> forall p, In (p_at p) aps -> fold_left (fun p i => upd l ds i p) aps p = upd l ds (p_at p) p.
Proof.
  induction 1 as [|i r N ND IH]; intros p I; [contradiction|]. cbn [fold_left]. destruct (Nat.eq_dec (p_at p) i) as [E|E].
  - rewrite E. apply fold_other. destruct (upd_same l ds i p) as [_ ->]. now rewrite E.
  - rewrite upd_other by exact E. apply IH. destruct I; [congruence|assumption].
Qed.
End Loop.

(** * One particle *)
Lemma back_arrive a n p : (forall i q, back i (forward i q) = q) -> fold_left (fun p i => back i p) (rev (seq a n)) (arrive forward a n p) = p.
Proof.
  intros H. revert a p. induction n as [|n IH]; intros a p; [reflexivity|]. cbn [seq rev arrive]. rewrite fold_left_app. cbn [fold_left]. rewrite IH. apply H.
Qed.
Lemma first_outside_ok i0 i1 i_start s0 p grid : grid <> [] ->
  lost_first fly outside i0 i1 i_start s0 p grid (fst (first_outside fly outside i0 i1 i_start s0 p grid)) (snd (first_outside fly outside i0 i1 i_start s0 p grid)).
Proof.
  induction grid as [|s r IH]; intros H; [congruence|]. cbn [first_outside]. destruct r as [|s' r].
  - exists 0%nat. cbn. repeat split; try lia; auto.
  - destruct (outside i0 i1 s _) eqn:O.
    + exists 0%nat. cbn [fst snd]. repeat split; auto. lia.
    + destruct (IH ltac:(discriminate)) as (k & A & B & C & E). exists (S k). split; [exact A|]. split; [exact B|]. split.
      * intros [|j] t Hj T; [cbn in T; congruence|]. apply (C j); [lia|exact T].
      * destruct E as [E|E]; [now left|right]. cbn [length] in *. lia.
Qed.

Lemma refine_ok l ds aps ps : sound l -> (0 < ds)%Q -> (forall i q, back i (forward i q) = q) ->
  NoDup aps -> (forall i, In i aps -> is_aperture l i) ->
  (forall i0 i1, In i1 aps -> previous_aperture l i0 i1 -> existsb e_skip (between l i0 i1) = false /\ forallb e_back (between l i0 i1) = true) ->
  exists ps', refine_loss_location back fly outside reorder l ds (Some aps) ps = Some ps' /\ length ps' = length ps /\
  forall n p p', nth_error ps n = Some p -> nth_error ps' n = Some p' ->
    p_state p' = p_state p /\ p_at p' = p_at p /\
    (forall i0 i_start q, p_state p = 0%Z -> In (p_at p) aps -> previous_aperture l i0 (p_at p) -> (ds < s_at l (p_at p) - s_at l i0)%Q ->
       first_thick l i0 i_start -> p_data p = arrive forward i_start (p_at p - i_start) q ->
       lost_first fly outside i0 (p_at p) i_start (s_at l i0) q (s_at l i0 :: locations (s_at l i0) (s_at l (p_at p)) ds ++ [s_at l (p_at p)]) (p_s p') (p_data p')) /\
    (p_state p <> 0%Z \/ ~ In (p_at p) aps \/ (forall i0, previous_aperture l i0 (p_at p) -> (s_at l (p_at p) - s_at l i0 <= ds)%Q) -> p' = p).
Proof.
  intros S Hd Hb ND A SB. unfold refine_loss_location.
  rewrite (loop_map l ds S Hd aps A (fun i0 i1 H P => proj1 (SB i0 i1 H P)) (fun i0 i1 H P => proj2 (SB i0 i1 H P)) ps), fold_maps.
  eexists. split; [reflexivity|]. split; [apply map_length|]. intros n p p' N N'.
  rewrite (map_nth_error _ _ _ N) in N'. injection N' as <-.
  destruct (in_dec Nat.eq_dec (p_at p) aps) as [I|I].
  - rewrite fold_one by assumption. split; [apply upd_same|]. split; [apply upd_same|]. split.
    + intros i0 i_start q St _ P G F E. destruct (index_previous _ _ _ P) as (j & K & J). unfold upd, lost_at. rewrite St, Nat.eqb_refl. cbn [Z.eqb andb].
      rewrite K. cbv zeta. rewrite J. destruct (Qle_bool _ ds) eqn:Qb; [apply Qle_bool_iff in Qb; lra|].
      rewrite (find_down l i0 i_start F), Nat2Z.id. cbn [p_s p_data]. unfold refine_particle. rewrite E at 1 2. rewrite back_arrive by exact Hb.
      apply first_outside_ok. discriminate.
    + intros [C|[C|C]]; [|contradiction|].
      * unfold upd, lost_at. rewrite (proj2 (Z.eqb_neq _ _) C). reflexivity.
      * unfold upd. destruct (lost_at _ p); [|reflexivity]. destruct (index_of _ _) as [[|j]|] eqn:K; [reflexivity| |reflexivity]. cbv zeta.
        rewrite (proj2 (Qle_bool_iff _ _) (C _ (previous_index _ _ _ K))). reflexivity.
  - rewrite fold_other by exact I. split; [reflexivity|]. split; [reflexivity|]. split; [contradiction|auto].
Qed.
End Refine.

Lemma default_ok {D} back fly outside reorder l ds (ps : list (@particle D)) :
  refine_loss_location back fly outside reorder l ds None ps =
    refine_loss_location back fly outside reorder l ds (Some (find_apertures l)) ps /\ NoDup (find_apertures l).
Proof.
  split; [reflexivity|]. unfold find_apertures. induction (apertures_sorted l 0) as [|a r _ IH F]; constructor; [|exact IH].
  intros I. rewrite Forall_forall in F. specialize (F a I). lia.
Qed.
