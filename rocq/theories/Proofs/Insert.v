From Coq Require Import ZArith QArith Qabs List Bool String Arith Lia Lqa Permutation.
From Verif.Model Require Import Composer.
From Verif.Spec Require Import Composer.
From Verif.Model Require Import Line Slicing Insert.
From Verif.Spec Require Import Line Slicing LineEdit Insert.
From Verif.Proofs Require Import LineBase Slices Cuts.
From Verif.Proofs Require OrderingTop Gaps Composer.
Import ListNotations.
Local Open Scope Q_scope.

(** * Tilings *)
Definition ival (r : rplace) : Q * Q := (rp_start r, rp_end r).
Definition apart_rows (U : list rplace) : Prop := forall i j p q, nth_error U i = Some p -> nth_error U j = Some q -> i <> j -> disjoint (ival p) (ival q).
Definition numbered (U : list rplace) : Prop := forall i p, nth_error U i = Some p -> rp_index p = i.

Lemma before_nth {A} (l : list A) a b : before l a b <-> exists i j, (i < j)%nat /\ nth_error l i = Some a /\ nth_error l j = Some b.
Proof.
  split.
  - intros (u & v & w & ->). exists (List.length u), (List.length u + S (List.length v))%nat. split; [lia|]. split.
    + rewrite nth_error_app2, Nat.sub_diag by lia. reflexivity.
    + rewrite nth_error_app2 by lia. replace (List.length u + S (List.length v) - List.length u)%nat with (S (List.length v)) by lia. cbn.
      rewrite nth_error_app2, Nat.sub_diag by lia. reflexivity.
  - intros (i & j & L & Hi & Hj). destruct (nth_error_split _ _ Hj) as (l1 & w & -> & Lj). subst j.
    rewrite nth_error_app1 in Hi by exact L. destruct (nth_error_split _ _ Hi) as (u & v & -> & _). exists u, v, w. rewrite <- app_assoc. reflexivity.
Qed.

Section Tile.
Variables (tol stol L : Q) (U : list rplace).
Hypothesis Tp : 0 < stol.
Hypothesis Tt : stol <= tol.
Hypothesis Num : numbered U.
Hypothesis Dj : apart_rows U.
Hypothesis Pos : forall p, In p U -> 0 <= rp_length p /\ 0 <= rp_start p /\ rp_end p <= L.
Hypothesis Ap : forall p q, In p U -> In q U -> well_apart tol [rp_start p; rp_end p; rp_start q; rp_end q].
Hypothesis Cov : forall x, 0 <= x -> x < L -> exists p, In p U /\ rp_start p <= x /\ x < rp_end p.

Lemma index_inj p q : In p U -> In q U -> rp_index p = rp_index q -> p = q.
Proof. intros Hp Hq E. apply In_nth_error in Hp, Hq. destruct Hp as (i & Hi), Hq as (j & Hj). rewrite (Num i p Hi), (Num j q Hj) in E. congruence. Qed.
Lemma disj p q : In p U -> In q U -> p <> q -> disjoint (ival p) (ival q).
Proof.
  intros Hp Hq N. apply In_nth_error in Hp, Hq. destruct Hp as (i & Hi), Hq as (j & Hj). apply (Dj i j p q Hi Hj). intros ->. congruence.
Qed.
Lemma nodup_index : NoDup (map rp_index U).
Proof.
  apply NoDup_nth_error. intros i j Hi E. rewrite map_length in Hi. rewrite !nth_error_map in E.
  destruct (nth_error U i) as [p|] eqn:Ei; [|apply nth_error_None in Ei; lia]. destruct (nth_error U j) as [q|] eqn:Ej; [|discriminate].
  cbn in E. injection E as E. rewrite (Num i p Ei), (Num j q Ej) in E. exact E.
Qed.

Lemma rend p : rp_end p == rp_start p + rp_length p. Proof. reflexivity. Qed.
Lemma rcen p : rp_center p == rp_start p + rp_length p / 2. Proof. reflexivity. Qed.
Lemma half x : x / 2 == x * (1 # 2). Proof. field. Qed.

(** lengths are zero or larger than twice the tolerance *)
Lemma len_cases p : In p U -> rp_length p == 0 \/ 2 * tol < rp_length p.
Proof.
  intro H. destruct (Ap p p H H (rp_start p) (rp_end p)) as [E|E]; [left; reflexivity|right; left; reflexivity|left; rewrite rend in E; lra|right].
  destruct (Pos p H) as (P & _). rewrite rend in E. revert E. apply Qabs_case; intros; lra.
Qed.
Lemma two_points p q : In p U -> In q U -> (rp_start p == rp_start q \/ 2 * tol < Qabs (rp_start p - rp_start q)).
Proof. intros Hp Hq. apply (Ap p q Hp Hq); cbn; auto. Qed.

Lemma centers p q : In p U -> In q U -> p <> q -> rp_end p <= rp_start q ->
  (rp_length p == 0 /\ rp_length q == 0 /\ rp_center p == rp_center q /\ rp_end p == rp_start q) \/ tol < rp_center q - rp_center p.
Proof.
  intros Hp Hq N D. destruct (Pos p Hp) as (P1 & _), (Pos q Hq) as (P2 & _). rewrite !rcen, !half. rewrite !rend in *.
  destruct (len_cases p Hp) as [E1|E1]; [|right; lra]. destruct (len_cases q Hq) as [E2|E2]; [|right; lra].
  destruct (two_points p q Hp Hq) as [E|E]; [left; repeat split; lra|right]. revert E. apply Qabs_case; intros; lra.
Qed.
Lemma centers_any p q : In p U -> In q U -> rp_center p == rp_center q \/ tol < rp_center q - rp_center p \/ tol < rp_center p - rp_center q.
Proof.
  intros Hp Hq. assert (D : {p = q} + {p <> q}).
  { destruct (Nat.eq_dec (rp_index p) (rp_index q)) as [E|E]; [left; apply index_inj; assumption|right; congruence]. }
  destruct D as [->|N]; [left; reflexivity|]. destruct (disj p q Hp Hq N) as [D|D]; cbn in D.
  - destruct (centers p q Hp Hq N D) as [(_ & _ & E & _)|E]; auto.
  - destruct (centers q p Hq Hp (not_eq_sym N) D) as [(_ & _ & E & _)|E]; [left; symmetry; exact E|auto].
Qed.
Lemma clear : clear_cut stol (map rp_center U).
Proof.
  intros a b c Ha Hb Hc. apply in_map_iff in Ha, Hb, Hc. destruct Ha as (p & <- & Hp), Hb as (q & <- & Hq), Hc as (r & <- & Hr). intros H1 H2.
  assert (E1 : rp_center p == rp_center q). { destruct (centers_any p q Hp Hq) as [E|[E|E]]; [exact E| |]; revert H1; apply Qabs_case; intros; lra. }
  assert (E2 : rp_center q == rp_center r). { destruct (centers_any q r Hq Hr) as [E|[E|E]]; [exact E| |]; revert H2; apply Qabs_case; intros; lra. }
  apply Qabs_case; intros; lra.
Qed.
Lemma thick_away : thick_apart stol U.
Proof.
  intros p q Hp Hq T N. assert (Npq : p <> q) by congruence.
  assert (Lp : ~ rp_length p == 0).
  { unfold really_thick in T. apply andb_true_iff in T. destruct T as (_ & T). apply negb_true_iff in T. intro E. apply not_true_iff_false in T. apply T, Qeq_bool_iff. rewrite rend. lra. }
  destruct (disj p q Hp Hq Npq) as [D|D]; cbn in D.
  - destruct (centers p q Hp Hq Npq D) as [(E & _)|E]; [contradiction|]. apply Qabs_case; intros; lra.
  - destruct (centers q p Hq Hp (not_eq_sym Npq) D) as [(_ & E & _)|E]; [contradiction|]. apply Qabs_case; intros; lra.
Qed.

Variables (allow : bool) (res : list rplace).
Hypothesis Sorted : sort_places stol allow U = Some res.
Lemma perm : Permutation U res. Proof. exact (OrderingTop.sort_permutation stol allow U res Sorted). Qed.
Lemma in_res p : In p res -> In p U. Proof. intro H. eapply Permutation_in; [apply Permutation_sym, perm|exact H]. Qed.
Lemma res_in p : In p U -> In p res. Proof. intro H. eapply Permutation_in; [apply perm|exact H]. Qed.
Lemma nodup_res : NoDup (map rp_index res).
Proof. eapply Permutation_NoDup; [apply Permutation_map, perm|apply nodup_index]. Qed.
Lemma before_ne p q : before res p q -> p <> q /\ In p U /\ In q U.
Proof.
  intros (u & v & w & E). assert (Hp : In p res) by (rewrite E; apply in_app_iff; right; left; reflexivity).
  assert (Hq : In q res) by (rewrite E; apply in_app_iff; right; right; apply in_app_iff; right; left; reflexivity).
  split; [|split; apply in_res; assumption]. intros ->. pose proof nodup_res as ND. rewrite E, map_app in ND. cbn in ND. apply NoDup_remove_2 in ND. apply ND.
  apply in_app_iff. right. rewrite map_app. apply in_app_iff. right. left. reflexivity.
Qed.
Lemma before_end p q : before res p q -> rp_end p <= rp_start q.
Proof.
  intro B. destruct (before_ne p q B) as (N & Hp & Hq). pose proof (OrderingTop.sort_sorted stol U Tp clear allow res Sorted p q B) as C.
  destruct (disj p q Hp Hq N) as [D|D]; cbn in D; [exact D|]. destruct (centers q p Hq Hp (not_eq_sym N) D) as [(E1 & E2 & E3 & E4)|E].
  - rewrite !rend in *. lra.
  - lra.
Qed.

(** the elements come one after the other without gaps *)
Lemma covered_gap : forall l x, (forall p q, before l p q -> rp_end p <= rp_start q) ->
  (forall p, In p l -> In p U) -> (forall p, In p l -> x <= rp_start p) -> 0 <= x -> x <= L ->
  (forall p, In p U -> In p l \/ rp_end p <= x) ->
  Forall (fun g => g == 0) (gaps x l) /\ fold_left (fun _ p => rp_end p) l x == L.
Proof.
  induction l as [|p l IH]; intros x O In1 Lo X0 XL All; cbn [gaps fold_left].
  - split; [constructor|]. destruct (Qlt_le_dec x L) as [H|H]; [|lra]. destruct (Cov x X0 H) as (q & Hq & A & B). destruct (All q Hq) as [[]|C]. lra.
  - assert (G : rp_start p - x == 0).
    { pose proof (Lo p (or_introl eq_refl)) as H0. destruct (Qlt_le_dec x (rp_start p)) as [H|H]; [|lra].
      assert (HL : x < L). { destruct (Pos p (In1 p (or_introl eq_refl))) as (P1 & P2 & P3). rewrite rend in P3. lra. }
      destruct (Cov x X0 HL) as (q & Hq & A & B). destruct (All q Hq) as [[->|Hl]|C]; [lra| |lra]. pose proof (Lo q (or_intror Hl)) as H1.
      assert (Bf : before (p :: l) p q). { apply in_split in Hl. destruct Hl as (l1 & l2 & ->). exists [], l1, l2. reflexivity. }
      pose proof (O p q Bf) as H2. destruct (Pos p (In1 p (or_introl eq_refl))) as (P1 & P2 & P3). rewrite rend in H2. lra. }
    destruct (Pos p (In1 p (or_introl eq_refl))) as (P1 & P2 & P3).
    destruct (IH (rp_end p)) as (F & E).
    + intros a b (u & v & w & ->). apply O. exists (p :: u), v, w. reflexivity.
    + intros q Hq. apply In1. right. exact Hq.
    + intros q Hq. apply in_split in Hq. destruct Hq as (l1 & l2 & ->). apply O. exists [], l1, l2. reflexivity.
    + rewrite rend. lra.
    + exact P3.
    + intros q Hq. destruct (All q Hq) as [[->|Hl]|C]; [right; apply Qle_refl|left; exact Hl|right; rewrite (rend p); lra].
    + split; [constructor; [exact G|exact F]|exact E].
Qed.
Lemma tiled : 0 <= L -> Forall (fun g => g == 0) (gaps 0 res) /\ fold_left (fun _ p => rp_end p) res 0 == L.
Proof.
  intro L0. apply covered_gap; [exact before_end|exact in_res| |apply Qle_refl|exact L0|].
  - intros p Hp. apply Pos, in_res, Hp.
  - intros p Hp. left. apply res_in, Hp.
Qed.

(** two elements keep their order *)
Lemma order_kept i j p q : (i < j)%nat -> nth_error U i = Some p -> nth_error U j = Some q -> rp_from p = None -> rp_from q = None ->
  rp_end p <= rp_start q -> before res p q.
Proof.
  intros Lij Hi Hj Fp Fq D. assert (Hp : In p U) by (eapply nth_error_In, Hi). assert (Hq : In q U) by (eapply nth_error_In, Hj).
  assert (N : p <> q). { intros ->. assert (i = j); [|lia]. rewrite <- (Num i q Hi). apply Num, Hj. }
  assert (Ni : rp_index p <> rp_index q) by (rewrite (Num i p Hi), (Num j q Hj); lia).
  destruct (centers p q Hp Hq N D) as [(E1 & E2 & E3 & E4)|E].
  - apply (OrderingTop.sort_pull stol U Tp clear nodup_index thick_away allow res p q 1 1 Sorted Hp Hq).
    + assert (Th : forall r, rp_length r == 0 -> really_thick r = false).
      { intros r Er. unfold really_thick. apply andb_false_iff. right. apply negb_false_iff, Qeq_bool_iff. rewrite rend. lra. }
      split; [exact Ni|]. split; [apply Th, E1|]. split; [apply Th, E2|]. apply Qabs_case; intros; lra.
    + apply pull_none, Fp.
    + apply pull_none, Fq.
    + right. split; [reflexivity|]. apply before_nth. exists i, j. auto.
  - pose proof (res_in p Hp) as Rp. pose proof (res_in q Hq) as Rq. apply In_nth_error in Rp, Rq. destruct Rp as (a & Ha), Rq as (b & Hb). apply before_nth. exists a, b. split; [|auto].
    destruct (Nat.lt_trichotomy a b) as [X|[X|X]]; [exact X|subst; congruence|exfalso].
    assert (B : before res q p) by (apply before_nth; exists b, a; auto).
    pose proof (OrderingTop.sort_sorted stol U Tp clear allow res Sorted q p B) as C. lra.
Qed.
End Tile.

(** * Drifts are not needed *)
Lemma fill_zero tol : 0 <= tol -> forall ps x, Forall (fun g => g == 0) (gaps x ps) ->
  fill_gaps tol x ps = Some (map (fun p => PElem (rp_index p) (rp_length p)) ps).
Proof.
  intros T ps. induction ps as [|p ps IH]; intros x G; cbn [fill_gaps gaps map] in *; [reflexivity|]. inversion G as [|? ? G1 G2]; subst. rewrite (IH _ G2).
  assert (E : Verif.Model.Composer.Qltb tol (Qabs (rp_start p - x)) = false); [|rewrite E; reflexivity].
  unfold Verif.Model.Composer.Qltb. apply negb_false_iff, Qle_bool_iff. rewrite G1. exact T.
Qed.
Lemma put_elems name v : forall ps, put_names name v (map (fun p => PElem (rp_index p) (rp_length p)) ps) = (v, map (fun p => name (rp_index p)) ps).
Proof. induction ps as [|p ps IH]; cbn; [reflexivity|]. rewrite IH. reflexivity. Qed.

(** positions of the names *)
Lemma zero_gaps_spans v name : forall ps x, Forall (fun g => g == 0) (gaps x ps) ->
  (forall p, In p ps -> exists l, s_length v (name (rp_index p)) = Some l /\ l == rp_length p) ->
  exists z, line_length v (map (fun p => name (rp_index p)) ps) = Some z /\ x + z == fold_left (fun _ p => rp_end p) ps x.
Proof.
  induction ps as [|p ps IH]; intros x G S; cbn [map line_length fold_left]; [exists 0; split; [reflexivity|ring]|]. cbn in G. inversion G as [|? ? G1 G2]; subst.
  destruct (S p (or_introl eq_refl)) as (l & -> & El). destruct (IH (rp_end p) G2 (fun q Hq => S q (or_intror Hq))) as (z & -> & Ez).
  exists (l + z). split; [reflexivity|]. rewrite <- Ez, El. unfold rp_end. lra.
Qed.
Lemma gaps_firstn ps : forall k x, Forall (fun g => g == 0) (gaps x ps) -> Forall (fun g => g == 0) (gaps x (firstn k ps)).
Proof. induction ps as [|p ps IH]; intros [|k] x G; cbn in *; try constructor; inversion G; subst; auto. Qed.
Lemma fold_firstn ps : forall k x p, Forall (fun g => g == 0) (gaps x ps) -> nth_error ps k = Some p -> fold_left (fun _ p => rp_end p) (firstn k ps) x == rp_start p.
Proof.
  induction ps as [|q ps IH]; intros [|k] x p G H; try discriminate; cbn in *; inversion G as [|? ? G1 G2]; subst; [injection H as ->; lra|]. apply IH; assumption.
Qed.
Lemma names_spans v name ps k p : Forall (fun g => g == 0) (gaps 0 ps) ->
  (forall p, In p ps -> exists l, s_length v (name (rp_index p)) = Some l /\ l == rp_length p) -> nth_error ps k = Some p ->
  at_place v (map (fun p => name (rp_index p)) ps) k (name (rp_index p)) (rp_start p) (rp_end p).
Proof.
  intros G Sl H. split; [rewrite nth_error_map, H; reflexivity|].
  assert (F : forall j, exists z, line_length v (firstn j (map (fun p => name (rp_index p)) ps)) = Some z /\ z == fold_left (fun _ p => rp_end p) (firstn j ps) 0).
  { intro j. rewrite firstn_map. destruct (zero_gaps_spans v name (firstn j ps) 0) as (z & Hz & Ez).
    - apply gaps_firstn, G.
    - intros q Hq. apply Sl. rewrite <- (firstn_skipn j ps). apply in_app_iff. left. exact Hq.
    - exists z. split; [exact Hz|]. lra. }
  destruct (F k) as (x & Hx & Ex). destruct (F (S k)) as (y & Hy & Ey). exists x, y. split; [exact Hx|]. split; [exact Hy|]. split; [rewrite map_length; apply nth_error_Some; congruence|].
  split; [rewrite Ex; apply fold_firstn; assumption|]. rewrite Ey. clear - H. rewrite <- (firstn_skipn k ps) in H.
  assert (E : firstn (S k) ps = firstn k ps ++ [p]).
  { assert (L : (k < List.length ps)%nat) by (destruct (nth_error ps k) eqn:X; [apply nth_error_Some; congruence|rewrite (firstn_skipn k ps) in H; congruence]).
    rewrite (firstn_skipn k ps) in H. clear L. revert k H. induction ps as [|q ps IH]; intros [|k] H; try discriminate; [injection H as ->; reflexivity|].
    change (firstn (S (S k)) (q :: ps)) with (q :: firstn (S k) ps). rewrite (IH k H). reflexivity. }
  rewrite E, fold_left_app. reflexivity.
Qed.

(** * Ranks in filtered lists *)
Lemma filter_rank {A} (f : A -> bool) : forall l i x, nth_error l i = Some x -> f x = true -> nth_error (filter f l) (List.length (filter f (firstn i l))) = Some x.
Proof.
  induction l as [|y l IH]; intros [|i] x H F; try discriminate; cbn in *.
  - injection H as ->. rewrite F. reflexivity.
  - destruct (f y); cbn; apply IH; assumption.
Qed.
Lemma filter_rank_lt {A} (f : A -> bool) : forall l i j x, (i < j)%nat -> nth_error l i = Some x -> f x = true ->
  (List.length (filter f (firstn i l)) < List.length (filter f (firstn j l)))%nat.
Proof.
  induction l as [|y l IH]; intros [|i] [|j] x Lt H F; try discriminate; try lia; cbn in *.
  - injection H as ->. rewrite F. cbn. lia.
  - destruct (f y); cbn; [apply -> Nat.succ_lt_mono|]; eapply IH; eauto; lia.
Qed.
Lemma filter_nth_inv {A} (f : A -> bool) : forall l c x, nth_error (filter f l) c = Some x ->
  exists i, nth_error l i = Some x /\ f x = true /\ c = List.length (filter f (firstn i l)).
Proof.
  induction l as [|y l IH]; intros c x H; [destruct c; discriminate|]. cbn in H. destruct (f y) eqn:F.
  - destruct c as [|c]; cbn in H.
    + injection H as ->. exists 0%nat. auto.
    + destruct (IH _ _ H) as (i & A1 & A2 & A3). exists (S i). cbn. rewrite F. cbn. auto.
  - destruct (IH _ _ H) as (i & A1 & A2 & A3). exists (S i). cbn. rewrite F. auto.
Qed.
Lemma combine_nth_error {A B} : forall (l : list A) (m : list B) i x, nth_error (combine l m) i = Some x <-> nth_error l i = Some (fst x) /\ nth_error m i = Some (snd x).
Proof.
  induction l as [|a l IH]; intros [|b m] [|i] [x y]; cbn; try (split; [discriminate|intros [? ?]; discriminate]).
  - split; [intros [= -> ->]; auto|intros [[= ->] [= ->]]; reflexivity].
  - apply IH.
Qed.
Lemma number_nth {A} (l : list A) i x : nth_error (number l) i = Some x <-> fst x = i /\ nth_error l i = Some (snd x).
Proof.
  unfold number. rewrite combine_nth_error. split.
  - intros (H1 & H2). split; [|exact H2]. assert (L : (i < List.length l)%nat) by (apply nth_error_Some; congruence).
    apply (nth_error_nth _ _ 0%nat) in H1. rewrite seq_nth in H1 by exact L. cbn in H1. congruence.
  - intros (H1 & H2). split; [|exact H2]. assert (L : (i < List.length l)%nat) by (apply nth_error_Some; congruence).
    rewrite (nth_error_nth' _ 0%nat) by (rewrite seq_length; exact L). rewrite seq_nth by exact L. cbn. congruence.
Qed.

(** * Which elements are removed *)
Lemma removed_by_iff tol u w a b : 0 < tol -> a <= b -> u <= w -> u <= a \/ b <= u -> w <= a \/ b <= w -> well_apart tol [a; b; u; w] ->
  removed_by tol u w a b = false <-> b <= u \/ w <= a.
Proof.
  intros T Hab Huw Su Sw Ap.
  assert (P : forall x y, In x [a; b; u; w] -> In y [a; b; u; w] -> x == y \/ 2 * tol < x - y \/ 2 * tol < y - x).
  { intros x y Hx Hy. destruct (Ap x y Hx Hy) as [E|E]; [auto|]. right. revert E. apply Qabs_case; intros; lra. }
  pose proof (P a u ltac:(cbn; auto) ltac:(cbn; auto)) as Pau. pose proof (P b u ltac:(cbn; auto) ltac:(cbn; auto)) as Pbu.
  pose proof (P a w ltac:(cbn; auto) ltac:(cbn; auto)) as Paw. pose proof (P b w ltac:(cbn; auto) ltac:(cbn; auto)) as Pbw.
  pose proof (P a b ltac:(cbn; auto) ltac:(cbn; auto)) as Pab. pose proof (P u w ltac:(cbn; auto) ltac:(cbn; auto)) as Puw. clear P Ap.
  unfold removed_by, geb.
  destruct (Qle_bool (u - tol) a) eqn:E1; [apply Qle_bool_iff in E1|apply not_true_iff_false in E1; rewrite Qle_bool_iff in E1];
  destruct (Qle_bool a (w - tol)) eqn:E2; [apply Qle_bool_iff in E2|apply not_true_iff_false in E2; rewrite Qle_bool_iff in E2|apply Qle_bool_iff in E2|apply not_true_iff_false in E2; rewrite Qle_bool_iff in E2];
  destruct (Qle_bool (u + tol) b) eqn:E3;
  (destruct (Qle_bool b (w + tol)) eqn:E4);
  (destruct (Qle_bool b (u + tol)) eqn:E5);
  (destruct (Qle_bool (w - tol) a) eqn:E6);
  repeat match goal with
  | H : Qle_bool _ _ = true |- _ => apply Qle_bool_iff in H
  | H : Qle_bool _ _ = false |- _ => apply not_true_iff_false in H; rewrite Qle_bool_iff in H; apply Qnot_le_lt in H
  | H : ~ _ <= _ |- _ => apply Qnot_le_lt in H
  end; cbn [andb orb negb]; split; intro H; try reflexivity; try discriminate; lra.
Qed.
