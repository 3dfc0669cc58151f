From Coq Require Import List Bool Arith QArith Qcanon Lia.
From Verif.Model Require Import TwissRange.
From Verif.Spec Require Import TwissRange.
Import ListNotations.
Local Open Scope nat_scope.
Local Open Scope list_scope.

Lemma same_name_refl : forall a, same_name a a = true.
Proof. intros [k|]; cbn; [apply Nat.eqb_refl | reflexivity]. Qed.
Lemma same_name_eq : forall a b, same_name a b = true -> a = b.
Proof. intros [k|] [j|] H; cbn in H; try discriminate; try reflexivity. apply Nat.eqb_eq in H. congruence. Qed.

Section Range.
Context {X : Type}.
Variables (n : nat) (step back : nat -> X -> X) (inc incz : nat -> X -> Qc) (marker : nat -> bool) (reverse : bool).
Variable origin : nat -> nat -> Qc.
Hypothesis undo : forall k x, back k (step k x) = x.
Variables (Xf : nat -> X) (Cf Zf : nat -> Qc).
Notation propagated := (propagated n step inc incz Xf Cf Zf).
Notation expected := (expected n Xf Cf Zf).
Notation fill := (fill inc incz).
Notation piece := (piece step back inc incz reverse origin).
Notation "'el' p" := (element_at n p) (at level 9).

(** Tables which differ from the expected one by a constant in the first quantity *)
Definition line_row (d : Qc) (p : nat) : row X := mkRow (Some (el p)) (Xf p) (Cf p + d)%Qc (Zf p).
Definition end_row (d : Qc) (p : nat) : row X := mkRow None (Xf p) (Cf p + d)%Qc (Zf p).
Definition tab (d : Qc) (a m : nat) : list (row X) := map (line_row d) (seq a m) ++ [end_row d (a + m)].

Lemma expected_tab : forall a m, expected a m = tab 0%Qc a m.
Proof.
  intros a m. unfold TwissRange.expected, tab, line_row, end_row. f_equal.
  - apply map_ext. intros p. f_equal. ring.
  - f_equal. f_equal. ring.
Qed.
Lemma shift_tab : forall e d a m, shift_c e (tab d a m) = tab (d + e)%Qc a m.
Proof.
  intros e d a m. unfold shift_c, tab. rewrite map_app, map_map. f_equal.
  - apply map_ext. intros p. unfold line_row. cbn [r_name r_x r_c r_z]. f_equal. ring.
  - cbn [map]. unfold end_row. cbn [r_name r_x r_c r_z]. f_equal. f_equal. ring.
Qed.
Lemma shift_lines : forall e d l, shift_c e (map (line_row d) l) = map (line_row (d + e)%Qc) l.
Proof.
  intros e d l. unfold shift_c. rewrite map_map. apply map_ext. intros p. unfold line_row. cbn [r_name r_x r_c r_z]. f_equal. ring.
Qed.
Lemma shift_z_0 : forall e (t : list (row X)), e = 0%Qc -> shift_z e t = t.
Proof.
  intros e t ->. unfold shift_z. rewrite <- (map_id t) at 2. apply map_ext. intros [a b c d]. cbn [r_name r_x r_c r_z]. f_equal. ring.
Qed.
Lemma last_tab : forall d a m, last_row (tab d a m) = Some (end_row d (a + m)).
Proof. intros d a m. unfold last_row, tab. rewrite rev_app_distr. reflexivity. Qed.
Lemma first_tab : forall d a m, first_row (tab d a (S m)) = Some (line_row d a).
Proof. reflexivity. Qed.
Lemma tab_length : forall d a m, List.length (tab d a m) = S m.
Proof. intros d a m. unfold tab. rewrite app_length, map_length, seq_length. cbn. lia. Qed.

(** ** One piece *)
Lemma forward_ok : forall m k o, propagated (o + k) m -> (forall p, o + k <= p -> p < o + k + m -> el p = p - o) ->
  forward step k m (Xf (o + k)) = map Xf (seq (o + k) (S m)).
Proof.
  induction m as [|m IH]; intros k o P E; [reflexivity|].
  change (forward step k (S m) (Xf (o + k))) with (Xf (o + k) :: forward step (S k) m (step k (Xf (o + k)))).
  change (seq (o + k) (S (S m))) with ((o + k) :: seq (S (o + k)) (S m)). cbn [map]. f_equal.
  destruct (P (o + k)) as [Hx _]; [lia|lia|]. rewrite E in Hx by lia. replace (o + k - o) with k in Hx by lia.
  rewrite <- Hx. replace (S (o + k)) with (o + S k) by lia. apply IH.
  - intros p H1 H2. apply P; lia.
  - intros p H1 H2. apply E; lia.
Qed.
Lemma backward_ok : forall m k o, propagated (o + k) m -> (forall p, o + k <= p -> p < o + k + m -> el p = p - o) ->
  backward back k m (Xf (o + k + m)) = map Xf (seq (o + k) (S m)).
Proof.
  induction m as [|m IH]; intros k o P E.
  - cbn. rewrite Nat.add_0_r. reflexivity.
  - cbn [backward]. replace (o + k + S m) with (o + S k + m) by lia.
    rewrite IH.
    + cbn [seq map]. destruct (P (o + k)) as [Hx _]; [lia|lia|]. rewrite E in Hx by lia. replace (o + k - o) with k in Hx by lia.
      replace (o + S k) with (S (o + k)) by lia. rewrite Hx at 1. rewrite undo. reflexivity.
    + intros p H1 H2. apply P; lia.
    + intros p H1 H2. apply E; lia.
Qed.
Lemma fill_ok : forall m k o c z, propagated (o + k) m -> (forall p, o + k <= p -> p < o + k + m -> el p = p - o) ->
  fill k (map Xf (seq (o + k) (S m))) c z = shift_z (z - Zf (o + k))%Qc (tab (c - Cf (o + k))%Qc (o + k) m).
Proof.
  induction m as [|m IH]; intros k o c z P E.
  - cbn [seq map TwissRange.fill]. unfold tab, end_row, shift_z. cbn [seq map app r_name r_x r_c r_z]. rewrite Nat.add_0_r. f_equal. f_equal; ring.
  - change (seq (o + k) (S (S m))) with ((o + k) :: seq (S (o + k)) (S m)). cbn [map].
    destruct (P (o + k)) as (Hx & Hc & Hz); [lia|lia|]. rewrite E in Hc, Hz by lia. replace (o + k - o) with k in Hc, Hz by lia.
    replace (S (o + k)) with (o + S k) in * by lia.
    change (TwissRange.fill inc incz k (Xf (o + k) :: map Xf (seq (o + S k) (S m))) c z)
      with (mkRow (Some k) (Xf (o + k)) c z :: fill (S k) (map Xf (seq (o + S k) (S m))) (c + inc k (Xf (o + k)))%Qc (z + incz k (Xf (o + k)))%Qc).
    rewrite IH.
    + rewrite Hc, Hz. unfold tab.
      replace (o + k + S m) with (o + S k + m) by lia.
      change (seq (o + k) (S m)) with ((o + k) :: seq (S (o + k)) m). replace (S (o + k)) with (o + S k) by lia.
      cbn [map app]. unfold shift_z. rewrite !map_cons.
      replace (z + incz k (Xf (o + k)) - (Zf (o + k) + incz k (Xf (o + k))))%Qc with (z - Zf (o + k))%Qc by ring.
      replace (c + inc k (Xf (o + k)) - (Cf (o + k) + inc k (Xf (o + k))))%Qc with (c - Cf (o + k))%Qc by ring.
      f_equal. unfold line_row. cbn [r_name r_x r_c r_z]. rewrite E by lia. replace (o + k - o) with k by lia. f_equal; ring.
    + intros p H1 H2. apply P; lia.
    + intros p H1 H2. apply E; lia.
Qed.
Lemma shift_z_z : forall a b (t : list (row X)), shift_z a (shift_z b t) = shift_z (b + a)%Qc t.
Proof. intros a b t. unfold shift_z. rewrite map_map. apply map_ext. intros r. cbn [r_name r_x r_c r_z]. f_equal. ring. Qed.
Lemma first_shift_z : forall a (t : list (row X)), first_row (shift_z a t) = option_map (fun r => mkRow (r_name r) (r_x r) (r_c r) (r_z r + a)%Qc) (first_row t).
Proof. intros a [|r t]; reflexivity. Qed.
Lemma last_shift_z : forall a (t : list (row X)), last_row (shift_z a t) = option_map (fun r => mkRow (r_name r) (r_x r) (r_c r) (r_z r + a)%Qc) (last_row t).
Proof. intros a t. unfold last_row, shift_z. rewrite <- map_rev. destruct (rev t); reflexivity. Qed.

Lemma piece_ok : forall o s e i b, s <= e -> propagated (o + s) (S (e - s)) ->
  (forall p, o + s <= p -> p <= o + e -> el p = p - o) ->
  at_entry reverse s e (i_elem i) = Some b ->
  i_x i = Xf (if b then o + s else S (o + e)) -> i_z i = Zf (if b then o + s else S (o + e)) ->
  exists d, piece s e i = Some (tab d (o + s) (S (e - s))).
Proof.
  intros o s e i b L P E A Hx Hz. unfold TwissRange.piece.
  replace (e <? s) with false by (symmetry; apply Nat.ltb_ge; lia). rewrite A.
  assert (E' : forall p, o + s <= p -> p < o + s + S (e - s) -> el p = p - o) by (intros p H1 H2; apply E; lia).
  destruct b; rewrite Hx.
  - rewrite (forward_ok (S (e - s)) s o P E'). rewrite (fill_ok (S (e - s)) s o _ _ P E').
    rewrite first_shift_z, first_tab. cbn [option_map]. unfold line_row. cbn [r_name r_x r_c r_z]. rewrite shift_z_z.
    eexists. rewrite shift_z_0; [reflexivity|]. rewrite Hz. ring.
  - replace (S (o + e)) with (o + s + S (e - s)) in * by lia.
    rewrite (backward_ok (S (e - s)) s o P E'). rewrite (fill_ok (S (e - s)) s o _ _ P E').
    rewrite last_shift_z, last_tab. cbn [option_map]. unfold end_row. cbn [r_name r_x r_c r_z]. rewrite shift_z_z.
    eexists. rewrite shift_z_0; [reflexivity|]. rewrite Hz. ring.
Qed.

(** ** Concatenation *)
Lemma last_app : forall (l : list (row X)) r, last_row (l ++ [r]) = Some r.
Proof. intros l r. unfold last_row. rewrite rev_app_distr. reflexivity. Qed.
Lemma lines_split : forall d a m, map (line_row d) (seq a (S m)) = map (line_row d) (seq a m) ++ [line_row d (a + m)].
Proof. intros d a m. rewrite seq_S, map_app. reflexivity. Qed.
Lemma names_in : forall d a m q, existsb (fun r => same_name (r_name r) (Some q)) (tab d a m) = true <-> exists p, a <= p < a + m /\ el p = q.
Proof.
  intros d a m q. rewrite existsb_exists. unfold tab. split.
  - intros (r & Hr & Hq). apply same_name_eq in Hq. apply in_app_iff in Hr as [Hr|[Hr|[]]].
    + apply in_map_iff in Hr as (p & <- & Hp). apply in_seq in Hp. cbn in Hq. exists p. split; [lia | congruence].
    + subst r. discriminate.
  - intros (p & Hp & <-). exists (line_row d p). split.
    + apply in_app_iff. left. apply in_map. apply in_seq. lia.
    + cbn. apply Nat.eqb_refl.
Qed.
(** tables of consecutive ranges *)
Lemma concat_next : forall d d' a m m', 0 < m -> 0 < m' -> (forall p, a <= p < a + m -> el p <> el (a + m)) ->
  exists d'', concatenate (tab d a m) (tab d' (a + m) m') = Some (tab d'' a (m + m')).
Proof.
  intros d d' a m m' Hm Hm' N. destruct m as [|m]; [lia|]. destruct m' as [|m']; [lia|].
  unfold concatenate, kept. rewrite !last_tab, !first_tab. cbn [r_name line_row end_row same_name].
  destruct (existsb _ _) eqn:Ex.
  { apply names_in in Ex as (p & Hp & E). exfalso. apply (N p Hp). exact E. }
  rewrite tab_length. replace (S (S m) - 1) with (S m) by lia.
  assert (F : firstn (S m) (tab d a (S m)) = map (line_row d) (seq a (S m))).
  { unfold tab. rewrite firstn_app, map_length, seq_length, Nat.sub_diag, firstn_O, app_nil_r.
    apply firstn_all2. rewrite map_length, seq_length. lia. }
  rewrite F, shift_lines. rewrite (lines_split d), (lines_split _). rewrite !last_app.
  cbn [r_c line_row end_row].
  exists (- Cf a)%Qc. f_equal. rewrite <- !lines_split. rewrite shift_tab. unfold tab.
  replace (d' + (- (Cf (a + S m) + d') + (Cf (a + m) + (d + - (Cf a + d))) + (Cf (a + S m) + d - (Cf (a + m) + d))))%Qc with (- Cf a)%Qc by ring.
  replace (d + - (Cf a + d))%Qc with (- Cf a)%Qc by ring.
  rewrite (seq_app (S m) (S m') a), map_app, <- app_assoc. replace (a + S m + S m') with (a + (S m + S m')) by lia. reflexivity.
Qed.
(** tables that share an element without effect *)
Lemma concat_shared : forall d d' a m m', 0 < m' -> Xf (a + S m) = Xf (a + m) -> Cf (a + S m) = Cf (a + m) ->
  exists d'', concatenate (tab d a (S m)) (tab d' (a + m) m') = Some (tab d'' a (m + m')).
Proof.
  intros d d' a m m' Hm' Ex Ec. destruct m' as [|m']; [lia|].
  unfold concatenate, kept. rewrite !last_tab, !first_tab. cbn [r_name line_row end_row same_name].
  assert (In' : existsb (fun r => same_name (r_name r) (Some (el (a + m)))) (tab d a (S m)) = true).
  { apply names_in. exists (a + m). split; [lia | reflexivity]. }
  rewrite In'. rewrite tab_length. replace (S (S m) - 1 - 1) with m by lia.
  assert (Nt : nth_error (tab d a (S m)) m = Some (line_row d (a + m))).
  { unfold tab. rewrite nth_error_app1 by (rewrite map_length, seq_length; lia).
    rewrite nth_error_map, (nth_error_nth' _ 0) by (rewrite seq_length; lia). rewrite seq_nth by lia. reflexivity. }
  rewrite Nt. cbn [r_name line_row same_name]. rewrite Nat.eqb_refl.
  assert (F : firstn m (tab d a (S m)) = map (line_row d) (seq a m)).
  { unfold tab. rewrite lines_split, <- app_assoc, firstn_app, map_length, seq_length, Nat.sub_diag, firstn_O, app_nil_r.
    apply firstn_all2. rewrite map_length, seq_length. lia. }
  rewrite F, shift_lines, shift_tab.
  destruct m as [|m].
  - cbn [seq map]. change (last_row []) with (@None (row X)). cbn [app]. rewrite Nat.add_0_r. eexists. reflexivity.
  - rewrite (lines_split d), (lines_split _). rewrite !last_app, <- !lines_split. cbn [r_c line_row end_row].
    exists (- Cf a)%Qc. f_equal. rewrite Ec. unfold tab.
    replace (d' + (- (Cf (a + S m) + d') + (Cf (a + m) + (d + - (Cf a + d))) + (Cf (a + S m) + d - (Cf (a + m) + d))))%Qc with (- Cf a)%Qc by ring.
    replace (d + - (Cf a + d))%Qc with (- Cf a)%Qc by ring.
    rewrite (seq_app (S m) (S m') a), map_app, <- app_assoc. replace (a + S m + S m') with (a + (S m + S m')) by lia. reflexivity.
Qed.

(** ** Alignment *)
Lemma find_tab : forall d a m p, a <= p < a + m -> (forall q, a <= q < p -> el q <> el p) ->
  find_row (Some (el p)) (tab d a m) = Some (line_row d p).
Proof.
  intros d a m p Hp N. unfold find_row, tab.
  revert a Hp N. induction m as [|m IH]; intros a Hp N; [lia|].
  cbn [seq map app find]. destruct (Nat.eq_dec a p) as [->|Ne].
  - cbn [line_row r_name same_name]. rewrite Nat.eqb_refl. reflexivity.
  - cbn [line_row r_name same_name]. replace (el a =? el p) with false by (symmetry; apply Nat.eqb_neq; apply N; lia).
    replace (a + S m) with (S a + m) by lia. apply IH; [lia|]. intros q Hq. apply N. lia.
Qed.
Lemma find_end : forall d a m, find_row None (tab d a m) = Some (end_row d (a + m)).
Proof.
  intros d a m. unfold find_row, tab. revert a. induction m as [|m IH]; intros a; cbn [seq map app find line_row r_name same_name].
  - reflexivity.
  - replace (a + S m) with (S a + m) by lia. apply IH.
Qed.
Lemma align_ok : forall d a m p i, a <= p < a + m -> (forall q, a <= q < p -> el q <> el p) -> starts_from n Xf Cf Zf p i ->
  align i (tab d a m) = Some (tab 0%Qc a m).
Proof.
  intros d a m p i Hp N (Ee & Ex & Ec & Ez). unfold align. rewrite Ee, (find_tab d a m p Hp N). cbn [line_row r_c r_z].
  rewrite shift_tab, Ec, Ez, shift_z_0 by ring. f_equal. f_equal. ring.
Qed.

(** ** The cases *)
Definition effectless (k : nat) : Prop := is_marker step inc incz k.
Lemma marker_next : forall p a m, propagated a m -> a <= p < a + m -> effectless (el p) -> Xf (S p) = Xf p /\ Cf (S p) = Cf p /\ Zf (S p) = Zf p.
Proof.
  intros p a m P Hp M. destruct (P p) as (A & B & C); [lia|lia|]. destruct (M (Xf p)) as (D & E & F).
  rewrite A, B, C, D, E, F. repeat split; ring.
Qed.
Lemma at_entry_start : forall s e, exists b, at_entry reverse s e s = Some b /\ (b = false -> s = e).
Proof.
  intros s e. unfold at_entry. destruct reverse.
  - destruct (Nat.eqb_spec s e); [exists false; auto|]. rewrite Nat.eqb_refl. exists true. split; [reflexivity | discriminate].
  - rewrite Nat.eqb_refl. exists true. split; [reflexivity | discriminate].
Qed.
Lemma at_entry_stop : forall s e, exists b, at_entry reverse s e e = Some b /\ (b = true -> s = e).
Proof.
  intros s e. unfold at_entry. destruct reverse.
  - rewrite Nat.eqb_refl. exists false. split; [reflexivity | discriminate].
  - destruct (Nat.eqb_spec e s); [exists true; auto|]. rewrite Nat.eqb_refl. exists false. split; [reflexivity | discriminate].
Qed.
(** pieces whose initial conditions are at the entry of the first element, or at the end of the last; if the piece has one
    element the code may take the other side *)
Lemma piece_start : forall o s e i, s <= e -> propagated (o + s) (S (e - s)) -> (forall p, o + s <= p -> p <= o + e -> el p = p - o) ->
  i_elem i = s -> i_x i = Xf (o + s) -> i_z i = Zf (o + s) -> (reverse = true -> s = e -> effectless s) ->
  exists d, piece s e i = Some (tab d (o + s) (S (e - s))).
Proof.
  intros o s e i L P E Ei Hx Hz M.
  assert (A : exists b, at_entry reverse s e (i_elem i) = Some b /\ (b = false -> s = e /\ reverse = true)).
  { rewrite Ei. unfold at_entry. destruct reverse.
    - destruct (Nat.eqb_spec s e); [exists false; auto|]. rewrite Nat.eqb_refl. exists true. split; [reflexivity | discriminate].
    - rewrite Nat.eqb_refl. exists true. split; [reflexivity | discriminate]. }
  destruct A as (b & A & Bf). apply (piece_ok o s e i b L P E A).
  - destruct b; [exact Hx|]. destruct (Bf eq_refl) as [-> Hr]. rewrite Hx.
    destruct (marker_next (o + e) (o + e) 1) as (N & _); [|lia| |congruence].
    + intros p H1 H2. apply P; lia.
    + rewrite E by lia. replace (o + e - o) with e by lia. auto.
  - destruct b; [exact Hz|]. destruct (Bf eq_refl) as [-> Hr]. rewrite Hz.
    destruct (marker_next (o + e) (o + e) 1) as (_ & _ & N); [|lia| |congruence].
    + intros p H1 H2. apply P; lia.
    + rewrite E by lia. replace (o + e - o) with e by lia. auto.
Qed.
Lemma piece_stop : forall o s e i, s <= e -> propagated (o + s) (S (e - s)) -> (forall p, o + s <= p -> p <= o + e -> el p = p - o) ->
  i_elem i = e -> i_x i = Xf (S (o + e)) -> i_z i = Zf (S (o + e)) -> (reverse = false -> s = e -> effectless s) ->
  exists d, piece s e i = Some (tab d (o + s) (S (e - s))).
Proof.
  intros o s e i L P E Ei Hx Hz M.
  assert (A : exists b, at_entry reverse s e (i_elem i) = Some b /\ (b = true -> s = e /\ reverse = false)).
  { rewrite Ei. unfold at_entry. destruct reverse.
    - rewrite Nat.eqb_refl. exists false. split; [reflexivity | discriminate].
    - destruct (Nat.eqb_spec e s); [exists true; auto|]. rewrite Nat.eqb_refl. exists false. split; [reflexivity | discriminate]. }
  destruct A as (b & A & Bf). apply (piece_ok o s e i b L P E A).
  - destruct b; [|exact Hx]. destruct (Bf eq_refl) as [-> Hr]. rewrite Hx.
    destruct (marker_next (o + e) (o + e) 1) as (N & _); [|lia| |congruence].
    + intros p H1 H2. apply P; lia.
    + rewrite E by lia. replace (o + e - o) with e by lia. auto.
  - destruct b; [|exact Hz]. destruct (Bf eq_refl) as [-> Hr]. rewrite Hz.
    destruct (marker_next (o + e) (o + e) 1) as (_ & _ & N); [|lia| |congruence].
    + intros p H1 H2. apply P; lia.
    + rewrite E by lia. replace (o + e - o) with e by lia. auto.
Qed.
(** pieces that end at an element without effect, where the initial conditions are *)
Lemma piece_marker_stop : forall o s e i, s <= e -> propagated (o + s) (S (e - s)) -> (forall p, o + s <= p -> p <= o + e -> el p = p - o) ->
  effectless e -> i_elem i = e -> i_x i = Xf (o + e) -> i_z i = Zf (o + e) ->
  exists d, piece s e i = Some (tab d (o + s) (S (e - s))).
Proof.
  intros o s e i L P E M Ei Hx Hz.
  destruct (marker_next (o + e) (o + s) (S (e - s)) P) as (Nx & _ & Nz); [lia | rewrite E by lia; replace (o + e - o) with e by lia; exact M |].
  apply piece_stop; try assumption; try congruence. intros _ ->. exact M.
Qed.

Lemma el_lo : forall p, p < n -> el p = p.
Proof. intros p H. unfold element_at. replace (p <? n) with true by (symmetry; apply Nat.ltb_lt; exact H). reflexivity. Qed.
Lemma el_hi : forall p, n <= p -> el p = p - n.
Proof. intros p H. unfold element_at. replace (p <? n) with false by (symmetry; apply Nat.ltb_ge; exact H). reflexivity. Qed.
Lemma el_inj : forall a p q, p < q -> a <= p -> q < a + n -> q < n + n -> el p <> el q.
Proof.
  intros a p q H1 H2 H3 H4. unfold element_at.
  destruct (Nat.ltb_spec p n); destruct (Nat.ltb_spec q n); lia.
Qed.
Lemma sub : forall a m b k, propagated a m -> a <= b -> b + k <= a + m -> propagated b k.
Proof. intros a m b k P H1 H2 p H3 H4. apply P; lia. Qed.

(** two pieces that meet at the initial conditions *)
Lemma inside_pair : forall o s e c i, s <= c -> c <= e -> (forall p, o + s <= p -> p <= o + e -> el p = p - o) ->
  propagated (o + s) (S (e - s)) -> effectless c -> starts_from n Xf Cf Zf (o + c) i ->
  exists d1 d2, piece s c i = Some (tab d1 (o + s) (S (c - s))) /\ piece c e i = Some (tab d2 (o + c) (S (e - c))) /\
    combine_inside i (tab d1 (o + s) (S (c - s))) (tab d2 (o + c) (S (e - c))) = Some (tab 0%Qc (o + s) (S (e - s))).
Proof.
  intros o s e c i L1 L2 E P M (Ee & Ex & Ec & Ez).
  assert (Eel : el (o + c) = c) by (rewrite E by lia; lia). rewrite Eel in Ee.
  destruct (piece_marker_stop o s c i) as (d1 & P1); try assumption.
  { eapply sub; [exact P | lia | lia]. }
  { intros p H1 H2. apply E; lia. }
  destruct (piece_start o c e i) as (d2 & P2); try assumption.
  { eapply sub; [exact P | lia | lia]. }
  { intros p H1 H2. apply E; lia. }
  { intros _ _. exact M. }
  exists d1, d2. split; [exact P1|]. split; [exact P2|].
  destruct (marker_next (o + c) (o + s) (S (e - s)) P) as (Nx & Nc & _); [lia | rewrite Eel; exact M |].
  unfold combine_inside.
  destruct (concat_shared d1 d2 (o + s) (c - s) (S (e - c))) as (d & C); [lia | | |].
  { replace (o + s + S (c - s)) with (S (o + c)) by lia. replace (o + s + (c - s)) with (o + c) by lia. exact Nx. }
  { replace (o + s + S (c - s)) with (S (o + c)) by lia. replace (o + s + (c - s)) with (o + c) by lia. exact Nc. }
  replace (o + s + (c - s)) with (o + c) in C by lia. rewrite C.
  replace (c - s + S (e - c)) with (S (e - s)) by lia.
  apply (align_ok d (o + s) (S (e - s)) (o + c) i); [lia | |].
  - intros q Hq. rewrite !E by lia. lia.
  - repeat split; try assumption. congruence.
Qed.

Theorem inside_ok : forall s e c i, s <= c -> c <= e -> e < n -> marker c = true -> effectless c ->
  propagated s (S (e - s)) -> starts_from n Xf Cf Zf c i ->
  inside step back inc incz marker reverse origin s e i = Some (expected s (S (e - s))).
Proof.
  intros s e c i L1 L2 Ln Mk M P S0. unfold inside.
  assert (Ee : i_elem i = c) by (destruct S0 as (Ee & _); rewrite Ee; apply el_lo; lia).
  rewrite Ee, Mk. replace (s <=? c) with true by (symmetry; apply Nat.leb_le; lia). replace (c <=? e) with true by (symmetry; apply Nat.leb_le; lia).
  cbn [andb].
  destruct (inside_pair 0 s e c i) as (d1 & d2 & P1 & P2 & C); try assumption.
  { intros p H1 H2. rewrite el_lo; lia. }
  cbn [Nat.add] in P1, P2, C. rewrite P1. cbn [bind]. rewrite P2. cbn [bind]. rewrite C. rewrite expected_tab. reflexivity.
Qed.

Theorem wrap_ok : forall s e p i, e < s -> s < n -> s <= p < n + S e ->
  propagated s (n - s + S e) -> starts_from n Xf Cf Zf p i -> effectless (i_elem i) ->
  (reverse = false -> s = n - 1 -> effectless (n - 1)) -> (reverse = true -> e = 0 -> effectless 0) ->
  wrap n step back inc incz reverse origin s e i = Some (expected s (n - s + S e)).
Proof.
  intros s e p i Les Lsn Hp P S0 M T1 T2. unfold wrap.
  replace (s <=? e) with false by (symmetry; apply Nat.leb_gt; lia).
  destruct S0 as (Ee & Ex & Ec & Ez).
  assert (Elo : forall q, 0 + s <= q -> q <= 0 + (n - 1) -> el q = q - 0) by (intros q H1 H2; rewrite el_lo; lia).
  assert (Ehi : forall q, n + 0 <= q -> q <= n + e -> el q = q - n) by (intros q H1 H2; rewrite el_hi; lia).
  assert (Plo : propagated (0 + s) (S (n - 1 - s))) by (eapply sub; [exact P | lia | lia]).
  assert (Phi : propagated (n + 0) (S (e - 0))) by (eapply sub; [exact P | lia | lia]).
  assert (Fin : forall d1 d2, exists d, concatenate (tab d1 s (S (n - 1 - s))) (tab d2 n (S (e - 0))) = Some (tab d s (n - s + S e)) /\
      align i (tab d s (n - s + S e)) = Some (expected s (n - s + S e))).
  { intros d1 d2. destruct (concat_next d1 d2 s (S (n - 1 - s)) (S (e - 0))) as (d & C); [lia|lia| |].
    - intros q Hq. replace (s + S (n - 1 - s)) with n by lia. apply (el_inj s); lia.
    - replace (s + S (n - 1 - s)) with n in C by lia. replace (S (n - 1 - s) + S (e - 0)) with (n - s + S e) in C by lia.
      exists d. split; [exact C|]. rewrite expected_tab. apply (align_ok _ _ _ p); [lia| |repeat split; assumption].
      intros q Hq. apply (el_inj s); lia. }
  assert (Blo : forall d1 b, init_from None 0 (tab d1 s (S (n - 1 - s))) = Some b -> exists d, piece 0 e b = Some (tab d n (S (e - 0)))).
  { intros d1 b H. unfold init_from in H. rewrite find_end in H. injection H as <-.
    destruct (piece_start n 0 e (mkInit 0 (Xf (s + S (n - 1 - s))) (Cf (s + S (n - 1 - s)) + d1)%Qc (Zf (s + S (n - 1 - s))))) as (d & Pd);
      cbn [i_elem i_x i_z]; try assumption; try lia; try (f_equal; lia).
    - intros Hr He. apply T2; [exact Hr | lia].
    - exists d. rewrite Nat.add_0_r in Pd. exact Pd. }
  assert (Bhi : forall d1 m b, init_from (Some 0) (n - 1) (tab d1 n (S m)) = Some b -> exists d, piece s (n - 1) b = Some (tab d s (S (n - 1 - s)))).
  { intros d1 m b H. unfold init_from in H.
    assert (F : find_row (Some 0) (tab d1 n (S m)) = Some (line_row d1 n)).
    { replace (Some 0) with (Some (el n)) by (rewrite el_hi by lia; f_equal; lia). apply find_tab; lia. }
    rewrite F in H. injection H as <-.
    destruct (piece_stop 0 s (n - 1) (mkInit (n - 1) (r_x (line_row d1 n)) (r_c (line_row d1 n)) (r_z (line_row d1 n)))) as (d & Pd);
      cbn [i_elem i_x i_z line_row r_x r_z]; try assumption; try lia; try (f_equal; lia).
    - intros Hr He. rewrite He. apply T1; [exact Hr | exact He].
    - exists d. exact Pd. }
  destruct (Nat.lt_ge_cases p n) as [Lp|Lp].
  - (* the initial conditions are before the end of the line *)
    rewrite el_lo in Ee by exact Lp. rewrite Ee in *.
    replace (p =? e) with false by (symmetry; apply Nat.eqb_neq; lia). rewrite orb_false_r.
    replace (s <=? p) with true by (symmetry; apply Nat.leb_le; lia).
    destruct (Nat.eqb_spec p s) as [->|Ne]; cbn [negb].
    + destruct (piece_start 0 s (n - 1) i) as (d1 & P1); try assumption; try lia.
      { intros _ _. exact M. }
      cbn [Nat.add] in P1. rewrite P1. cbn [bind].
      destruct (init_from None 0 (tab d1 s (S (n - 1 - s)))) as [b|] eqn:Eb; [|unfold init_from in Eb; rewrite find_end in Eb; discriminate].
      cbn [bind]. destruct (Blo d1 b Eb) as (d2 & P2). rewrite P2. cbn [bind fst snd].
      destruct (Fin d1 d2) as (d & C & A). rewrite C. cbn [bind]. exact A.
    + destruct (inside_pair 0 s (n - 1) p i) as (d1 & d2 & P1 & P2 & C); try assumption; try lia.
      { repeat split; try assumption. rewrite el_lo by exact Lp. exact Ee. }
      cbn [Nat.add] in P1, P2, C. rewrite P1. cbn [bind]. rewrite P2. cbn [bind]. rewrite C. cbn [bind].
      assert (Ei : init_from None 0 (tab d2 p (S (n - 1 - p))) = Some (mkInit 0 (Xf n) (Cf n + d2)%Qc (Zf n))).
      { unfold init_from. rewrite find_end. cbn [end_row r_x r_c r_z]. replace (p + S (n - 1 - p)) with n by lia. reflexivity. }
      rewrite Ei. cbn [bind].
      destruct (Blo d2 (mkInit 0 (Xf n) (Cf n + d2)%Qc (Zf n))) as (d3 & P3).
      { unfold init_from. rewrite find_end. cbn [end_row r_x r_c r_z]. replace (s + S (n - 1 - s)) with n by lia. reflexivity. }
      rewrite P3. cbn [bind fst snd]. destruct (Fin 0%Qc d3) as (d & C' & A). rewrite C'. cbn [bind]. exact A.
  - rewrite el_hi in Ee by exact Lp. set (c := p - n) in *.
    assert (Hc : p = n + c) by (unfold c; lia). clearbody c. subst p. rewrite Ee in *.
    replace (c =? s) with false by (symmetry; apply Nat.eqb_neq; lia). cbn [orb].
    replace (s <=? c) with false by (symmetry; apply Nat.leb_gt; lia).
    destruct (Nat.eqb_spec c e) as [->|Ne]; cbn [negb].
    + replace (e <=? e) with true by (symmetry; apply Nat.leb_le; lia).
      destruct (piece_marker_stop n 0 e i) as (d2 & P2); try assumption; try lia; try congruence.
      rewrite Nat.add_0_r in P2. rewrite P2. cbn [bind].
      destruct (init_from (Some 0) (n - 1) (tab d2 n (S (e - 0)))) as [b|] eqn:Eb.
      * cbn [bind]. destruct (Bhi d2 (e - 0) b Eb) as (d1 & P1). rewrite P1. cbn [bind fst snd].
        destruct (Fin d1 d2) as (d & C & A). rewrite C. cbn [bind]. exact A.
      * exfalso. unfold init_from in Eb.
        assert (F : find_row (Some 0) (tab d2 n (S (e - 0))) = Some (line_row d2 n)).
        { replace (Some 0) with (Some (el n)) by (rewrite el_hi by lia; f_equal; lia). apply find_tab; lia. }
        rewrite F in Eb. discriminate.
    + destruct (inside_pair n 0 e c i) as (d2 & d3 & P2 & P3 & C); try assumption; try lia.
      { repeat split; try assumption. rewrite el_hi by lia. lia. }
      rewrite Nat.add_0_r in P2, C. rewrite P2. cbn [bind]. rewrite P3. cbn [bind]. rewrite C. cbn [bind].
      destruct (init_from (Some 0) (n - 1) (tab d2 n (S (c - 0)))) as [b|] eqn:Eb.
      * cbn [bind]. destruct (Bhi d2 (c - 0) b Eb) as (d1 & P1). rewrite P1. cbn [bind fst snd].
        destruct (Fin d1 0%Qc) as (d & C' & A). rewrite C'. cbn [bind]. exact A.
      * exfalso. unfold init_from in Eb.
        assert (F : find_row (Some 0) (tab d2 n (S (c - 0))) = Some (line_row d2 n)).
        { replace (Some 0) with (Some (el n)) by (rewrite el_hi by lia; f_equal; lia). apply find_tab; lia. }
        rewrite F in Eb. discriminate.
Qed.

Lemma tab_row : forall d a m, firstn (S (S m) - 1) (tab d a (S m)) = map (line_row d) (seq a m) ++ [line_row d (a + m)].
Proof.
  intros d a m. unfold tab. rewrite <- lines_split, firstn_app, map_length, seq_length. replace (S (S m) - 1 - S m) with 0 by lia.
  rewrite firstn_O, app_nil_r. apply firstn_all2. rewrite map_length, seq_length. lia.
Qed.
Lemma rename_tab : forall d a m, rename_end (map (line_row d) (seq a m) ++ [line_row d (a + m)]) = tab d a m.
Proof.
  intros d a m. unfold rename_end. rewrite last_app, app_length, map_length, seq_length. cbn [List.length]. replace (m + 1 - 1) with m by lia.
  rewrite firstn_app, map_length, seq_length, Nat.sub_diag, firstn_O, app_nil_r.
  rewrite firstn_all2 by (rewrite map_length, seq_length; lia). reflexivity.
Qed.

Theorem one_turn_ok : forall s i, 0 < s -> s < n -> propagated s (S n) ->
  i_elem i = s -> i_x i = Xf s -> i_z i = Zf s -> Cf s = 0%Qc -> (reverse = true -> s = n - 1 -> effectless s) ->
  one_turn n step back inc incz reverse origin s i = Some (expected s n).
Proof.
  intros s i L0 L P Ee Ex Ez Ec T. unfold one_turn.
  destruct (piece_start 0 s (n - 1) i) as (d1 & P1); try assumption; try lia.
  { eapply sub; [exact P | lia | lia]. }
  { intros q H1 H2. rewrite el_lo; lia. }
  cbn [Nat.add] in P1. rewrite P1. cbn [bind]. unfold init_from. rewrite find_end. cbn [bind end_row r_x r_c r_z].
  replace (s + S (n - 1 - s)) with n by lia.
  destruct (piece_start n 0 s (mkInit 0 (Xf n) (Cf n + d1)%Qc (Zf n))) as (d2 & P2); cbn [i_elem i_x i_z]; try lia; try (f_equal; lia).
  { eapply sub; [exact P | lia | lia]. }
  { intros q H1 H2. rewrite el_hi; lia. }
  rewrite P2. cbn [bind]. rewrite tab_length. replace (s - 0) with s by lia. rewrite Nat.add_0_r. rewrite tab_row, rename_tab.
  unfold concatenate, kept. destruct s as [|s]; [lia|]. rewrite !last_tab, !first_tab. cbn [r_name line_row end_row same_name].
  destruct (existsb _ _) eqn:Eb.
  { apply names_in in Eb as (p & Hp & E). exfalso. revert E. apply (el_inj (S s)); lia. }
  rewrite tab_length. replace (S (S (n - 1 - S s)) - 1) with (S (n - 1 - S s)) by lia.
  assert (F : firstn (S (n - 1 - S s)) (tab d1 (S s) (S (n - 1 - S s))) = map (line_row d1) (seq (S s) (S (n - 1 - S s)))).
  { pose proof (tab_row d1 (S s) (n - 1 - S s)) as H. rewrite <- lines_split in H. exact H. }
  rewrite F, shift_lines. rewrite (lines_split d1), (lines_split _). rewrite !last_app, <- !lines_split. rewrite shift_tab, expected_tab.
  cbn [r_c line_row end_row]. f_equal. unfold tab.
  replace (S s + S (n - 1 - S s)) with n by lia. replace (S s + (n - 1 - S s)) with (n - 1) by lia.
  replace (d1 + - (Cf (S s) + d1))%Qc with 0%Qc by (rewrite Ec; ring).
  replace (d2 + (- (Cf n + d2) + (Cf (n - 1) + 0) + (Cf n + d1 - (Cf (n - 1) + d1))))%Qc with 0%Qc by ring.
  replace (seq (S s) n) with (seq (S s) (S (n - 1 - S s) + S s)) by (f_equal; lia).
  rewrite (seq_app (S (n - 1 - S s)) (S s)), map_app, <- app_assoc. replace (S s + S (n - 1 - S s)) with n by lia.
  replace (S s + n) with (n + S s) by lia. reflexivity.
Qed.

(** ** Periodic tables from another start *)
Lemma around : forall m, m <= n -> propagated 0 (n + m) -> Xf n = Xf 0 -> forall p, p <= m -> Xf (n + p) = Xf p /\ Cf (n + p) = (Cf p + (Cf n - Cf 0))%Qc.
Proof.
  intros m Lm P X0. induction p as [|p IH]; intros Hp.
  - rewrite Nat.add_0_r. split; [exact X0 | ring].
  - destruct (IH ltac:(lia)) as [Hx Hc]. destruct (P p) as (A & B & _); [lia|lia|]. destruct (P (n + p)) as (A' & B' & _); [lia|lia|].
    rewrite (el_lo p) in A, B by lia. rewrite (el_hi (n + p)) in A', B' by lia. replace (n + p - n) with p in A', B' by lia.
    replace (n + S p) with (S (n + p)) by lia. rewrite A, A', B, B', Hx, Hc. split; [reflexivity | ring].
Qed.
Definition seen (r : row X) : option nat * X * Qc := (r_name r, r_x r, r_c r).
Lemma rename_app : forall (l : list (row X)) r, rename_end (l ++ [r]) = l ++ [mkRow None (r_x r) (r_c r) (r_z r)].
Proof.
  intros l r. unfold rename_end. rewrite last_app, app_length. cbn [List.length]. replace (List.length l + 1 - 1) with (List.length l) by lia.
  rewrite firstn_app, Nat.sub_diag, firstn_O, app_nil_r, firstn_all. reflexivity.
Qed.
Lemma seq_shifts : forall k a m, map (fun q => k + q) (seq a m) = seq (k + a) m.
Proof. intros k a m. revert a. induction m as [|m IH]; intros a; [reflexivity|]. cbn [seq map]. f_equal. rewrite IH. f_equal. lia. Qed.
Theorem periodic_ok : forall s, 0 < s -> s < n -> propagated 0 (n + s) -> Xf n = Xf 0 ->
  exists t, periodic_start s (expected 0 n) = Some t /\
    map seen t = map (fun r => (r_name r, r_x r, (r_c r - Cf s)%Qc)) (expected s n).
Proof.
  intros s L0 L P X0. destruct s as [|s]; [lia|]. rewrite !expected_tab.
  assert (Sk : skipn (S s) (tab 0 0 n) = tab 0%Qc (S s) (S (n - 1 - S s))).
  { unfold tab. replace (seq 0 n) with (seq 0 (S s + S (n - 1 - S s))) by (f_equal; lia). rewrite seq_app, map_app, <- app_assoc.
    rewrite skipn_app, map_length, seq_length, Nat.sub_diag, skipn_all2 by (rewrite map_length, seq_length; lia).
    cbn [skipn app Nat.add]. replace (S (s + S (n - 1 - S s))) with n by lia. reflexivity. }
  assert (Ft : firstn (S (S s)) (tab 0 0 n) = map (line_row 0) (seq 0 (S s)) ++ [line_row 0 (S s)]).
  { unfold tab. replace (seq 0 n) with (seq 0 (S (S s) + (n - S (S s)))) by (f_equal; lia). rewrite seq_app, map_app, <- app_assoc.
    rewrite firstn_app, map_length, seq_length, Nat.sub_diag, firstn_O, app_nil_r, firstn_all2 by (rewrite map_length, seq_length; lia).
    apply (lines_split 0%Qc 0 (S s)). }
  unfold periodic_start. rewrite Sk, Ft.
  unfold concatenate, kept. rewrite last_tab, first_tab, last_app.
  change (first_row (map (line_row 0) (seq 0 (S s)) ++ [line_row 0 (S s)])) with (Some (line_row 0 0)).
  cbn [r_name line_row end_row same_name].
  destruct (existsb _ _) eqn:Eb.
  { apply names_in in Eb as (p & Hp & E). exfalso. revert E. rewrite !el_lo by lia. lia. }
  rewrite tab_length. replace (S (S (n - 1 - S s)) - 1) with (S (n - 1 - S s)) by lia.
  assert (F : firstn (S (n - 1 - S s)) (tab 0 (S s) (S (n - 1 - S s))) = map (line_row 0) (seq (S s) (S (n - 1 - S s)))).
  { pose proof (tab_row 0%Qc (S s) (n - 1 - S s)) as H. rewrite <- lines_split in H. exact H. }
  rewrite F, shift_lines. rewrite (lines_split 0%Qc (S s)), (lines_split _ (S s)). rewrite !last_app, <- !lines_split.
  cbn [r_c line_row end_row].
  replace (0 + - (Cf (S s) + 0))%Qc with (- Cf (S s))%Qc by ring.
  set (K := (- (Cf 0%nat + 0) + _ + _)%Qc).
  assert (HK : K = (Cf n - Cf 0%nat - Cf (S s))%Qc).
  { unfold K. replace (S s + S (n - 1 - S s)) with n by lia. ring. }
  clearbody K. subst K. change (0 + S s) with (S s) in *. try rewrite <- (lines_split 0%Qc 0 (S s) : _ = map (line_row 0) (seq 0 (S s)) ++ [line_row 0 (S s)]). rewrite shift_lines, (lines_split _ 0), app_assoc.
  change (first_row ((map (line_row (- Cf (S s))) (seq (S s) (S (n - 1 - S s))) ++
                      map (line_row (0 + (Cf n - Cf 0%nat - Cf (S s)))) (seq 0 (S s))) ++
                     [line_row (0 + (Cf n - Cf 0%nat - Cf (S s))) (0 + S s)])) with (Some (line_row (- Cf (S s))%Qc (S s))).
  eexists. split; [reflexivity|].
  cbn [r_c line_row]. replace (- (Cf (S s) + - Cf (S s)))%Qc with 0%Qc by ring.
  unfold shift_c at 1. rewrite map_app. cbn [map]. rewrite rename_app, map_app. cbn [map].
  change (map (fun r : row X => mkRow (r_name r) (r_x r) (r_c r + 0)%Qc (r_z r))) with (@shift_c X 0%Qc).
  unfold shift_c at 1. rewrite map_app. fold (@shift_c X 0%Qc).
  change (map (fun r : row X => mkRow (r_name r) (r_x r) (r_c r + 0)%Qc (r_z r))) with (@shift_c X 0%Qc). rewrite !shift_lines.
  unfold tab. rewrite (map_app _ (map (line_row 0) (seq (S s) n))).
  replace (seq (S s) n) with (seq (S s) (S (n - 1 - S s) + S s)) by (f_equal; lia).
  rewrite seq_app, map_app, !map_app, !map_map. replace (S s + S (n - 1 - S s)) with n by lia.
  destruct (around (S s) ltac:(lia) P X0 (S s) ltac:(lia)) as [Hx Hc].
  f_equal; [f_equal|].
  - apply map_ext. intros q. unfold seen, line_row. cbn [r_name r_x r_c]. f_equal. ring.
  - replace (seq n (S s)) with (map (fun q => n + q) (seq 0 (S s))) by (rewrite seq_shifts, Nat.add_0_r; reflexivity). rewrite map_map. apply map_ext_in. intros q Hq. apply in_seq in Hq.
    destruct (around (S s) ltac:(lia) P X0 q ltac:(lia)) as [Hxq Hcq].
    unfold seen, line_row. cbn [r_name r_x r_c]. rewrite (el_hi (n + q)), (el_lo q) by lia. replace (n + q - n) with q by lia.
    rewrite Hxq, Hcq. f_equal. ring.
  - unfold seen, line_row, end_row. cbn [map r_name r_x r_c Nat.add]. replace (S (s + n)) with (n + S s) by lia. rewrite Hx, Hc. f_equal. f_equal. ring.
Qed.
End Range.
