(** Profile monitor and BeamStatsMonitor. *)
From Coq Require Import ZArith QArith Qround Qfield Lqa List Bool Lia Permutation.
From Verif.Model Require Import BeamMonitors.
From Verif.Spec Require Import BeamMonitors.
From Verif.Proofs Require Import BeamMonitors.
Import ListNotations.
Local Open Scope Q_scope.

Lemma flat_unique n a b x y : (0 <= x < n -> 0 <= y < n -> a * n + x = b * n + y -> a = b /\ x = y)%Z.
Proof.
  intros Hx Hy E. assert (Hn : (n <> 0)%Z) by lia.
  assert (A : (a = b)%Z).
  { rewrite (Z.div_unique (a * n + x) n a x), (Z.div_unique (b * n + y) n b y) by lia. rewrite E. reflexivity. }
  subst b. lia.
Qed.

Lemma flat_bound n m a x : (0 <= a < m -> 0 <= x < n -> 0 <= a * n + x < m * n)%Z.
Proof. intros Ha Hx. assert (a * n + n <= m * n)%Z by nia. assert (0 <= a * n)%Z by nia. lia. Qed.

(** * Profile *)
Lemma bin_iff g v i : 0 < pf_d g -> Qfloor ((v - pf_min g) / pf_d g) = i <-> in_bin g v i = true.
Proof.
  intro Hd. rewrite floor_div by assumption. unfold in_bin, prof_edge. rewrite andb_true_iff, Qle_bool_iff, qlt_bool.
  setoid_replace (pf_d g * inject_Z i) with (inject_Z i * pf_d g) by ring.
  setoid_replace (pf_d g * inject_Z (i + 1)) with (inject_Z (i + 1) * pf_d g) by ring. reflexivity.
Qed.

Lemma prof_hit cl c g f k i p :
  ids_ok c -> 0 < pf_d g -> (0 <= k < bp_size c)%Z -> (0 <= i < pf_n g)%Z ->
  hit (prof_idx cl c g f) (k * pf_n g + i) p = (in_slot cl c k p && in_bin g (f p) i)%bool.
Proof.
  intros Hids Hd Hk Hi. rewrite <- (slot_hit cl c k p Hids Hk). unfold hit, prof_idx, bpm_idx.
  destruct (bpm_id_ok c (b_id p)); [|reflexivity].
  set (sm := bpm_slot cl c p). set (bn := Qfloor ((f p - pf_min g) / pf_d g)).
  destruct ((0 <=? sm)%Z && (sm <? bp_size c)%Z) eqn:ES; [|reflexivity].
  apply andb_true_iff in ES. destruct ES as [S1 S2]. apply Z.leb_le in S1. apply Z.ltb_lt in S2.
  pose proof (bin_iff g (f p) i Hd) as B. fold bn in B.
  destruct ((0 <=? bn)%Z && (bn <? pf_n g)%Z) eqn:EB.
  - apply andb_true_iff in EB. destruct EB as [B1 B2]. apply Z.leb_le in B1. apply Z.ltb_lt in B2.
    pose proof (flat_bound (pf_n g) (bp_size c) sm bn ltac:(lia) ltac:(lia)) as [F1 F2].
    rewrite (proj2 (Z.leb_le _ _) F1), (proj2 (Z.ltb_lt _ _) F2). cbn [andb].
    destruct (sm =? k)%Z eqn:E.
    + apply Z.eqb_eq in E. rewrite E. cbn [andb]. destruct (in_bin g (f p) i).
      * rewrite (proj2 B eq_refl). apply Z.eqb_refl.
      * apply Z.eqb_neq. intro C. assert (bn = i) by lia. apply B in H. discriminate.
    + cbn [andb]. apply Z.eqb_neq in E. apply Z.eqb_neq. intro C. apply flat_unique in C; lia.
  - destruct (in_bin g (f p) i).
    + exfalso. rewrite (proj2 B eq_refl) in EB. apply andb_false_iff in EB.
      destruct EB as [X|X]; [apply Z.leb_gt in X|apply Z.ltb_ge in X]; lia.
    + rewrite andb_false_r. reflexivity.
Qed.

Lemma some_inj {A} (x y : A) : Some x = Some y -> x = y.
Proof. congruence. Qed.

Lemma triple_inj {A B C} (x x' : A) (y y' : B) (z z' : C) : Some (x, y, z) = Some (x', y', z') -> x = x' /\ y = y' /\ z = z'.
Proof. intro H. injection H as -> -> ->. auto. Qed.

Lemma prof_bounds cl c g f p k : prof_idx cl c g f p = Some k -> (0 <= k < bp_size c * pf_n g)%Z.
Proof.
  unfold prof_idx. cbv zeta. destruct (bpm_id_ok c (b_id p)); [|discriminate].
  do 2 (match goal with |- (if ?b then _ else _) = _ -> _ => destruct b; [|discriminate] end).
  match goal with |- (if ?b then _ else _) = _ -> _ => destruct b eqn:E; [|discriminate] end.
  intro H. apply some_inj in H. subst k. apply andb_true_iff in E.
  destruct E as [A B]. apply Z.leb_le in A. apply Z.ltb_lt in B. lia.
Qed.

Lemma profile_ok cl c g f ps k i :
  ids_ok c -> 0 < pf_d g -> (0 <= k < bp_size c)%Z -> (0 <= i < pf_n g)%Z ->
  exists v, prof_intensity cl c g f ps k i = Some v
  /\ v == inject_Z (Z.of_nat (length (filter (fun p => in_slot cl c k p && in_bin g (f p) i)%bool ps))).
Proof.
  intros Hids Hd Hk Hi. unfold prof_intensity, prof_array.
  rewrite (proj2 (Z.leb_le _ _)), (proj2 (Z.ltb_lt _ _)) by lia. cbn [andb].
  destruct (accumulate_zeros (prof_idx cl c g f) (fun _ => 1) (bp_size c * pf_n g) ps) as (b & A & L & N).
  { intros p j _. apply prof_bounds. }
  rewrite A. unfold entry. pose proof (flat_bound (pf_n g) (bp_size c) k i Hk Hi) as F.
  rewrite (proj2 (Z.leb_le _ _)) by lia.
  destruct (nth_error b (Z.to_nat (k * pf_n g + i))) as [v|] eqn:E.
  - exists v. split; [reflexivity|]. apply (nth_error_nth _ _ 0) in E. rewrite <- E, N.
    rewrite Z2Nat.id by lia. rewrite total_one. f_equiv.
    rewrite (filter_ext_bool _ (fun p => in_slot cl c k p && in_bin g (f p) i)%bool); [reflexivity|].
    intros p _. apply prof_hit; assumption.
  - apply nth_error_None in E. lia.
Qed.

(** * BeamStatsMonitor *)
Lemma zrange_in n x : In x (zrange n) <-> (0 <= x < n)%Z.
Proof.
  unfold zrange. rewrite in_map_iff. split.
  - intros (i & <- & H). apply in_seq in H. lia.
  - intro H. exists (Z.to_nat x). split; [lia|]. apply in_seq. lia.
Qed.

Lemma zrange_nodup n : NoDup (zrange n).
Proof.
  unfold zrange. generalize (seq_NoDup (Z.to_nat n) 0). generalize (seq 0 (Z.to_nat n)). intro l.
  induction 1; cbn; constructor; [|assumption]. rewrite in_map_iff. intros (j & E & H1). apply Nat2Z.inj in E. congruence.
Qed.

(** The map from slots to selected slots. *)
Lemma find_rev_nodup (l : list (Z * Z)) slot i :
  NoDup (map fst l) -> In (slot, i) l -> find (fun p => (fst p =? slot)%Z) (rev l) = Some (slot, i).
Proof.
  induction l as [|[a b] l IH]; intros ND Hin; [contradiction|]. cbn [map fst] in ND. inversion ND; subst. cbn [rev].
  assert (FA : forall (f : Z * Z -> bool) u v, find f (u ++ v) = match find f u with Some x => Some x | None => find f v end).
  { intros f u v. induction u as [|x u IHu]; [reflexivity|]. cbn. destruct (f x); [reflexivity|exact IHu]. }
  rewrite FA. destruct Hin as [E|Hin].
  - injection E as -> ->. destruct (find _ (rev l)) as [[u v]|] eqn:F.
    + apply find_some in F. destruct F as [F1 F2]. cbn in F2. apply Z.eqb_eq in F2. subst u.
      apply in_rev in F1. exfalso. apply H1. apply in_map_iff. exists (slot, v). split; [reflexivity|exact F1].
    + cbn. rewrite Z.eqb_refl. reflexivity.
  - rewrite IH by assumption. reflexivity.
Qed.

Lemma combine_fst {A B} (l : list A) (m : list B) : length l = length m -> map fst (combine l m) = l.
Proof. revert m. induction l as [|x l IH]; intros [|y m] H; cbn in *; try discriminate; [reflexivity|]. f_equal. apply IH. lia. Qed.

Lemma in_combine_seq (l : list Z) slot i k :
  In (slot, i) (combine l (map Z.of_nat (seq k (length l)))) <->
  exists j, (j < length l)%nat /\ i = Z.of_nat (k + j) /\ nth j l 0%Z = slot.
Proof.
  revert k. induction l as [|x l IH]; intro k; cbn [length seq map combine In].
  - split; [contradiction|]. intros (j & H & _). lia.
  - rewrite IH. split.
    + intros [E|(j & H & E & N)].
      * injection E as <- <-. exists 0%nat. split; [lia|]. split; [f_equal; lia|reflexivity].
      * exists (S j). split; [lia|]. split; [rewrite E; f_equal; lia|exact N].
    + intros ([|j] & H & E & N).
      * left. cbn in N. subst. f_equal. f_equal. lia.
      * right. exists j. split; [lia|]. split; [rewrite E; f_equal; lia|exact N].
Qed.

Lemma lookup_iff sel slot b :
  NoDup sel -> (0 <= b)%Z ->
  slot_lookup sel slot = b <-> (b < Z.of_nat (length sel))%Z /\ nth (Z.to_nat b) sel 0%Z = slot.
Proof.
  intros ND Hb. unfold slot_lookup. set (l := combine sel _).
  assert (NDl : NoDup (map fst l)).
  { unfold l. rewrite combine_fst; [exact ND|]. rewrite map_length, seq_length. reflexivity. }
  split.
  - destruct (find _ (rev l)) as [[s i]|] eqn:F; [|intro; subst; lia]. intros ->.
    apply find_some in F. destruct F as [F1 F2]. cbn in F2. apply Z.eqb_eq in F2. subst s.
    apply in_rev in F1. unfold l in F1. apply in_combine_seq in F1. destruct F1 as (j & H & E & N).
    cbn in E. subst b. rewrite Nat2Z.id. split; [lia|exact N].
  - intros [B N]. rewrite (find_rev_nodup l slot b NDl); [reflexivity|].
    unfold l. apply in_combine_seq. exists (Z.to_nat b). split; [lia|]. split; [lia|exact N].
Qed.

Lemma fold_max l a : (forall x, In x l -> x <= fold_left Z.max l a)%Z /\ (a <= fold_left Z.max l a)%Z.
Proof.
  revert a. induction l as [|y l IH]; intro a; cbn [fold_left].
  - split; [contradiction|lia].
  - destruct (IH (Z.max a y)) as [A B]. split; [|lia]. intros x [<-|H]; [lia|apply A, H].
Qed.

Definition via_map (m : list Z) (slot : Z) : Z :=
  if (0 <=? slot)%Z && (slot <? Z.of_nat (length m))%Z then nth (Z.to_nat slot) m (-1)%Z else (-1)%Z.

Lemma via_map_iff sel slot b :
  NoDup sel -> (forall x, In x sel -> 0 <= x)%Z -> (0 <= b)%Z ->
  via_map (slot_to_selected sel) slot = b <-> (b < Z.of_nat (length sel))%Z /\ nth (Z.to_nat b) sel 0%Z = slot.
Proof.
  intros ND NN Hb. rewrite <- lookup_iff by assumption. unfold via_map, slot_to_selected.
  rewrite map_length, seq_length. set (n := (fold_left Z.max sel (-1) + 1)%Z).
  destruct ((0 <=? slot)%Z && (slot <? Z.of_nat (Z.to_nat n))%Z)%bool eqn:E.
  - apply andb_true_iff in E. destruct E as [E1 E2]. apply Z.leb_le in E1. apply Z.ltb_lt in E2.
    set (F := fun i => slot_lookup sel (Z.of_nat i)).
    rewrite (nth_indep _ (-1)%Z (F 0%nat)) by (rewrite map_length, seq_length; lia).
    rewrite map_nth, seq_nth by lia. unfold F. cbn [plus]. rewrite Z2Nat.id by lia. reflexivity.
  - split; [lia|]. intro L. exfalso. apply lookup_iff in L; try assumption. destruct L as [L1 L2].
    assert (I : In slot sel) by (rewrite <- L2; apply nth_In; lia).
    pose proof (proj1 (fold_max sel (-1)) slot I). pose proof (NN slot I). fold n in E.
    apply andb_false_iff in E. destruct E as [E|E]; [apply Z.leb_gt in E|apply Z.ltb_ge in E]; lia.
Qed.

(** What the constructor guarantees. *)
Record stats_ok (c : stats) : Prop := {
  so_every : (0 < st_every c)%Z;
  so_nrec : st_nrec c = arange_len (st_start c) (st_stop c) (st_every c);
  so_nodup : NoDup (st_sel c);
  so_nonneg : forall x, In x (st_sel c) -> (0 <= x)%Z;
  so_map : st_map c = slot_to_selected (st_sel c);
  so_nsel : st_nsel c = Z.of_nat (length (st_sel c));
  so_pos : st_mode c <> Beam -> (1 <= st_nsel c)%Z;
  so_beam : st_mode c = Beam -> st_nsel c = 0%Z;
  so_single : st_mode c <> Beam -> st_sp c == 0 -> st_sel c = [0%Z];
  so_sp : 0 <= st_sp c;
  so_coast : st_mode c = Coasting -> st_sel c = [0%Z];
  so_nsl : st_mode c = Slice \/ st_mode c = Coasting -> (0 < st_nsl c)%Z;
  so_dz : st_mode c = Slice -> 0 < st_dz c;
  so_ids : (st_id0 c < 0 \/ st_id0 c < st_id1 c)%Z }.

Lemma nodup_len (l : list Z) : length (nodup Z.eq_dec l) = length l -> NoDup l.
Proof.
  intro H. apply (@NoDup_incl_NoDup Z (nodup Z.eq_dec l) l); [apply NoDup_nodup|lia|].
  intros x Hx. apply nodup_In in Hx. exact Hx.
Qed.

Lemma init_ok m start stop every sel sp nsl lo hi ids c :
  stats_init m start stop every sel sp nsl lo hi ids = Some c -> stats_ok c.
Proof.
  unfold stats_init. intro H. cbv zeta in H.
  set (sel' := match m with Beam => [] | Coasting => [0%Z] | _ => sel end) in *.
  set (sp' := match m with Beam | Coasting => None | _ => sp end) in *.
  destruct (every <=? 0)%Z eqn:Ev; [discriminate|]. apply Z.leb_gt in Ev.
  destruct (forallb (fun s => (0 <=? s)%Z) sel') eqn:NN; cbn [negb] in H; [|discriminate].
  destruct (Nat.eqb (length (nodup Z.eq_dec sel')) (length sel')) eqn:ND; cbn [negb] in H; [|discriminate].
  apply Nat.eqb_eq in ND. apply nodup_len in ND. rewrite forallb_forall in NN.
  assert (NN' : forall x, In x sel' -> (0 <= x)%Z) by (intros x Hx; apply Z.leb_le, NN, Hx). clear NN.
  assert (Ids : exists a b, (match ids with Some (a, _) => a | None => (-1)%Z end) = a /\ (match ids with Some (_, b) => b | None => (-1)%Z end) = b
     /\ ((match ids with Some (a, b) => (a <? 0) || (b <=? a) | None => false end)%Z = false -> (a < 0 \/ a < b)%Z)).
  { destruct ids as [[a b]|].
    - exists a, b. split; [reflexivity|]. split; [reflexivity|]. intro E. apply orb_false_iff in E. destruct E as [E1 E2].
      apply Z.ltb_ge in E1. apply Z.leb_gt in E2. lia.
    - exists (-1)%Z, (-1)%Z. repeat split; lia. }
  destruct Ids as (a & b & Ea & Eb & Iab). rewrite Ea, Eb in H.
  destruct (match ids with Some (a, b) => (a <? 0) || (b <=? a) | None => false end)%Z; [discriminate|].
  specialize (Iab eq_refl).
  destruct m.
  - (* Beam *)
    subst sel' sp'. cbn in H. injection H as <-.
    constructor; cbn; try assumption; try reflexivity; try congruence; try lra; try contradiction. intros [|]; discriminate.
  - (* Bunch *)
    subst sel' sp'. destruct sel as [|x l]; [discriminate|]. cbv iota in H.
    destruct sp as [s|].
    + destruct (Qle_bool s 0) eqn:Es; cbn [negb] in H; [discriminate|]. apply qle_bool_false in Es. injection H as <-.
      constructor; cbn [st_every st_nrec st_start st_stop st_sel st_map st_nsel st_sp st_mode st_nsl st_dz st_id0 st_id1]; try assumption; try reflexivity; try congruence; try lra; try (intros _; cbn [length]; lia); try (intros _ ?; lra); try (intros [|]; discriminate).
    + destruct x as [|x|x]; try discriminate. destruct l as [|y l]; [|discriminate]. cbn [negb] in H. injection H as <-.
      constructor; cbn [st_every st_nrec st_start st_stop st_sel st_map st_nsel st_sp st_mode st_nsl st_dz st_id0 st_id1]; try assumption; try reflexivity; try congruence; try lra; try (intros _; cbn [length]; lia); try (intros [|]; discriminate).
  - (* Slice *)
    subst sel' sp'. destruct sel as [|x l]; [discriminate|]. cbv iota in H.
    assert (K : forall q, (0 < q \/ (q == 0 /\ x :: l = [0%Z]))%Q ->
       (if (nsl <=? 0)%Z then None else if Qle_bool ((hi - lo) / inject_Z nsl) 0 then None
        else Some (mkStats Slice start stop every (arange_len start stop every) (Z.of_nat (length (x :: l))) nsl lo ((hi - lo) / inject_Z nsl) q a b (x :: l) (slot_to_selected (x :: l)))) = Some c -> stats_ok c).
    { intros q Hq E. destruct (nsl <=? 0)%Z eqn:En; [discriminate|]. apply Z.leb_gt in En.
      destruct (Qle_bool ((hi - lo) / inject_Z nsl) 0) eqn:Ed; [discriminate|]. apply qle_bool_false in Ed. injection E as <-.
      constructor; cbn [st_every st_nrec st_start st_stop st_sel st_map st_nsel st_sp st_mode st_nsl st_dz st_id0 st_id1]; try assumption; try reflexivity; try congruence; try lra; try (intros _; cbn [length]; lia); try (intros _ ?; destruct Hq as [Hq|[_ Hq]]; [lra|exact Hq]); try (intros _; assumption). }
    destruct sp as [s|].
    + destruct (Qle_bool s 0) eqn:Es; cbn [negb] in H; [discriminate|]. apply qle_bool_false in Es.
      apply (K s); [left; exact Es|exact H].
    + destruct x as [|x|x]; try discriminate. destruct l as [|y l]; [|discriminate]. cbn [negb] in H.
      apply (K 0); [right; split; reflexivity|exact H].
  - (* Coasting *)
    subst sel' sp'. cbn [negb] in H. destruct (nsl <=? 0)%Z eqn:En; [discriminate|]. apply Z.leb_gt in En. injection H as <-.
    constructor; cbn [st_every st_nrec st_start st_stop st_sel st_map st_nsel st_sp st_mode st_nsl st_dz st_id0 st_id1]; try assumption; try reflexivity; try congruence; try lra; try (intros _; assumption).
Qed.

(** Records *)
Lemma record_iff c turn r :
  stats_ok c ->
  ((st_start c <=? turn) && (turn <? st_stop c) && (Z.rem (turn - st_start c) (st_every c) =? 0)
   && (0 <=? Z.quot (turn - st_start c) (st_every c)) && (Z.quot (turn - st_start c) (st_every c) <? st_nrec c))%Z = true
  /\ Z.quot (turn - st_start c) (st_every c) = r
  <-> (0 <= r < st_nrec c)%Z /\ turn = rec_turn c r.
Proof.
  intro Hok. pose proof (so_every c Hok) as He. rewrite (so_nrec c Hok). unfold rec_turn.
  set (e := st_every c) in *. set (a := st_start c). set (z := st_stop c). split.
  - intros [H R]. rewrite !andb_true_iff, !Z.leb_le, !Z.ltb_lt, Z.eqb_eq in H. destruct H as ((((A & B) & C) & D) & E).
    pose proof (Z.quot_rem' (turn - a) e) as Q. rewrite C, R in *. split; [lia|lia].
  - intros [[R1 R2] E].
    assert (Hq : Z.quot (turn - a) e = r).
    { replace (turn - a)%Z with (r * e)%Z by lia. apply Z.quot_mul. lia. }
    assert (Hm : Z.rem (turn - a) e = 0%Z).
    { replace (turn - a)%Z with (r * e)%Z by lia. apply Z.rem_mul. lia. }
    rewrite Hq, Hm. split; [|reflexivity].
    rewrite !andb_true_iff, !Z.leb_le, !Z.ltb_lt. unfold arange_len in *.
    assert (T : (turn < z)%Z).
    { assert (Hr : (r + 1 <= (z - a + e - 1) / e)%Z) by lia.
      pose proof (Z.mul_div_le (z - a + e - 1) e He). nia. }
    repeat split; try lia; nia.
Qed.

(** Coasting beams *)
Lemma effective_turn u T n s :
  (0 < n)%Z -> (0 <= s < n)%Z ->
  Qfloor (u + (1 # 2)) = T /\ Qfloor ((u - inject_Z (Qfloor (u + (1 # 2))) + (1 # 2)) * inject_Z n) = s
  <-> inject_Z T - (1 # 2) + inject_Z s / inject_Z n <= u /\ u < inject_Z T - (1 # 2) + inject_Z (s + 1) / inject_Z n.
Proof.
  intros Hn Hs.
  assert (N : 0 < inject_Z n) by (change 0 with (inject_Z 0); rewrite <- Zlt_Qlt; lia).
  assert (S0 : 0 <= inject_Z s / inject_Z n).
  { apply Qle_shift_div_l; [exact N|]. rewrite Qmult_0_l. change 0 with (inject_Z 0). rewrite <- Zle_Qle. lia. }
  assert (S1 : inject_Z (s + 1) / inject_Z n <= 1).
  { apply Qle_shift_div_r; [exact N|]. rewrite Qmult_1_l. rewrite <- Zle_Qle. lia. }
  assert (D : forall x y, x / inject_Z n <= y <-> x <= y * inject_Z n).
  { intros x y. split; intro H.
    - apply (Qmult_le_compat_r _ _ (inject_Z n)) in H; [|lra].
      assert (x / inject_Z n * inject_Z n == x) by (field; lra). lra.
    - apply Qle_shift_div_r; assumption. }
  assert (D' : forall x y, y < x / inject_Z n <-> y * inject_Z n < x).
  { intros x y. split; intro H.
    - apply Qnot_le_lt. intro C. apply D in C. lra.
    - apply Qnot_le_lt. intro C. apply D in C. lra. }
  split.
  - intros [A B]. rewrite A in B. apply floor_iff in A. apply floor_iff in B. destruct B as [B1 B2].
    apply D in B1. apply D' in B2. split; lra.
  - intros [A B]. assert (F : Qfloor (u + (1 # 2)) = T).
    { apply floor_iff. rewrite inject_Z_plus. change (inject_Z 1) with 1. split; lra. }
    split; [exact F|]. rewrite F. apply floor_iff. split; [apply D|apply D']; lra.
Qed.

Lemma coasting_in_range u n :
  (0 < n)%Z -> (0 <= Qfloor ((u - inject_Z (Qfloor (u + (1 # 2))) + (1 # 2)) * inject_Z n) < n)%Z.
Proof.
  intro Hn. assert (N : 0 < inject_Z n) by (change 0 with (inject_Z 0); rewrite <- Zlt_Qlt; lia).
  pose proof (Qfloor_le (u + (1 # 2))) as A. pose proof (Qlt_floor (u + (1 # 2))) as B.
  rewrite inject_Z_plus in B. change (inject_Z 1) with 1 in B.
  set (f := u - inject_Z (Qfloor (u + (1 # 2))) + (1 # 2)).
  assert (F0 : 0 <= f) by (unfold f; lra). assert (F1 : f < 1) by (unfold f; lra).
  clearbody f. clear A B u.
  pose proof (Qfloor_le (f * inject_Z n)) as A. pose proof (Qlt_floor (f * inject_Z n)) as B.
  assert (G0 : 0 <= f * inject_Z n) by (apply Qmult_le_0_compat; lra).
  assert (G1 : f * inject_Z n < 1 * inject_Z n) by (apply Qmult_lt_compat_r; lra).
  split.
  - assert (X : inject_Z 0 < inject_Z (Qfloor (f * inject_Z n) + 1)) by (change (inject_Z 0) with 0; lra).
    rewrite <- Zlt_Qlt in X. lia.
  - rewrite Zlt_Qlt. lra.
Qed.

(** Position of a passage. *)
Definition pos (len : Q) (c : stats) (p : bpart) : option (Z * Z * Z) :=
  if ((0 <=? st_id0 c) && ((b_id p <? st_id0 c) || (st_id1 c <=? b_id p)))%Z then None
  else match stats_where len c p with
  | None => None
  | Some (turn, zeta, csl) =>
      let r := Z.quot (turn - st_start c) (st_every c) in
      if ((st_start c <=? turn) && (turn <? st_stop c) && (Z.rem (turn - st_start c) (st_every c) =? 0)
          && (0 <=? r) && (r <? st_nrec c))%Z then
        match st_mode c with
        | Beam => Some (r, 0%Z, 0%Z)
        | Coasting => Some (r, 0%Z, csl)
        | m => let '(slot, sel) := stats_slot c zeta in
               if (sel <? 0)%Z then None
               else match m with
                    | Bunch => Some (r, sel, 0%Z)
                    | _ => let sl := Qfloor ((zeta - (st_zmin c - inject_Z slot * st_sp c)) / st_dz c) in
                           if ((sl <? 0) || (st_nsl c <=? sl))%Z then None else Some (r, sel, sl)
                    end
        end
      else None
  end.

Definition flat (c : stats) (q : Z * Z * Z) : Z :=
  let '(r, b, s) := q in ((r * n_bunch c + b) * n_slice c + s)%Z.

Lemma idx_pos len c p : stats_ok c -> stats_idx len c p = option_map (flat c) (pos len c p).
Proof.
  intro Hok. unfold stats_idx, pos.
  destruct (_ && _)%bool; [reflexivity|]. destruct (stats_where len c p) as [[[turn zeta] csl]|]; [|reflexivity].
  cbv zeta. destruct (((st_start c <=? turn) && (turn <? st_stop c) && (Z.rem (turn - st_start c) (st_every c) =? 0))%Z)%bool; [|reflexivity].
  cbn [andb]. destruct ((0 <=? Z.quot (turn - st_start c) (st_every c))%Z && (Z.quot (turn - st_start c) (st_every c) <? st_nrec c)%Z)%bool; [|reflexivity].
  destruct (st_mode c) eqn:M.
  - cbn. unfold n_bunch, n_slice. rewrite M. f_equal. lia.
  - destruct (stats_slot c zeta) as [slot sel]. destruct (sel <? 0)%Z; [reflexivity|]. cbn. unfold n_bunch, n_slice. rewrite M. f_equal. lia.
  - destruct (stats_slot c zeta) as [slot sel]. destruct (sel <? 0)%Z; [reflexivity|].
    destruct (_ || _)%bool; [reflexivity|]. cbn. unfold n_bunch, n_slice. rewrite M. reflexivity.
  - cbn. unfold n_bunch, n_slice. rewrite M, Z.add_0_r. reflexivity.
Qed.

Lemma stats_slot_iff c zeta b :
  stats_ok c -> st_mode c <> Beam -> (0 <= b)%Z ->
  snd (stats_slot c zeta) = b <-> (b < st_nsel c)%Z /\ in_bucket c zeta b = true.
Proof.
  intros Hok Hm Hb. unfold stats_slot, in_bucket. destruct (Qeq_bool (st_sp c) 0) eqn:Z0.
  - apply Qeq_bool_iff in Z0. rewrite (so_nsel c Hok), (so_single c Hok Hm Z0). cbn. split; [intros <-|intros [H _]]; [split; [lia|reflexivity]|lia].
  - cbn [snd]. fold (via_map (st_map c) (- Qfloor ((zeta - st_zmin c) / st_sp c))).
    assert (Hsp : 0 < st_sp c).
    { pose proof (so_sp c Hok). apply Qeq_bool_neq in Z0. apply Qle_lteq in H. destruct H as [H|H]; [exact H|]. exfalso. apply Z0. symmetry. exact H. }
    rewrite (so_map c Hok), (via_map_iff _ _ _ (so_nodup c Hok) (so_nonneg c Hok) Hb).
    rewrite (so_nsel c Hok). set (k := nth (Z.to_nat b) (st_sel c) 0%Z).
    assert (E : k = (- Qfloor ((zeta - st_zmin c) / st_sp c))%Z <-> Qfloor ((zeta - st_zmin c) / st_sp c) = (- k)%Z) by lia.
    rewrite E, floor_div by assumption. rewrite andb_true_iff, Qle_bool_iff, qlt_bool.
    rewrite inject_Z_plus, inject_Z_opp. change (inject_Z 1) with 1.
    assert (X : st_zmin c + - inject_Z k * st_sp c == st_zmin c - inject_Z k * st_sp c) by ring.
    assert (Y : st_zmin c + (- inject_Z k + 1) * st_sp c == st_zmin c - inject_Z k * st_sp c + st_sp c) by ring.
    rewrite X, Y. reflexivity.
Qed.

Lemma stats_slot_fst c zeta b :
  stats_ok c -> st_mode c <> Beam -> (0 <= b)%Z -> snd (stats_slot c zeta) = b ->
  fst (stats_slot c zeta) = nth (Z.to_nat b) (st_sel c) 0%Z.
Proof.
  intros Hok Hm Hb. unfold stats_slot. destruct (Qeq_bool (st_sp c) 0) eqn:Z0.
  - apply Qeq_bool_iff in Z0. rewrite (so_nsel c Hok), (so_single c Hok Hm Z0). cbn. intros <-. reflexivity.
  - cbn [fst snd]. fold (via_map (st_map c) (- Qfloor ((zeta - st_zmin c) / st_sp c))). intro H.
    rewrite (so_map c Hok) in H.
    apply via_map_iff in H; [|apply (so_nodup c Hok)|apply (so_nonneg c Hok)|assumption]. symmetry. apply H.
Qed.

Lemma id_iff c p : stats_ok c ->
  ((0 <=? st_id0 c) && ((b_id p <? st_id0 c) || (st_id1 c <=? b_id p)))%Z = negb (stats_id c (b_id p)).
Proof.
  intros _. unfold stats_id. rewrite (Z.ltb_antisym (st_id0 c) 0), (Z.ltb_antisym (b_id p) (st_id1 c)), (Z.ltb_antisym (st_id0 c) (b_id p)) || idtac.
  destruct (Z.leb_spec 0 (st_id0 c)), (Z.ltb_spec (b_id p) (st_id0 c)), (Z.leb_spec (st_id1 c) (b_id p)),
    (Z.ltb_spec (st_id0 c) 0), (Z.leb_spec (st_id0 c) (b_id p)), (Z.ltb_spec (b_id p) (st_id1 c)); cbn; try reflexivity; lia.
Qed.


Lemma pos_iff len c p r b s :
  stats_ok c -> (st_mode c = Coasting -> 0 < len) ->
  pos len c p = Some (r, b, s) <-> inside c r b s /\ belongs len c r b s p = true.
Proof.
  intros Hok Hlen. unfold pos, belongs, inside. rewrite (id_iff c p Hok).
  destruct (stats_id c (b_id p)); cbn [negb andb]; [|split; [discriminate|intros [_ H]; discriminate]].
  pose proof (fun turn => record_iff c turn r Hok) as RI. unfold stats_where.
  set (cond := fun turn => ((st_start c <=? turn) && (turn <? st_stop c) && (Z.rem (turn - st_start c) (st_every c) =? 0)
    && (0 <=? Z.quot (turn - st_start c) (st_every c)) && (Z.quot (turn - st_start c) (st_every c) <? st_nrec c))%Z%bool) in *.
  destruct (st_mode c) eqn:M; cbv zeta.
  - (* Beam *)
    fold (cond (b_turn p)). specialize (RI (b_turn p)). cbv beta in RI. fold (cond (b_turn p)) in RI.
    unfold n_bunch, n_slice. rewrite M, Z.eqb_eq. split.
    + destruct (cond (b_turn p)) eqn:C; [|discriminate]. intro EQ. apply triple_inj in EQ. destruct EQ as (E & <- & <-).
      destruct (proj1 RI (conj eq_refl E)). repeat split; try lia; assumption.
    + intros [[A [B D]] E]. destruct (proj2 RI (conj A E)) as [C F]. rewrite C, F. repeat f_equal; lia.
  - (* Bunch *)
    fold (cond (b_turn p)). specialize (RI (b_turn p)). cbv beta in RI. fold (cond (b_turn p)) in RI.
    unfold n_bunch, n_slice. rewrite M. rewrite andb_true_iff, Z.eqb_eq.
    destruct (stats_slot c (b_zeta p)) as [slot sel] eqn:SS.
    assert (SI : forall b0, (0 <= b0)%Z -> sel = b0 <-> (b0 < st_nsel c)%Z /\ in_bucket c (b_zeta p) b0 = true).
    { intros b0 Hb. rewrite <- (stats_slot_iff c (b_zeta p) b0 Hok) by congruence. rewrite SS. reflexivity. }
    split.
    + destruct (cond (b_turn p)) eqn:C; [|discriminate]. destruct (sel <? 0)%Z eqn:Sn; [discriminate|]. apply Z.ltb_ge in Sn.
      intro EQ. apply triple_inj in EQ. destruct EQ as (E & <- & <-). destruct (proj1 RI (conj eq_refl E)). destruct (proj1 (SI sel Sn) eq_refl). repeat split; try lia; assumption.
    + intros [[A [B D]] [E F]]. destruct (proj2 RI (conj A E)) as [C G]. rewrite C, G.
      assert (sel = b) as -> by (apply SI; [lia|split; [lia|exact F]]). rewrite (proj2 (Z.ltb_ge _ _)) by lia. repeat f_equal; lia.
  - (* Slice *)
    fold (cond (b_turn p)). specialize (RI (b_turn p)). cbv beta in RI. fold (cond (b_turn p)) in RI.
    unfold n_bunch, n_slice. rewrite M. rewrite !andb_true_iff, Z.eqb_eq.
    destruct (stats_slot c (b_zeta p)) as [slot sel] eqn:SS.
    assert (SI : forall b0, (0 <= b0)%Z -> sel = b0 <-> (b0 < st_nsel c)%Z /\ in_bucket c (b_zeta p) b0 = true).
    { intros b0 Hb. rewrite <- (stats_slot_iff c (b_zeta p) b0 Hok) by congruence. rewrite SS. reflexivity. }
    assert (SF : (0 <= sel)%Z -> slot = nth (Z.to_nat sel) (st_sel c) 0%Z).
    { intro Hs. pose proof (stats_slot_fst c (b_zeta p) sel Hok ltac:(congruence) Hs) as X. rewrite SS in X. apply X. reflexivity. }
    assert (LI : forall b0 s0, slot = nth (Z.to_nat b0) (st_sel c) 0%Z ->
       Qfloor ((b_zeta p - (st_zmin c - inject_Z slot * st_sp c)) / st_dz c) = s0 <-> in_slice c (b_zeta p) b0 s0 = true).
    { intros b0 s0 E. rewrite floor_div by (apply (so_dz c Hok); assumption). unfold in_slice. rewrite <- E, andb_true_iff, Qle_bool_iff, qlt_bool. reflexivity. }
    split.
    + destruct (cond (b_turn p)) eqn:C; [|discriminate]. destruct (sel <? 0)%Z eqn:Sn; [discriminate|]. apply Z.ltb_ge in Sn.
      destruct (_ || _)%bool eqn:Sl; [discriminate|]. apply orb_false_iff in Sl. destruct Sl as [L1 L2]. apply Z.ltb_ge in L1. apply Z.leb_gt in L2.
      intro EQ. apply triple_inj in EQ. destruct EQ as (E & <- & <-). destruct (proj1 RI (conj eq_refl E)). destruct (proj1 (SI sel Sn) eq_refl).
      repeat split; try lia; try assumption. apply (LI sel); [apply SF, Sn|reflexivity].
    + intros [[A [B D]] [[E F] G]]. destruct (proj2 RI (conj A E)) as [C H]. rewrite C, H.
      assert (sel = b) as Es by (apply SI; [lia|split; [lia|exact F]]). subst sel. rewrite (proj2 (Z.ltb_ge _ _)) by lia.
      rewrite (proj2 (LI b s (SF ltac:(lia))) G).
      rewrite (proj2 (Z.ltb_ge _ _)), (proj2 (Z.leb_gt _ _)) by lia. reflexivity.
  - (* Coasting *)
    specialize (Hlen eq_refl). assert (Ql : Qle_bool len 0 = false) by (apply qle_bool_false; exact Hlen). rewrite Ql.
    pose proof (so_nsl c Hok (or_intror M)) as Hn. pose proof (so_coast c Hok M) as Hc.
    set (u := inject_Z (b_turn p) - b_zeta p / len) in *.
    pose proof (coasting_in_range u (st_nsl c) Hn) as Rg.
    set (eff := Qfloor (u + (1 # 2))) in *.
    unfold n_bunch, n_slice. rewrite M, (so_nsel c Hok), Hc. cbn [length Z.of_nat].
    rewrite (proj2 (Z.ltb_ge _ _)), (proj2 (Z.leb_gt _ _)) by lia. cbn [orb].
    fold (cond eff). specialize (RI eff). cbv beta in RI. fold (cond eff) in RI.
    unfold in_turn_slice. fold u. rewrite andb_true_iff, Qle_bool_iff, qlt_bool.
    split.
    + destruct (cond eff) eqn:C; [|discriminate]. intro EQ. apply triple_inj in EQ. destruct EQ as (E & <- & <-). destruct (proj1 RI (conj eq_refl E)) as [H1 H2].
      split; [lia|]. apply effective_turn; [assumption|assumption|]. split; [exact H2|reflexivity].
    + intros [[A [B D]] E]. apply effective_turn in E; [|assumption|assumption]. fold eff in E. destruct E as [E F].
      destruct (proj2 RI (conj A E)) as [C H]. rewrite C, H, F. repeat f_equal; lia.
Qed.

Lemma n_bunch_pos c : stats_ok c -> (0 < n_bunch c)%Z.
Proof. intro H. unfold n_bunch. pose proof (so_pos c H). destruct (st_mode c); try lia; specialize (H0 ltac:(discriminate)); lia. Qed.

Lemma size_flat c : stats_ok c -> stats_size c = (st_nrec c * n_bunch c * n_slice c)%Z.
Proof. intro H. unfold stats_size, n_bunch, n_slice. destruct (st_mode c); lia. Qed.

Lemma flat_inside c r b s : inside c r b s -> (0 <= flat c (r, b, s) < st_nrec c * n_bunch c * n_slice c)%Z.
Proof. intros (A & B & C). cbn. apply flat_bound; [apply flat_bound; assumption|assumption]. Qed.

Lemma flat_inj c r b s r' b' s' :
  inside c r b s -> inside c r' b' s' -> flat c (r, b, s) = flat c (r', b', s') -> r = r' /\ b = b' /\ s = s'.
Proof.
  intros (A & B & C) (A' & B' & C') E. cbn in E. apply flat_unique in E; try assumption. destruct E as [E ->].
  apply flat_unique in E; try assumption. destruct E as [-> ->]. auto.
Qed.

Lemma stats_hit len c r b s p :
  stats_ok c -> (st_mode c = Coasting -> 0 < len) -> inside c r b s ->
  hit (stats_idx len c) (flat c (r, b, s)) p = belongs len c r b s p.
Proof.
  intros Hok Hlen Hin. unfold hit. rewrite (idx_pos len c p Hok).
  destruct (belongs len c r b s p) eqn:B.
  - rewrite (proj2 (pos_iff len c p r b s Hok Hlen) (conj Hin B)). cbn [option_map]. apply Z.eqb_refl.
  - destruct (pos len c p) as [[[r' b'] s']|] eqn:E; [|reflexivity]. cbn [option_map]. apply Z.eqb_neq. intro F.
    apply pos_iff in E; try assumption. destruct E as [I E].
    destruct (flat_inj c _ _ _ _ _ _ I Hin F) as (-> & -> & ->). congruence.
Qed.

Lemma stats_bounds len c p k :
  stats_ok c -> (st_mode c = Coasting -> 0 < len) -> stats_idx len c p = Some k -> (0 <= k < stats_size c)%Z.
Proof.
  intros Hok Hlen. rewrite (idx_pos len c p Hok). destruct (pos len c p) as [[[r b] s]|] eqn:E; [|discriminate].
  intros [= <-]. apply pos_iff in E; try assumption. rewrite (size_flat c Hok). apply flat_inside, E.
Qed.

Lemma belongs_unique len c r b s r' b' s' p :
  stats_ok c -> (st_mode c = Coasting -> 0 < len) -> inside c r b s -> inside c r' b' s' ->
  belongs len c r b s p = true -> belongs len c r' b' s' p = true -> r = r' /\ b = b' /\ s = s'.
Proof.
  intros Hok Hlen I I' A B. pose proof (proj2 (pos_iff len c p r b s Hok Hlen) (conj I A)) as X.
  pose proof (proj2 (pos_iff len c p r' b' s' Hok Hlen) (conj I' B)) as Y. rewrite X in Y. injection Y as -> -> ->. auto.
Qed.

Lemma moment_entry len c v ps :
  stats_ok c -> (st_mode c = Coasting -> 0 < len) ->
  exists a, stats_moment len c v ps = Some a
  /\ forall r b s, inside c r b s ->
     nth (Z.to_nat (flat c (r, b, s))) a 0 == total (fun p => b_weight p * v p) (filter (belongs len c r b s) ps).
Proof.
  intros Hok Hlen. unfold stats_moment.
  destruct (accumulate_zeros (stats_idx len c) (fun p => b_weight p * v p) (stats_size c) ps) as (a & A & L & N).
  { intros p k _. apply stats_bounds; assumption. }
  exists a. split; [exact A|]. intros r b s Hin. rewrite N. pose proof (flat_inside c r b s Hin).
  rewrite Z2Nat.id by lia. rewrite (filter_ext_bool _ (belongs len c r b s)); [reflexivity|].
  intros p _. apply stats_hit; assumption.
Qed.

(** Sums over disjoint families. *)
Lemma sum_family {P K} (f : P -> Q) (fam : K -> P -> bool) (ks : list K) (ps : list P) :
  NoDup ks -> (forall k k' p, In k ks -> In k' ks -> fam k p = true -> fam k' p = true -> k = k') ->
  fold_right (fun k a => total f (filter (fam k) ps) + a) 0 ks
  == total f (filter (fun p => existsb (fun k => fam k p) ks) ps).
Proof.
  intros ND. induction ND as [|k ks Hni ND IH]; intro Dj.
  - cbn. induction ps as [|p ps IHp]; [reflexivity|exact IHp].
  - cbn [fold_right]. rewrite IH by (intros k1 k2 p H1 H2; apply Dj; right; assumption). clear IH.
    induction ps as [|p ps IHp]; [reflexivity|]. cbn [filter existsb].
    destruct (fam k p) eqn:Fk; cbn [orb].
    + destruct (existsb (fun k0 => fam k0 p) ks) eqn:Ex.
      * exfalso. apply existsb_exists in Ex. destruct Ex as (k' & Hk' & F').
        apply Hni. rewrite (Dj k k' p (or_introl eq_refl) (or_intror Hk') Fk F'). exact Hk'.
      * cbn [total fold_right] in *. unfold total in *. cbn [existsb] in IHp. lra.
    + destruct (existsb (fun k0 => fam k0 p) ks) eqn:Ex.
      * cbn [total fold_right] in *. unfold total in *. cbn [existsb] in IHp. lra.
      * exact IHp.
Qed.

Lemma sum_entries_app b k k' : sum_entries b (k ++ k') == sum_entries b k + sum_entries b k'.
Proof. unfold sum_entries. induction k as [|x k IH]; cbn [app fold_right]; [|rewrite IH]; lra. Qed.

Lemma sum_entries_flat {A} b (g : A -> list Z) l :
  sum_entries b (flat_map g l) == fold_right (fun x a => sum_entries b (g x) + a) 0 l.
Proof. induction l as [|x l IH]; [reflexivity|]. cbn [flat_map fold_right]. rewrite sum_entries_app, IH. reflexivity. Qed.

Lemma fold_ext {A} (f g : A -> Q) l : (forall x, In x l -> f x == g x) ->
  fold_right (fun x a => f x + a) 0 l == fold_right (fun x a => g x + a) 0 l.
Proof.
  induction l as [|x l IH]; intro H; [reflexivity|]. cbn [fold_right]. rewrite (H x) by (left; reflexivity).
  rewrite IH by (intros y Hy; apply H; right; exact Hy). reflexivity.
Qed.

Lemma sum_entries_map {A} b (g : A -> Z) l :
  sum_entries b (map g l) == fold_right (fun x a => nth (Z.to_nat (g x)) b 0 + a) 0 l.
Proof. unfold sum_entries. induction l as [|x l IH]; [reflexivity|]. cbn [map fold_right]. rewrite IH. reflexivity. Qed.

(** Sum of the slices of a bunch, and of all the cells of a record. *)
Lemma sum_slices len c v ps a r b :
  stats_ok c -> (st_mode c = Coasting -> 0 < len) -> (0 <= r < st_nrec c)%Z -> (0 <= b < n_bunch c)%Z ->
  (forall r b s, inside c r b s ->
     nth (Z.to_nat (flat c (r, b, s))) a 0 == total (fun p => b_weight p * v p) (filter (belongs len c r b s) ps)) ->
  sum_entries a (map (fun s => flat c (r, b, s)) (zrange (n_slice c)))
  == total (fun p => b_weight p * v p) (filter (of_level len c Bunch r b 0) ps).
Proof.
  intros Hok Hlen Hr Hb Ha. rewrite sum_entries_map. cbn [of_level].
  rewrite <- (sum_family (fun p => b_weight p * v p) (fun s => belongs len c r b s) (zrange (n_slice c)) ps).
  - apply fold_ext. intros s Hs. apply Ha. apply zrange_in in Hs. repeat split; lia.
  - apply zrange_nodup.
  - intros s s' p Hs Hs' A B. apply zrange_in in Hs, Hs'.
    destruct (belongs_unique len c r b s r b s' p Hok Hlen) as (_ & _ & E); try assumption; repeat split; lia.
Qed.

Lemma sum_record len c v ps a r :
  stats_ok c -> (st_mode c = Coasting -> 0 < len) -> (0 <= r < st_nrec c)%Z ->
  (forall r b s, inside c r b s ->
     nth (Z.to_nat (flat c (r, b, s))) a 0 == total (fun p => b_weight p * v p) (filter (belongs len c r b s) ps)) ->
  sum_entries a (flat_map (fun b => map (fun s => flat c (r, b, s)) (zrange (n_slice c))) (zrange (n_bunch c)))
  == total (fun p => b_weight p * v p) (filter (of_level len c Beam r 0 0) ps).
Proof.
  intros Hok Hlen Hr Ha. rewrite sum_entries_flat. cbn [of_level].
  rewrite <- (sum_family (fun p => b_weight p * v p)
    (fun b p => existsb (fun s => belongs len c r b s p) (zrange (n_slice c))) (zrange (n_bunch c)) ps).
  - apply fold_ext. intros b Hb. apply zrange_in in Hb.
    apply (sum_slices len c v ps a r b Hok Hlen Hr Hb Ha).
  - apply zrange_nodup.
  - intros b b' p Hb Hb' A B. apply zrange_in in Hb, Hb'. apply existsb_exists in A, B.
    destruct A as (s & Hs & A). destruct B as (s' & Hs' & B). apply zrange_in in Hs, Hs'.
    destruct (belongs_unique len c r b s r b' s' p Hok Hlen) as (_ & E & _); try assumption; repeat split; lia.
Qed.

Lemma one_range : zrange 1 = [0%Z].
Proof. reflexivity. Qed.

Lemma sum_one a k : sum_entries a [k] == nth (Z.to_nat k) a 0.
Proof. unfold sum_entries. cbn [fold_right]. lra. Qed.

Lemma get_moment_ok len c v ps level r b s :
  stats_ok c -> (st_mode c = Coasting -> 0 < len) -> level_ok c level -> inside c r b s ->
  exists q, stats_get_moment len c v ps level r b s = Some q
  /\ q == total (fun p => b_weight p * v p) (filter (of_level len c level r b s) ps).
Proof.
  intros Hok Hlen Hlv Hin. destruct (moment_entry len c v ps Hok Hlen) as (a & A & N).
  unfold stats_get_moment. rewrite A. pose proof Hin as (Hr & Hb & Hs).
  pose proof (sum_slices len c v ps a r b Hok Hlen Hr Hb N) as SS.
  pose proof (sum_record len c v ps a r Hok Hlen Hr N) as SR. specialize (N r b s Hin).
  cbn [of_level] in SS, SR. unfold stats_cells, level_ok in *.
  unfold inside, n_bunch, n_slice in *. cbn [flat] in *. unfold n_bunch, n_slice in *.
  destruct (st_mode c) eqn:M; destruct level; try contradiction; cbn [of_level];
    (eexists; split; [reflexivity|]).
  - rewrite <- SR. rewrite !one_range. cbn [flat_map map app].
    rewrite !sum_one. replace ((r * 1 + 0) * 1 + 0)%Z with r by lia. reflexivity.
  - rewrite <- SR. rewrite sum_entries_flat, sum_entries_map. apply fold_ext. intros x _. rewrite one_range. cbn [map].
    rewrite sum_one. replace ((r * st_nsel c + x) * 1 + 0)%Z with (r * st_nsel c + x)%Z by lia. reflexivity.
  - rewrite sum_one, <- SS, one_range. cbn [map]. rewrite sum_one.
    replace ((r * st_nsel c + b) * 1 + 0)%Z with (r * st_nsel c + b)%Z by lia. reflexivity.
  - rewrite <- SR. reflexivity.
  - rewrite <- SS. reflexivity.
  - rewrite sum_one.  exact N.
  - rewrite <- SR. reflexivity.
  - rewrite sum_one.  exact N.
Qed.

Lemma np_divide_pos a w : 0 < w -> np_divide a w = a / w.
Proof. intro H. unfold np_divide. destruct (Qle_bool w 0) eqn:E; [apply Qle_bool_iff in E; lra|reflexivity]. Qed.

Lemma total_w1 (l : list bpart) : total (fun p => b_weight p * 1) l == total b_weight l.
Proof. apply total_ext. intros; lra. Qed.

Lemma stats_mean_ok len c i ps level r b s :
  stats_ok c -> (st_mode c = Coasting -> 0 < len) -> level_ok c level -> inside c r b s ->
  0 < total b_weight (filter (of_level len c level r b s) ps) ->
  exists m, stats_mean len c i ps level r b s = Some m
  /\ m == total (fun p => b_weight p * stats_coord len c p i) (filter (of_level len c level r b s) ps)
          / total b_weight (filter (of_level len c level r b s) ps).
Proof.
  intros Hok Hlen Hlv Hin Hw. unfold stats_mean.
  destruct (get_moment_ok len c (fun p => stats_coord len c p i) ps level r b s Hok Hlen Hlv Hin) as (a & A & Ha).
  destruct (get_moment_ok len c (fun _ => 1) ps level r b s Hok Hlen Hlv Hin) as (w & W & Hw1).
  rewrite A, W. eexists. split; [reflexivity|]. rewrite total_w1 in Hw1. rewrite np_divide_pos by lra. rewrite Ha, Hw1. reflexivity.
Qed.

Lemma stats_cov_ok len c i j ps level r b s :
  stats_ok c -> (st_mode c = Coasting -> 0 < len) -> level_ok c level -> inside c r b s ->
  0 < total b_weight (filter (of_level len c level r b s) ps) ->
  exists mi mj v, stats_mean len c i ps level r b s = Some mi /\ stats_mean len c j ps level r b s = Some mj
  /\ stats_cov len c i j ps level r b s = Some v
  /\ v == total (fun p => b_weight p * ((stats_coord len c p i - mi) * (stats_coord len c p j - mj)))
            (filter (of_level len c level r b s) ps)
          / total b_weight (filter (of_level len c level r b s) ps).
Proof.
  intros Hok Hlen Hlv Hin Hw.
  destruct (stats_mean_ok len c i ps level r b s Hok Hlen Hlv Hin Hw) as (mi & Mi & Ei).
  destruct (stats_mean_ok len c j ps level r b s Hok Hlen Hlv Hin Hw) as (mj & Mj & Ej).
  exists mi, mj. unfold stats_cov. rewrite Mi, Mj.
  destruct (get_moment_ok len c (fun p => stats_coord len c p i * stats_coord len c p j) ps level r b s Hok Hlen Hlv Hin) as (a & A & Ha).
  destruct (get_moment_ok len c (fun _ => 1) ps level r b s Hok Hlen Hlv Hin) as (w & W & Hw1).
  rewrite A, W. eexists. split; [reflexivity|]. split; [reflexivity|]. split; [reflexivity|].
  rewrite total_w1 in Hw1. rewrite np_divide_pos by lra. rewrite Ha, Hw1.
  symmetry. apply second_moment; [lra|assumption|assumption].
Qed.

(** * slice_index *)
Lemma slice_index_kernel len c p r b s :
  stats_ok c -> st_mode c = Slice -> inside c r b s -> belongs len c r b s p = true ->
  slice_index c (b_zeta p) (Some (nth (Z.to_nat b) (st_sel c) 0%Z)) len = Some s.
Proof.
  intros Hok M (Hr & Hb & Hs) B. unfold belongs in B. rewrite M in B. rewrite !andb_true_iff in B. destruct B as [_ [_ B]].
  unfold n_bunch, n_slice in *. rewrite M in *. unfold slice_index. rewrite M.
  set (k := nth (Z.to_nat b) (st_sel c) 0%Z) in *.
  assert (I : existsb (Z.eqb k) (st_sel c) = true).
  { apply existsb_exists. exists k. split; [apply nth_In; rewrite (so_nsel c Hok) in Hb; lia|apply Z.eqb_refl]. }
  rewrite I. unfold in_slice in B. fold k in B. rewrite andb_true_iff, Qle_bool_iff, qlt_bool in B.
  assert (E : Qfloor ((b_zeta p + inject_Z k * st_sp c - st_zmin c) / st_dz c) = s).
  { apply floor_div; [apply (so_dz c Hok M)|]. destruct B. split; lra. }
  cbv zeta. rewrite E, (proj2 (Z.ltb_ge _ _)), (proj2 (Z.leb_gt _ _)) by lia. reflexivity.
Qed.

Lemma slice_index_accepted len c p r b s :
  stats_ok c -> st_mode c = Slice -> (0 <= r < st_nrec c)%Z -> (0 <= b < n_bunch c)%Z ->
  stats_id c (b_id p) = true -> b_turn p = rec_turn c r ->
  st_sp c == 0 \/ inject_Z (st_nsl c) * st_dz c <= st_sp c ->
  slice_index c (b_zeta p) (Some (nth (Z.to_nat b) (st_sel c) 0%Z)) len = Some s ->
  inside c r b s /\ belongs len c r b s p = true.
Proof.
  intros Hok M Hr Hb Hid Ht Hsp H. unfold slice_index in H. rewrite M in H.
  set (k := nth (Z.to_nat b) (st_sel c) 0%Z) in *.
  destruct (existsb (Z.eqb k) (st_sel c)); [|discriminate]. cbv zeta in H.
  destruct (_ || _)%bool eqn:E; [discriminate|]. apply some_inj in H. rename H into F. apply orb_false_iff in E.
  rewrite F in E. destruct E as [E1 E2]. apply Z.ltb_ge in E1. apply Z.leb_gt in E2.
  split; [unfold inside, n_slice; rewrite M; repeat split; lia|].
  pose proof (so_dz c Hok M) as Hdz. apply floor_div in F; [|exact Hdz]. destruct F as [F1 F2].
  unfold belongs. rewrite Hid, M, Ht, Z.eqb_refl. cbn [andb].
  assert (LO : 0 <= inject_Z s * st_dz c).
  { apply Qmult_le_0_compat; [|lra]. change 0 with (inject_Z 0). rewrite <- Zle_Qle. lia. }
  assert (HI : inject_Z (s + 1) * st_dz c <= inject_Z (st_nsl c) * st_dz c).
  { apply Qmult_le_compat_r; [|lra]. rewrite <- Zle_Qle. lia. }
  rewrite andb_true_iff. split.
  - unfold in_bucket. fold k. destruct (Qeq_bool (st_sp c) 0) eqn:Z0; [reflexivity|].
    apply Qeq_bool_neq in Z0. destruct Hsp as [Hsp|Hsp]; [contradiction|].
    rewrite andb_true_iff, Qle_bool_iff, qlt_bool. split; lra.
  - unfold in_slice. fold k. rewrite andb_true_iff, Qle_bool_iff, qlt_bool. split; lra.
Qed.

Lemma floor_shift q t : Qfloor (inject_Z t + q) = (t + Qfloor q)%Z.
Proof.
  apply floor_iff. pose proof (Qfloor_le q) as A. pose proof (Qlt_floor q) as B. rewrite !inject_Z_plus in *. split; lra.
Qed.

Lemma floor_eq q q' : q == q' -> Qfloor q = Qfloor q'.
Proof. intro E. rewrite E. reflexivity. Qed.

Lemma slice_index_coasting len c p :
  stats_ok c -> st_mode c = Coasting -> 0 < len ->
  exists s, (0 <= s < st_nsl c)%Z /\ slice_index c (b_zeta p) None len = Some s
  /\ exists turn z, stats_where len c p = Some (turn, z, s).
Proof.
  intros Hok M Hlen. pose proof (so_nsl c Hok (or_intror M)) as Hn.
  unfold slice_index, stats_where. rewrite M.
  assert (Q0 : Qeq_bool len 0 = false).
  { destruct (Qeq_bool len 0) eqn:E; [apply Qeq_bool_iff in E; lra|reflexivity]. }
  assert (Ql : Qle_bool len 0 = false) by (apply qle_bool_false; exact Hlen). rewrite Q0, Ql. cbv zeta.
  set (f := - b_zeta p / len). set (u := inject_Z (b_turn p) - b_zeta p / len).
  pose proof (coasting_in_range f (st_nsl c) Hn) as Rf.
  set (s := Qfloor ((f - inject_Z (Qfloor (f + (1 # 2))) + (1 # 2)) * inject_Z (st_nsl c))) in *.
  exists s. split; [exact Rf|]. split.
  - rewrite (proj2 (Z.eqb_neq _ _)) by lia. reflexivity.
  - assert (Eu : u == inject_Z (b_turn p) + f) by (unfold u, f, Qdiv; ring).
    assert (Fu : Qfloor (u + (1 # 2)) = (b_turn p + Qfloor (f + (1 # 2)))%Z).
    { rewrite <- floor_shift. apply floor_eq. rewrite Eu. ring. }
    rewrite Fu.
    assert (Es : Qfloor ((u - inject_Z (b_turn p + Qfloor (f + (1 # 2))) + (1 # 2)) * inject_Z (st_nsl c)) = s).
    { unfold s. apply floor_eq. rewrite Eu, inject_Z_plus. ring. }
    rewrite Es, (proj2 (Z.ltb_ge _ _)), (proj2 (Z.leb_gt _ _)) by lia. cbn [orb]. eauto.
Qed.

(** In coasting mode every passage near a recorded turn is recorded: folded zeta. *)
Lemma folded_zeta len c p turn z s :
  st_mode c = Coasting -> 0 < len -> stats_where len c p = Some (turn, z, s) ->
  z == b_zeta p - inject_Z (b_turn p - turn) * len /\ - len * (1 # 2) < z /\ z <= len * (1 # 2).
Proof.
  intros M Hlen. unfold stats_where. rewrite M. assert (Ql : Qle_bool len 0 = false) by (apply qle_bool_false; exact Hlen). rewrite Ql. cbv zeta.
  set (u := inject_Z (b_turn p) - b_zeta p / len). destruct (_ || _)%bool; [discriminate|]. intro EQ. apply triple_inj in EQ. destruct EQ as (<- & <- & _).
  set (e := Qfloor (u + (1 # 2))). pose proof (Qfloor_le (u + (1 # 2))) as A. pose proof (Qlt_floor (u + (1 # 2))) as B. fold e in A, B.
  rewrite inject_Z_plus in B. change (inject_Z 1) with 1 in B.
  split.
  - unfold u. assert (I : inject_Z (b_turn p - e) == inject_Z (b_turn p) - inject_Z e).
    { unfold Z.sub. rewrite inject_Z_plus, inject_Z_opp. reflexivity. }
    rewrite I. field. lra.
  - assert (X : (u - inject_Z e) * len < (1 # 2) * len) by (apply Qmult_lt_compat_r; lra).
    assert (Y : (- (1 # 2)) * len <= (u - inject_Z e) * len) by (apply Qmult_le_compat_r; lra).
    split; lra.
Qed.

Lemma cell_iff len c p k :
  stats_ok c -> (st_mode c = Coasting -> 0 < len) ->
  stats_idx len c p = Some k <->
  exists r b s, inside c r b s /\ belongs len c r b s p = true /\ k = ((r * n_bunch c + b) * n_slice c + s)%Z.
Proof.
  intros Hok Hlen. rewrite (idx_pos len c p Hok). split.
  - destruct (pos len c p) as [[[r b] s]|] eqn:E; [|discriminate]. intros [= <-].
    apply pos_iff in E; try assumption. exists r, b, s. destruct E. auto.
  - intros (r & b & s & I & B & ->). rewrite (proj2 (pos_iff len c p r b s Hok Hlen) (conj I B)). reflexivity.
Qed.

Lemma moments_order len c v ps ps' level r b s :
  stats_ok c -> (st_mode c = Coasting -> 0 < len) -> level_ok c level -> inside c r b s -> Permutation ps ps' ->
  exists q q', stats_get_moment len c v ps level r b s = Some q /\ stats_get_moment len c v ps' level r b s = Some q' /\ q == q'.
Proof.
  intros Hok Hlen Hlv Hin Hp.
  destruct (get_moment_ok len c v ps level r b s Hok Hlen Hlv Hin) as (q & E & V).
  destruct (get_moment_ok len c v ps' level r b s Hok Hlen Hlv Hin) as (q' & E' & V').
  exists q, q'. split; [exact E|]. split; [exact E'|]. rewrite V, V'. apply total_perm, filter_perm, Hp.
Qed.
