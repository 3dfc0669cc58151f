(** Lemmas about the monitors that accumulate sums. *)
From Coq Require Import ZArith QArith Qround Qfield Lqa List Bool Lia Permutation.
From Verif.Model Require Import BeamMonitors.
From Verif.Spec Require Import BeamMonitors.
Import ListNotations.
Local Open Scope Q_scope.

(** * Rounding *)
Lemma floor_iff q k : Qfloor q = k <-> inject_Z k <= q /\ q < inject_Z (k + 1).
Proof.
  split.
  - intros <-. split; [apply Qfloor_le|apply Qlt_floor].
  - intros [A B]. pose proof (Qfloor_le q) as C. pose proof (Qlt_floor q) as D.
    assert (inject_Z k < inject_Z (Qfloor q + 1)) as E by lra.
    assert (inject_Z (Qfloor q) < inject_Z (k + 1)) as F by lra.
    rewrite <- Zlt_Qlt in E, F. lia.
Qed.

Lemma qlt_bool a b : Qlt_bool a b = true <-> a < b.
Proof.
  unfold Qlt_bool. rewrite negb_true_iff. split; intro H.
  - apply Qnot_le_lt. intro C. apply Qle_bool_iff in C. congruence.
  - destruct (Qle_bool b a) eqn:E; [|reflexivity]. apply Qle_bool_iff in E. lra.
Qed.

Lemma qle_bool_false a b : Qle_bool a b = false <-> b < a.
Proof.
  split; intro H.
  - apply Qnot_le_lt. intro C. apply Qle_bool_iff in C. congruence.
  - destruct (Qle_bool a b) eqn:E; [|reflexivity]. apply Qle_bool_iff in E. lra.
Qed.

Lemma c_round_iff q k : (0 <= k)%Z -> c_round q = k <-> in_sample q k = true.
Proof.
  intro Hk. unfold c_round, in_sample. rewrite andb_true_iff, qlt_bool.
  assert (K : 0 <= inject_Z k) by (change 0 with (inject_Z 0); rewrite <- Zle_Qle; exact Hk).
  destruct (Qle_bool 0 q) eqn:E.
  - apply Qle_bool_iff in E. rewrite floor_iff, inject_Z_plus. change (inject_Z 1) with 1.
    destruct (k =? 0)%Z eqn:Z0.
    + apply Z.eqb_eq in Z0. subst k. change (inject_Z 0) with 0 in *. rewrite qlt_bool. split; intros [A B]; split; lra.
    + rewrite Qle_bool_iff. split; intros [A B]; split; lra.
  - apply qle_bool_false in E. split.
    + intro H. assert (F : Qfloor (- q + (1 # 2)) = (- k)%Z) by lia. apply floor_iff in F.
      rewrite inject_Z_plus, inject_Z_opp in F. change (inject_Z 1) with 1 in F. destruct F as [F G].
      assert (k = 0)%Z.
      { destruct (Z.eq_dec k 0); [assumption|]. exfalso.
        assert (1 <= inject_Z k) by (change 1 with (inject_Z 1); rewrite <- Zle_Qle; lia). lra. }
      clear H. subst k. change (inject_Z 0) with 0 in *. change (0 =? 0)%Z with true. cbv iota. split; [apply qlt_bool|]; lra.
    + intros [A B]. destruct (k =? 0)%Z eqn:Z0.
      * apply Z.eqb_eq in Z0. subst k. apply qlt_bool in A.
        assert (F : Qfloor (- q + (1 # 2)) = 0%Z); [|rewrite F; reflexivity].
        apply floor_iff. change (inject_Z 0) with 0 in *. change (inject_Z (0 + 1)) with 1. split; lra.
      * apply Qle_bool_iff in A. exfalso. apply Z.eqb_neq in Z0.
        assert (1 <= inject_Z k) by (change 1 with (inject_Z 1); rewrite <- Zle_Qle; lia). lra.
Qed.

Lemma py_round_bounds q : q - (1 # 2) <= inject_Z (py_round q) /\ inject_Z (py_round q) <= q + (1 # 2).
Proof.
  unfold py_round. pose proof (Qfloor_le q) as A. pose proof (Qlt_floor q) as B.
  rewrite inject_Z_plus in B. change (inject_Z 1) with 1 in B.
  destruct (Qle_bool (q - inject_Z (Qfloor q)) (1 # 2)) eqn:E.
  - apply Qle_bool_iff in E. destruct (Qeq_bool (q - inject_Z (Qfloor q)) (1 # 2)) eqn:F.
    + apply Qeq_bool_iff in F. destruct (Z.even (Qfloor q)).
      * split; lra.
      * rewrite inject_Z_plus. change (inject_Z 1) with 1. split; lra.
    + split; lra.
  - apply qle_bool_false in E. rewrite inject_Z_plus. change (inject_Z 1) with 1. split; lra.
Qed.

Lemma floor_div z m d i :
  0 < d -> Qfloor ((z - m) / d) = i <-> m + inject_Z i * d <= z /\ z < m + inject_Z (i + 1) * d.
Proof.
  intro Hd. rewrite floor_iff. split; intros [A B]; split.
  - assert (inject_Z i * d <= (z - m) / d * d) by (apply Qmult_le_compat_r; lra).
    assert ((z - m) / d * d == z - m) by (field; lra). lra.
  - assert ((z - m) / d * d < inject_Z (i + 1) * d) by (apply Qmult_lt_compat_r; lra).
    assert ((z - m) / d * d == z - m) by (field; lra). lra.
  - apply Qle_shift_div_l; lra.
  - apply Qlt_shift_div_r; lra.
Qed.

(** * Accumulation *)
Section Acc.
Context {P : Type}.
Variables (idx : P -> option Z) (val : P -> Q).
Definition hit (k : Z) (p : P) : bool := match idx p with Some i => (i =? k)%Z | None => false end.

Lemma bump_spec b k v :
  (0 <= k < Z.of_nat (length b))%Z ->
  exists b', bump b k v = Some b' /\ length b' = length b
  /\ forall j, nth j b' 0 == nth j b 0 + if Nat.eqb j (Z.to_nat k) then v else 0.
Proof.
  intro H. unfold bump. rewrite (proj2 (Z.leb_le _ _)), (proj2 (Z.ltb_lt _ _)) by lia. cbn [andb].
  set (i := Z.to_nat k). assert (Hi : (i < length b)%nat) by (subst i; lia).
  eexists. split; [reflexivity|]. clearbody i. clear H k. split.
  - rewrite !app_length, firstn_length, skipn_length. cbn [length]. lia.
  - revert i Hi. induction b as [|x b IH]; intros i Hi j; [cbn in Hi; lia|].
    destruct i as [|i].
    + destruct j as [|j]; cbn; lra.
    + destruct j as [|j].
      * cbn. lra.
      * cbn [firstn app nth skipn Nat.eqb]. apply (IH i ltac:(cbn in Hi; lia) j).
Qed.

Lemma accumulate_spec ps : forall b,
  (forall p k, In p ps -> idx p = Some k -> 0 <= k < Z.of_nat (length b))%Z ->
  exists b', accumulate idx val b ps = Some b' /\ length b' = length b
  /\ forall j, nth j b' 0 == nth j b 0 + total val (filter (hit (Z.of_nat j)) ps).
Proof.
  induction ps as [|p ps IH]; intros b H.
  - exists b. split; [reflexivity|]. split; [reflexivity|]. intro j. cbn. lra.
  - cbn [accumulate filter]. destruct (idx p) as [k|] eqn:E.
    + pose proof (H p k (or_introl eq_refl) E) as Hk.
      destruct (bump_spec b k (val p) Hk) as (b1 & Hb & L & N). rewrite Hb.
      destruct (IH b1) as (b2 & Ha & L2 & N2).
      { intros q i Hq Hi. rewrite L. apply (H q i); [right; exact Hq|exact Hi]. }
      exists b2. split; [exact Ha|]. split; [congruence|]. intro j. rewrite (N2 j), (N j).
      unfold hit at 2. rewrite E. destruct (k =? Z.of_nat j)%Z eqn:K.
      * apply Z.eqb_eq in K. subst k. rewrite Nat2Z.id, Nat.eqb_refl. cbn [total fold_right]. unfold total. lra.
      * apply Z.eqb_neq in K. destruct (Nat.eqb j (Z.to_nat k)) eqn:J; [apply Nat.eqb_eq in J; lia|]. lra.
    + destruct (IH b) as (b2 & Ha & L2 & N2). { intros q i Hq. apply H. right. exact Hq. }
      exists b2. split; [exact Ha|]. split; [exact L2|]. intro j. rewrite (N2 j). unfold hit at 2. rewrite E. lra.
Qed.

Lemma zeros_nth n j : nth j (zeros n) 0 = 0.
Proof. unfold zeros. generalize (Z.to_nat n). intro m. revert j. induction m; destruct j; cbn; auto. Qed.

Lemma accumulate_zeros n ps :
  (forall p k, In p ps -> idx p = Some k -> 0 <= k < n)%Z ->
  exists b', accumulate idx val (zeros n) ps = Some b' /\ length b' = Z.to_nat n
  /\ forall j, nth j b' 0 == total val (filter (hit (Z.of_nat j)) ps).
Proof.
  intro H. destruct (accumulate_spec ps (zeros n)) as (b & A & L & N).
  - intros p k Hp Hk. unfold zeros. rewrite repeat_length. specialize (H p k Hp Hk). lia.
  - exists b. split; [exact A|]. split; [rewrite L; apply repeat_length|]. intro j. rewrite N, zeros_nth. lra.
Qed.

Lemma total_ext (f g : P -> Q) l : (forall p, In p l -> f p == g p) -> total f l == total g l.
Proof.
  induction l as [|p l IH]; intro H; [reflexivity|]. cbn. rewrite (H p) by (left; reflexivity).
  fold (total f l) (total g l). rewrite IH by (intros q Hq; apply H; right; exact Hq). reflexivity.
Qed.

Lemma total_perm (f : P -> Q) l l' : Permutation l l' -> total f l == total f l'.
Proof. induction 1; cbn in *; unfold total in *; lra. Qed.

Lemma filter_perm (f : P -> bool) l l' : Permutation l l' -> Permutation (filter f l) (filter f l').
Proof.
  induction 1; cbn [filter].
  - constructor.
  - destruct (f x); [apply perm_skip|]; assumption.
  - destruct (f x), (f y); try apply Permutation_refl. apply perm_swap.
  - eapply Permutation_trans; eassumption.
Qed.

Lemma total_app (f : P -> Q) l l' : total f (l ++ l') == total f l + total f l'.
Proof. induction l; cbn in *; unfold total in *; lra. Qed.
End Acc.

Lemma filter_ext_bool {A} (f g : A -> bool) l : (forall x, In x l -> f x = g x) -> filter f l = filter g l.
Proof.
  induction l as [|x l IH]; intro H; [reflexivity|]. cbn. rewrite (H x) by (left; reflexivity).
  rewrite IH by (intros y Hy; apply H; right; exact Hy). reflexivity.
Qed.

(** * Position and size monitors *)
Lemma id_wanted_ok c id : ids_ok c -> bpm_id_ok c id = id_wanted (bp_id0 c) (bp_num c) id.
Proof.
  unfold ids_ok, bpm_id_ok, id_wanted. intros [[A B]|[A B]].
  - rewrite (proj2 (Z.ltb_ge (bp_id0 c + bp_num c) 0)), (proj2 (Z.ltb_ge (bp_num c) 0)) by lia. reflexivity.
  - rewrite (proj2 (Z.ltb_lt (bp_id0 c + bp_num c) 0)), (proj2 (Z.ltb_lt (bp_num c) 0)) by lia. reflexivity.
Qed.

Lemma slot_hit cl c k p :
  ids_ok c -> (0 <= k < bp_size c)%Z -> hit (bpm_idx cl c) k p = in_slot cl c k p.
Proof.
  intros Hi Hk. unfold hit, bpm_idx, in_slot. rewrite id_wanted_ok by assumption.
  destruct (id_wanted _ _ _); [|reflexivity]. cbn [andb].
  pose proof (c_round_iff (arrival cl c p) k ltac:(lia)) as R.
  fold (bpm_slot cl c p) in *. change (c_round (arrival cl c p)) with (bpm_slot cl c p) in R.
  destruct (in_sample (arrival cl c p) k).
  - rewrite (proj2 R eq_refl). rewrite (proj2 (Z.leb_le _ _)), (proj2 (Z.ltb_lt _ _)) by lia. apply Z.eqb_refl.
  - destruct ((0 <=? bpm_slot cl c p)%Z && (bpm_slot cl c p <? bp_size c)%Z); [|reflexivity].
    apply Z.eqb_neq. intro C. apply R in C. discriminate.
Qed.

Lemma idx_bounds cl c p k : bpm_idx cl c p = Some k -> (0 <= k < bp_size c)%Z.
Proof.
  unfold bpm_idx. destruct (bpm_id_ok c (b_id p)); [|discriminate].
  destruct (_ && _) eqn:E; [|discriminate]. intros [= <-]. apply andb_true_iff in E.
  destruct E as [A B]. apply Z.leb_le in A. apply Z.ltb_lt in B. lia.
Qed.

Lemma idx_iff cl c p k :
  ids_ok c -> bpm_idx cl c p = Some k <-> (0 <= k < bp_size c)%Z /\ in_slot cl c k p = true.
Proof.
  intro Hi. split.
  - intro H. pose proof (idx_bounds _ _ _ _ H) as B. split; [exact B|].
    rewrite <- slot_hit by assumption. unfold hit. rewrite H. apply Z.eqb_refl.
  - intros [B H]. rewrite <- slot_hit in H by assumption. unfold hit in H.
    destruct (bpm_idx cl c p); [|discriminate]. apply Z.eqb_eq in H. congruence.
Qed.

Lemma array_entry cl c f ps k :
  ids_ok c -> (0 <= k < bp_size c)%Z ->
  exists v, entry (bpm_array cl c f ps) k = Some v /\ v == total f (filter (in_slot cl c k) ps).
Proof.
  intros Hi Hk. unfold bpm_array.
  destruct (accumulate_zeros (bpm_idx cl c) f (bp_size c) ps) as (b & A & L & N).
  { intros p i _. apply idx_bounds. }
  rewrite A. unfold entry. rewrite (proj2 (Z.leb_le _ _)) by lia.
  destruct (nth_error b (Z.to_nat k)) as [v|] eqn:E.
  - exists v. split; [reflexivity|]. apply (nth_error_nth _ _ 0) in E. rewrite <- E, N.
    rewrite Z2Nat.id by lia. rewrite (filter_ext_bool _ (in_slot cl c k)); [reflexivity|].
    intros p _. apply slot_hit; assumption.
  - apply nth_error_None in E. lia.
Qed.

Lemma total_one {P} (l : list P) : total (fun _ => 1) l == inject_Z (Z.of_nat (length l)).
Proof.
  induction l as [|p l IH]; [reflexivity|]. cbn [total fold_right]. fold (total (fun _ : P => 1) l).
  rewrite IH. cbn [length]. rewrite Nat2Z.inj_succ, <- Z.add_1_r, inject_Z_plus. change (inject_Z 1) with 1. lra.
Qed.

Lemma length_pos {P} (l : list P) : l <> [] -> 0 < inject_Z (Z.of_nat (length l)).
Proof. intro H. change 0 with (inject_Z 0). rewrite <- Zlt_Qlt. destruct l; [congruence|cbn [length]; lia]. Qed.

Lemma mean_ok cl c f ps k :
  ids_ok c -> (0 <= k < bp_size c)%Z -> filter (in_slot cl c k) ps <> [] ->
  exists m, bpm_mean cl c f ps k = Some m
  /\ m == total f (filter (in_slot cl c k) ps) / inject_Z (Z.of_nat (length (filter (in_slot cl c k) ps))).
Proof.
  intros Hi Hk Hn. destruct (array_entry cl c f ps k Hi Hk) as (v & Ev & V).
  destruct (array_entry cl c (fun _ => 1) ps k Hi Hk) as (n & En & N).
  unfold bpm_mean. rewrite Ev, En. unfold quot. rewrite total_one in N.
  pose proof (length_pos _ Hn) as Hp.
  destruct (Qeq_bool n 0) eqn:E; [apply Qeq_bool_iff in E; lra|].
  eexists. split; [reflexivity|]. rewrite V, N. reflexivity.
Qed.

Lemma mean_nan cl c f ps k :
  ids_ok c -> (0 <= k < bp_size c)%Z -> filter (in_slot cl c k) ps = [] -> bpm_mean cl c f ps k = None.
Proof.
  intros Hi Hk Hn. destruct (array_entry cl c f ps k Hi Hk) as (v & Ev & V).
  destruct (array_entry cl c (fun _ => 1) ps k Hi Hk) as (n & En & N).
  unfold bpm_mean. rewrite Ev, En. unfold quot. rewrite Hn in N. cbn in N.
  apply Qeq_bool_iff in N. rewrite N. reflexivity.
Qed.

Lemma total_plus {P} (f g : P -> Q) l : total (fun p => f p + g p) l == total f l + total g l.
Proof. induction l as [|p l IH]; cbn in *; unfold total in *; [reflexivity|]. rewrite IH. lra. Qed.
Lemma total_scale {P} (a : Q) (f : P -> Q) l : total (fun p => a * f p) l == a * total f l.
Proof. induction l as [|p l IH]; cbn in *; unfold total in *; [|rewrite IH]; lra. Qed.

(** Variance from the moments. *)
Lemma second_moment {P} (w f g : P -> Q) l mf mg :
  ~ total w l == 0 ->
  mf == total (fun p => w p * f p) l / total w l -> mg == total (fun p => w p * g p) l / total w l ->
  total (fun p => w p * ((f p - mf) * (g p - mg))) l / total w l
  == total (fun p => w p * (f p * g p)) l / total w l - mf * mg.
Proof.
  intros Hw Hf Hg.
  assert (E : total (fun p => w p * ((f p - mf) * (g p - mg))) l
    == total (fun p => w p * (f p * g p)) l - mg * total (fun p => w p * f p) l
       - mf * total (fun p => w p * g p) l + mf * mg * total w l).
  { clear. induction l as [|p l IH]; cbn in *; unfold total in *; [ring|]. rewrite IH. ring. }
  rewrite E.
  assert (F : total (fun p => w p * f p) l == mf * total w l) by (rewrite Hf; field; exact Hw).
  assert (G : total (fun p => w p * g p) l == mg * total w l) by (rewrite Hg; field; exact Hw).
  rewrite F, G. field. exact Hw.
Qed.

Lemma var_ok cl c f ps k :
  ids_ok c -> (0 <= k < bp_size c)%Z -> filter (in_slot cl c k) ps <> [] ->
  exists m v, bpm_mean cl c f ps k = Some m /\ bsm_var cl c f ps k = Some v
  /\ v == total (fun p => (f p - m) * (f p - m)) (filter (in_slot cl c k) ps)
          / inject_Z (Z.of_nat (length (filter (in_slot cl c k) ps))).
Proof.
  intros Hi Hk Hn. destruct (mean_ok cl c f ps k Hi Hk Hn) as (m & Em & M).
  destruct (mean_ok cl c (fun p => f p * f p) ps k Hi Hk Hn) as (m2 & Em2 & M2).
  exists m. unfold bsm_var. rewrite Em, Em2. eexists. split; [reflexivity|]. split; [reflexivity|].
  set (l := filter (in_slot cl c k) ps) in *. pose proof (length_pos l Hn) as Hp.
  pose proof (second_moment (fun _ => 1) f f l m m) as S. cbv beta in S. rewrite total_one in S.
  assert (U : forall h : bpart -> Q, total (fun p => 1 * h p) l == total h l).
  { intro h. apply total_ext. intros; lra. }
  rewrite !U in S. rewrite M2. change (m ^ 2) with (m * m). rewrite S; try assumption; [reflexivity|lra].
Qed.

Lemma order_ok cl c f ps ps' k :
  ids_ok c -> (0 <= k < bp_size c)%Z -> Permutation ps ps' ->
  exists v v', entry (bpm_array cl c f ps) k = Some v /\ entry (bpm_array cl c f ps') k = Some v' /\ v == v'.
Proof.
  intros Hi Hk Hp. destruct (array_entry cl c f ps k Hi Hk) as (v & E & V).
  destruct (array_entry cl c f ps' k Hi Hk) as (v' & E' & V').
  exists v, v'. split; [exact E|]. split; [exact E'|]. rewrite V, V'. apply total_perm, filter_perm, Hp.
Qed.

(** A particle on the reference is always sampled when there is at least one sample a turn. *)
Lemma reference_ok cl start stop frev fs c p :
  0 < frev -> frev <= fs -> bpm_init None None None start stop frev fs = Some c ->
  b_zeta p == 0 -> (start <= b_turn p < stop)%Z -> exists k, bpm_idx cl c p = Some k.
Proof.
  intros Hf Hr Hc Hz Ht. unfold bpm_init in Hc. injection Hc as <-.
  set (c := mkBPM _ _ _ _ _ _ _).
  set (a := arrival cl c p). set (rho := fs / frev).
  assert (Hrho : 1 <= rho) by (apply Qle_shift_div_l; lra).
  assert (Ha : a == rho * inject_Z (b_turn p - start)).
  { unfold a, arrival, c, rho; cbn [bp_fs bp_frev bp_start]. rewrite Hz. unfold Qdiv. ring. }
  assert (Hd : 0 <= inject_Z (b_turn p - start)).
  { change 0 with (inject_Z 0). rewrite <- Zle_Qle. lia. }
  assert (Hsz : py_round (inject_Z (stop - start) * fs / frev) = bp_size c) by reflexivity.
  assert (Hq : inject_Z (stop - start) * fs / frev == rho * inject_Z (stop - start)) by (unfold rho, Qdiv; ring).
  pose proof (py_round_bounds (inject_Z (stop - start) * fs / frev)) as [B _]. rewrite Hsz in B.
  assert (Hst : inject_Z (b_turn p - start) + 1 <= inject_Z (stop - start)).
  { change 1 with (inject_Z 1). rewrite <- inject_Z_plus, <- Zle_Qle. lia. }
  assert (H0 : 0 <= a) by (rewrite Ha; apply Qmult_le_0_compat; lra).
  assert (Hle : a + rho <= rho * inject_Z (stop - start)).
  { rewrite Ha. setoid_replace (rho * inject_Z (b_turn p - start) + rho) with (rho * (inject_Z (b_turn p - start) + 1)) by ring.
    apply Qmult_le_l; lra. }
  exists (c_round a). unfold bpm_idx.
  replace (bpm_id_ok c (b_id p)) with true by reflexivity.
  change (bpm_slot cl c p) with (c_round a).
  unfold c_round. rewrite (proj2 (Qle_bool_iff 0 a) H0).
  pose proof (Qfloor_le (a + (1 # 2))) as F.
  assert (G : (0 <= Qfloor (a + (1 # 2)))%Z).
  { assert (X : inject_Z 0 < inject_Z (Qfloor (a + (1 # 2)) + 1)).
    { pose proof (Qlt_floor (a + (1 # 2))). change (inject_Z 0) with 0. lra. }
    rewrite <- Zlt_Qlt in X. lia. }
  rewrite (proj2 (Z.leb_le _ _) G).
  assert (X : (Qfloor (a + (1 # 2)) < bp_size c)%Z).
  { destruct (Z_lt_le_dec (Qfloor (a + (1 # 2))) (bp_size c)) as [|C]; [assumption|exfalso].
    (* only possible at a half integer, when rho = 1 *)
    assert (inject_Z (bp_size c) <= a + (1 # 2)).
    { apply Qle_trans with (inject_Z (Qfloor (a + (1 # 2)))); [rewrite <- Zle_Qle; exact C|exact F]. }
    assert (R1 : rho == 1) by lra.
    assert (A1 : a == inject_Z (b_turn p - start)) by (rewrite Ha, R1; ring).
    assert (inject_Z (bp_size c) == a + (1 # 2)) by lra.
    assert (E : inject_Z (2 * bp_size c) == inject_Z (2 * (b_turn p - start) + 1)).
    { rewrite inject_Z_plus, !inject_Z_mult. change (inject_Z 2) with 2. change (inject_Z 1) with 1. lra. }
    rewrite inject_Z_injective in E. lia. }
  rewrite (proj2 (Z.ltb_lt _ _) X). reflexivity.
Qed.
