From Coq Require Import ZArith QArith Qabs List Bool String Arith Lia Lqa Permutation.
From Verif.Model Require Import Line LineEdit.
From Verif.Model Require Composer.
From Verif.Spec Require Import Line LineEdit.
From Verif.Spec Require Composer.
From Verif.Proofs Require Import LineBase.
Import ListNotations.
Local Open Scope nat_scope.

(** * Cycling *)
Lemma slice_index_le {A} (l : list A) i : slice_index l i <= List.length l.
Proof. unfold slice_index. lia. Qed.
Lemma slice_index_pos {A} (l : list A) k : k <= List.length l -> slice_index l (Z.of_nat k) = k.
Proof. unfold slice_index. intro H. destruct (Z.ltb_spec (Z.of_nat k) 0); lia. Qed.
Lemma slice_index_neg {A} (l : list A) k : 0 < k <= List.length l -> slice_index l (- Z.of_nat k) = List.length l - k.
Proof. unfold slice_index. intro H. destruct (Z.ltb_spec (- Z.of_nat k) 0); lia. Qed.

Lemma rotate_length {A} i (l : list A) : List.length (rotate i l) = List.length l.
Proof. unfold rotate. rewrite app_length, skipn_length, firstn_length. pose proof (slice_index_le l i). lia. Qed.
Lemma rotate_perm {A} i (l : list A) : Permutation l (rotate i l).
Proof. unfold rotate. rewrite <- (firstn_skipn (slice_index l i) l) at 1. apply Permutation_app_comm. Qed.
Lemma rotate_back {A} (l : list A) k m : k + m = List.length l -> skipn m (skipn k l ++ firstn k l) ++ firstn m (skipn k l ++ firstn k l) = l.
Proof.
  intro H. assert (L1 : List.length (skipn k l) = m) by (rewrite skipn_length; lia).
  rewrite skipn_app, firstn_app, L1, Nat.sub_diag. cbn. rewrite app_nil_r.
  rewrite (skipn_all2 (skipn k l)) by lia. rewrite (firstn_all2 (skipn k l)) by lia. cbn. apply firstn_skipn.
Qed.

Theorem cycle_rotates f names names' : cycle f names = Some names' ->
  exists k, k <= List.length names /\ names' = skipn k names ++ firstn k names
  /\ match f with ByIndex i => (0 <= i <= Z.of_nat (List.length names) -> i = Z.of_nat k)%Z /\ (- Z.of_nat (List.length names) <= i < 0 -> i + Z.of_nat (List.length names) = Z.of_nat k)%Z
                | ByName n => nth_error names k = Some n /\ exists r, names' = n :: r end.
Proof.
  intro H. destruct f as [i|n]; cbn in H.
  - injection H as <-. exists (slice_index names i). split; [apply slice_index_le|]. split; [reflexivity|].
    unfold slice_index. split; intro B; destruct (Z.ltb_spec i 0); lia.
  - destruct (count n names) as [|[|c]]; try discriminate. destruct (index_of n names) as [k|] eqn:E; [|discriminate]. cbn in H.
    assert (X : nth_error names k = Some n /\ exists r, skipn k names = n :: r).
    { clear H. revert k E. induction names as [|m r IH]; intros k E; cbn in E; [discriminate|]. destruct (String.eqb_spec n m).
      - injection E as <-. subst m. split; [reflexivity|exists r; reflexivity].
      - destruct (index_of n r) as [j|]; [|discriminate]. injection E as <-. exact (IH j eq_refl). }
    destruct X as (X & r & Er). assert (L : k < List.length names) by (apply nth_error_Some; congruence).
    injection H as <-. unfold rotate. rewrite slice_index_pos by lia. exists k. split; [lia|]. split; [reflexivity|]. split; [exact X|].
    rewrite Er. eexists. reflexivity.
Qed.

Lemma count_index n names : count n names <> 0 -> exists k, index_of n names = Some k.
Proof.
  unfold count. induction names as [|m r IH]; cbn; [congruence|]. destruct (String.eqb n m); [eauto|]. intro H. destruct (IH H) as (k & ->). cbn. eauto.
Qed.
Theorem cycle_defined f names : cycle f names <> None <-> match f with ByIndex _ => True | ByName n => count_occ string_dec names n = 1 end.
Proof.
  destruct f as [i|n]; cbn; [split; [auto|discriminate]|].
  assert (C : count_occ string_dec names n = count n names).
  { unfold count. induction names as [|m r IH]; cbn; [reflexivity|]. destruct (string_dec m n) as [->|N].
    - rewrite String.eqb_refl. cbn. congruence.
    - destruct (String.eqb_spec n m); [congruence|exact IH]. }
  rewrite C. pose proof (count_index n names) as I. destruct (count n names) as [|[|c]]; split; intro H; try congruence; try lia.
  destruct I as (k & ->); [lia|]. cbn. discriminate.
Qed.

Lemma nth_firstn {A} (l : list A) : forall k m, m < k -> nth_error (firstn k l) m = nth_error l m.
Proof. induction l as [|x l IH]; intros [|k] [|m] H; cbn; try lia; try reflexivity. apply IH. lia. Qed.
Theorem cycle_order f names names' : cycle f names = Some names' -> names <> [] ->
  exists k, forall j, j < List.length names -> nth_error names' j = nth_error names ((j + k) mod List.length names).
Proof.
  intros H Ne. destruct (cycle_rotates _ _ _ H) as (k & Lk & -> & _). exists k. intros j Lj.
  set (n := List.length names) in *. assert (Nn : n <> 0) by lia.
  assert (L1 : List.length (skipn k names) = n - k) by (rewrite skipn_length; reflexivity).
  destruct (Nat.lt_ge_cases j (n - k)) as [A|A].
  - rewrite nth_error_app1 by lia. rewrite Nat.mod_small by lia.
    clear - A. revert k A. unfold n. clear n. induction names as [|x l IH]; intros k A; [destruct k, j; reflexivity|]. destruct k as [|k]; [rewrite Nat.add_0_r; reflexivity|].
    cbn [skipn]. rewrite IH by (cbn in A; lia). replace (j + S k) with (S (j + k)) by lia. reflexivity.
  - rewrite nth_error_app2 by lia. rewrite L1. assert (E : (j + k) mod n = j - (n - k)).
    { replace (j + k) with ((j - (n - k)) + 1 * n) by lia. rewrite Nat.mod_add by exact Nn. apply Nat.mod_small. lia. }
    rewrite E. apply nth_firstn. lia.
Qed.

Theorem cycle_inverse i names : (- Z.of_nat (List.length names) <= i <= Z.of_nat (List.length names))%Z ->
  exists names', cycle (ByIndex i) names = Some names' /\ cycle (ByIndex (- i)) names' = Some names.
Proof.
  intro B. exists (rotate i names). split; [reflexivity|]. cbn. f_equal. unfold rotate at 1.
  assert (K : exists k m, k + m = List.length names /\ rotate i names = skipn k names ++ firstn k names /\
     (slice_index (rotate i names) (- i) = m \/ (m = List.length names /\ slice_index (rotate i names) (- i) = 0))).
  { unfold rotate at 1. exists (slice_index names i), (List.length names - slice_index names i). pose proof (slice_index_le names i).
    split; [lia|]. split; [reflexivity|]. unfold slice_index. rewrite rotate_length. destruct (Z.ltb_spec i 0), (Z.ltb_spec (- i) 0); lia. }
  destruct K as (k & m & Hk & E & [->|(-> & ->)]); rewrite E.
  - apply rotate_back, Hk.
  - assert (k = 0) by lia. subst k. cbn. rewrite !app_nil_r. reflexivity.
Qed.

Lemma nodup_count n names : NoDup names -> In n names -> count_occ string_dec names n = 1.
Proof. intros ND I. apply NoDup_count_occ' with (decA := string_dec); assumption. Qed.

Theorem cycle_inverse_name n h r names' : NoDup (h :: r) -> cycle (ByName n) (h :: r) = Some names' -> cycle (ByName h) names' = Some (h :: r).
Proof.
  intros ND H. destruct (cycle_rotates _ _ _ H) as (k & Lk & -> & Hk & _).
  assert (P : Permutation (h :: r) (skipn k (h :: r) ++ firstn k (h :: r))) by (rewrite <- (firstn_skipn k (h :: r)) at 1; apply Permutation_app_comm).
  assert (ND' : NoDup (skipn k (h :: r) ++ firstn k (h :: r))) by (eapply Permutation_NoDup; eassumption).
  assert (I : In h (skipn k (h :: r) ++ firstn k (h :: r))) by (eapply Permutation_in; [exact P|left; reflexivity]).
  destruct (cycle (ByName h) (skipn k (h :: r) ++ firstn k (h :: r))) as [l|] eqn:E.
  - destruct (cycle_rotates _ _ _ E) as (m & Lm & -> & Hm & _). f_equal.
    assert (Kl : k < List.length (h :: r)) by (apply nth_error_Some; congruence).
    assert (L1 : List.length (skipn k (h :: r)) = List.length (h :: r) - k) by (rewrite skipn_length; reflexivity).
    assert (X : k = 0 /\ m = 0 \/ k + m = List.length (h :: r)).
    { rewrite NoDup_nth_error in ND'. destruct k as [|k]; [left; split; [reflexivity|]|right].
      - cbn [skipn firstn] in *. rewrite app_nil_r in *. apply ND'; [apply nth_error_Some; rewrite Hm; discriminate|rewrite Hm; reflexivity].
      - assert (Y : m = List.length (h :: r) - S k).
        { apply ND'; [apply nth_error_Some; rewrite Hm; discriminate|]. rewrite Hm, nth_error_app2 by lia. rewrite L1, Nat.sub_diag. reflexivity. }
        lia. }
    destruct X as [(-> & ->)|X]; [cbn; rewrite !app_nil_r; reflexivity|]. apply rotate_back, X.
  - exfalso. refine (proj2 (cycle_defined (ByName h) (skipn k (h :: r) ++ firstn k (h :: r))) _ E). apply nodup_count; assumption.
Qed.

(** * Lengths *)
Lemma line_length_perm v a b x : Permutation a b -> line_length v a = Some x -> exists y, line_length v b = Some y /\ (y == x)%Q.
Proof.
  intro P. revert x. induction P as [|n a b P IH|m n a|a b c P IH P' IH']; intros x H; cbn in *.
  - eexists. split; [exact H|reflexivity].
  - destruct (s_length v n) as [l|]; [|discriminate]. destruct (line_length v a) as [y|]; [|discriminate]. injection H as <-.
    destruct (IH y eq_refl) as (z & -> & E). eexists. split; [reflexivity|]. rewrite E. reflexivity.
  - destruct (s_length v m) as [l|], (s_length v n) as [k|], (line_length v a) as [y|]; try discriminate. injection H as <-. eexists. split; [reflexivity|]. ring.
  - destruct (IH x H) as (y & Hy & Ey). destruct (IH' y Hy) as (z & Hz & Ez). exists z. split; [exact Hz|]. rewrite Ez. exact Ey.
Qed.
Lemma line_length_split v a b x : line_length v (a ++ b) = Some x -> exists p q, line_length v a = Some p /\ line_length v b = Some q /\ (x == p + q)%Q.
Proof.
  revert x. induction a as [|n a IH]; intros x H; cbn in *.
  - exists 0%Q, x. split; [reflexivity|]. split; [exact H|ring].
  - destruct (s_length v n) as [l|]; [|discriminate]. destruct (line_length v (a ++ b)) as [y|]; [|discriminate]. injection H as <-.
    destruct (IH y eq_refl) as (p & q & -> & Hq & E). exists (l + p)%Q, q. split; [reflexivity|]. split; [exact Hq|]. rewrite E. ring.
Qed.
Theorem cycle_length v f names names' L : cycle f names = Some names' -> line_length v names = Some L -> exists L', line_length v names' = Some L' /\ (L' == L)%Q.
Proof.
  intros H. apply line_length_perm. destruct (cycle_rotates _ _ _ H) as (k & _ & -> & _). rewrite <- (firstn_skipn k names) at 1. apply Permutation_app_comm.
Qed.

(** * Mirroring *)
Theorem mirror_twice names : mirror (mirror names) = names.
Proof. apply rev_involutive. Qed.
Theorem mirror_length v names L : line_length v names = Some L -> exists L', line_length v (mirror names) = Some L' /\ (L' == L)%Q.
Proof. apply line_length_perm, Permutation_rev. Qed.
Lemma mirror_firstn {A} (l : list A) k : firstn k (rev l) = rev (skipn (List.length l - k) l).
Proof. rewrite <- (rev_involutive (firstn k (rev l))), firstn_rev, rev_involutive. reflexivity. Qed.

Theorem mirror_spans v names L i a b : line_length v names = Some L -> spans v names i a b ->
  spans v (mirror names) (List.length names - S i) (L - b) (L - a) /\ nth_error (mirror names) (List.length names - S i) = nth_error names i.
Proof.
  intros HL (x & y & Hx & Hy & Li & Ex & Ey). split.
  - assert (G : forall k z, k <= List.length names -> line_length v (firstn k names) = Some z ->
      exists w, line_length v (firstn (List.length names - k) (rev names)) = Some w /\ (w == L - z)%Q).
    { intros k z Lk Hz. rewrite mirror_firstn. replace (List.length names - (List.length names - k)) with k by lia.
      rewrite <- (firstn_skipn k names) in HL. destruct (line_length_split _ _ _ _ HL) as (p & q & Hp & Hq & E). rewrite Hz in Hp. injection Hp as <-.
      destruct (line_length_perm v _ _ _ (Permutation_rev (skipn k names)) Hq) as (w & Hw & Ew). exists w. split; [exact Hw|]. rewrite Ew, E. ring. }
    destruct (G (S i) y) as (w1 & W1 & E1); [lia|exact Hy|]. destruct (G i x) as (w2 & W2 & E2); [lia|exact Hx|].
    exists w1, w2. unfold mirror. split; [exact W1|]. split; [replace (S (List.length names - S i)) with (List.length names - i) by lia; exact W2|].
    rewrite rev_length. split; [lia|]. rewrite E1, E2, Ex, Ey. split; reflexivity.
  - unfold mirror. destruct (nth_error names i) as [n|] eqn:E; [|apply nth_error_None in E; lia].
    destruct (nth_error_split _ _ E) as (p & q & -> & <-). rewrite rev_app_distr. cbn [rev]. rewrite <- app_assoc. rewrite app_length. cbn [List.length].
    replace (List.length p + S (List.length q) - S (List.length p)) with (List.length (rev q)) by (rewrite rev_length; lia).
    rewrite nth_error_app2 by lia. rewrite Nat.sub_diag. reflexivity.
Qed.

(** * Repetition and concatenation *)
Theorem times_ok v k names names' L : times k names = Some names' -> line_length v names = Some L ->
  names' = List.concat (repeat names k) /\ 0 < k /\ exists L', line_length v names' = Some L' /\ (L' == inject_Z (Z.of_nat k) * L)%Q.
Proof.
  intros H HL. destruct k as [|k]; [discriminate|].
  assert (G : forall m, exists L', line_length v (List.concat (repeat names m)) = Some L' /\ (L' == inject_Z (Z.of_nat m) * L)%Q).
  { induction m as [|m (L' & IH & E)]; [exists 0%Q; split; [reflexivity|]; change (inject_Z (Z.of_nat 0)) with 0%Q; ring|].
    cbn [repeat List.concat]. destruct (line_length_app v _ _ _ _ HL IH) as (z & Hz & Ez). exists z. split; [exact Hz|]. rewrite Ez, E.
    rewrite Nat2Z.inj_succ. unfold Z.succ. rewrite inject_Z_plus. ring. }
  assert (X : names' = List.concat (repeat names (S k))) by (cbn [times] in H; congruence). split; [exact X|]. split; [lia|]. rewrite X. apply G.
Qed.
Theorem times_fails k names : times k names = None <-> k = 0.
Proof. destruct k; cbn; split; congruence. Qed.

Lemma unplaced_flat len a : Composer.flatten_component len Composer.ACenter (unplaced a) = map Composer.plain a.
Proof. destruct a; reflexivity. Qed.
Lemma names_plain a : map Composer.pl_name (map Composer.plain a) = a.
Proof. rewrite map_map. cbn. apply map_id. Qed.
Lemma seq_names names : map (fun i => nth i names EmptyString) (seq 0 (List.length names)) = names.
Proof.
  induction names as [|n r IH]; [reflexivity|]. cbn [List.length seq map nth]. f_equal. rewrite <- seq_shift, map_map. exact IH.
Qed.
Theorem add_ok len a b : add len a b = Some (a ++ b).
Proof.
  unfold add, Composer.flatten_components. cbn [flat_map]. rewrite !unplaced_flat, app_nil_r, <- map_app, names_plain.
  unfold Composer.build_names. f_equal. rewrite map_map. cbn [piece_name]. apply seq_names.
Qed.
Theorem add_length v len a b x y c : line_length v a = Some x -> line_length v b = Some y -> add len a b = Some c ->
  c = a ++ b /\ exists z, line_length v c = Some z /\ (z == x + y)%Q.
Proof. intros Ha Hb H. rewrite add_ok in H. injection H as <-. split; [reflexivity|]. apply line_length_app; assumption. Qed.
Theorem mirror_add len a b c : add len a b = Some c -> add len (mirror b) (mirror a) = Some (mirror c).
Proof. rewrite !add_ok. intros [= <-]. unfold mirror. rewrite rev_app_distr. reflexivity. Qed.
Theorem add_assoc len a b c ab bc : add len a b = Some ab -> add len b c = Some bc -> add len ab c = add len a bc.
Proof. rewrite !add_ok. intros [= <-] [= <-]. rewrite app_assoc. reflexivity. Qed.

(** * Mirroring in compose mode *)
Theorem compose_mirror o l l' : o = Some l -> Composer.build_mirror true o = Some l' ->
  (Composer.pieces_length l' == Composer.pieces_length l)%Q /\
  forall u p w, l = u ++ p :: w -> exists u' w', l' = u' ++ p :: w' /\
    (Composer.pieces_length u' == Composer.pieces_length l - (Composer.pieces_length u + Composer.piece_length p))%Q.
Proof.
  intros -> H. cbn in H. injection H as <-.
  assert (A : forall a b, (Composer.pieces_length (a ++ b) == Composer.pieces_length a + Composer.pieces_length b)%Q).
  { induction a as [|x a IH]; intro b; cbn; [ring|]. rewrite IH. ring. }
  assert (R : forall a, (Composer.pieces_length (rev a) == Composer.pieces_length a)%Q).
  { induction a as [|x a IH]; cbn; [reflexivity|]. rewrite A, IH. cbn. ring. }
  split; [apply R|]. intros u p w ->. exists (rev w), (rev u). split; [rewrite rev_app_distr; cbn; rewrite <- app_assoc; reflexivity|].
  rewrite R, A. cbn. ring.
Qed.

Theorem subtract_ok len a b : subtract len a b = Some (a ++ rev b).
Proof. unfold subtract. rewrite add_ok. reflexivity. Qed.
