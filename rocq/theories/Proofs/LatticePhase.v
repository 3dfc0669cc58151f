From Coq Require Import Reals List Bool Arith Lra Lia.
From Verif.Model Require Import Maps Curved Lattice.
From Verif.Spec Require Import Lattice.
From Verif.Proofs Require Import Lattice.
Import ListNotations.
Local Open Scope R_scope.

(** ** Angles *)
Definition cong (a b : R) : Prop := exists k, a = b + 2 * PI * IZR k.
Lemma cong_refl : forall a, cong a a.
Proof. intros a. exists 0%Z. ring. Qed.
Lemma cong_sym : forall a b, cong a b -> cong b a.
Proof. intros a b [k H]. exists (- k)%Z. rewrite opp_IZR, H. ring. Qed.
Lemma cong_trans : forall a b c, cong a b -> cong b c -> cong a c.
Proof. intros a b c [k H] [l G]. exists (l + k)%Z. rewrite plus_IZR, H, G. ring. Qed.
Lemma cong_add : forall a b c d, cong a b -> cong c d -> cong (a + c) (b + d).
Proof. intros a b c d [k H] [l G]. exists (k + l)%Z. rewrite plus_IZR, H, G. ring. Qed.
Lemma cong_sub : forall a b c d, cong a b -> cong c d -> cong (a - c) (b - d).
Proof. intros a b c d [k H] [l G]. exists (k - l)%Z. rewrite minus_IZR, H, G. ring. Qed.
Lemma same_angle : forall a b, cos a = cos b -> sin a = sin b -> cong a b.
Proof.
  intros a b C S. assert (E : cos (a - b) = 1).
  { rewrite cos_minus, C, S. pose proof (sin2_cos2 b) as P. unfold Rsqr in P. lra. }
  assert (Z : sin ((a - b) / 2) = 0).
  { replace (a - b) with (2 * ((a - b) / 2)) in E by field. rewrite cos_2a_sin in E. nra. }
  apply sin_eq_0_0 in Z as [k Hk]. exists k. lra.
Qed.
Lemma phase_cong : forall row m psi, symp (re m) (im m) <> 0 -> has_phase row m psi -> cong (phase row (renormalize m)) psi.
Proof.
  intros row m psi Hs (rho & Rp & Hc & Hsn).
  pose proof (sin2_cos2 psi) as P. unfold Rsqr in P.
  assert (Hz : re m row <> 0 \/ im m row <> 0).
  { destruct (Req_dec (re m row) 0) as [E|]; [|left; assumption]. right. intros E'.
    rewrite Hc in E. rewrite Hsn in E'. assert (A : cos psi = 0) by (apply Rmult_integral in E; lra). assert (B : sin psi = 0) by (apply Rmult_integral in E'; lra).
    rewrite A, B in P. lra. }
  destruct (phase_cs row m (conj Hs Hz)) as [C S].
  assert (L : len row m = rho).
  { unfold len. apply sqrt_is; [lra|]. rewrite Hc, Hsn. transitivity (rho * rho * (sin psi * sin psi + cos psi * cos psi)); [ring | rewrite P; ring]. }
  apply same_angle.
  - rewrite C, L, Hc. field. lra.
  - rewrite S, L, Hsn. field. lra.
Qed.

(** ** Unwrapping *)
Lemma int_is : forall x k, IZR k <= x < IZR k + 1 -> Int_part x = k.
Proof.
  intros x k H. destruct (base_Int_part x) as [A B].
  assert (IZR (Int_part x) < IZR (k + 1)) by (rewrite plus_IZR; lra). assert (IZR k < IZR (Int_part x + 1)) by (rewrite plus_IZR; lra).
  apply lt_IZR in H0. apply lt_IZR in H1. lia.
Qed.
Lemma small_zero : forall k, Rabs (2 * PI * IZR k) < 2 * PI -> k = 0%Z.
Proof.
  intros k H. pose proof PI_RGT_0. rewrite Rabs_mult, (Rabs_right (2 * PI)) in H by lra.
  assert (A : Rabs (IZR k) < 1) by nra. apply Rabs_def2 in A as [A B].
  assert (IZR k < IZR 1) by (simpl; lra). assert (IZR (-1) < IZR k) by (simpl; lra). apply lt_IZR in H1. apply lt_IZR in H2. lia.
Qed.
Lemma correction_ok : forall dd d, cong dd d -> Rabs d < PI -> correction dd = d - dd.
Proof.
  intros dd d [k Hk] Hd. pose proof PI_RGT_0. unfold correction. destruct (Rabs_def2 _ _ Hd) as [D1 D2].
  destruct (Rlt_dec (Rabs dd) PI) as [L|L].
  - destruct (Rabs_def2 _ _ L) as [L1 L2]. assert (Z : k = 0%Z) by (apply small_zero; apply Rabs_def1; lra). rewrite Z in Hk. simpl in Hk. lra.
  - assert (M : rmod (dd + PI) (2 * PI) = d + PI).
    { unfold rmod. rewrite (int_is ((dd + PI) / (2 * PI)) k).
      - rewrite Hk. ring.
      - rewrite Hk. replace ((d + 2 * PI * IZR k + PI) / (2 * PI)) with (IZR k + (d + PI) / (2 * PI)) by (field; lra).
        assert (0 <= (d + PI) / (2 * PI)) by (unfold Rdiv; apply Rmult_le_pos; [lra | left; apply Rinv_0_lt_compat; lra]).
        assert ((d + PI) / (2 * PI) < 1).
        { apply (Rmult_lt_reg_r (2 * PI)); [lra|]. unfold Rdiv. rewrite Rmult_assoc, Rinv_l by lra. lra. }
        lra. }
    rewrite M. destruct (Req_EM_T (d + PI - PI) (- PI)); lra.
Qed.
Lemma correction_cong : forall dd, cong (correction dd) 0.
Proof.
  intros dd. unfold correction. destruct (Rlt_dec (Rabs dd) PI); [apply cong_refl|]. unfold rmod.
  destruct (Req_EM_T _ _) as [E|E]; [destruct (Rlt_dec 0 dd)|].
  - set (k := Int_part _) in *. exists (1 - k)%Z. rewrite minus_IZR. lra.
  - set (k := Int_part _) in *. exists (- k)%Z. rewrite opp_IZR. lra.
  - set (k := Int_part _) in *. exists (- k)%Z. rewrite opp_IZR. lra.
Qed.
Fixpoint close (p : R) (l : list R) : Prop := match l with [] => True | q :: l' => Rabs (q - p) < PI /\ close q l' end.
Lemma unwrap_ok : forall l psis prev corr p, cong prev p -> Forall2 cong l psis -> close p psis ->
  unwrap_loop prev corr l = map (fun q => q + (prev + corr - p)) psis.
Proof.
  induction l as [|x l IH]; intros psis prev corr p Hp F C; inversion F as [|? q ? psis' Hx F']; subst; [reflexivity|].
  destruct C as [C1 C2]. cbn [unwrap_loop map].
  rewrite (correction_ok (x - prev) (q - p)) by (try assumption; apply cong_sub; assumption). f_equal; [ring|].
  rewrite (IH psis' x _ q) by assumption. apply map_ext. intros y. ring.
Qed.
Lemma unwrap_cong : forall l prev corr, cong corr 0 -> Forall2 cong (unwrap_loop prev corr l) l.
Proof.
  induction l as [|x l IH]; intros prev corr H; [constructor|]. cbn [unwrap_loop].
  assert (K : cong (corr + correction (x - prev)) 0).
  { replace 0 with (0 + 0) by ring. apply cong_add; [exact H | apply correction_cong]. }
  constructor; [|apply IH; exact K].
  destruct K as [k K]. exists k. rewrite K. ring.
Qed.

(** ** Groups of places *)
Definition inner (s : list R) (j : nat) : nat := if Rlt_dec (nth j s 0) (nth (S j) s 0) then j else group_start s j.
Lemma take_loop_ok : forall rest s ii, (List.length s = S ii + List.length rest)%nat -> (forall k, (k < List.length rest)%nat -> nth k rest 0 = nth (S ii + k)%nat s 0) ->
  take_loop (nth ii s 0) (S ii) (group_start s ii :: rev (map (inner s) (seq 0 ii))) rest =
  group_start s (ii + List.length rest) :: rev (map (inner s) (seq 0 (ii + List.length rest))).
Proof.
  induction rest as [|x rest IH]; intros s ii L N.
  - cbn [take_loop List.length]. rewrite Nat.add_0_r. reflexivity.
  - cbn [take_loop List.length]. assert (Ex : x = nth (S ii) s 0).
    { pose proof (N 0%nat) as H. cbn [nth] in H. rewrite Nat.add_0_r in H. apply H. cbn. lia. }
    assert (A : (if Rlt_dec (nth ii s 0) x then S ii :: (S ii - 1)%nat :: rev (map (inner s) (seq 0 ii)) else group_start s ii :: group_start s ii :: rev (map (inner s) (seq 0 ii)))
                = group_start s (S ii) :: rev (map (inner s) (seq 0 (S ii)))).
    { rewrite seq_S, map_app, rev_app_distr. cbn [map rev app Nat.add group_start]. rewrite Ex.
      assert (I : inner s ii = if Rlt_dec (nth ii s 0) (nth (S ii) s 0) then ii else group_start s ii) by reflexivity. rewrite I.
      destruct (Rlt_dec (nth ii s 0) (nth (S ii) s 0)); [rewrite Nat.sub_succ, Nat.sub_0_r|]; reflexivity. }
    rewrite A, Ex. rewrite IH.
    + replace (S ii + List.length rest)%nat with (ii + S (List.length rest))%nat by lia. reflexivity.
    + cbn [List.length] in L. lia.
    + intros k Hk. specialize (N (S k)). cbn [nth List.length] in N. rewrite N by lia. f_equal. lia.
Qed.
Lemma i_take_ok : forall s, i_take s = map (anchor s) (seq 0 (List.length s)).
Proof.
  intros [|x s]; [reflexivity|]. unfold i_take.
  pose proof (take_loop_ok s (x :: s) 0 eq_refl (fun k _ => eq_refl)) as H. cbn [nth group_start seq map rev app Nat.add] in H. rewrite H.
  change (List.length (x :: s)) with (S (List.length s)). rewrite seq_S, map_app. cbn [rev map Nat.add]. rewrite rev_involutive.
  f_equal.
  - apply map_ext_in. intros j Hj. apply in_seq in Hj. unfold anchor. change (List.length (x :: s)) with (S (List.length s)).
    replace (S j =? S (List.length s))%nat with false by (symmetry; apply Nat.eqb_neq; lia). reflexivity.
  - unfold anchor. change (List.length (x :: s)) with (S (List.length s)). rewrite Nat.eqb_refl. reflexivity.
Qed.
Lemma group_start_le : forall s i, (group_start s i <= i)%nat.
Proof. intros s. induction i as [|i IH]; cbn [group_start]; [lia|]. destruct (Rlt_dec _ _); lia. Qed.
Lemma anchor_le : forall s i, (anchor s i <= i)%nat.
Proof. intros s i. unfold anchor. pose proof (group_start_le s i). destruct (_ =? _)%nat; [lia|]. destruct (Rlt_dec _ _); lia. Qed.
Lemma anchor_0 : forall s, anchor s 0 = 0%nat.
Proof. intros s. pose proof (anchor_le s 0). lia. Qed.
Lemma anchor_last : forall s n, List.length s = S n -> anchor s n = n.
Proof. intros s n H. unfold anchor. rewrite H, Nat.eqb_refl. reflexivity. Qed.
(** all places of the group are at the same s *)
Lemma group_s : forall s i, (forall j, (S j < List.length s)%nat -> nth j s 0 <= nth (S j) s 0) -> (i < List.length s)%nat ->
  nth (group_start s i) s 0 = nth i s 0.
Proof.
  intros s i M. induction i as [|i IH]; intros L; [reflexivity|]. cbn [group_start]. destruct (Rlt_dec (nth i s 0) (nth (S i) s 0)) as [H|H]; [reflexivity|].
  rewrite IH by lia. specialize (M i L). lra.
Qed.
Theorem anchor_s : forall s i, (forall j, (S j < List.length s)%nat -> nth j s 0 <= nth (S j) s 0) -> (i < List.length s)%nat ->
  nth (anchor s i) s 0 = nth i s 0.
Proof.
  intros s i M L. unfold anchor. destruct (_ =? _)%nat; [reflexivity|]. destruct (Rlt_dec _ _); [reflexivity|]. apply group_s; assumption.
Qed.

(** ** Phase advance *)
Lemma nth_phases : forall row pick (ws : list wmat) d i, (i < List.length ws)%nat ->
  nth i (map (fun w => phase row (renormalize (pick w))) ws) 0 = phase row (renormalize (pick (nth i ws d))).
Proof.
  intros row pick ws d i L. rewrite (nth_indep _ 0 (phase row (renormalize (pick d)))) by (rewrite map_length; exact L).
  apply (map_nth (fun w => phase row (renormalize (pick w)))).
Qed.
Lemma close_seq : forall (f : nat -> R) n a, (forall i, (a <= i)%nat -> (S i < a + S n)%nat -> Rabs (f (S i) - f i) < PI) -> close (f a) (map f (seq (S a) n)).
Proof.
  intros f n. induction n as [|n IH]; intros a H; [exact I|]. cbn [seq map close]. split; [apply H; lia|]. apply IH. intros i A B. apply H; lia.
Qed.
Theorem mu_ok : forall row pick s ws d psi, List.length ws = List.length s -> s <> [] ->
  (forall i, (i < List.length s)%nat -> symp (re (pick (nth i ws d))) (im (pick (nth i ws d))) <> 0 /\ has_phase row (pick (nth i ws d)) (psi i)) ->
  (forall i, (S i < List.length s)%nat -> Rabs (psi (anchor s (S i)) - psi (anchor s i)) < PI) ->
  mu row pick s ws = map (fun i => (psi (anchor s i) - psi 0%nat) / (2 * PI)) (seq 0 (List.length s)).
Proof.
  intros row pick s ws d psi L Ne H C. unfold mu, mu_of. rewrite i_take_ok.
  set (phi := map (fun w => phase row (renormalize (pick w))) ws).
  assert (P : forall i, (i < List.length s)%nat -> cong (nth (anchor s i) phi 0) (psi (anchor s i))).
  { intros i Li. pose proof (anchor_le s i). unfold phi. rewrite (nth_phases row pick ws d) by lia. destruct (H (anchor s i)) as [H1 H2]; [lia|]. apply phase_cong; assumption. }
  rewrite map_map. destruct (List.length s) as [|n] eqn:En; [destruct s; [contradiction | discriminate]|].
  cbn [seq map unwrap]. set (p0 := nth (anchor s 0) phi 0).
  rewrite (unwrap_ok _ (map (fun i => psi (anchor s i)) (seq 1 n)) p0 0 (psi (anchor s 0))).
  - pose proof PI_RGT_0. cbn [hd map]. rewrite !map_map. f_equal; [rewrite anchor_0; field; lra|]. apply map_ext. intros i. rewrite !anchor_0. field. lra.
  - apply P. lia.
  - assert (G : forall m a, (a + m <= S n)%nat -> Forall2 cong (map (fun i => nth (anchor s i) phi 0) (seq a m)) (map (fun i => psi (anchor s i)) (seq a m))).
    { induction m as [|m IH]; intros a La; [constructor|]. cbn [seq map]. constructor; [apply P; lia | apply IH; lia]. }
    rewrite map_map. apply G. lia.
  - apply (close_seq (fun i => psi (anchor s i)) n 0). intros i A B. apply C. lia.
Qed.

Lemma forall2_last : forall (A : Type) (P : A -> A -> Prop) l m d, Forall2 P l m -> l <> [] -> P (last l d) (last m d).
Proof.
  intros A P l m d F. induction F as [|x y l m H F IH]; intros N; [contradiction|].
  destruct F as [|x' y' l m H' F']; [exact H|]. apply IH. discriminate.
Qed.
Lemma last_map : forall (A B : Type) (f : A -> B) l d e, l <> [] -> last (map f l) e = f (last l d).
Proof.
  intros A B f l d e. induction l as [|x l IH]; intros N; [contradiction|]. destruct l as [|y l]; [reflexivity|]. apply IH. discriminate.
Qed.
Theorem tune : forall row pick s ws d mu_turn, List.length ws = List.length s -> s <> [] ->
  let first := pick (nth 0 ws d) in let end_ := pick (nth (List.length s - 1) ws d) in
  regular_mode row first -> symp (re end_) (im end_) <> 0 ->
  re end_ row = re first row * cos mu_turn - im first row * sin mu_turn -> im end_ row = re first row * sin mu_turn + im first row * cos mu_turn ->
  exists k, last (mu row pick s ws) 0 = mu_turn / (2 * PI) + IZR k.
Proof.
  intros row pick s ws d t L Ne first end_ R0 Se Er Ei. unfold mu, mu_of. rewrite i_take_ok.
  set (phi := map (fun w => phase row (renormalize (pick w))) ws).
  destruct (List.length s) as [|n] eqn:En; [destruct s; [contradiction | discriminate]|].
  assert (Ee : end_ = pick (nth n ws d)) by (unfold end_; do 2 f_equal; lia).
  set (ph := map (fun i => nth i phi 0) (map (anchor s) (seq 0 (S n)))).
  assert (Hph : ph = nth 0 phi 0 :: map (fun i => nth (anchor s i) phi 0) (seq 1 n)).
  { unfold ph. rewrite map_map. cbn [seq map]. rewrite anchor_0. reflexivity. }
  assert (F : Forall2 cong (unwrap ph) ph).
  { rewrite Hph. cbn [unwrap]. constructor; [apply cong_refl | apply unwrap_cong, cong_refl]. }
  assert (Un : unwrap ph <> []) by (rewrite Hph; discriminate).
  assert (Hhd : hd 0 (map (fun p => p / 2 / PI) (unwrap ph)) = nth 0 phi 0 / 2 / PI) by (rewrite Hph; reflexivity).
  rewrite Hhd.
  assert (La : last ph 0 = nth n phi 0).
  { unfold ph. rewrite (last_map _ _ (fun i => nth i phi 0) _ 0%nat) by discriminate.
    rewrite (last_map _ _ (anchor s) _ 0%nat) by discriminate. rewrite seq_S, last_last. cbn [Nat.add]. rewrite (anchor_last s n En). reflexivity. }
  pose proof (forall2_last R cong _ _ 0 F Un) as K. rewrite La in K.
  rewrite (last_map _ _ (fun m => m - nth 0 phi 0 / 2 / PI) _ 0).
  2: { destruct (unwrap ph); [contradiction | discriminate]. }
  rewrite (last_map _ _ (fun p => p / 2 / PI) _ 0) by exact Un.
  unfold phi in *. rewrite (nth_phases row pick ws d) in K by lia. rewrite (nth_phases row pick ws d) by lia. rewrite <- Ee in K. fold first.
  assert (Q : cong (phase row (renormalize end_)) (phase row (renormalize first) + t)).
  { apply phase_cong; [exact Se|]. destruct (phase_cs row first R0) as [C S]. destruct R0 as [Hs Hz]. destruct (len_pos row first Hz) as [Lp Ll].
    exists (len row first). split; [exact Lp|]. rewrite cos_plus, sin_plus, C, S, Er, Ei. split; field; lra. }
  destruct (cong_trans _ _ _ K Q) as [k Hk]. exists k. rewrite Hk. pose proof PI_RGT_0. field. lra.
Qed.
