(** Proofs about merging multipoles: strengths and tracking *)
From Coq Require Import Reals ZArith Lra Lia List Bool String Arith.
From Verif.Model Require Import Maps Curved Magnet FeedDown MergeMultipoles.
From Verif.Spec Require Import Frames Magnets MergeMultipoles.
From Verif.Proofs Require Import MagnetKick MagnetBack MagnetSum ThinSlices Cx FeedDown FeedDownTrack MergeMultipoles.
Import ListNotations.
Local Open Scope R_scope.
Local Open Scope list_scope.

(** * Strengths *)
Lemma nth_padded n a b i : nth i (padded_sum n a b) 0 = if (i <? n)%nat then nth i a 0 + nth i b 0 else 0.
Proof.
  unfold padded_sum. destruct (Nat.ltb_spec i n) as [H|H].
  - rewrite nth_indep with (d' := (fun i => nth i a 0 + nth i b 0) 0%nat) by (rewrite map_length, seq_length; exact H).
    rewrite (map_nth (fun i => nth i a 0 + nth i b 0)). rewrite seq_nth by exact H. reflexivity.
  - apply nth_overflow. rewrite map_length, seq_length. exact H.
Qed.
Lemma nth_scaled r l i : nth i (map (fun a => r * a) l) 0 = r * nth i l 0.
Proof. rewrite <- (map_nth (fun a => r * a) l 0 i). f_equal. ring. Qed.

Lemma total_knl_nth m i : nth i (total_knl m) 0 = normal m i.
Proof.
  unfold total_knl, normal. rewrite nth_padded, nth_scaled. destruct (Nat.ltb_spec i (total_size m)) as [H|H]; [reflexivity|].
  unfold total_size in H. rewrite (nth_overflow (mp_knl m)), (nth_overflow (mp_knl_rel m)) by lia. ring.
Qed.
Lemma total_ksl_nth m i : nth i (total_ksl m) 0 = skew m i.
Proof.
  unfold total_ksl, skew. rewrite nth_padded, nth_scaled. destruct (Nat.ltb_spec i (total_size m)) as [H|H]; [reflexivity|].
  unfold total_size in H. rewrite (nth_overflow (mp_ksl m)), (nth_overflow (mp_ksl_rel m)) by lia. ring.
Qed.
Lemma last_nonzero_ge l : forall i last, (last <= last_nonzero i last l)%nat.
Proof.
  induction l as [|v r IH]; intros i last; cbn [last_nonzero]; [lia|].
  destruct (is0 v); [apply IH|]. etransitivity; [|apply IH]. lia.
Qed.
Lemma last_nonzero_spec l : forall i last j, nth j l 0 <> 0 -> (i + j <= last_nonzero i last l)%nat.
Proof.
  induction l as [|v r IH]; intros i last j H; cbn [last_nonzero nth] in *; [destruct j; congruence|].
  destruct j as [|j].
  - destruct (is0 v) eqn:E; [apply is0_t in E; congruence|]. etransitivity; [|apply last_nonzero_ge]. lia.
  - etransitivity; [|apply (IH (S i) _ j H)]. lia.
Qed.
Lemma nth_firstn n (l : list R) i : nth i (firstn n l) 0 = if (i <? n)%nat then nth i l 0 else 0.
Proof.
  revert n i; induction l as [|v r IH]; intros [|n] [|i]; cbn; try reflexivity.
  - change (0 = if (S i <? S n)%nat then 0 else 0). destruct (S i <? S n)%nat; reflexivity.
  - rewrite IH. reflexivity.
Qed.
Lemma trimmed_knl knl ksl i : nth i (firstn (trimmed knl ksl) knl) 0 = nth i knl 0.
Proof.
  rewrite nth_firstn. destruct (Nat.ltb_spec i (trimmed knl ksl)) as [H|H]; [reflexivity|].
  destruct (Req_dec (nth i knl 0) 0) as [E|N]; [now rewrite E|]. exfalso. unfold trimmed in H.
  pose proof (last_nonzero_spec knl 0 0 i N). pose proof (last_nonzero_ge ksl 0 (last_nonzero 0 0 knl)). lia.
Qed.
Lemma trimmed_ksl knl ksl i : nth i (firstn (trimmed knl ksl) ksl) 0 = nth i ksl 0.
Proof.
  rewrite nth_firstn. destruct (Nat.ltb_spec i (trimmed knl ksl)) as [H|H]; [reflexivity|].
  destruct (Req_dec (nth i ksl 0) 0) as [E|N]; [now rewrite E|]. exfalso. unfold trimmed in H.
  pose proof (last_nonzero_spec ksl 0 (last_nonzero 0 0 knl) i N). lia.
Qed.
Lemma nth_zero i : nth i [0] 0 = 0.
Proof. destruct i as [|[|i]]; reflexivity. Qed.
Lemma merged_normal a b i : normal (merged a b) i = normal a i + normal b i.
Proof.
  unfold normal at 1. unfold merged. cbn [mp_knl mp_knl_rel]. rewrite nth_zero, trimmed_knl, nth_padded, !total_knl_nth.
  destruct (Nat.ltb_spec i (Nat.max (Nat.max (Nat.max (List.length (total_knl a)) (List.length (total_ksl a)))
                             (List.length (total_knl b))) (List.length (total_ksl b)))) as [H|H]; [ring|].
  rewrite <- !total_knl_nth, (nth_overflow (total_knl a)), (nth_overflow (total_knl b)) by lia. ring.
Qed.
Lemma merged_skew a b i : skew (merged a b) i = skew a i + skew b i.
Proof.
  unfold skew at 1. unfold merged. cbn [mp_ksl mp_ksl_rel]. rewrite nth_zero, trimmed_ksl, nth_padded, !total_ksl_nth.
  destruct (Nat.ltb_spec i (Nat.max (Nat.max (Nat.max (List.length (total_knl a)) (List.length (total_ksl a)))
                             (List.length (total_knl b))) (List.length (total_ksl b)))) as [H|H]; [ring|].
  rewrite <- !total_ksl_nth, (nth_overflow (total_ksl a)), (nth_overflow (total_ksl b)) by lia. ring.
Qed.
Lemma padded_length n a b : List.length (padded_sum n a b) = n.
Proof. unfold padded_sum. now rewrite map_length, seq_length. Qed.
Lemma merged_wf a b : well_formed (merged a b).
Proof.
  unfold well_formed, merged. cbn [mp_knl mp_ksl mp_knl_rel mp_ksl_rel].
  set (oo := Nat.max _ _). assert (Ho : (4 <= oo)%nat).
  { unfold oo, total_knl. rewrite padded_length. unfold total_size. lia. }
  clearbody oo. split; [now rewrite !firstn_length, !padded_length|]. split; [|split; [reflexivity|discriminate]].
  intros H. apply (f_equal (@List.length R)) in H. rewrite firstn_length, padded_length in H. unfold trimmed in H. cbn [List.length] in H. lia.
Qed.
Lemma merged_aligned a b : aligned (merged a b).
Proof. unfold aligned, merged, rot_shift_active, straight. cbn. now rewrite (proj2 (is0_t 0) eq_refl). Qed.

(** * The kick *)
Definition field (m : mp) (N : nat) (z : cx) : cx := fieldc (fun i => (normal m i, skew m i)) N z.

Lemma coef_out knl ksl n : List.length knl = List.length ksl -> (List.length knl <= n)%nat -> coef (mult_of knl ksl) n = C0.
Proof. intros E H. unfold coef, mult_of. cbn. rewrite !nth_overflow by lia. reflexivity. Qed.
Lemma field_more c n N z : (forall i, (n <= i)%nat -> c i = C0) -> (n <= N)%nat -> fieldc c N z = fieldc c n z.
Proof.
  intros H L. unfold fieldc. replace N with (n + (N - n))%nat by lia. apply csum_more.
  intros i Hi. rewrite H by exact Hi. cxr.
Qed.

Lemma thin_kick m N (bt : bool) p : well_formed m -> mp_hxl m = 0 ->
  (List.length (mp_knl m) <= N)%nat -> (List.length (mp_knl_rel m) <= N)%nat ->
  let F := field m N (p_x p, p_y p) in let s := if bt then -1 else 1 in
  thin_slice bt 1 (magnet_of m) p = kicked (s * (p_chi p * - fst F)) (s * (p_chi p * snd F)) 0 p.
Proof.
  intros (W1 & W2 & W3 & W4) Hx L1 L2. cbv zeta. rewrite slice_eq; [|exact Hx|lra]. cbv zeta.
  set (k := fwd_kick 1 _).
  assert (E : k = mkKp (mp_length m * 1) (mult_of (mp_knl m) (mp_ksl m)) (Some (mult_of (mp_knl_rel m) (mp_ksl_rel m)))
                    (main_strength m) (1 * 1) 0 0 0 0 0 0 0 0 0 (mp_hxl m) 0 0 true) by reflexivity.
  rewrite Hx in E.
  assert (Hz : FZ k p = 0).
  { rewrite E. unfold FZ. cbn [kp_rot kp_h kp_length kp_hxl]. ring. }
  assert (Hh : htot k = 0).
  { rewrite E. unfold htot. cbn [kp_length kp_h kp_hxl]. destruct (is0 (mp_length m * 1)); unfold Rdiv; ring. }
  assert (Hm : kc (p_x p) (p_y p) (p_chi p) (mainm k) 1 = (0, 0)).
  { rewrite E. unfold kc, kick_coordinates, mainm.
    cbn [kp_length kp_k0 kp_k1 kp_k2 kp_k3 kp_k0s kp_k1s kp_k2s kp_k3s mu_order mu_inv mu_knl mu_ksl nth
       kick_loop fst snd]. f_equal; ring. }
  assert (Ff : field m N (p_x p, p_y p) =
     cadd (fieldc (coef (mult_of (mp_knl m) (mp_ksl m))) (S (mu_order (mult_of (mp_knl m) (mp_ksl m)))) (p_x p, p_y p))
          (cmul (cr (main_strength m)) (fieldc (coef (mult_of (mp_knl_rel m) (mp_ksl_rel m))) (S (mu_order (mult_of (mp_knl_rel m) (mp_ksl_rel m)))) (p_x p, p_y p)))).
  { rewrite <- (field_more (coef (mult_of (mp_knl m) (mp_ksl m))) _ N), <- (field_more (coef (mult_of (mp_knl_rel m) (mp_ksl_rel m))) _ N).
    - unfold field, fieldc. rewrite <- csum_mul, <- csum_add. apply csum_ext. intros i _. unfold coef, normal, skew, mult_of. cbn [mu_knl mu_ksl]. cxr.
    - intros i Hi. apply coef_out; [exact W3|]. cbn [mult_of mu_order] in Hi. lia.
    - cbn [mult_of mu_order]. destruct (mp_knl_rel m); [congruence|]. cbn in *. lia.
    - intros i Hi. apply coef_out; [exact W1|]. cbn [mult_of mu_order] in Hi. lia.
    - cbn [mult_of mu_order]. destruct (mp_knl m); [congruence|]. cbn in *. lia. }
  assert (K : forall knl ksl f, kc (p_x p) (p_y p) (p_chi p) (mult_of knl ksl) f =
     let F := fieldc (coef (mult_of knl ksl)) (S (mu_order (mult_of knl ksl))) (p_x p, p_y p) in
     (1 * (p_chi p * f) * - fst F, 1 * (p_chi p * f) * snd F)).
  { intros knl ksl f. unfold kc. apply kick_field. reflexivity. }
  assert (HX : FX k p = p_chi p * - fst (field m N (p_x p, p_y p))).
  { unfold FX. rewrite Hh, Hm. rewrite E. unfold relx. cbn [kp_length kp_factor kp_hxl kp_mult kp_rel kp_ref kp_rot kp_h fst snd].
    rewrite !K, Ff. unfold cadd, cmul, cr. cbn [fst snd]. ring. }
  assert (HY : FY k p = p_chi p * snd (field m N (p_x p, p_y p))).
  { unfold FY. rewrite Hh, Hm. rewrite E. unfold rely. cbn [kp_length kp_factor kp_hxl kp_mult kp_rel kp_ref kp_rot kp_h fst snd].
    rewrite !K, Ff. unfold cadd, cmul, cr. cbn [fst snd]. ring. }
  rewrite HX, HY, Hz. destruct bt; f_equal; ring.
Qed.

Section T.
Variable other : nat -> bool -> part -> part.
Variable thick : mp -> bool -> part -> part.
Variable synrad : bool.

Lemma track_thin bt m p : mp_thick m = false -> aligned m ->
  track_mult thick synrad bt m p = thin_slice bt 1 (magnet_of m) p.
Proof. intros T A. unfold track_mult, track_aligned. unfold aligned in A. now rewrite T, A. Qed.

Definition plain (m : mp) : Prop := well_formed m /\ aligned m /\ mp_thick m = false /\ mp_hxl m = 0.
Lemma merged_plain a b : plain a -> plain (merged a b).
Proof. intros (_ & _ & _ & H). repeat split; try apply merged_wf; try apply merged_aligned. exact H. Qed.

Lemma merged_track (bt : bool) a b p : plain a -> plain b ->
  track_mult thick synrad bt (merged a b) p = track_mult thick synrad bt b (track_mult thick synrad bt a p)
  /\ track_mult thick synrad bt (merged a b) p = track_mult thick synrad bt a (track_mult thick synrad bt b p).
Proof.
  intros Ha Hb. pose proof (merged_plain a b Ha) as Hm.
  set (N := (List.length (mp_knl (merged a b)) + List.length (mp_knl_rel (merged a b)) + List.length (mp_knl a)
    + List.length (mp_knl_rel a) + List.length (mp_knl b) + List.length (mp_knl_rel b))%nat).
  assert (K : forall m q, plain m -> (List.length (mp_knl m) <= N)%nat -> (List.length (mp_knl_rel m) <= N)%nat ->
    track_mult thick synrad bt m q = let F := field m N (p_x q, p_y q) in let s := if bt then -1 else 1 in
      kicked (s * (p_chi q * - fst F)) (s * (p_chi q * snd F)) 0 q).
  { intros m q (W & A & T & H) L1 L2. rewrite track_thin by assumption. apply thin_kick; assumption. }
  rewrite !K by (try assumption; unfold N; lia). cbv zeta. unfold kicked at 4. 
  assert (Fm : forall z, field (merged a b) N z = cadd (field a N z) (field b N z)).
  { intros z. unfold field, fieldc. rewrite <- csum_add. apply csum_ext. intros i _. rewrite merged_normal, merged_skew. cxr. }
  rewrite Fm. split.
  - change (p_x (kicked ?u ?v ?w p)) with (p_x p). rewrite kicked_add.
    unfold cadd. cbn [fst snd]. f_equal; cbn; ring.
  - rewrite kicked_add. unfold cadd. cbn [fst snd]. f_equal; cbn; ring.
Qed.
End T.
