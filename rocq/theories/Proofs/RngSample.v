From Coq Require Import NArith ZArith QArith List Bool Lia Permutation.
From Verif.Model Require Import Rng.
From Verif.Spec Require Import Rng.
Import ListNotations.
Local Open Scope Z_scope.

Section S.
Context {V : Type} (gen : part -> part * V).
Hypothesis gen_id : forall p, p_id (fst (gen p)) = p_id p.

Lemma after_id n p : p_id (after gen n p) = p_id p.
Proof. induction n; [reflexivity|]. unfold after in *. cbn [iter]. rewrite gen_id. exact IHn. Qed.

Lemma after_S n p : after gen (S n) p = after gen n (fst (gen p)).
Proof. unfold after. induction n; [reflexivity|]. cbn [iter] in *. rewrite IHn. reflexivity. Qed.

Lemma loop_writes k : forall i n p,
  snd (sample_loop gen k i n p)
  = map (fun j => (n * p_id p + i + Z.of_nat j, draw gen j p)) (seq 0 k).
Proof.
  induction k; intros i n p; [reflexivity|]. cbn [sample_loop].
  pose proof (gen_id p) as E. destruct (gen p) as [p1 v] eqn:G. cbn [fst] in E.
  pose proof (IHk (i + 1) n p1) as H. destruct (sample_loop gen k (i + 1) n p1) as [p2 ws].
  cbn [snd] in *. rewrite H, E. cbn [seq map]. f_equal.
  - unfold draw. cbn. rewrite G. f_equal. lia.
  - rewrite <- seq_shift, map_map. apply map_ext. intros j. f_equal; [lia|].
    unfold draw. rewrite after_S, G. reflexivity.
Qed.

Lemma write1_ok (b : list V) w :
  0 <= fst w < Z.of_nat (length b) ->
  exists b', write1 b w = Some b' /\ length b' = length b
  /\ nth_error b' (Z.to_nat (fst w)) = Some (snd w)
  /\ forall k, k <> Z.to_nat (fst w) -> nth_error b' k = nth_error b k.
Proof.
  intros H. unfold write1.
  destruct (Z.leb_spec 0 (fst w)); [|lia]. destruct (Z.ltb_spec (fst w) (Z.of_nat (length b))); [|lia].
  cbn [andb]. set (m := Z.to_nat (fst w)). assert (Hm : (m < length b)%nat) by lia.
  assert (L : length (firstn m b) = m) by (rewrite firstn_length; lia).
  eexists. split; [reflexivity|]. split; [|split].
  - rewrite !app_length, L, skipn_length. cbn [length]. lia.
  - rewrite nth_error_app2 by lia. rewrite L, Nat.sub_diag. reflexivity.
  - intros k Hk. destruct (Nat.lt_ge_cases k m) as [C|C].
    + rewrite nth_error_app1 by lia. rewrite <- (firstn_skipn m b) at 2.
      rewrite nth_error_app1 by lia. reflexivity.
    + rewrite nth_error_app2 by lia. rewrite L.
      replace (k - m)%nat with (S (k - S m)) by lia. cbn [app nth_error].
      rewrite <- (firstn_skipn (S m) b) at 2.
      assert (L2 : length (firstn (S m) b) = S m) by (rewrite firstn_length; lia).
      rewrite nth_error_app2 by lia. rewrite L2. reflexivity.
Qed.

Lemma writes_ok ws : forall b : list V,
  NoDup (map fst ws) -> (forall w, In w ws -> 0 <= fst w < Z.of_nat (length b)) ->
  exists b', writes b ws = Some b' /\ length b' = length b
  /\ (forall w, In w ws -> nth_error b' (Z.to_nat (fst w)) = Some (snd w))
  /\ (forall k, ~ In (Z.of_nat k) (map fst ws) -> nth_error b' k = nth_error b k).
Proof.
  induction ws as [|w ws IH]; intros b ND R.
  - exists b. cbn. repeat split; auto. easy.
  - cbn [map] in ND. inversion ND as [|? ? N1 N2]; subst.
    destruct (write1_ok b w) as (b1 & E1 & L1 & A1 & B1); [apply R; left; auto|].
    destruct (IH b1) as (b' & E & L & A & B); [auto| |].
    { intros w' H. rewrite L1. apply R. right. auto. }
    exists b'. cbn [writes]. rewrite E1. split; [exact E|]. split; [congruence|]. split.
    + intros w' [<-|H]; [|auto]. rewrite B; [exact A1|].
      rewrite Z2Nat.id by (apply R; left; auto). exact N1.
    + intros k H. rewrite B; [apply B1|]; intros X; apply H; [left|right; exact X].
      subst k. rewrite Z2Nat.id; auto. apply R. left. auto.
Qed.

Lemma filter_all {A} f (l : list A) : (forall x, In x l -> f x = true) -> filter f l = l.
Proof.
  induction l; cbn; intros H; [reflexivity|]. rewrite H by auto. f_equal. auto.
Qed.

Lemma nodup_app {A} (a b : list A) :
  NoDup a -> NoDup b -> (forall x, In x a -> ~ In x b) -> NoDup (a ++ b).
Proof.
  induction a; cbn [app]; intros Ha Hb D; [exact Hb|]. inversion Ha; subst. constructor.
  - intros X. apply in_app_or in X. destruct X; [auto|]. apply (D a); [left; auto|auto].
  - apply IHa; auto. intros x Hx. apply D. right. auto.
Qed.

Lemma cells_nodup n (l : list part) :
  NoDup (map p_id l) ->
  NoDup (map fst (flat_map (fun p => map (fun j => (Z.of_nat n * p_id p + Z.of_nat j, draw gen j p)) (seq 0 n)) l)).
Proof.
  induction l as [|q l IH]; cbn [flat_map map]; intros N; [constructor|].
  inversion N as [|? ? N1 N2]; subst. rewrite map_app, map_map. cbn [fst].
  apply nodup_app; [|auto|].
  - apply FinFun.Injective_map_NoDup; [intros a b; lia|apply seq_NoDup].
  - intros x Hx Hy. apply in_map_iff in Hx. destruct Hx as (j & <- & Hj). apply in_seq in Hj.
    apply in_map_iff in Hy. destruct Hy as ((y & v) & Ey & Hy). cbn [fst] in Ey. subst y.
    apply in_flat_map in Hy. destruct Hy as (r & Hr & Hy). apply in_map_iff in Hy.
    destruct Hy as (i & Ei & Hi). apply in_seq in Hi. injection Ei as Ei _.
    assert (p_id r = p_id q) by nia.
    apply N1. apply in_map_iff. exists r. auto.
Qed.

(** Every row of the result is the stream of one particle. *)
Lemma generate_ok zero n (ps : list part) :
  (forall p, In p ps -> 0 < p_state p) ->
  NoDup (map p_id ps) -> (forall p, In p ps -> 0 <= p_id p < Z.of_nat (length ps)) ->
  exists b, generate gen zero n ps = Some b /\ length b = (length ps * n)%nat
  /\ forall p j, In p ps -> (j < n)%nat ->
     nth_error b (Z.to_nat (p_id p) * n + j) = Some (draw gen j p).
Proof.
  intros Hs ND R. unfold generate, sample.
  rewrite filter_all by (intros p H; apply Z.ltb_lt; auto).
  assert (F : flat_map (fun p => snd (sample_loop gen n 0 (Z.of_nat n) p)) ps
    = flat_map (fun p => map (fun j => (Z.of_nat n * p_id p + Z.of_nat j, draw gen j p)) (seq 0 n)) ps).
  { apply flat_map_ext. intros p. rewrite loop_writes. apply map_ext. intros j. f_equal. lia. }
  rewrite F. clear F.
  destruct (writes_ok (flat_map (fun p => map (fun j => (Z.of_nat n * p_id p + Z.of_nat j, draw gen j p)) (seq 0 n)) ps)
              (repeat zero (length ps * n))) as (b & E & L & A & _).
  - apply cells_nodup; auto.
  - intros w Hw. apply in_flat_map in Hw. destruct Hw as (p & Hp & Hw). apply in_map_iff in Hw.
    destruct Hw as (j & <- & Hj). apply in_seq in Hj. cbn [fst]. rewrite repeat_length.
    specialize (R p Hp). nia.
  - exists b. split; [exact E|]. split; [rewrite L, repeat_length; reflexivity|].
    intros p j Hp Hj.
    assert (I : In (Z.of_nat n * p_id p + Z.of_nat j, draw gen j p)
       (flat_map (fun p => map (fun j => (Z.of_nat n * p_id p + Z.of_nat j, draw gen j p)) (seq 0 n)) ps)).
    { apply in_flat_map. exists p. split; auto. apply in_map_iff. exists j. split; auto. apply in_seq. lia. }
    apply A in I. cbn [fst snd] in I. rewrite <- I. f_equal. specialize (R p Hp). nia.
Qed.
End S.
