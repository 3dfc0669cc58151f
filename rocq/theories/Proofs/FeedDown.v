From Coq Require Import Reals Lra Lia List Arith.
From Verif.Model Require Import Maps Magnet FeedDown.
From Verif.Spec Require Import Magnets.
From Verif.Proofs Require Import FrameMaps MagnetKick Cx.
Import ListNotations.
Local Open Scope R_scope.

Lemma fold_csum f n s : fold_right (fun p acc => cadd (f p) acc) (0, 0) (seq s n) = csum (fun i => f (s + i)%nat) n.
Proof.
  revert s. induction n as [|n IH]; intros s; [reflexivity|].
  cbn [seq fold_right]. rewrite IH, csum_first, Nat.add_0_r. f_equal. apply csum_ext.
  intros. f_equal. lia.
Qed.
Lemma cexpi_add a b : cexpi (a + b) = cmul (cexpi a) (cexpi b).
Proof. unfold cexpi, cmul. cbn [fst snd]. rewrite cos_plus, sin_plus. f_equal; ring. Qed.
Lemma cexpi_pow a n : cpow (cexpi a) n = cexpi (INR n * a).
Proof.
  induction n as [|n IH].
  - cbn [cpow INR]. rewrite Rmult_0_l. unfold cexpi. now rewrite cos_0, sin_0.
  - cbn [cpow]. rewrite IH, <- cexpi_add, S_INR. f_equal. ring.
Qed.
Lemma cpow_mul a b n : cpow (cmul a b) n = cmul (cpow a n) (cpow b n).
Proof. induction n as [|n IH]; cbn [cpow]; [cxr|rewrite IH; ring]. Qed.
Lemma dp_mul a b n : dp (cmul a b) n = cmul (cpow a n) (dp b n).
Proof. rewrite !dp_mul_pow, cpow_mul. ring. Qed.

Lemma fd_eq k b psi m :
  fd_order k b psi m =
  cmul (cexpi (- psi)) (cmul (cpow (cexpi (- psi)) m)
    (fieldc (fun p => nth (m + p) k (0, 0)) (length k - m) b)).
Proof.
  unfold fd_order. rewrite fold_csum.
  rewrite (csum_ext _ (fun p => cmul (nth (m + p) k (0, 0)) (dp b p))).
  2:{ intros p _. cbn [Nat.add]. rewrite dp_mul_pow, cdivr_mul. ring. }
  rewrite cexpi_pow. unfold fieldc.
  replace (- (INR (S m) * psi)) with (- psi + INR m * - psi) by (rewrite S_INR; ring).
  rewrite cexpi_add. ring.
Qed.

Lemma nth_map_seq {A} (f : nat -> A) d n i : (i < n)%nat -> nth i (map f (seq 0 n)) d = f i.
Proof.
  intros H. rewrite nth_indep with (d' := f 0%nat) by (rewrite map_length, seq_length; exact H).
  rewrite map_nth, seq_nth by exact H. reflexivity.
Qed.


Section FD.
Variables (kn ks : list R) (dx dy psi x0 y0 : R) (kn' ks' : list R).
Hypothesis Hne : kn <> [].
Hypothesis Hfd : feed_down kn ks dx dy psi x0 y0 None = Some (kn', ks').

Let N := length kn.
Let k (n : nat) : cx := nth n (combine kn ks) (0, 0).
Let b := cmul (cexpi (- psi)) (csub (x0, y0) (dx, dy)).

Lemma fd_len : length ks = N.
Proof. unfold feed_down in Hfd. destruct (Nat.eqb_spec (length kn) (length ks)); [auto|discriminate]. Qed.
Lemma fd_nth m : (m < N)%nat -> (nth m kn' 0, nth m ks' 0) = fd_order (combine kn ks) b psi m.
Proof.
  intros Hm. unfold feed_down in Hfd. destruct (Nat.eqb_spec (length kn) (length ks)); [|discriminate].
  injection Hfd as E1 E2. rewrite <- E1, <- E2, !map_map.
  rewrite (nth_map_seq (fun m => fst _)), (nth_map_seq (fun m => snd _)) by exact Hm.
  unfold b. now destruct (fd_order _ _ _ _).
Qed.
Lemma fd_field w :
  fieldc (fun n => (nth n kn' 0, nth n ks' 0)) N w
  = cmul (cexpi (- psi)) (fieldc k N (cadd (cmul (cexpi (- psi)) w) b)).
Proof.
  rewrite taylor, <- csum_mul. unfold fieldc at 1. apply csum_ext. intros m Hm.
  rewrite (fd_nth m Hm), fd_eq, dp_mul.
  replace (@length cx (combine kn ks)) with N
    by (symmetry; etransitivity; [apply combine_length|rewrite fd_len; apply Nat.min_id]).
  set (T := fieldc (fun p => k (m + p)%nat) (N - m) b).
  change (cmul (cmul (cexpi (- psi)) (cmul (cpow (cexpi (- psi)) m) T)) (dp w m) =
          cmul (cexpi (- psi)) (cmul (cmul (cpow (cexpi (- psi)) m) (dp w m)) T)).
  clearbody T. ring.
Qed.
Lemma fd_coef n : (n < N)%nat -> k n = (nth n kn 0, nth n ks 0).
Proof. intros H. unfold k. rewrite combine_nth by (symmetry; apply fd_len). reflexivity. Qed.

Lemma fd_kick x y chi f w :
  let o := (N - 1)%nat in
  let X := cos psi * (x0 + x - dx) + sin psi * (y0 + y - dy) in
  let Y := - sin psi * (x0 + x - dx) + cos psi * (y0 + y - dy) in
  kick_coordinates x y chi (mkMult o (/ INR (fact o)) kn' ks') f w =
  turned psi (kick_coordinates X Y chi (mkMult o (/ INR (fact o)) kn ks) f w).
Proof.
  cbv zeta.
  assert (HN : S (N - 1) = N) by (unfold N; destruct kn; [tauto|cbn; lia]).
  rewrite !kick_field by reflexivity. cbv zeta. cbn [mu_order].
  rewrite HN.
  change (coef (mkMult (N - 1) (/ INR (fact (N - 1))) kn' ks')) with (fun n => (nth n kn' 0, nth n ks' 0)).
  rewrite fd_field.
  assert (E : fieldc k N (cadd (cmul (cexpi (- psi)) (x, y)) b)
     = fieldc (coef (mkMult (N - 1) (/ INR (fact (N - 1))) kn ks)) N
         (cos psi * (x0 + x - dx) + sin psi * (y0 + y - dy), - sin psi * (x0 + x - dx) + cos psi * (y0 + y - dy))).
  { unfold fieldc. apply csum_ext. intros n Hn. rewrite (fd_coef n Hn). unfold coef. cbn [mu_knl mu_ksl].
    f_equal. f_equal. unfold b, cexpi, cmul, cadd, csub. cbn [fst snd]. rewrite cos_neg, sin_neg. f_equal; ring. }
  rewrite E. set (F := fieldc _ _ _). unfold turned, cmul, cexpi. cbn [fst snd]. rewrite cos_neg, sin_neg. f_equal; ring.
Qed.
End FD.

Lemma fd_truncated kn ks dx dy psi x0 y0 mo full out :
  feed_down kn ks dx dy psi x0 y0 None = Some full ->
  feed_down kn ks dx dy psi x0 y0 (Some mo) = Some out ->
  fst out = firstn (S mo) (fst full) /\ snd out = firstn (S mo) (snd full).
Proof.
  unfold feed_down. destruct (Nat.eqb (length kn) (length ks)); [|discriminate].
  intros E1 E2. injection E1 as <-. injection E2 as <-. cbn [fst snd].
  assert (E : forall n m s, seq s (Nat.min n m) = firstn m (seq s n)).
  { induction n as [|n IH]; intros m s; [now rewrite firstn_nil|]. destruct m as [|m]; [reflexivity|].
    cbn [Nat.min seq firstn]. now rewrite IH. }
  rewrite E, <- !firstn_map. now split.
Qed.
