(** Complex sums and the field of a multipole *)
From Coq Require Import Reals Lra Lia List Arith Ring.
From Verif.Model Require Import Maps Magnet FeedDown.
From Verif.Proofs Require Import FrameMaps MagnetKick.
Import ListNotations.
Local Open Scope R_scope.

Definition C0 : cx := (0, 0).
Definition C1 : cx := (1, 0).
Definition copp (a : cx) : cx := (- fst a, - snd a).
Definition cr (r : R) : cx := (r, 0).

Lemma cx_eq (a b : cx) : fst a = fst b -> snd a = snd b -> a = b.
Proof. destruct a, b; cbn. congruence. Qed.
Ltac cxr := intros; apply cx_eq; unfold C0, C1, copp, cr, cadd, csub, cmul, cdivr; cbn [fst snd]; try ring.
Lemma cx_ring : ring_theory C0 C1 cadd cmul csub copp eq.
Proof. constructor; cxr. Qed.
Add Ring CxRing : cx_ring.
Ltac cring := match goal with |- ?a = ?b => change (@eq cx a b); ring end.

Lemma cdivr_mul a r : cdivr a r = cmul (cr (/ r)) a.
Proof. cxr; unfold Rdiv; ring. Qed.
Lemma cr_mul a b : cmul (cr a) (cr b) = cr (a * b).
Proof. cxr. Qed.
Lemma cr_add a b : cadd (cr a) (cr b) = cr (a + b).
Proof. cxr. Qed.
Lemma cr_1 : cr 1 = C1. Proof. reflexivity. Qed.

Fixpoint csum (f : nat -> cx) (n : nat) : cx :=
  match n with O => C0 | S k => cadd (csum f k) (f k) end.
Lemma csum_S f n : csum f (S n) = cadd (csum f n) (f n).
Proof. reflexivity. Qed.
Lemma csum_ext f g n : (forall i, (i < n)%nat -> f i = g i) -> csum f n = csum g n.
Proof.
  induction n as [|n IH]; intros H; [reflexivity|]. cbn [csum]. rewrite IH, H; auto with arith.
Qed.
Lemma csum_add f g n : csum (fun i => cadd (f i) (g i)) n = cadd (csum f n) (csum g n).
Proof. induction n as [|n IH]; cbn [csum]; [cxr|rewrite IH; ring]. Qed.
Lemma csum_mul a f n : csum (fun i => cmul a (f i)) n = cmul a (csum f n).
Proof. induction n as [|n IH]; cbn [csum]; [cxr|rewrite IH; ring]. Qed.
Lemma csum_0 n : csum (fun _ => C0) n = C0.
Proof. induction n as [|n IH]; cbn [csum]; [reflexivity|rewrite IH; ring]. Qed.
Lemma csum_first f n : csum f (S n) = cadd (f O) (csum (fun i => f (S i)) n).
Proof.
  induction n as [|n IH]; [cbn [csum]; ring|]. change (csum f (S (S n))) with (cadd (csum f (S n)) (f (S n))).
  rewrite IH. cbn [csum]. ring.
Qed.
Lemma csum_more f n m : (forall i, (n <= i)%nat -> f i = C0) -> csum f (n + m) = csum f n.
Proof.
  intros H. induction m as [|m IH]; [now rewrite Nat.add_0_r|].
  rewrite Nat.add_succ_r. cbn [csum]. rewrite IH, H by lia. ring.
Qed.
Lemma csum_rev f n : csum f n = csum (fun i => f (n - 1 - i)%nat) n.
Proof.
  induction n as [|n IH]; [reflexivity|]. rewrite csum_first with (f := fun i => f (S n - 1 - i)%nat).
  cbn [csum]. rewrite IH. replace (S n - 1 - 0)%nat with n by lia.
  rewrite (csum_ext (fun i => f (S n - 1 - S i)%nat) (fun i => f (n - 1 - i)%nat)); [ring|].
  intros. f_equal. lia.
Qed.

(** Divided powers *)
Definition dp (z : cx) (n : nat) : cx := cdivr (cpow z n) (INR (fact n)).
Lemma INR_fact_neq n : INR (fact n) <> 0. Proof. apply INR_fact_neq_0. Qed.
Lemma dp_0 z : dp z 0 = C1.
Proof. unfold dp. cbn. unfold cdivr. cbn. apply cx_eq; cbn; field. Qed.
Lemma dp_S z n : cmul (cr (INR (S n))) (dp z (S n)) = cmul z (dp z n).
Proof.
  unfold dp. rewrite !cdivr_mul. cbn [cpow]. rewrite fact_simpl, mult_INR.
  assert (H1 : INR (S n) <> 0) by (apply not_0_INR; lia). pose proof (INR_fact_neq n) as H2.
  rewrite Rinv_mult.
  transitivity (cmul (cmul (cr (INR (S n))) (cr (/ INR (S n) * / INR (fact n)))) (cmul z (cpow z n))); [ring|].
  rewrite cr_mul. replace (INR (S n) * (/ INR (S n) * / INR (fact n))) with (/ INR (fact n)) by (field; auto).
  ring.
Qed.
Lemma cr_cancel r a b : r <> 0 -> cmul (cr r) a = cmul (cr r) b -> a = b.
Proof.
  intros Hr H. transitivity (cmul (cr (/ r)) (cmul (cr r) a)).
  - transitivity (cmul (cmul (cr (/ r)) (cr r)) a); [|ring].
    rewrite cr_mul, Rinv_l by exact Hr. rewrite cr_1. ring.
  - rewrite H. transitivity (cmul (cmul (cr (/ r)) (cr r)) b); [ring|].
    rewrite cr_mul, Rinv_l by exact Hr. rewrite cr_1. ring.
Qed.
Lemma dp_mul_pow z n : dp z n = cmul (cr (/ INR (fact n))) (cpow z n).
Proof. apply cdivr_mul. Qed.

(** The binomial formula *)
Definition conv (w b : cx) (n : nat) : cx := csum (fun m => cmul (dp w m) (dp b (n - m))) (S n).
Lemma conv_S w b n : cmul (cr (INR (S n))) (conv w b (S n)) = cmul (cadd w b) (conv w b n).
Proof.
  unfold conv. rewrite <- csum_mul.
  rewrite (csum_ext _ (fun m => cadd (cmul (cmul (cr (INR m)) (dp w m)) (dp b (S n - m)))
                                     (cmul (dp w m) (cmul (cr (INR (S n - m))) (dp b (S n - m)))))).
  2:{ intros m Hm. transitivity (cmul (cr (INR m + INR (S n - m))) (cmul (dp w m) (dp b (S n - m)))).
      - rewrite <- plus_INR. do 2 f_equal. f_equal. lia.
      - rewrite <- cr_add. ring. }
  rewrite csum_add.
  assert (E1 : csum (fun m => cmul (cmul (cr (INR m)) (dp w m)) (dp b (S n - m))) (S (S n))
             = cmul w (csum (fun m => cmul (dp w m) (dp b (n - m))) (S n))).
  { rewrite csum_first. cbv beta. rewrite <- csum_mul. change (cr (INR 0)) with C0.
    rewrite (csum_ext (fun i => cmul (cmul (cr (INR (S i))) (dp w (S i))) (dp b (S n - S i)))
                      (fun i => cmul w (cmul (dp w i) (dp b (n - i))))); [ring|].
    intros i _. rewrite dp_S. cbn [Nat.sub]. ring. }
  assert (E2 : csum (fun m => cmul (dp w m) (cmul (cr (INR (S n - m))) (dp b (S n - m)))) (S (S n))
             = cmul b (csum (fun m => cmul (dp w m) (dp b (n - m))) (S n))).
  { change (csum ?f (S (S n))) with (cadd (csum f (S n)) (f (S n))). cbv beta.
    replace (S n - S n)%nat with O by lia. change (cr (INR 0)) with C0.
    rewrite <- csum_mul.
    rewrite (csum_ext (fun m => cmul (dp w m) (cmul (cr (INR (S n - m))) (dp b (S n - m))))
                      (fun i => cmul b (cmul (dp w i) (dp b (n - i))))); [ring|].
    intros i Hi. replace (S n - i)%nat with (S (n - i)) by lia. rewrite dp_S. ring. }
  rewrite E1, E2. ring.
Qed.
Lemma binomial w b n : dp (cadd w b) n = conv w b n.
Proof.
  induction n as [|n IH].
  - unfold conv. cbn [csum Nat.sub]. rewrite !dp_0. ring.
  - apply (cr_cancel (INR (S n))); [apply not_0_INR; lia|]. rewrite dp_S, conv_S, IH. reflexivity.
Qed.

(** The field of coefficients k: sum of k n * z^n / n! *)
Definition fieldc (k : nat -> cx) (N : nat) (z : cx) : cx := csum (fun n => cmul (k n) (dp z n)) N.

Lemma csum_swap_tri (f : nat -> nat -> cx) N :
  csum (fun n => csum (fun m => f m n) (S n)) N = csum (fun m => csum (fun p => f m (m + p)%nat) (N - m)) N.
Proof.
  induction N as [|N IH]; [reflexivity|].
  rewrite (csum_S (fun n => csum (fun m => f m n) (S n))), IH.
  rewrite (csum_S (fun m => csum (fun p => f m (m + p)%nat) (S N - m))).
  assert (E : csum (fun m => csum (fun p => f m (m + p)%nat) (S N - m)) N
            = cadd (csum (fun m => csum (fun p => f m (m + p)%nat) (N - m)) N) (csum (fun m => f m N) N)).
  { rewrite <- csum_add. apply csum_ext. intros m Hm. replace (S N - m)%nat with (S (N - m)) by lia.
    rewrite csum_S. replace (m + (N - m))%nat with N by lia. reflexivity. }
  rewrite E. replace (S N - N)%nat with 1%nat by lia. rewrite !csum_S. change (csum ?g 0) with C0.
  rewrite Nat.add_0_r. ring.
Qed.

Lemma taylor k N w b :
  fieldc k N (cadd w b) = csum (fun m => cmul (dp w m) (fieldc (fun p => k (m + p)%nat) (N - m) b)) N.
Proof.
  unfold fieldc.
  rewrite (csum_ext _ (fun n => csum (fun m => cmul (dp w m) (cmul (k n) (dp b (n - m)))) (S n))).
  2:{ intros n _. rewrite binomial. unfold conv. rewrite <- csum_mul. apply csum_ext. intros; ring. }
  rewrite (csum_swap_tri (fun m n => cmul (dp w m) (cmul (k n) (dp b (n - m))))).
  apply csum_ext. intros m _. rewrite <- csum_mul. apply csum_ext. intros p _. do 2 f_equal. f_equal. lia.
Qed.

(** * The kick of a multipole is its field *)
Definition coef (m : mult) (n : nat) : cx := (nth n (mu_knl m) 0, nth n (mu_ksl m) 0).

Lemma loop_field x y chi f knl ksl i inv a :
  inv = / INR (fact i) ->
  kick_loop i inv x y chi f knl ksl (fst a) (snd a) =
  cadd (cmul (cr (chi * f)) (fieldc (fun n => (nth n knl 0, nth n ksl 0)) i (x, y)))
       (cmul (cpow (x, y) i) a).
Proof.
  revert inv a. induction i as [|i IH]; intros inv a Hi.
  - cbn [kick_loop cpow fieldc csum]. unfold fieldc. cbn [csum]. cxr.
  - cbn [kick_loop].
    set (v := inv * INR (S i)).
    assert (Hv : v = / INR (fact i)).
    { unfold v. rewrite Hi, fact_simpl, mult_INR. field.
      split; [apply INR_fact_neq|apply not_0_INR; lia]. }
    pose proof (IH v (chi * nth i knl 0 * f * v + (fst a * x - snd a * y), chi * nth i ksl 0 * f * v + (fst a * y + snd a * x)) Hv) as E.
    cbn [fst snd] in E. rewrite E. unfold fieldc. cbn [csum]. rewrite dp_mul_pow, <- Hv. cbn [cpow].
    replace (chi * nth i knl 0 * f * v + (fst a * x - snd a * y), chi * nth i ksl 0 * f * v + (fst a * y + snd a * x))
      with (cadd (cmul (cmul (cr (chi * f)) (cr v)) (nth i knl 0, nth i ksl 0)) (cmul (x, y) a)) by cxr.
    cring.
Qed.

Definition factorial_ok (m : mult) : Prop := mu_inv m = / INR (fact (mu_order m)).
Lemma kick_field x y chi m f w : factorial_ok m ->
  kick_coordinates x y chi m f w =
  let F := fieldc (coef m) (S (mu_order m)) (x, y) in
  (w * (chi * f) * - fst F, w * (chi * f) * snd F).
Proof.
  intros Hm. unfold kick_coordinates. cbv zeta.
  pose proof (loop_field x y chi f (mu_knl m) (mu_ksl m) (mu_order m) (mu_inv m)
    (chi * nth (mu_order m) (mu_knl m) 0 * f * mu_inv m, chi * nth (mu_order m) (mu_ksl m) 0 * f * mu_inv m) Hm) as E.
  cbn [fst snd] in E. rewrite E. clear E.
  match goal with |- (let (a, b) := ?t in _) = _ => assert (E : t = cmul (cr (chi * f)) (fieldc (coef m) (S (mu_order m)) (x, y))) end.
  { unfold fieldc. cbn [csum]. rewrite dp_mul_pow, <- Hm. unfold coef at 2.
    replace (chi * nth (mu_order m) (mu_knl m) 0 * f * mu_inv m, chi * nth (mu_order m) (mu_ksl m) 0 * f * mu_inv m)
      with (cmul (cmul (cr (chi * f)) (cr (mu_inv m))) (nth (mu_order m) (mu_knl m) 0, nth (mu_order m) (mu_ksl m) 0)) by cxr.
    unfold coef. cring. }
  rewrite E. unfold cmul, cr. cbn [fst snd]. f_equal; ring.
Qed.
