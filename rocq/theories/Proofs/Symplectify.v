From Coq Require Import Reals List Bool Arith Lra Lia.
From Verif.Model Require Import Maps Curved Lattice NormalForm.
From Verif.Spec Require Import Lattice NormalForm.
From Verif.Proofs Require Import Curved Lattice LatticeInverse NormalForm.
Local Open Scope R_scope.

Lemma app_mul : forall a b u i, app (mul a b) u i = app a (app b u) i.
Proof. intros. unfold app, mul, sum6. ring. Qed.
Lemma app_plus : forall a b u i, app (mplus a b) u i = app a u i + app b u i.
Proof. intros. unfold app, mplus, sum6. ring. Qed.
Lemma app_minus : forall a b u i, app (mminus a b) u i = app a u i - app b u i.
Proof. intros. unfold app, mminus, sum6. ring. Qed.
Lemma app_unit : forall u i, (i < 6)%nat -> app unit6 u i = u i.
Proof. intros u. apply lt6; unfold app, unit6, sum6; cbn [Nat.eqb]; ring. Qed.
Lemma app_inverse : forall a b u i, inverses a b -> (i < 6)%nat -> app a (app b u) i = u i.
Proof.
  intros a b u i H L. rewrite <- app_mul, <- (app_unit u i L). unfold app. apply sum6_ext. intros k Lk.
  destruct (H i k L Lk) as [-> _]. reflexivity.
Qed.
Lemma inverses_sym : forall a b, inverses a b -> inverses b a.
Proof. intros a b H i j Li Lj. destruct (H i j Li Lj). tauto. Qed.
(** u^T m v *)
Definition form (m : mat) (u v : nat -> R) : R := sum6 (fun i => u i * app m v i).
Lemma form_sym : forall m u v, (forall i j, (i < 6)%nat -> (j < 6)%nat -> m i j = m j i) -> form m u v = form m v u.
Proof.
  intros m u v H. unfold form, app, sum6.
  rewrite (H 1%nat 0%nat), (H 2%nat 0%nat), (H 3%nat 0%nat), (H 4%nat 0%nat), (H 5%nat 0%nat),
    (H 2%nat 1%nat), (H 3%nat 1%nat), (H 4%nat 1%nat), (H 5%nat 1%nat), (H 3%nat 2%nat), (H 4%nat 2%nat), (H 5%nat 2%nat),
    (H 4%nat 3%nat), (H 5%nat 3%nat), (H 5%nat 4%nat) by lia. ring.
Qed.
Lemma form_left : forall w u v, symp (app (mul S_mat w) u) v = form w v u.
Proof. intros. unfold symp. rewrite !app_mul. unfold form, app at 1 3 5 7 9 11, sum6, S_mat. ring. Qed.
Lemma symp_anti : forall u v, symp u v = - symp v u.
Proof. intros. unfold symp. ring. Qed.
Lemma symp_add : forall s u v x y, symp (fun r => u r + s * v r) (fun r => x r + s * y r) = symp u x + s * (symp u y + symp v x) + s * s * symp v y.
Proof. intros. unfold symp. ring. Qed.

Lemma healy_w_sym : forall m p i j, healy_w m p i j = healy_w m p j i.
Proof. intros. unfold healy_w. f_equal. ring. Qed.
Theorem healy_symplectic : forall m p q, inverses (mminus unit6 (mul S_mat (healy_w m p))) q -> symplectic_map (healy m p q).
Proof.
  intros m p q H u v. set (w := healy_w m p) in *. set (a := mul S_mat w) in *.
  assert (U : forall u r, (r < 6)%nat -> u r = app q u r + (-1) * app a (app q u) r).
  { intros z r L. rewrite <- (app_inverse _ _ z r H L) at 1. rewrite app_minus, app_unit by exact L. ring. }
  assert (M : forall u r, (r < 6)%nat -> app (healy m p q) u r = app q u r + 1 * app a (app q u) r).
  { intros z r L. unfold healy. fold w. fold a. rewrite app_mul, app_plus, app_unit by exact L. ring. }
  rewrite (symp_ext6 _ _ _ _ (M u) (M v)), (symp_ext6 u _ v _ (U u) (U v)), !symp_add.
  assert (Z : symp (app q u) (app a (app q v)) + symp (app a (app q u)) (app q v) = 0).
  { rewrite (symp_anti (app q u)). unfold a. rewrite !form_left. rewrite (form_sym w (app q v)); [ring|]. intros; apply healy_w_sym. }
  rewrite Z. ring.
Qed.

(** A symplectic matrix stays as it is *)
Lemma S_square : forall u r, (r < 6)%nat -> app S_mat (app S_mat u) r = - u r.
Proof. intros u. apply lt6; unfold app, sum6, S_mat; ring. Qed.
Lemma symp_S : forall u v, symp u v = sum6 (fun i => u i * app S_mat v i).
Proof. intros. unfold symp, app, sum6, S_mat. ring. Qed.
(** entry of a matrix as a form *)
Definition basis (i : nat) : nat -> R := fun k => if Nat.eqb k i then 1 else 0.
Lemma form_basis : forall m i j, (i < 6)%nat -> (j < 6)%nat -> form m (basis i) (basis j) = m i j.
Proof.
  intros m i j Li Lj. revert i Li j Lj. apply (lt6 (fun i => forall j, (j < 6)%nat -> form m (basis i) (basis j) = m i j)); apply lt6; unfold form, app, sum6, basis; cbn [Nat.eqb]; ring.
Qed.
Lemma form_ext : forall m u u' v v', (forall r, (r < 6)%nat -> u r = u' r) -> (forall r, (r < 6)%nat -> v r = v' r) -> form m u v = form m u' v'.
Proof. intros m u u' v v' H K. unfold form. apply sum6_ext. intros k L. rewrite H by exact L. f_equal. apply app_ext. exact K. Qed.
Lemma cayley_sym : forall m p, symplectic_map m -> inverses (mplus unit6 m) p ->
  forall i j, (i < 6)%nat -> (j < 6)%nat ->
  let v := mul S_mat (mul (mminus unit6 m) p) in v i j = v j i.
Proof.
  intros m p S H i j Li Lj v.
  assert (F : forall x y, form v x y = symp (app m (app p x)) (app p y) - symp (app p x) (app m (app p y))).
  { intros x y. set (a := app p x). set (b := app p y).
    assert (X : forall r, (r < 6)%nat -> x r = a r + 1 * app m a r).
    { intros r L. unfold a. rewrite <- (app_inverse _ _ x r H L) at 1. rewrite app_plus, app_unit by exact L. ring. }
    assert (E : form v x y = symp x (fun r => b r + (-1) * app m b r)).
    { rewrite symp_S. unfold form. apply sum6_ext. intros k L. f_equal. unfold v. rewrite app_mul. apply app_ext. intros r Lr.
      rewrite app_mul, app_minus, app_unit by exact Lr. unfold b. ring. }
    rewrite E, (symp_ext6 x _ _ (fun r => b r + (-1) * app m b r) X ltac:(reflexivity)).
    transitivity (symp a b - symp (app m a) (app m b) + symp (app m a) b - symp a (app m b)); [unfold symp; ring|]. rewrite (S a b). ring. }
  rewrite <- (form_basis v i j Li Lj), <- (form_basis v j i Lj Li), !F.
  rewrite (symp_anti (app p (basis j)) (app m (app p (basis i)))), (symp_anti (app m (app p (basis j))) (app p (basis i))). ring.
Qed.
Theorem healy_fixed : forall m p q, symplectic_map m -> inverses (mplus unit6 m) p -> inverses (mminus unit6 (mul S_mat (healy_w m p))) q ->
  forall i j, (i < 6)%nat -> (j < 6)%nat -> healy m p q i j = m i j.
Proof.
  intros m p q S H K i j Li Lj.
  set (v := mul S_mat (mul (mminus unit6 m) p)). set (w := healy_w m p) in *.
  assert (W : forall a b, (a < 6)%nat -> (b < 6)%nat -> w a b = v a b).
  { intros a b La Lb. unfold w, healy_w. fold v. pose proof (cayley_sym m p S H a b La Lb) as C. cbv zeta in C. fold v in C. rewrite <- C. field. }
  (* S W x = - (x' - M x') with x' = p x *)
  assert (A : forall x r, (r < 6)%nat -> app (mul S_mat w) x r = app m (app p x) r - app p x r).
  { intros x r L. rewrite app_mul. rewrite (app_ext S_mat (app w x) (app S_mat (fun k => app p x k - app m (app p x) k))).
    - rewrite S_square by exact L. ring.
    - intros k Lk. transitivity (app v x k).
      + unfold app. apply sum6_ext. intros l Ll. rewrite W by assumption. reflexivity.
      + unfold v. rewrite app_mul. apply app_ext. intros l Ll. rewrite app_mul, app_minus, app_unit by exact Ll. reflexivity. }
  assert (P : forall x r, (r < 6)%nat -> app p x r + app m (app p x) r = x r).
  { intros x r L. rewrite <- (app_inverse _ _ x r H L). rewrite app_plus, app_unit by exact L. reflexivity. }
  (* q u = (u + M u) / 2 *)
  assert (Q1 : forall u r, (r < 6)%nat -> 2 * app p (app q u) r = u r).
  { intros u r L. rewrite <- (app_inverse _ _ u r K L). rewrite app_minus, app_unit, A by exact L. rewrite <- (P (app q u) r L). ring. }
  assert (T : forall u r, (r < 6)%nat -> app (healy m p q) u r = app m u r).
  { intros u r L. unfold healy. fold w. rewrite app_mul, app_plus, app_unit, A by exact L. rewrite <- (P (app q u) r L).
    transitivity (2 * app m (app p (app q u)) r); [ring|].
    rewrite (app_ext m u (fun k => 2 * app p (app q u) k + 0 * u k)) by (intros k Lk; rewrite Q1 by exact Lk; ring).
    rewrite app_combine. ring. }
  specialize (T (basis j) i Li).
  assert (B : forall x, app x (basis j) i = x i j).
  { intros x. revert j Lj T. apply (lt6 (fun j => _ -> app x (basis j) i = x i j)); intros _; unfold app, sum6, basis; cbn [Nat.eqb]; ring. }
  rewrite !B in T. exact T.
Qed.
