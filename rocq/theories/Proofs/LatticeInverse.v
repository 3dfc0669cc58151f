From Coq Require Import Reals List Bool Arith Lra Lia.
From Verif.Model Require Import Maps Curved Lattice.
From Verif.Spec Require Import Lattice.
From Verif.Proofs Require Import Lattice.
Local Open Scope R_scope.

Lemma lt6 : forall (P : nat -> Prop), P 0%nat -> P 1%nat -> P 2%nat -> P 3%nat -> P 4%nat -> P 5%nat -> forall i, (i < 6)%nat -> P i.
Proof. intros P H0 H1 H2 H3 H4 H5 i L. do 6 (destruct i as [|i]; [assumption|]). lia. Qed.
Lemma sum6_ext : forall f g, (forall k, (k < 6)%nat -> f k = g k) -> sum6 f = sum6 g.
Proof. intros f g H. unfold sum6. rewrite !H by lia. reflexivity. Qed.
Lemma mul_assoc : forall a b c i j, mul (mul a b) c i j = mul a (mul b c) i j.
Proof. intros a b c i j. unfold mul, sum6. ring. Qed.
Lemma mul_ext : forall a a' b b' i j, (forall k, (k < 6)%nat -> a i k = a' i k) -> (forall k, (k < 6)%nat -> b k j = b' k j) -> mul a b i j = mul a' b' i j.
Proof. intros a a' b b' i j H1 H2. unfold mul. apply sum6_ext. intros k L. rewrite H1, H2 by exact L. reflexivity. Qed.

(** - S W^T S *)
Definition adjoint (w : mat) : mat := fun i j => - mul (mul S_mat (fun a b => w b a)) S_mat i j.
Definition unit_mat : mat := fun i j => if Nat.eqb i j then 1 else 0.
Lemma symplectic_entries : forall w, symplectic w -> forall i j, (i < 6)%nat -> (j < 6)%nat ->
  symp (fun k => entries w k i) (fun k => entries w k j) = S_mat i j.
Proof.
  intros w (A1 & A2 & A3 & B1 & B2 & B3 & B4 & C1 & C2 & C3 & C4 & D1 & D2 & D3 & D4) i j Li Lj. revert i Li j Lj.
  apply (lt6 (fun i => forall j, (j < 6)%nat -> symp (fun k => entries w k i) (fun k => entries w k j) = S_mat i j));
  apply lt6; unfold entries, S_mat, symp in *; lra.
Qed.
Lemma adjoint_left : forall w, symplectic w -> forall i j, (i < 6)%nat -> (j < 6)%nat -> mul (adjoint (entries w)) (entries w) i j = unit_mat i j.
Proof.
  intros w H i j Li Lj. pose proof (symplectic_entries w H) as E.
  assert (X : mul (adjoint (entries w)) (entries w) i j = - sum6 (fun k => S_mat i k * symp (fun r => entries w r k) (fun r => entries w r j))).
  { unfold mul, adjoint, mul, sum6, symp, S_mat. ring. }
  rewrite X. rewrite (sum6_ext _ (fun k => S_mat i k * S_mat k j)).
  - revert i Li j Lj X. 
    apply (lt6 (fun i => forall j, (j < 6)%nat -> _ -> - sum6 (fun k => S_mat i k * S_mat k j) = unit_mat i j));
    intros j Lj _; revert j Lj; apply lt6; unfold sum6, S_mat, unit_mat; cbn [Nat.eqb]; ring.
  - intros k Lk. rewrite E by assumption. reflexivity.
Qed.
Lemma inverse_is : forall w inv, symplectic w -> inverse (entries w) inv -> forall i j, (i < 6)%nat -> (j < 6)%nat -> inv i j = adjoint (entries w) i j.
Proof.
  intros w inv H V i j Li Lj.
  transitivity (mul unit_mat inv i j).
  - revert i Li. apply lt6; unfold mul, sum6, unit_mat; cbn [Nat.eqb]; ring.
  - transitivity (mul (mul (adjoint (entries w)) (entries w)) inv i j).
    + apply mul_ext; [|reflexivity]. intros k Lk. symmetry. apply adjoint_left; assumption.
    + rewrite mul_assoc. transitivity (mul (adjoint (entries w)) unit_mat i j).
      * apply mul_ext; [reflexivity|]. intros k Lk. apply V; assumption.
      * clear Li. revert j Lj. apply lt6; unfold mul, sum6, unit_mat; cbn [Nat.eqb]; ring.
Qed.
Lemma EE_is : forall w inv p r c, symplectic w -> inverse (entries w) inv -> (p < 3)%nat -> (r < 6)%nat -> (c < 6)%nat ->
  EE (entries w) inv p r c = entries w r (2 * p)%nat * entries w c (2 * p)%nat + entries w r (2 * p + 1)%nat * entries w c (2 * p + 1)%nat.
Proof.
  intros w inv p r c H V Lp Lr Lc. pose proof (inverse_is w inv H V) as I.
  assert (X : forall k, (k < 6)%nat -> mul inv S_mat k c = mul S_mat (fun a b => entries w b a) k c).
  { intros k Lk. transitivity (mul (adjoint (entries w)) S_mat k c).
    - apply mul_ext; [intros l Ll; apply I; assumption | reflexivity].
    - unfold adjoint. transitivity (- mul (mul (mul S_mat (fun a b => entries w b a)) S_mat) S_mat k c); [unfold mul, sum6; ring|].
      set (B := mul S_mat (fun a b => entries w b a)). generalize B. clear - Lc. intros B. revert c Lc.
      apply lt6; unfold mul, sum6, S_mat; ring. }
  unfold EE. rewrite mul_assoc. 
  rewrite (mul_ext _ (mul (entries w) (S_plane p)) _ (mul S_mat (fun a b => entries w b a))) by (try reflexivity; exact X).
  destruct p as [|[|[|p]]]; [| | |lia]; unfold mul, S_plane, mul, sum6, S_mat; cbn [Nat.eqb Nat.mul Nat.add andb orb]; ring.
Qed.

Lemma basis_unit : forall row m, symp (re m) (im m) = 1 -> exists c t, c * c + t * t = 1 /\
  forall r, re (to_basis row m) r = re m r * c + im m r * t /\ im (to_basis row m) r = im m r * c - re m r * t.
Proof.
  intros row m H. set (phi := phase row (renormalize m)). exists (cos phi), (sin phi). split.
  - pose proof (sin2_cos2 phi) as P. unfold Rsqr in P. lra.
  - intros r. unfold to_basis, rotate. cbn [re im]. fold phi. unfold renormalize. cbn [re im]. rewrite H, Rabs_R1, sqrt_1.
    split; field.
Qed.
Lemma symp_combine : forall f g h k a b c d, symp (fun r => f r * a + g r * b) (fun r => h r * c + k r * d) =
  a * c * symp f h + a * d * symp f k + b * c * symp g h + b * d * symp g k.
Proof. intros. unfold symp. ring. Qed.
Lemma symp_ext : forall f f' g g', (forall r, f r = f' r) -> (forall r, g r = g' r) -> symp f g = symp f' g'.
Proof. intros f f' g g' H1 H2. unfold symp. rewrite !H1, !H2. reflexivity. Qed.
Lemma basis_self : forall row m, symp (re m) (im m) = 1 -> symp (re (to_basis row m)) (im (to_basis row m)) = 1.
Proof.
  intros row m H. destruct (basis_unit row m H) as (c & t & N & B).
  rewrite (symp_ext _ (fun r => re m r * c + im m r * t) _ (fun r => re m r * (- t) + im m r * c)).
  - rewrite symp_combine. replace (symp (re m) (re m)) with 0 by (unfold symp; ring). replace (symp (im m) (im m)) with 0 by (unfold symp; ring).
    replace (symp (im m) (re m)) with (- symp (re m) (im m)) by (unfold symp; ring). rewrite H. transitivity (c * c + t * t); [ring | exact N].
  - intros r. apply B.
  - intros r. rewrite (proj2 (B r)). ring.
Qed.
Lemma basis_cross : forall row row' m n, symp (re m) (im m) = 1 -> symp (re n) (im n) = 1 ->
  symp (re m) (re n) = 0 -> symp (re m) (im n) = 0 -> symp (im m) (re n) = 0 -> symp (im m) (im n) = 0 ->
  let p := to_basis row m in let q := to_basis row' n in
  symp (re p) (re q) = 0 /\ symp (re p) (im q) = 0 /\ symp (im p) (re q) = 0 /\ symp (im p) (im q) = 0.
Proof.
  intros row row' m n Hm Hn A B C D p q. unfold p, q.
  destruct (basis_unit row m Hm) as (c & t & _ & E). destruct (basis_unit row' n Hn) as (c' & t' & _ & E').
  assert (E2 : forall r, im (to_basis row m) r = re m r * (- t) + im m r * c) by (intros r; rewrite (proj2 (E r)); ring).
  assert (E2' : forall r, im (to_basis row' n) r = re n r * (- t') + im n r * c') by (intros r; rewrite (proj2 (E' r)); ring).
  assert (E1 : forall r, re (to_basis row m) r = re m r * c + im m r * t) by (intros r; apply E).
  assert (E1' : forall r, re (to_basis row' n) r = re n r * c' + im n r * t') by (intros r; apply E').
  repeat split.
  - rewrite (symp_ext _ _ _ _ E1 E1'), symp_combine, A, B, C, D. ring.
  - rewrite (symp_ext _ _ _ _ E1 E2'), symp_combine, A, B, C, D. ring.
  - rewrite (symp_ext _ _ _ _ E2 E1'), symp_combine, A, B, C, D. ring.
  - rewrite (symp_ext _ _ _ _ E2 E2'), symp_combine, A, B, C, D. ring.
Qed.
Lemma basis_symplectic : forall w, symplectic w -> symplectic (to_courant_snyder w).
Proof.
  intros w (A1 & A2 & A3 & B1 & B2 & B3 & B4 & C1 & C2 & C3 & C4 & D1 & D2 & D3 & D4).
  unfold symplectic, to_courant_snyder. cbn [w1 w2 w3].
  split; [apply basis_self; exact A1|]. split; [apply basis_self; exact A2|]. split; [apply basis_self; exact A3|].
  destruct (basis_cross 0 2 (w1 w) (w2 w) A1 A2 B1 B2 B3 B4) as (? & ? & ? & ?).
  destruct (basis_cross 0 4 (w1 w) (w3 w) A1 A3 C1 C2 C3 C4) as (? & ? & ? & ?).
  destruct (basis_cross 2 4 (w2 w) (w3 w) A2 A3 D1 D2 D3 D4) as (? & ? & ? & ?).
  repeat split; assumption.
Qed.
Lemma sign_pos : forall x, 0 < x -> sign x = 1.
Proof. intros x H. unfold sign. destruct (Rlt_dec 0 x); lra. Qed.
Lemma beta_pos : forall row m, regular_mode row m -> 0 < beta row (to_basis row m).
Proof.
  intros row m R0. rewrite basis_beta by exact R0. destruct R0 as [Hs Hz]. pose proof (Rabs_pos_lt _ Hs). destruct (len_pos row m Hz) as [Lp Ll].
  unfold beta. rewrite <- Ll. unfold Rdiv. apply Rmult_lt_0_compat; [nra | apply Rinv_0_lt_compat; lra].
Qed.
Theorem inverse_agrees : forall w inv, symplectic w -> regular w -> inverse (entries (to_courant_snyder w)) inv ->
  let l := lattice_functions w in
  with_inverse (entries (to_courant_snyder w)) inv =
    mkTwiss12 (betx l) (alfx l) (gamx l) (bety l) (alfy l) (gamy l) (bety1 l) (betx2 l) (alfy1 l) (alfx2 l) (gamy1 l) (gamx2 l).
Proof.
  intros w inv H (R1 & R2 & R3) V l. pose proof (basis_symplectic w H) as H'. set (u := to_courant_snyder w) in *.
  pose proof (beta_pos 0 (w1 w) R1) as Bx. pose proof (beta_pos 2 (w2 w) R2) as By.
  change (0 < beta 0 (w1 u)) in Bx. change (0 < beta 2 (w2 u)) in By.
  assert (L : l = mkLattice (beta 0 (w1 u)) (alfa 0 (w1 u)) (gama 0 (w1 u)) (beta 2 (w2 u)) (alfa 2 (w2 u)) (gama 2 (w2 u))
    (beta 2 (w1 u)) (alfa 2 (w1 u)) (gama 2 (w1 u)) (beta 0 (w2 u)) (alfa 0 (w2 u)) (gama 0 (w2 u))
    (disp_pzeta 0 (w3 u)) (disp_pzeta 1 (w3 u)) (disp_pzeta 2 (w3 u)) (disp_pzeta 3 (w3 u))
    (disp_zeta 0 (w3 u)) (disp_zeta 1 (w3 u)) (disp_zeta 2 (w3 u)) (disp_zeta 3 (w3 u))) by reflexivity.
  rewrite L. cbn [betx alfx gamx bety alfy gamy bety1 betx2 alfy1 alfx2 gamy1 gamx2]. unfold with_inverse.
  rewrite !(EE_is u inv) by (try assumption; lia). cbn [Nat.mul Nat.add entries].
  change (re (w1 u) 0%nat * re (w1 u) 0%nat + im (w1 u) 0%nat * im (w1 u) 0%nat) with (beta 0 (w1 u)).
  change (re (w2 u) 2%nat * re (w2 u) 2%nat + im (w2 u) 2%nat * im (w2 u) 2%nat) with (beta 2 (w2 u)).
  rewrite (sign_pos _ Bx), (sign_pos _ By).
  rewrite !Rabs_right by nra. unfold beta, alfa, gama. f_equal; ring.
Qed.
