From Coq Require Import Reals List Bool Arith Lra Lia.
From Verif.Model Require Import Maps Curved Lattice NormalForm.
From Verif.Spec Require Import Lattice NormalForm.
From Verif.Proofs Require Import Curved Lattice LatticeInverse NormalForm Symplectify.
Import ListNotations.
Local Open Scope R_scope.

(** Rotations in three planes *)
Definition vec (i : nat) (a : R) : nat -> R := fun r => if Nat.eqb r i then a else 0.
Definition mode_of (row : nat) (s : R) : mode := mkMode (vec row 1) (vec (row + 1) s).
Definition planes (c1 s1 c2 s2 c3 s3 : R) : mat := fun i j =>
  match i, j with
  | 0%nat, 0%nat => c1 | 0%nat, 1%nat => s1 | 1%nat, 0%nat => - s1 | 1%nat, 1%nat => c1
  | 2%nat, 2%nat => c2 | 2%nat, 3%nat => s2 | 3%nat, 2%nat => - s2 | 3%nat, 3%nat => c2
  | 4%nat, 4%nat => c3 | 4%nat, 5%nat => s3 | 5%nat, 4%nat => - s3 | 5%nat, 5%nat => c3
  | _, _ => 0
  end.
Lemma planes_symplectic : forall c1 s1 c2 s2 c3 s3, c1 * c1 + s1 * s1 = 1 -> c2 * c2 + s2 * s2 = 1 -> c3 * c3 + s3 * s3 = 1 ->
  symplectic_map (planes c1 s1 c2 s2 c3 s3).
Proof.
  intros c1 s1 c2 s2 c3 s3 H1 H2 H3 u v. unfold symp, app, sum6, planes.
  transitivity ((c1 * c1 + s1 * s1) * (u 0%nat * v 1%nat - u 1%nat * v 0%nat) + (c2 * c2 + s2 * s2) * (u 2%nat * v 3%nat - u 3%nat * v 2%nat)
    + (c3 * c3 + s3 * s3) * (u 4%nat * v 5%nat - u 5%nat * v 4%nat)); [ring | rewrite H1, H2, H3; ring].
Qed.
(** columns of the eigensolver in no particular order *)
Definition ring_e (i : nat) : eigen :=
  match i with
  | 0%nat => mkEigen (8/17) (-15/17) (mode_of 4 (-1)) | 1%nat => mkEigen (3/5) (4/5) (mode_of 0 1)
  | 2%nat => mkEigen (5/13) (-12/13) (mode_of 2 (-1)) | 3%nat => mkEigen (5/13) (12/13) (mode_of 2 1)
  | 4%nat => mkEigen (3/5) (-4/5) (mode_of 0 (-1)) | _ => mkEigen (8/17) (15/17) (mode_of 4 1)
  end.
Definition ring_other (i : nat) : nat := match i with 0 => 5 | 1 => 4 | 2 => 3 | 3 => 2 | 4 => 1 | _ => 0 end%nat.
Definition ring_m : mat := planes (3/5) (4/5) (5/13) (12/13) (8/17) (15/17).
Lemma mode_norm : forall e i row s, evec (e i) = mode_of row s -> (row = 0 \/ row = 2 \/ row = 4)%nat -> norm_sign e i = s.
Proof. intros e i row s E [->|[->| ->]]; unfold norm_sign; rewrite E; unfold symp, mode_of, vec; cbn [re im Nat.eqb Nat.add]; ring. Qed.
Lemma ring_norm : forall i, (i < 6)%nat -> norm_sign ring_e i = match i with 1%nat | 3%nat | 5%nat => 1 | _ => -1 end.
Proof.
  apply lt6; [apply (mode_norm _ _ 4) | apply (mode_norm _ _ 0) | apply (mode_norm _ _ 2) | apply (mode_norm _ _ 2) | apply (mode_norm _ _ 0) | apply (mode_norm _ _ 4)];
  try reflexivity; lia.
Qed.
Lemma ring_pairs : three_pairs ring_e ring_other.
Proof.
  unfold three_pairs. apply lt6; (split; [cbn; lia|]); (split; [reflexivity|]); (split; [cbn; lia|]); (split; [cbn [ring_e ring_other lam_im]; lra|]);
  (split; [cbn [ring_other]; rewrite !ring_norm by lia; cbn; ring|]); (split; [rewrite ring_norm by lia; cbn; lra|]);
  apply (lt6 (fun j => lam_im (ring_e j) = _ -> j = _)); cbn [ring_e ring_other lam_im]; intros Q; try reflexivity; exfalso; lra.
Qed.
Lemma ring_magnitude : forall i r, magnitude ring_e i r = sqrt (re (evec (ring_e i)) r * re (evec (ring_e i)) r + im (evec (ring_e i)) r * im (evec (ring_e i)) r).
Proof. reflexivity. Qed.
Lemma ring_sorted : sort_modes ring_e = Some (1, 3, 5)%nat.
Proof.
  apply (uncoupled_modes ring_e ring_other); [exact ring_pairs | lia | | | | | | |].
  1,2,3: rewrite ring_norm by lia; lra.
  - apply (lt6 (fun i => 0 < norm_sign ring_e i -> i = 1%nat \/ i = 3%nat \/ i = 5%nat)); rewrite ring_norm by lia; intros H; try lra; lia.
  - rewrite !ring_magnitude. apply sqrt_lt_1; cbn; lra.
  - rewrite !ring_magnitude. apply sqrt_lt_1; cbn; lra.
  - rewrite !ring_magnitude. apply sqrt_lt_1; cbn; lra.
Qed.
Lemma ring_eigen : forall i, (i < 6)%nat -> eigenpair ring_m (ring_e i) /\ stable (ring_e i).
Proof.
  apply lt6; (split; [unfold eigenpair; apply lt6; unfold app, sum6, ring_m, planes, ring_e, mode_of, vec; cbn [re im evec lam_re lam_im Nat.eqb Nat.add]; lra
    | unfold stable, ring_e; cbn [lam_re lam_im]; lra]).
Qed.
Lemma ring_symplectic : symplectic_map ring_m.
Proof. apply planes_symplectic; lra. Qed.
Lemma ring_apart : apart (ring_e 1) (ring_e 3) /\ apart (ring_e 1) (ring_e 5) /\ apart (ring_e 3) (ring_e 5).
Proof. unfold apart, ring_e. cbn [lam_re lam_im]. repeat split; left; intros Q; lra. Qed.
Theorem ring_case : three_pairs ring_e ring_other /\ sort_modes ring_e = Some (1, 3, 5)%nat /\ symplectic_map ring_m /\
  (forall i, (i < 6)%nat -> eigenpair ring_m (ring_e i) /\ stable (ring_e i)) /\
  apart (ring_e 1) (ring_e 3) /\ apart (ring_e 1) (ring_e 5) /\ apart (ring_e 3) (ring_e 5) /\
  exists w R, normal_form false ring_e = Some (w, R) /\ symplectic w /\
    (forall i j, (i < 6)%nat -> (j < 6)%nat -> mul ring_m (entries w) i j = mul (entries w) R i j).
Proof.
  destruct ring_apart as (A1 & A2 & A3).
  split; [exact ring_pairs|]. split; [exact ring_sorted|]. split; [exact ring_symplectic|]. split; [exact ring_eigen|].
  split; [exact A1|]. split; [exact A2|]. split; [exact A3|].
  destruct (normal_form_defined false ring_e ring_other ring_pairs) as (w & R & E). exists w, R. split; [exact E|]. 
  assert (G : forall i, i = 1%nat \/ i = 3%nat \/ i = 5%nat -> eigenpair ring_m (ring_e i) /\ stable (ring_e i)) by (intros i Hi; apply ring_eigen; lia).
  split.
  - exact (normal_form_symplectic ring_m ring_e 1 3 5 w R E ring_sorted ring_symplectic G A1 A2 A3).
  - exact (proj1 (normal_form_turn false ring_m ring_e 1 3 5 w R E ring_sorted G)).
Qed.

(** Tunes with a sum of a half: the imaginary parts of different pairs are the same *)
Definition half_e (i : nat) : eigen :=
  match i with
  | 0%nat => mkEigen (3/5) (4/5) (mode_of 0 1) | 1%nat => mkEigen (3/5) (-4/5) (mode_of 0 (-1))
  | 2%nat => mkEigen (5/13) (12/13) (mode_of 2 1) | 3%nat => mkEigen (5/13) (-12/13) (mode_of 2 (-1))
  | 4%nat => mkEigen (-3/5) (4/5) (mode_of 4 (-1)) | _ => mkEigen (-3/5) (-4/5) (mode_of 4 1)
  end.
Definition half_m : mat := planes (3/5) (4/5) (5/13) (12/13) (-3/5) (-4/5).
Lemma half_norm : forall i, (i < 6)%nat -> norm_sign half_e i = match i with 0%nat | 2%nat | 5%nat => 1 | _ => -1 end.
Proof.
  apply lt6; [apply (mode_norm _ _ 0) | apply (mode_norm _ _ 0) | apply (mode_norm _ _ 2) | apply (mode_norm _ _ 2) | apply (mode_norm _ _ 4) | apply (mode_norm _ _ 4)];
  try reflexivity; lia.
Qed.
Lemma partner_keep : forall w h cur j l, ~ Rabs (w h + w j) < Rabs (w h + w cur) -> partner w h cur (j :: l) = partner w h cur l.
Proof. intros w h cur j l H. cbn [partner]. destruct (Rlt_dec _ _); [contradiction | reflexivity]. Qed.
Lemma partner_take : forall w h cur j l, Rabs (w h + w j) < Rabs (w h + w cur) -> partner w h cur (j :: l) = partner w h j l.
Proof. intros w h cur j l H. cbn [partner]. destruct (Rlt_dec _ _); [reflexivity | contradiction]. Qed.
Ltac im_cmp := cbn [lam_im half_e]; unfold Rabs; repeat destruct (Rcase_abs _); lra.
Lemma half_pairs : pairs (fun i => lam_im (half_e i)) = [(0, 5); (1, 4); (2, 3)]%nat.
Proof.
  unfold pairs. cbv beta iota zeta.
  rewrite !(partner_keep _ 0%nat 5%nat) by im_cmp. change (partner (fun i => lam_im (half_e i)) 0 5 []) with 5%nat.
  assert (E : remove Nat.eq_dec 5%nat [5; 1; 2; 3; 4]%nat = [1; 2; 3; 4]%nat) by reflexivity. rewrite E. cbv beta iota zeta.
  rewrite (partner_keep _ 1%nat 2%nat 3%nat) by im_cmp. rewrite (partner_take _ 1%nat 2%nat 4%nat) by im_cmp. reflexivity.
Qed.
Lemma half_none : normal_form false half_e = None.
Proof.
  unfold normal_form, sort_modes. rewrite half_pairs. cbn [map]. unfold select. cbn [fst snd]. rewrite !half_norm by lia.
  destruct (Rlt_dec 0 1) as [_|Q]; [|lra]. destruct (Rlt_dec 0 (-1)) as [Q|_]; [lra|].
  destruct (arrange half_e 0 4 2) as [[a b] c] eqn:E. destruct (arrange_ok _ _ _ _ _ _ _ E) as (I & _).
  assert (X : column_pair false 0 (evec (half_e 4)) = None /\ column_pair false 2 (evec (half_e 4)) = None /\ column_pair false 4 (evec (half_e 4)) = None).
  { pose proof (half_norm 4 ltac:(lia)) as N. cbn in N. unfold column_pair. rewrite !rotate_symp. unfold norm_sign in N. rewrite N.
    destruct (Rlt_dec 0 (-1)) as [Q|_]; [lra|]. auto. }
  destruct X as (X1 & X2 & X3). unfold build_w.
  assert (J : 4%nat = a \/ 4%nat = b \/ 4%nat = c) by (apply I; auto). destruct J as [<-|[<-|<-]].
  - rewrite X1. reflexivity.
  - rewrite X2. destruct (column_pair false 0 (evec (half_e a))); reflexivity.
  - rewrite X3. destruct (column_pair false 0 (evec (half_e a))); [destruct (column_pair false 2 (evec (half_e b)))|]; reflexivity.
Qed.
Theorem half_refuted : exists m e, symplectic_map m /\ (forall i, (i < 6)%nat -> eigenpair m (e i) /\ stable (e i) /\ norm_sign e i <> 0) /\
  (forall i j, (i < 6)%nat -> (j < 6)%nat -> i <> j -> lam_re (e i) <> lam_re (e j) \/ lam_im (e i) <> lam_im (e j)) /\
  normal_form false e = None.
Proof.
  exists half_m, half_e. split; [apply planes_symplectic; lra|]. split; [|split; [|exact half_none]].
  - apply lt6; (split; [unfold eigenpair; apply lt6; unfold app, sum6, half_m, planes, half_e, mode_of, vec; cbn [re im evec lam_re lam_im Nat.eqb Nat.add]; lra
    | split; [unfold stable, half_e; cbn [lam_re lam_im]; lra | rewrite half_norm by lia; cbn; lra]]).
  - intros i j Li Lj N. revert i Li j Lj N.
    apply (lt6 (fun i => forall j, (j < 6)%nat -> i <> j -> lam_re (half_e i) <> lam_re (half_e j) \/ lam_im (half_e i) <> lam_im (half_e j))); apply (lt6 (fun j => _ <> j -> lam_re _ <> lam_re (half_e j) \/ lam_im _ <> lam_im (half_e j))); intros N; try congruence; cbn [half_e lam_re lam_im];
      first [left; intros Q; lra | right; intros Q; lra].
Qed.

(** Twice a quarter of a turn in each plane becomes a rotation *)
Definition twice_m : mat := fun i j => 2 * S_mat i j.
Definition twice_p : mat := fun i j => (unit6 i j - 2 * S_mat i j) / 5.
Definition twice_q : mat := fun i j => 25 / 41 * (unit6 i j + 4 / 5 * S_mat i j).
Lemma lt66 : forall (P : nat -> nat -> Prop), (forall i, (i < 6)%nat -> P i 0%nat) -> (forall i, (i < 6)%nat -> P i 1%nat) -> (forall i, (i < 6)%nat -> P i 2%nat) ->
  (forall i, (i < 6)%nat -> P i 3%nat) -> (forall i, (i < 6)%nat -> P i 4%nat) -> (forall i, (i < 6)%nat -> P i 5%nat) -> forall i j, (i < 6)%nat -> (j < 6)%nat -> P i j.
Proof. intros P A B C D E F i j Li Lj. do 6 (destruct j as [|j]; [auto|]). lia. Qed.
Lemma twice_w : forall i j, (i < 6)%nat -> (j < 6)%nat -> healy_w twice_m twice_p i j = 4 / 5 * unit6 i j.
Proof.
  apply lt66; apply lt6; unfold healy_w, mul, sum6, mminus, twice_m, twice_p, S_mat, unit6; cbn [Nat.eqb]; field.
Qed.
Theorem twice_case : inverses (mplus unit6 twice_m) twice_p /\ inverses (mminus unit6 (mul S_mat (healy_w twice_m twice_p))) twice_q /\
  ~ symplectic_map twice_m /\
  forall i j, (i < 6)%nat -> (j < 6)%nat -> healy twice_m twice_p twice_q i j = (9 * unit6 i j + 40 * S_mat i j) / 41.
Proof.
  assert (A : forall i j, (i < 6)%nat -> (j < 6)%nat -> mul S_mat (healy_w twice_m twice_p) i j = 4 / 5 * S_mat i j).
  { intros i j Li Lj. transitivity (mul S_mat (fun i j => 4 / 5 * unit6 i j) i j).
    - apply mul_ext; [reflexivity|]. intros k Lk. apply twice_w; assumption.
    - revert i j Li Lj. apply lt66; apply lt6; unfold mul, sum6, S_mat, unit6; cbn [Nat.eqb]; ring. }
  split; [|split; [|split]].
  - unfold inverses. apply lt66; apply lt6; unfold mul, sum6, mplus, twice_m, twice_p, S_mat, unit6; cbn [Nat.eqb]; split; field.
  - intros i j Li Lj. split.
    + transitivity (mul (fun i j => unit6 i j - 4 / 5 * S_mat i j) twice_q i j).
      * apply mul_ext; [|reflexivity]. intros k Lk. unfold mminus. rewrite A by assumption. reflexivity.
      * revert i j Li Lj. apply lt66; apply lt6; unfold mul, sum6, twice_q, S_mat, unit6; cbn [Nat.eqb]; field.
    + transitivity (mul twice_q (fun i j => unit6 i j - 4 / 5 * S_mat i j) i j).
      * apply mul_ext; [reflexivity|]. intros k Lk. unfold mminus. rewrite A by assumption. reflexivity.
      * revert i j Li Lj. apply lt66; apply lt6; unfold mul, sum6, twice_q, S_mat, unit6; cbn [Nat.eqb]; field.
  - intros H. specialize (H (basis 0) (basis 1)). unfold symp, app, sum6, basis, twice_m, S_mat in H. cbn [Nat.eqb] in H. lra.
  - intros i j Li Lj. unfold healy. transitivity (mul (fun i j => unit6 i j + 4 / 5 * S_mat i j) twice_q i j).
    + apply mul_ext; [|reflexivity]. intros k Lk. unfold mplus. rewrite A by assumption. reflexivity.
    + revert i j Li Lj. apply lt66; apply lt6; unfold mul, sum6, twice_q, S_mat, unit6; cbn [Nat.eqb]; field.
Qed.
