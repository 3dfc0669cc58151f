From Coq Require Import Reals ZArith List Bool Lra Lia.
From Verif.Model Require Import Maps Curved Magnet Edges.
From Verif.Spec Require Import Frames Magnets Symplectic Edges.
From Verif.Proofs Require Import SympEdge.
Import ListNotations.
Local Open Scope R_scope.
Ltac pc := cbn [add_zeta add_s add_px add_py add_x add_y set_x set_y set_px set_py set_zeta set_s set_spin set_ax set_ay
  p_x p_px p_y p_py p_zeta p_s p_delta p_ptau p_rpp p_rvv p_chi p_beta0 p_ax p_ay p_spin_x p_spin_y p_spin_z].

Definition amp (p : part) : R := 1 / sqrt ((p_delta p + 1) * (p_delta p + 1) - p_py p * p_py p).
Definition travel (b th : R) (p : part) : R := (th + (asin (amp p * p_px p) - asin (amp p * wedge_px b th p))) / b.
Definition bent (b th : R) (p : part) : part :=
  add_zeta (- ((p_delta p + 1) * travel b th p) / p_rvv p) (set_px (wedge_px b th p)
    (add_y (p_py p * travel b th p)
       (set_x ((sqrt (wedge_pz2 b th p) - (cos th * (sqrt (pz2 p) - b * p_x p) - sin th * p_px p)) / b) p))).

Lemma wedge_bent th k p : / 1000000000 <= Rabs (k * p_chi p) -> wedge_ok th k p ->
  wedge false th k p = bent (k * p_chi p) th p.
Proof.
  intros Hk (K & Hp & _ & O). destruct (O Hk) as [H1 H2]. set (b := k * p_chi p) in *.
  assert (S : small b = false) by (unfold small; destruct (Rlt_dec _ _); [lra|reflexivity]).
  destruct (small_false b S) as [_ Hb].
  unfold wedge. fold b. rewrite S. cbv zeta. cbn [andb]. fold (amp p).
  replace ((p_delta p + 1) * (p_delta p + 1) - p_px p * p_px p - p_py p * p_py p) with (pz2 p) by (unfold pz2; ring).
  fold (wedge_px b th p).
  replace ((p_delta p + 1) * (p_delta p + 1) - wedge_px b th p * wedge_px b th p - p_py p * p_py p) with (wedge_pz2 b th p) by (unfold wedge_pz2; ring).
  pose proof (sin2_cos2 th) as SC. unfold Rsqr in SC.
  rewrite sin_2a.
  rewrite (wedge_algebra (p_x p) (p_px p) (sqrt (pz2 p)) (wedge_px b th p) (sin th) (cos th) b (sqrt (wedge_pz2 b th p))).
  - unfold bent, travel. set (q := set_x _ p).
    replace (p_py p * ((th + (asin (amp p * p_px p) - asin (amp p * wedge_px b th p))) / b))
      with (p_py p * (th + (asin (amp p * p_px p) - asin (amp p * wedge_px b th p))) / b) by (unfold Rdiv; ring).
    replace ((p_delta p + 1) * ((th + (asin (amp p * p_px p) - asin (amp p * wedge_px b th p))) / b))
      with ((p_delta p + 1) * (th + (asin (amp p * p_px p) - asin (amp p * wedge_px b th p))) / b) by (unfold Rdiv; ring).
    reflexivity.
  - lra.
  - exact Hb.
  - unfold turned_pz in H2. exact H2.
  - reflexivity.
  - rewrite !sqrt_sqrt by lra. unfold wedge_pz2, pz2. ring.
Qed.

(** The vector (px, pz - b x) turns. *)
Lemma bent_C b th p : b <> 0 -> 0 < wedge_pz2 b th p ->
  pz2 (bent b th p) = wedge_pz2 b th p /\
  sqrt (pz2 (bent b th p)) - b * p_x (bent b th p) = cos th * (sqrt (pz2 p) - b * p_x p) - sin th * p_px p.
Proof.
  intros Hb H.
  assert (E : pz2 (bent b th p) = wedge_pz2 b th p) by reflexivity.
  split; [exact E|]. rewrite E. unfold bent. pc. field. exact Hb.
Qed.
Lemma bent_px b t1 t2 p : b <> 0 -> 0 < wedge_pz2 b t1 p ->
  wedge_px b t2 (bent b t1 p) = wedge_px b (t1 + t2) p.
Proof.
  intros Hb H. destruct (bent_C b t1 p Hb H) as [_ C]. unfold wedge_px at 1. rewrite C.
  change (p_px (bent b t1 p)) with (wedge_px b t1 p). unfold wedge_px. rewrite cos_plus, sin_plus. ring.
Qed.
Lemma part_eq p q : p_x p = p_x q -> p_px p = p_px q -> p_y p = p_y q -> p_py p = p_py q -> p_zeta p = p_zeta q -> p_s p = p_s q ->
  p_delta p = p_delta q -> p_ptau p = p_ptau q -> p_rpp p = p_rpp q -> p_rvv p = p_rvv q -> p_chi p = p_chi q -> p_beta0 p = p_beta0 q ->
  p_ax p = p_ax q -> p_ay p = p_ay q -> p_spin_x p = p_spin_x q -> p_spin_y p = p_spin_y q -> p_spin_z p = p_spin_z q -> p = q.
Proof. destruct p, q. pc. intros. subst. reflexivity. Qed.
Lemma bent_bent b t1 t2 p : b <> 0 -> 0 < wedge_pz2 b t1 p -> bent b t2 (bent b t1 p) = bent b (t1 + t2) p.
Proof.
  intros Hb H. destruct (bent_C b t1 p Hb H) as [E C]. pose proof (bent_px b t1 t2 p Hb H) as PX.
  assert (W : wedge_pz2 b t2 (bent b t1 p) = wedge_pz2 b (t1 + t2) p) by (unfold wedge_pz2; rewrite PX; reflexivity).
  assert (T : travel b t1 p + travel b t2 (bent b t1 p) = travel b (t1 + t2) p).
  { unfold travel. change (amp (bent b t1 p)) with (amp p). change (p_px (bent b t1 p)) with (wedge_px b t1 p). rewrite PX. field. exact Hb. }
  apply part_eq; try reflexivity.
  - change (p_x (bent b t2 (bent b t1 p))) with ((sqrt (wedge_pz2 b t2 (bent b t1 p)) - (cos t2 * (sqrt (pz2 (bent b t1 p)) - b * p_x (bent b t1 p)) - sin t2 * p_px (bent b t1 p))) / b).
    rewrite W, C. change (p_px (bent b t1 p)) with (wedge_px b t1 p).
    change (p_x (bent b (t1 + t2) p)) with ((sqrt (wedge_pz2 b (t1 + t2) p) - (cos (t1 + t2) * (sqrt (pz2 p) - b * p_x p) - sin (t1 + t2) * p_px p)) / b).
    f_equal. unfold wedge_px. rewrite cos_plus, sin_plus. ring.
  - exact PX.
  - change (p_y (bent b t2 (bent b t1 p))) with (p_y p + p_py p * travel b t1 p + p_py p * travel b t2 (bent b t1 p)).
    change (p_y (bent b (t1 + t2) p)) with (p_y p + p_py p * travel b (t1 + t2) p). rewrite <- T. ring.
  - change (p_zeta (bent b t2 (bent b t1 p))) with (p_zeta p + - ((p_delta p + 1) * travel b t1 p) / p_rvv p + - ((p_delta p + 1) * travel b t2 (bent b t1 p)) / p_rvv p).
    change (p_zeta (bent b (t1 + t2) p)) with (p_zeta p + - ((p_delta p + 1) * travel b (t1 + t2) p) / p_rvv p). rewrite <- T. unfold Rdiv. ring.
Qed.
Lemma bent_0 b p : b <> 0 -> bent b 0 p = p.
Proof.
  intros Hb.
  assert (P : wedge_px b 0 p = p_px p) by (unfold wedge_px; rewrite cos_0, sin_0; ring).
  assert (W : wedge_pz2 b 0 p = pz2 p) by (unfold wedge_pz2; rewrite P; reflexivity).
  assert (T : travel b 0 p = 0) by (unfold travel; rewrite P; field; exact Hb).
  apply part_eq; unfold bent; pc; rewrite ?P, ?W, ?T, ?cos_0, ?sin_0; try reflexivity.
  - field. exact Hb.
  - ring.
  - unfold Rdiv. ring.
Qed.

Lemma wedge_wedge t1 t2 k p : / 1000000000 <= Rabs (k * p_chi p) ->
  wedge_ok t1 k p -> wedge_ok t2 k (wedge false t1 k p) -> wedge_ok (t1 + t2) k p ->
  wedge false t2 k (wedge false t1 k p) = wedge false (t1 + t2) k p.
Proof.
  intros Hk O1 O2 O. assert (Hb : k * p_chi p <> 0). { intros E. rewrite E, Rabs_R0 in Hk. lra. }
  rewrite (wedge_bent (t1 + t2) k p Hk O). rewrite (wedge_bent t1 k p Hk O1) in *.
  rewrite (wedge_bent t2 k (bent (k * p_chi p) t1 p) Hk O2).
  change (p_chi (bent (k * p_chi p) t1 p)) with (p_chi p).
  apply bent_bent; [exact Hb|]. apply O1, Hk.
Qed.
Lemma wedge_inverse t k p : / 1000000000 <= Rabs (k * p_chi p) ->
  wedge_ok t k p -> wedge_ok (- t) k (wedge false t k p) -> wedge false (- t) k (wedge false t k p) = p.
Proof.
  intros Hk O1 O2. assert (Hb : k * p_chi p <> 0). { intros E. rewrite E, Rabs_R0 in Hk. lra. }
  rewrite (wedge_bent t k p Hk O1) in *. rewrite (wedge_bent (- t) k (bent (k * p_chi p) t p) Hk O2).
  change (p_chi (bent (k * p_chi p) t p)) with (p_chi p).
  rewrite bent_bent; [|exact Hb|apply O1, Hk]. replace (t + - t) with 0 by ring. now apply bent_0.
Qed.
