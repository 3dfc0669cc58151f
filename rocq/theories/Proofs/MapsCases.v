From Coq Require Import Reals ZArith Lra List Bool.
From Verif.Model Require Import Energy Maps.
From Verif.Spec Require Import Energy Frames Aligned.
From Verif.Proofs Require Import Frames FrameMaps.
Import ListNotations.
Local Open Scope R_scope.

(** The variables kept by the particle container are those of one particle. *)
Lemma consistent_kinematic e p : consistent e ->
  p_beta0 p = e_beta0 e -> p_delta p = e_delta e -> p_ptau p = e_ptau e ->
  p_rvv p = e_rvv e -> p_rpp p = e_rpp e -> kinematic p.
Proof.
  intros (r & P & E & E0 & Href & Hr & _ & _ & HP & HE & HEE & Hd & Ht & Hrpp & Hrvv) B D T V W.
  destruct Href as (Hm & Hp & HE0 & H0 & Hb & _).
  unfold kinematic. rewrite V, W, B, D, T, Hrvv, Hrpp, Hd, Ht, Hb.
  set (c := e_p0c e) in *. set (m := e_mass0 e) in *.
  assert (X : 1 + (P / r - c) / c = P / (r * c)) by (field; lra).
  assert (Y : 1 + c / E0 * ((E / r - E0) / c) = E / (r * E0)) by (field; lra).
  rewrite X, Y.
  assert (0 < r * c) by (apply Rmult_lt_0_compat; lra).
  assert (0 < r * E0) by (apply Rmult_lt_0_compat; lra).
  repeat split.
  - apply Rdiv_lt_0_compat; lra.
  - apply Rdiv_lt_0_compat; lra.
  - replace (P / (r * c) * (P / (r * c))) with (P * P / (r * r * (c * c))) by (field; lra).
    replace (P * P) with (E * E - r * m * (r * m)) by lra.
    replace (1 + _ + _) with ((E * E - r * r * (E0 * E0) + r * r * (c * c)) / (r * r * (c * c)))
      by (field; lra).
    rewrite H0. field. lra.
  - apply Rdiv_lt_0_compat; lra.
  - field. lra.
  - field. lra.
Qed.

(** A particle with px = 3/5 of the reference momentum and a spin. *)
Definition p1 : part := mkPart 1 (3/5) 2 0 3 0 0 0 1 1 1 (4/5) 0 0 (1/2) 0 1.

Lemma p1_kin : kinematic p1.
Proof. unfold kinematic, p1; pcbn. repeat split; lra. Qed.
Lemma p1_pz : sqrt (pz2 p1) = 4 / 5.
Proof. apply sqrt_square_pos; unfold pz2, p1; pcbn; lra. Qed.
Lemma p1_physical : physical p1.
Proof. split; [exact p1_kin|]. unfold pz2, p1; pcbn; lra. Qed.
Lemma p1_forward_x : forward (Rot_x (5/13) (12/13)) p1.
Proof. unfold forward, momentum. rewrite p1_pz. cbv [Rot_x app dot m_z v_x v_y v_z p1 p_px p_py]. lra. Qed.
Lemma p1_forward_y : forward (Rot_y (5/13) (12/13)) p1.
Proof. unfold forward, momentum. rewrite p1_pz. cbv [Rot_y app dot m_z v_x v_y v_z p1 p_px p_py]. lra. Qed.
(** a rotation by which the same particle would go backward *)
Lemma p1_backward : ~ forward (Rot_y (- (12/13)) (5/13)) p1.
Proof. unfold forward, momentum. rewrite p1_pz. cbv [Rot_y app dot m_z v_x v_y v_z p1 p_px p_py]. lra. Qed.

(** an element turned by acos(12/13) about y and shifted; displaced at an anchor inside *)
Definition al1 : align := mkAlign (1/10) 0 (2/10) (atan (5/12)) 0 0 (3/2) 0.

Lemma cs1 : cos (atan (5/12)) = 12/13 /\ sin (atan (5/12)) = 5/13.
Proof.
  assert (S : sqrt (1 + (5/12)²) = 13 / 12) by (apply sqrt_square_pos; [lra|unfold Rsqr; lra]).
  rewrite cos_atan, sin_atan, S. split; field.
Qed.

Lemma p1_enterable : enterable al1 p1.
Proof.
  destruct cs1 as [C S]. split; [exact p1_physical|].
  unfold can_enter, al1; cbn [al_theta al_phi]. rewrite C, S, cos_0, sin_0.
  split; [lra|split; [lra|]]. unfold forward, momentum. rewrite p1_pz.
  split; cbv [Rot_x Rot_y mmul transp app dot m_x m_y m_z v_x v_y v_z p1 p_px p_py]; lra.
Qed.
Lemma al1_active : rot_shift_active al1 = true.
Proof. unfold rot_shift_active, al1, is0; cbn. destruct (Req_EM_T (1/10) 0); [lra|reflexivity]. Qed.

(** a kick undone by its negative, which keeps the particle inside the frame *)
Definition push (k : R) (b : bool) (p : part) : part := add_py (if b then - k else k) p.

Lemma p1_push : forall q, enters true al1 (al_anchor al1 - 0) p1 q ->
  leavable al1 (push (1/10) false q) /\ push (1/10) true (push (1/10) false q) = q.
Proof.
  intros q (l & Hm & _ & _ & _ & Hr). destruct cs1 as [C S].
  assert (Epx : p_px q = 3/5 * (12/13) - 4/5 * (5/13)).
  { assert (A := f_equal v_x Hm). unfold momentum in A. rewrite p1_pz in A. revert A.
    unfold al1, attitude; cbn [al_theta al_phi al_psi al_tilt]. rewrite C, S, cos_0, sin_0.
    cbv [Rot_x Rot_y Rot_s mmul transp app dot m_x m_y m_z v_x v_y v_z p1 p_px p_py]. lra. }
  assert (Epy : p_py q = 0).
  { assert (A := f_equal v_y Hm). unfold momentum in A. rewrite p1_pz in A. revert A.
    unfold al1, attitude; cbn [al_theta al_phi al_psi al_tilt]. rewrite C, S, cos_0, sin_0.
    cbv [Rot_x Rot_y Rot_s mmul transp app dot m_x m_y m_z v_x v_y v_z p1 p_px p_py]. lra. }
  split.
  - unfold same_rest in Hr. cbn [p1 p_delta p_ptau p_rpp p_rvv p_chi p_beta0 p_s p_ax p_ay] in Hr.
    destruct Hr as (_ & Hd & Ht & Hrp & Hrv & _ & Hb & _).
    assert (Z : pz2 (push (1/10) false q) = 1 - (16/65) * (16/65) - 1/100).
    { unfold pz2, push, add_py, set_py; cbn [p_delta p_px p_py]. rewrite Hd, Epx, Epy. lra. }
    split.
    + split; [|rewrite Z; lra].
      unfold kinematic, push, add_py, set_py; cbn [p_delta p_ptau p_rvv p_rpp p_beta0].
      rewrite Hd, Ht, Hrp, Hrv, Hb. repeat split; lra.
    + unfold can_leave, al1; cbn [al_theta al_phi al_psi al_tilt]. unfold attitude.
      rewrite C, S, cos_0, sin_0.
      assert (Q : 9/10 < sqrt (pz2 (push (1/10) false q))).
      { replace (9/10) with (sqrt (81/100)) by (apply sqrt_square_pos; lra).
        apply sqrt_lt_1; rewrite ?Z; lra. }
      split; [lra|split; [lra|]]. unfold forward, momentum.
      set (w := sqrt _) in *. unfold push, add_py, set_py; cbn [p_px p_py]. rewrite Epx, Epy.
      split; cbv [Rot_x Rot_y Rot_s mmul transp app dot m_x m_y m_z v_x v_y v_z]; lra.
  - unfold push, add_py, set_py; cbn. rewrite <- (FrameMaps.part_eta q) at 18. f_equal; ring.
Qed.
