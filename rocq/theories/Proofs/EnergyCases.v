(** Counterexamples and examples for the energy variables. *)
From Coq Require Import Reals Lra Lia Psatz Bool List.
From Verif.Model Require Import Energy.
From Verif.Spec Require Import Energy.
From Verif.Proofs Require Import Energy EnergyPython.
Local Open Scope R_scope.

(** A particle of momentum 9/4, energy 15/4, mass 3; reference momentum 4, energy 5. *)
Definition pa : ep :=
  mkEp 3 1 4 (5 / 3) (4 / 5) (-7 / 16) (-5 / 16) (3 / 4) (16 / 9) 1 1 1 (1 / 10) 2 (1 / 5) 8.

Lemma pa_refs : refs_at 5 pa.
Proof. unfold refs_at, pa. cbn. repeat split; lra. Qed.

Lemma pa_describes : describes 1 (9 / 4) (15 / 4) pa.
Proof.
  exists 5. split; [apply pa_refs|]. unfold pa; cbn. repeat split; lra.
Qed.

Lemma pa_consistent : consistent pa.
Proof. exists 1, (9 / 4), (15 / 4). apply pa_describes. Qed.

(** Setting p0c alone breaks the deviations. *)
Lemma p0c_setter : exists p q v,
  consistent p /\ 0 < v /\ py_set_p0c v p = Some q /\ refs_ok q /\ ~ consistent q.
Proof.
  destruct (setters_refs pa 3 (9 / 4) eq_refl ltac:(lra)) as (A & _).
  destruct (A ltac:(lra)) as (q & Hq & HR & Hp).
  exists pa, q, (9 / 4). split; [apply pa_consistent|]. split; [lra|]. split; [auto|]. split; [auto|].
  rewrite (py_p0c_same (9/4) pa) in Hq by (cbn; lra). injection Hq as Eq.
  assert (ED : e_delta q = -7 / 16 /\ e_ptau q = -5 / 16 /\ e_mass0 q = 3 /\ e_chi q = 1 /\ e_cr q = 1)
    by (rewrite <- Eq; cbn; auto).
  destruct ED as (ED & ET & EM & EC & ECR).
  intros (r & P & E & H).
  pose proof (describes_ratio _ _ _ _ H) as HR1. rewrite EC, ECR in HR1.
  assert (r = 1) by lra. subst r.
  pose proof (describes_momentum _ _ _ _ H) as HP.
  destruct HR as (E0 & HR0).
  pose proof (describes_energy _ _ _ _ H E0 HR0) as HE.
  rewrite ED, Hp in HP. rewrite ET, Hp in HE.
  destruct HR0 as (_ & _ & P0 & EE & _). rewrite Hp, EM in EE.
  assert (E0 = 15 / 4) by (apply sq_inj; lra). subst E0.
  destruct H as (? & ? & ? & ? & ? & ? & ? & HEE & _). rewrite EM in HEE.
  subst P E. lra.
Qed.

(** Frozen energy: a change of the reference changes the physical momentum. *)
Lemma frozen_p0c : exists p v, consistent p /\ 0 < v /\
  (1 + e_delta (update_p0c fz_energy v p)) * e_p0c (update_p0c fz_energy v p)
  <> (1 + e_delta p) * e_p0c p.
Proof.
  exists pa, 8. split; [apply pa_consistent|]. split; [lra|].
  unfold update_p0c. rewrite frozen_update_delta by reflexivity. cbn. lra.
Qed.

(** kinetic_energy0 is ignored when p0c is given. *)
Definition no_args : args :=
  mkArgs 3 1 0 0 0 0 None None None None None None None None None None None None None None None None.
Definition args_conflict : args :=
  mkArgs 3 1 0 0 0 0 None None None (Some 4) None None None (Some 100) None None None None None None None None.

Lemma allclose_true x y : close x y -> allclose x y = true.
Proof. unfold allclose, close, atol, rtol. destruct (Rle_dec _ _); tauto. Qed.

Lemma kinetic_ignored : exists a p,
  a_p0c a = Some 4 /\ a_kinetic_energy0 a = Some 100
  /\ construct a = Some p /\ e_p0c p = 4 /\ py_get_kinetic_energy0 p = 2.
Proof.
  exists args_conflict.
  assert (S5 : sqrt (4 ^ 2 + 3 ^ 2) = 5) by (apply sqrt_is; lra).
  unfold construct, args_conflict; cbn [a_chi a_charge_ratio a_mass_ratio a_p0c a_energy0 a_gamma0 a_beta0
    a_kinetic_energy0 a_rigidity0 a_delta a_ptau a_pzeta a_rpp a_rvv a_zeta a_tau a_mass0 a_q0 a_x a_y a_px a_py
    update_chi_charge_ratio bind fst snd].
  unfold update_refs. cbn [is_none andb compute_refs bind assert_consistent].
  rewrite set_if_given. cbn [bind]. rewrite set_if_none. cbn [bind]. rewrite set_if_none. cbn [bind].
  cbn [e_mass0 upd]. rewrite S5.
  unfold update_energy_deviations. cbn [is_none andb negb e_cr e_chi].
  destruct (Req_EM_T (1 / 1) 1) as [_|N]; [|exfalso; lra].
  cbn [bind assert_consistent]. rewrite set_if_given. cbn [bind]. rewrite set_if_none. cbn [bind].
  rewrite set_if_none. cbn [bind]. rewrite set_if_none. cbn [bind].
  unfold update_zeta. cbn [is_none andb bind assert_consistent]. rewrite set_if_given.
  eexists. split; [reflexivity|]. split; [reflexivity|]. split; [reflexivity|]. cbn [upd e_p0c].
  split; [reflexivity|].
  unfold py_get_kinetic_energy0, py_get_energy0. cbn.
  replace (4 * 4 + 3 * 3) with (5 * 5) by ring. rewrite sqrt_square; lra.
Qed.

(** mass_ratio is ignored when chi and charge_ratio are given too. *)
Lemma mass_ratio_ignored : exists chi cr,
  update_chi_charge_ratio (Some 1) (Some 1) (Some 7) = Some (chi, cr) /\ cr / chi = 1.
Proof. exists 1, 1. split; [reflexivity|lra]. Qed.

(** rigidity0 of a negative reference charge changes sign. *)
Lemma rigidity_sign : forall p v, e_mass0 p = 3 -> e_q0 p = -1 -> 0 < v ->
  exists q, update_refs None None None None None (Some v) p = Some q /\ refs_ok q
  /\ py_get_rigidity0 q = - v.
Proof.
  intros p v Hm Hq Hv.
  destruct (update_refs_single None None None None None (Some v) 3 (-1) p) as (q & A & B & C & D); cbn; auto; try lra.
  exists q. split; [auto|]. split; [auto|].
  cbn in D. destruct D as (_ & _ & _ & _ & _ & D & _).
  unfold py_get_rigidity0. rewrite D.
  assert (e_q0 q = -1) by (destruct C as (? & ? & ? & ->); destruct p; auto).
  rewrite H, Rabs_left by lra. field. unfold clight. lra.
Qed.

(** Setting one exact angle alone does not give this angle. *)
Definition pb : ep :=
  mkEp 3 1 4 (5 / 3) (4 / 5) 0 0 1 1 1 1 0 (3 / 5) 0 0 0.

Lemma pb_consistent : consistent pb.
Proof.
  exists 1, 4, 5, 5. split; [unfold refs_at, pb; cbn; repeat split; lra|].
  unfold pb; cbn. repeat split; lra.
Qed.

(** px = 3/5, py = 0: y' is set to 4/3, and 5/(3 sqrt 7)... is read back. *)
Lemma exact_yp : exists p, consistent p
  /\ e_px p * e_px p + e_py p * e_py p < (1 + e_delta p) * (1 + e_delta p)
  /\ get_exact_yp (set_exact_yp fz_none 1 p) <> 1.
Proof.
  exists pb. split; [apply pb_consistent|]. split; [cbn; lra|].
  unfold get_exact_yp, set_exact_yp, exact_rpp, get_exact_xp, exact_rpp. unset. unfold pb; cbn.
  replace ((1 + 0) * (1 + 0) - 3 / 5 * (3 / 5) - 0 * 0) with (4 / 5 * (4 / 5)) by lra.
  rewrite sqrt_square by lra.
  replace (3 / 5 * (1 / (4 / 5))) with (3 / 4) by lra.
  replace (1 + 3 / 4 * (3 / 4) + 1 * 1) with (41 / 16) by lra.
  assert (HS : sqrt (41 / 16) * sqrt (41 / 16) = 41 / 16) by (apply sqrt_sqrt; lra).
  assert (HP : 0 < sqrt (41 / 16)) by (apply sqrt_lt_R0; lra).
  set (S := sqrt (41 / 16)) in *.
  replace (1 / (1 * S) * (1 / (1 * S))) with (16 / 41)
    by (replace (1 / (1 * S) * (1 / (1 * S))) with (1 / (S * S)) by (field; lra); rewrite HS; field).
  intros H.
  set (T := sqrt ((1 + 0) * (1 + 0) - 3 / 5 * (3 / 5) - 16 / 41)) in *.
  assert (HT : T * T = (1 + 0) * (1 + 0) - 3 / 5 * (3 / 5) - 16 / 41) by (apply sqrt_sqrt; lra).
  assert (0 < T) by (apply sqrt_lt_R0; lra).
  assert (E1 : 1 = S * T).
  { replace (S * T) with (S * T * (1 / (1 * S) * (1 / T))) by (rewrite H; ring). field. lra. }
  assert (E2 : 1 = (S * S) * (T * T)) by (replace (S * S * (T * T)) with (S * T * (S * T)) by ring; rewrite <- E1; ring).
  rewrite HS, HT in E2. lra.
Qed.
