From Coq Require Import Reals ZArith List Bool Lra Lia.
From Verif.Model Require Import Maps Curved Magnet.
From Verif.Spec Require Import Frames Magnets Symplectic.
From Verif.Proofs Require Import Symplectic SympMagnet.
Import ListNotations.
Local Open Scope R_scope.

(** * Solenoid: a rotation by an angle which depends on the longitudinal momentum *)
Definition dsol (ks x0 y0 : R) (p : part) (u : vel) : R :=
  let sk := ks / 2 in
  let pk1 := p_px p + sk * (p_y p - y0) in let pk2 := p_py p - sk * (p_x p - x0) in
  (wE p / p_beta0 p * v_ptau u - pk1 * (v_px u + sk * v_y u) - pk2 * (v_py u - sk * v_x u))
  / sqrt (sol_pz2 ks x0 y0 p).
Definition J_sol (L ks x0 y0 : R) (p : part) (u : vel) : vel :=
  let sk := ks / 2 in let z := sqrt (sol_pz2 ks x0 y0 p) in
  let th := sk * L / z in let c := cos th in let s := sin th in
  let x := p_x p - x0 in let y := p_y p - y0 in let px := p_px p in let py := p_py p in
  let dth := - (sk * L) * dsol ks x0 y0 p u / (z * z) in
  let r0 := c * x + s * y in let r1 := c * px + s * py in
  let r2 := c * y - s * x in let r3 := c * py - s * px in
  let e0 := c * v_x u + s * v_y u + r2 * dth in let e1 := c * v_px u + s * v_py u + r3 * dth in
  let e2 := c * v_y u - s * v_x u - r0 * dth in let e3 := c * v_py u - s * v_px u - r1 * dth in
  mkVel (- s * dth * r0 + c * e0 + c * dth / sk * r1 + s / sk * e1)
        (- s * dth * r1 + c * e1 - sk * (c * dth * r0 + s * e0))
        (- s * dth * r2 + c * e2 + c * dth / sk * r3 + s / sk * e3)
        (- s * dth * r3 + c * e3 - sk * (c * dth * r2 + s * e2))
        (v_zeta u - L * (p_beta0 p * v_ptau u / z - wE p * dsol ks x0 y0 p u / (z * z)))
        (v_ptau u).
Lemma form_sol L ks x0 y0 p u v : ks <> 0 -> p_beta0 p <> 0 -> 0 < sol_pz2 ks x0 y0 p ->
  form (p_beta0 p) (J_sol L ks x0 y0 p u) (J_sol L ks x0 y0 p v) = form (p_beta0 p) u v.
Proof.
  intros Hk Hb Hp. apply sqrt_lt_R0 in Hp. unfold form, J_sol, dsol.
  cbn [v_x v_px v_y v_py v_zeta v_ptau].
  set (z := sqrt (sol_pz2 ks x0 y0 p)) in *. clearbody z.
  pose proof (sin2_cos2 (ks / 2 * L / z)) as E. unfold Rsqr in E.
  set (s := sin _) in *. set (c := cos _) in *. clearbody s c.
  assert (E' : c * c = 1 - s * s) by lra.
  generalize (wE p). intros w.
  generalize dependent (p_beta0 p). intros b Hb.
  generalize (p_x p - x0) (p_y p - y0) (p_px p) (p_py p). intros x y px py.
  field_simplify_eq [E']; [ring [E']|lra].
Qed.
Lemma symp_solenoid L ks x0 y0 p : kinematic p -> ~ Rabs (ks / 2) < / 1000000000 -> ~ Rabs L < / 1000000000 ->
  0 < sol_pz2 ks x0 y0 p -> symplectic (solenoid L ks x0 y0) p.
Proof.
  intros K Hk HL Hp. destruct (kin_pos p K) as (Hb & Hg & Hw & _). pose proof (kin_irvv p K) as Ev.
  assert (Hk0 : ks <> 0). { intros N. apply Hk. rewrite N. replace (0 / 2) with 0 by field. rewrite Rabs_R0. lra. }
  assert (T1 : IS_ZERO (ks / 2) = false). { unfold IS_ZERO. destruct (Rlt_dec _ _); [contradiction|reflexivity]. }
  assert (T2 : IS_ZERO L = false). { unfold IS_ZERO. destruct (Rlt_dec _ _); [contradiction|reflexivity]. }
  pose proof (sqrt_lt_R0 _ Hp) as Hz.
  apply (symp_keeps _ p (J_sol L ks x0 y0 p)).
  - intros q. unfold solenoid. rewrite T1, T2. repeat split; reflexivity.
  - reflexivity.
  - intros cu u F M. pose proof (fam_irvv cu p u F M) as Hv. pose proof (fam_delta cu p u F M) as Hd.
    pose proof (fam_0 cu p F) as E0. destruct M as (Mx & Mpx & My & Mpy & Mz & Mt).
    assert (HP : D (fun t => sqrt (sol_pz2 ks x0 y0 (cu t))) (dsol ks x0 y0 p u)).
    { unfold sol_pz2. cbv zeta. eapply D_conv; [dv|]; rewrite ?E0; fold (sol_pz2 ks x0 y0 p); [exact Hp|].
      unfold dsol, gP in *. field. lra. }
    apply (D_coords _ (fun q => let sk := ks / 2 in let z := sqrt (sol_pz2 ks x0 y0 q) in
      let th := sk * L / z in let c := cos th in let s := sin th in
      let x := p_x q - x0 in let y := p_y q - y0 in let px := p_px q in let py := p_py q in
      set_zeta (p_zeta q + L * (1 - (1 + p_delta q) / z * (1 / p_rvv q)))
      (set_py (c * (c * py - s * px) - sk * s * (c * y - s * x))
      (set_y (c * (c * y - s * x) + s / sk * (c * py - s * px) + y0)
      (set_px (c * (c * px + s * py) - sk * s * (c * x + s * y))
      (set_x (c * (c * x + s * y) + s / sk * (c * px + s * py) + x0) q)))))).
    { intros q. unfold solenoid. rewrite T1, T2. repeat split; try reflexivity.
      cbv zeta. cbn [p_zeta set_ay set_ax add_s set_s add_zeta set_zeta set_py set_y set_px set_x].
      fold (sol_pz2 ks x0 y0 q). unfold Rdiv. rewrite Rinv_mult. ring. }
    cbv zeta. cbn [v_x v_px v_y v_py v_zeta set_x set_y set_px set_py set_zeta p_x p_px p_y p_py p_zeta].
    unfold J_sol. cbn [v_x v_px v_y v_py v_zeta].
    set (z := sqrt (sol_pz2 ks x0 y0 p)) in *.
    assert (Dth : D (fun t => ks / 2 * L / sqrt (sol_pz2 ks x0 y0 (cu t))) (- (ks / 2 * L) * dsol ks x0 y0 p u / (z * z))).
    { eapply D_conv; [dv|]; rewrite ?E0; fold z; [lra|]. field. lra. }
    pose proof (D_cos _ _ Dth) as Dc. pose proof (D_sin _ _ Dth) as Dsn. cbv beta in Dc, Dsn. rewrite E0 in Dc, Dsn.
    fold z in Dc, Dsn.
    repeat split; (eapply D_conv; [dv|]); rewrite ?E0, ?Ev; fold z; try lra; unfold gP, wE in *; field; lra.
  - intros u v. apply form_sol; [exact Hk0|lra|exact Hp].
Qed.
