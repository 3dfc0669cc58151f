From Coq Require Import Reals ZArith List Bool Lra Lia.
From Verif.Model Require Import Maps Curved Magnet.
From Verif.Spec Require Import Frames Magnets Symplectic.
From Verif.Proofs Require Import Symplectic SympMagnet SympBend.
Import ListNotations.
Local Open Scope R_scope.

(** * The linear map of a bend with a quadrupole, plane by plane *)
Section Plane.
Variable L : R.
Variable flat : bool.
Definition pl_A (x k0 h K : R) : R := - K * x - k0 + h.
Definition pl_x (x xp k0 h K C S : R) : R :=
  if flat then x * C + xp * S - (k0 - h) * (1 / 2) * (L * L) else x * C + xp * S + (k0 - h) * (C - 1) / K.
Definition pl_p (x xp k0 h K C S : R) : R := pl_A x k0 h K * S + xp * C.
Definition pl_l (x xp k0 h K C S : R) : R :=
  let A := pl_A x k0 h K in let B := xp in
  if flat then h * L * (3 * L * xp + 6 * x - (k0 - h) * (L * L)) / 6 + 1 / 2 * (B * B) * L
  else - (h * ((C - 1) * xp + S * A + L * (k0 - h))) / K
       + 1 / 2 * (- (A * A * C * S) / (2 * K) + B * B * C * S / 2 + A * A * L / (2 * K)
                 + B * B * L / 2 - A * B * (C * C) / K + A * B / K).

(** Derivatives: [r] is the relative change of the momentum *)
Definition dC (K S r : R) : R := L * S * K / 2 * r.
Definition dS (C S r : R) : R := - (L * C - S) / 2 * r.
Definition dA (x k0 K a r : R) : R := K * r * x - K * a + k0 * r.
Definition dpl_x (x xp k0 h K C S a e r : R) : R :=
  a * C + x * dC K S r + (e * S + xp * dS C S r)
  + (if flat then k0 * r * (1 / 2) * (L * L) else - h * r * (C - 1) / K + (k0 - h) * dC K S r / K).
Definition dpl_p (x xp k0 h K C S a e r : R) : R :=
  dA x k0 K a r * S + pl_A x k0 h K * dS C S r + (e * C + xp * dC K S r).
Definition dpl_l (x xp k0 h K C S a e r : R) : R :=
  let A := pl_A x k0 h K in let B := xp in
  let c := dC K S r in let s := dS C S r in let d := dA x k0 K a r in
  if flat then h * L * (3 * L * e + 6 * a + k0 * r * (L * L)) / 6 + B * e * L
  else - (h * (c * xp + (C - 1) * e + s * A + S * d - L * k0 * r)) / K
       - (h * ((C - 1) * xp + S * A + L * (k0 - h))) / K * r
       + 1 / 2 * (- (2 * A * d * C * S + A * A * c * S + A * A * C * s) / (2 * K) - A * A * C * S / (2 * K) * r
                  + (2 * B * e * C * S + B * B * c * S + B * B * C * s) / 2
                  + 2 * A * d * L / (2 * K) + A * A * L / (2 * K) * r + B * e * L
                  - (d * B * (C * C) + A * e * (C * C) + A * B * (2 * C * c)) / K - A * B * (C * C) / K * r
                  + (d * B + A * e) / K + A * B / K * r).
End Plane.

Lemma plane_D L flat h x xp k0 K C S a e r :
  D x a -> D xp e -> D k0 (- k0 0 * r) -> D K (- K 0 * r) -> D C (dC L (K 0) (S 0) r) -> D S (dS L (C 0) (S 0) r) ->
  (flat = false -> K 0 <> 0) ->
  D (fun t => pl_x L flat (x t) (xp t) (k0 t) h (K t) (C t) (S t))
    (dpl_x L flat (x 0) (xp 0) (k0 0) h (K 0) (C 0) (S 0) a e r) /\
  D (fun t => pl_p (x t) (xp t) (k0 t) h (K t) (C t) (S t))
    (dpl_p L (x 0) (xp 0) (k0 0) h (K 0) (C 0) (S 0) a e r) /\
  D (fun t => pl_l L flat (x t) (xp t) (k0 t) h (K t) (C t) (S t))
    (dpl_l L flat (x 0) (xp 0) (k0 0) h (K 0) (C 0) (S 0) a e r).
Proof.
  intros Dx De Dk DK DC' DS' HK.
  unfold pl_x, pl_p, pl_l, dpl_x, dpl_p, dpl_l, pl_A, dA. cbv zeta.
  destruct flat.
  - repeat split; (eapply D_conv; [dv|]); cbv beta; try lra; field.
  - specialize (HK eq_refl). repeat split; (eapply D_conv; [dv|]); cbv beta; try assumption; try lra; field; auto.
Qed.

Lemma plane_form L (flat : bool) g x xp k0 h K C S a1 q1 e1 a2 q2 e2 :
  g <> 0 -> C * C = 1 - K * (S * S) ->
  (if flat then K = 0 /\ C = 1 /\ S = L /\ k0 = h else K <> 0) ->
  let d (a q e : R) := dpl_x L flat x xp k0 h K C S a (q / g - xp * (e / g)) (e / g) in
  let p (a q e : R) := dpl_p L x xp k0 h K C S a (q / g - xp * (e / g)) (e / g) * g + pl_p x xp k0 h K C S * e in
  let l (a q e : R) := dpl_l L flat x xp k0 h K C S a (q / g - xp * (e / g)) (e / g) in
  d a1 q1 e1 * p a2 q2 e2 - p a1 q1 e1 * d a2 q2 e2 - (l a1 q1 e1 * e2 - e1 * l a2 q2 e2) = a1 * q2 - q1 * a2.
Proof.
  intros Hg E H. cbv zeta. unfold dpl_x, dpl_p, dpl_l, pl_p, dA, dC, dS, pl_A. destruct flat.
  - destruct H as (-> & -> & -> & ->). field. exact Hg.
  - field_simplify_eq [E]; [ring [E]|auto].
Qed.

(** * The functions C and S *)
Lemma D_cosh f a : D f a -> D (fun t => cosh (f t)) (sinh (f 0) * a).
Proof. intros Hf. exact (D_comp f cosh _ _ Hf (derivable_pt_lim_cosh _)). Qed.
Lemma D_sinh f a : D f a -> D (fun t => sinh (f t)) (cosh (f 0) * a).
Proof. intros Hf. exact (D_comp f sinh _ _ Hf (derivable_pt_lim_sinh _)). Qed.
Lemma cs_square K L : cfun K L * cfun K L = 1 - K * (sfun K L * sfun K L).
Proof.
  unfold cfun, sfun. destruct (Rlt_dec 0 K) as [H|H].
  - pose proof (sin2_cos2 (sqrt K * L)) as E. unfold Rsqr in E. pose proof (sqrt_lt_R0 _ H) as Hs.
    assert (EK : K = sqrt K * sqrt K) by (rewrite sqrt_sqrt; lra).
    set (w := sqrt K) in *. clearbody w. rewrite EK.
    replace (w * w * (sin (w * L) / w * (sin (w * L) / w))) with (sin (w * L) * sin (w * L)) by (field; lra). lra.
  - destruct (Rlt_dec K 0) as [H'|H'].
    + assert (Hn : 0 < - K) by lra. pose proof (sqrt_lt_R0 _ Hn) as Hs.
      assert (EK : K = - (sqrt (- K) * sqrt (- K))) by (rewrite sqrt_sqrt; lra).
      set (w := sqrt (- K)) in *. clearbody w. rewrite EK.
      replace (- (w * w) * (sinh (w * L) / w * (sinh (w * L) / w))) with (- (sinh (w * L) * sinh (w * L))) by (field; lra).
      unfold cosh, sinh. pose proof (exp_plus (w * L) (- (w * L))) as X. rewrite Rplus_opp_r, exp_0 in X.
      set (e1 := exp (w * L)) in *. set (e2 := exp (- (w * L))) in *. replace 1 with (e1 * e2) by (symmetry; exact X). field.
    + assert (K = 0) as -> by lra. ring.
Qed.
Lemma D_cfun L K r : D K (- K 0 * r) -> K 0 <> 0 ->
  D (fun t => cfun (K t) L) (dC L (K 0) (sfun (K 0) L) r) /\
  D (fun t => sfun (K t) L) (dS L (cfun (K 0) L) (sfun (K 0) L) r).
Proof.
  intros HK H0. destruct (Rlt_dec 0 (K 0)) as [H|H].
  - pose proof (sqrt_lt_R0 _ H) as Hs.
    assert (N : near (fun t => 0 < K t)) by (eapply D_pos; eauto).
    assert (Dw : D (fun t => sqrt (K t)) (- sqrt (K 0) * r / 2)).
    { eapply D_conv; [dv|]; cbv beta; [exact H|]. assert (Ek : K 0 = sqrt (K 0) * sqrt (K 0)) by (rewrite sqrt_sqrt; lra). set (w := sqrt (K 0)) in *. clearbody w. rewrite Ek. field. lra. }
    assert (Ek : K 0 = sqrt (K 0) * sqrt (K 0)) by (rewrite sqrt_sqrt; lra).
    assert (C0 : cfun (K 0) L = cos (sqrt (K 0) * L)) by (unfold cfun; destruct (Rlt_dec 0 (K 0)); [reflexivity|contradiction]).
    assert (S0 : sfun (K 0) L = sin (sqrt (K 0) * L) / sqrt (K 0)) by (unfold sfun; destruct (Rlt_dec 0 (K 0)); [reflexivity|contradiction]).
    rewrite C0, S0. unfold dC, dS. split.
    + apply (D_near (fun t => cos (sqrt (K t) * L))).
      { apply (near_weak _ _) with (2 := N). intros t Ht. unfold cfun. destruct (Rlt_dec 0 (K t)); [reflexivity|contradiction]. }
      eapply D_conv; [dv|]. cbv beta. set (w := sqrt (K 0)) in *. clearbody w. rewrite Ek. field. lra.
    + apply (D_near (fun t => sin (sqrt (K t) * L) / sqrt (K t))).
      { apply (near_weak _ _) with (2 := N). intros t Ht. unfold sfun. destruct (Rlt_dec 0 (K t)); [reflexivity|contradiction]. }
      eapply D_conv; [dv|]; cbv beta; [lra|]. field. lra.
  - assert (H' : 0 < - K 0) by (destruct (Rtotal_order (K 0) 0) as [X|[X|X]]; lra).
    pose proof (sqrt_lt_R0 _ H') as Hs.
    assert (DK' : D (fun t => - K t) (K 0 * r)) by (eapply D_conv; [dv|]; ring).
    assert (N : near (fun t => 0 < - K t)) by (exact (D_pos _ _ DK' H')).
    assert (Ek : K 0 = - (sqrt (- K 0) * sqrt (- K 0))) by (rewrite sqrt_sqrt; lra).
    assert (Dw : D (fun t => sqrt (- K t)) (- sqrt (- K 0) * r / 2)).
    { eapply D_conv; [dv|]; cbv beta; [exact H'|]. set (w := sqrt (- K 0)) in *. clearbody w. rewrite Ek. field. lra. }
    assert (Br : forall k, 0 < - k -> cfun k L = cosh (sqrt (- k) * L) /\ sfun k L = sinh (sqrt (- k) * L) / sqrt (- k)).
    { intros k Hk. unfold cfun, sfun. destruct (Rlt_dec 0 k); [lra|]. destruct (Rlt_dec k 0); [auto|lra]. }
    destruct (Br _ H') as [C0 S0]. rewrite C0, S0. unfold dC, dS. split.
    + apply (D_near (fun t => cosh (sqrt (- K t) * L))).
      { apply (near_weak _ _) with (2 := N). intros t Ht. symmetry. now apply Br. }
      eapply D_conv; [apply D_cosh; dv|]. cbv beta. set (w := sqrt (- K 0)) in *. clearbody w. rewrite Ek. field. lra.
    + apply (D_near (fun t => sinh (sqrt (- K t) * L) / sqrt (- K t))).
      { apply (near_weak _ _) with (2 := N). intros t Ht. symmetry. now apply Br. }
      eapply D_conv; [apply D_div; [apply D_sinh; dv|dv|]|]; cbv beta; [lra|]. field. lra.
Qed.

(** * The whole map *)
Lemma symp_combined L k0_ k1_ h p : kinematic p -> combined_ok k0_ k1_ h p ->
  symplectic (combined_dipole_quad L k0_ k1_ h) p.
Proof.
  intros K [_ Hc]. destruct (kin_pos p K) as (Hb & Hg & Hw & _). pose proof (kin_irvv p K) as Ev.
  set (ch := p_chi p) in *.
  set (k0 := fun q : part => ch * k0_ / (p_delta q + 1)).
  set (k1 := fun q : part => ch * k1_ / (p_delta q + 1)).
  set (Kx := fun q => k0 q * h + k1 q).
  set (Ky := fun q => - k1 q).
  set (fx := is0 (ch * (k0_ * h + k1_))). set (fy := is0 (ch * k1_)).
  set (xp := fun q => p_px q / (p_delta q + 1)). set (yp := fun q => p_py q / (p_delta q + 1)).
  set (Cx := fun q => cfun (Kx q) L). set (Sx := fun q => sfun (Kx q) L).
  set (Cy := fun q => cfun (Ky q) L). set (Sy := fun q => sfun (Ky q) L).
  set (g := fun q : part =>
     add_s L (add_zeta (L - (L + pl_l L fx (p_x q) (xp q) (k0 q) h (Kx q) (Cx q) (Sx q)
                               + pl_l L fy (p_y q) (yp q) 0 0 (Ky q) (Cy q) (Sy q)) * (1 / p_rvv q))
       (set_py (pl_p (p_y q) (yp q) 0 0 (Ky q) (Cy q) (Sy q) * (p_delta q + 1))
       (set_y (pl_x L fy (p_y q) (yp q) 0 0 (Ky q) (Cy q) (Sy q))
       (set_px (pl_p (p_x q) (xp q) (k0 q) h (Kx q) (Cx q) (Sx q) * (p_delta q + 1))
       (set_x (pl_x L fx (p_x q) (xp q) (k0 q) h (Kx q) (Cx q) (Sx q)) q)))))).
  assert (Fx : forall q, kinematic q -> is0 (Kx q) = fx).
  { intros q (_ & Hq & _). unfold fx, Kx, k0, k1, is0.
    replace (ch * k0_ / (p_delta q + 1) * h + ch * k1_ / (p_delta q + 1))
      with (ch * (k0_ * h + k1_) / (p_delta q + 1)) by (field; lra).
    destruct (Req_EM_T (ch * (k0_ * h + k1_)) 0) as [E|E].
    - rewrite E. destruct (Req_EM_T _ 0) as [_|N]; [reflexivity|]. exfalso. apply N. unfold Rdiv. ring.
    - destruct (Req_EM_T _ 0) as [N|_]; [|reflexivity]. exfalso. apply E.
      apply (Rmult_eq_reg_r (/ (p_delta q + 1))); [|apply Rinv_neq_0_compat; lra]. rewrite Rmult_0_l. exact N. }
  assert (Fy : forall q, kinematic q -> is0 (Ky q) = fy).
  { intros q (_ & Hq & _). unfold fy, Ky, k1, is0.
    destruct (Req_EM_T (ch * k1_) 0) as [E|E].
    - rewrite E. destruct (Req_EM_T _ 0) as [_|N]; [reflexivity|]. exfalso. apply N. unfold Rdiv. ring.
    - destruct (Req_EM_T _ 0) as [N|_]; [|reflexivity]. exfalso. apply E.
      apply (Rmult_eq_reg_r (/ (p_delta q + 1))); [|apply Rinv_neq_0_compat; lra]. rewrite Rmult_0_l.
      apply Ropp_eq_0_compat in N. rewrite Ropp_involutive in N. exact N. }
  assert (Eg : forall q, kinematic q -> p_chi q = ch -> g q = combined_dipole_quad L k0_ k1_ h q).
  { intros q Kq Hq. unfold combined_dipole_quad. cbv zeta. rewrite Hq.
    change (ch * k0_ / (p_delta q + 1)) with (k0 q). change (ch * k1_ / (p_delta q + 1)) with (k1 q).
    fold (Kx q) (Ky q). fold (xp q) (yp q). fold (Cx q) (Sx q) (Cy q) (Sy q). rewrite (Fx q Kq), (Fy q Kq).
    unfold g, pl_x, pl_p, pl_l, pl_A. cbv zeta.
    cbv [add_s add_zeta set_s set_zeta set_py set_y set_px set_x p_x p_px p_y p_py p_zeta p_s p_delta p_ptau p_rpp
      p_rvv p_chi p_beta0 p_ax p_ay p_spin_x p_spin_y p_spin_z].
    fold (p_x q) (p_y q) (p_rvv q) (p_delta q) (p_zeta q) (p_s q).
    f_equal; destruct fx, fy; unfold Rdiv; ring. }
  assert (NE : forall cu u, family cu p -> moves cu u -> near (fun t => g (cu t) = combined_dipole_quad L k0_ k1_ h (cu t))).
  { intros cu u F M. apply (near_weak _ _) with (2 := fam_near cu p F). intros t (A & B & C). now apply Eg. }
  apply (symp_near _ g p K NE). clear NE Eg.
  set (r := fun u => dg p u / gP p).
  set (e := fun q dq (u : vel) => dq / gP p - q * r u).
  assert (X0 : Kx p = ch * (k0_ * h + k1_) / gP p).
  { unfold Kx, k0, k1, gP in *. field. lra. }
  assert (Nx : fx = false -> Kx p <> 0).
  { intros E N. rewrite <- (Fx p K) in E. unfold is0 in E. destruct (Req_EM_T (Kx p) 0); [discriminate|contradiction]. }
  assert (Ny : fy = false -> Ky p <> 0).
  { intros E N. rewrite <- (Fy p K) in E. unfold is0 in E. destruct (Req_EM_T (Ky p) 0); [discriminate|contradiction]. }
  assert (Tx : fx = true -> Kx p = 0).
  { intros E. rewrite <- (Fx p K) in E. unfold is0 in E. destruct (Req_EM_T (Kx p) 0); [assumption|discriminate]. }
  assert (Ty : fy = true -> Ky p = 0).
  { intros E. rewrite <- (Fy p K) in E. unfold is0 in E. destruct (Req_EM_T (Ky p) 0); [assumption|discriminate]. }
  set (lx := fun u => dpl_l L fx (p_x p) (xp p) (k0 p) h (Kx p) (Cx p) (Sx p) (v_x u) (e (xp p) (v_px u) u) (r u)).
  set (ly := fun u => dpl_l L fy (p_y p) (yp p) 0 0 (Ky p) (Cy p) (Sy p) (v_y u) (e (yp p) (v_py u) u) (r u)).
  set (len := L + pl_l L fx (p_x p) (xp p) (k0 p) h (Kx p) (Cx p) (Sx p)
                + pl_l L fy (p_y p) (yp p) 0 0 (Ky p) (Cy p) (Sy p)).
  set (PX := pl_p (p_x p) (xp p) (k0 p) h (Kx p) (Cx p) (Sx p)).
  set (PY := pl_p (p_y p) (yp p) 0 0 (Ky p) (Cy p) (Sy p)).
  apply (symp_keeps _ p (fun u => mkVel
     (dpl_x L fx (p_x p) (xp p) (k0 p) h (Kx p) (Cx p) (Sx p) (v_x u) (e (xp p) (v_px u) u) (r u))
     (dpl_p L (p_x p) (xp p) (k0 p) h (Kx p) (Cx p) (Sx p) (v_x u) (e (xp p) (v_px u) u) (r u) * gP p + PX * dg p u)
     (dpl_x L fy (p_y p) (yp p) 0 0 (Ky p) (Cy p) (Sy p) (v_y u) (e (yp p) (v_py u) u) (r u))
     (dpl_p L (p_y p) (yp p) 0 0 (Ky p) (Cy p) (Sy p) (v_y u) (e (yp p) (v_py u) u) (r u) * gP p + PY * dg p u)
     (v_zeta u - ((lx u + ly u) * (wE p / gP p) + len * dv p u)) (v_ptau u))).
  - intros q. repeat split; reflexivity.
  - reflexivity.
  - intros cu u F M. pose proof (fam_irvv cu p u F M) as Hv. pose proof (fam_delta cu p u F M) as Hd.
    change (D (fun t => p_delta (cu t)) (dg p u)) in Hd.
    pose proof (fam_0 cu p F) as E0. destruct M as (Mx & Mpx & My & Mpy & Mz & Mt).
    assert (Dk0 : D (fun t => k0 (cu t)) (- k0 p * r u)).
    { unfold k0. eapply D_conv; [dv|]; cbv beta; rewrite ?E0; unfold r, gP in *; [lra|]. field. lra. }
    assert (DKx : D (fun t => Kx (cu t)) (- Kx p * r u)).
    { unfold Kx, k0, k1. eapply D_conv; [dv|]; cbv beta; rewrite ?E0; unfold r, gP in *; try lra. unfold k0; field. lra. }
    assert (DKy : D (fun t => Ky (cu t)) (- Ky p * r u)).
    { unfold Ky, k1. eapply D_conv; [dv|]; cbv beta; rewrite ?E0; unfold r, gP in *; [lra|]. field. lra. }
    assert (Dxp : D (fun t => xp (cu t)) (e (xp p) (v_px u) u)).
    { unfold xp, e. eapply D_conv; [dv|]; cbv beta; rewrite ?E0; unfold r, gP in *; [lra|]. field. lra. }
    assert (Dyp : D (fun t => yp (cu t)) (e (yp p) (v_py u) u)).
    { unfold yp, e. eapply D_conv; [dv|]; cbv beta; rewrite ?E0; unfold r, gP in *; [lra|]. field. lra. }
    assert (Z : forall Kf : part -> R, D (fun t => Kf (cu t)) (- Kf p * r u) ->
       (Kf p = 0 -> near (fun t => Kf (cu t) = 0)) ->
       D (fun t => cfun (Kf (cu t)) L) (dC L (Kf p) (sfun (Kf p) L) (r u)) /\
       D (fun t => sfun (Kf (cu t)) L) (dS L (cfun (Kf p) L) (sfun (Kf p) L) (r u))).
    { intros Kf DK HN. destruct (Req_EM_T (Kf p) 0) as [N|N].
      - assert (C00 : cfun 0 L = 1). { unfold cfun. destruct (Rlt_dec 0 0); [lra|]. reflexivity. }
        assert (S00 : sfun 0 L = L). { unfold sfun. destruct (Rlt_dec 0 0); [lra|]. reflexivity. }
        specialize (HN N). rewrite N, C00, S00. unfold dC, dS. split.
        + apply (D_near (fun _ => 1)). { apply (near_weak _ _) with (2 := HN). intros t ->. now rewrite C00. }
          eapply D_conv; [dv|]. field.
        + apply (D_near (fun _ => L)). { apply (near_weak _ _) with (2 := HN). intros t ->. now rewrite S00. }
          eapply D_conv; [dv|]. field.
      - pose proof (D_cfun L (fun t => Kf (cu t)) (r u)) as Q. cbv beta in Q. rewrite E0 in Q. now apply Q. }
    assert (NKx : Kx p = 0 -> near (fun t => Kx (cu t) = 0)).
    { intros N. apply (near_weak _ _) with (2 := fam_near cu p F). intros t (A & B & C).
      assert (fx = true). { destruct fx eqn:Q; [reflexivity|]. now destruct (Nx eq_refl). }
      pose proof (Fx (cu t) A) as Q. rewrite H in Q. unfold is0 in Q. destruct (Req_EM_T _ 0); [assumption|discriminate]. }
    assert (NKy : Ky p = 0 -> near (fun t => Ky (cu t) = 0)).
    { intros N. apply (near_weak _ _) with (2 := fam_near cu p F). intros t (A & B & C).
      assert (fy = true). { destruct fy eqn:Q; [reflexivity|]. now destruct (Ny eq_refl). }
      pose proof (Fy (cu t) A) as Q. rewrite H in Q. unfold is0 in Q. destruct (Req_EM_T _ 0); [assumption|discriminate]. }
    destruct (Z Kx DKx NKx) as [DCx DSx]. destruct (Z Ky DKy NKy) as [DCy DSy].
    pose proof (plane_D L fx h (fun t => p_x (cu t)) (fun t => xp (cu t)) (fun t => k0 (cu t)) (fun t => Kx (cu t))
      (fun t => Cx (cu t)) (fun t => Sx (cu t)) (v_x u) (e (xp p) (v_px u) u) (r u)) as PXD.
    cbv beta in PXD. rewrite E0 in PXD.
    specialize (PXD Mx Dxp Dk0 DKx DCx DSx Nx). destruct PXD as (X1 & X2 & X3).
    pose proof (plane_D L fy 0 (fun t => p_y (cu t)) (fun t => yp (cu t)) (fun t => 0) (fun t => Ky (cu t))
      (fun t => Cy (cu t)) (fun t => Sy (cu t)) (v_y u) (e (yp p) (v_py u) u) (r u)) as PYD.
    cbv beta in PYD. rewrite E0 in PYD.
    assert (D00 : D (fun _ : R => 0) (- 0 * r u)). { eapply D_conv; [dv|]. ring. }
    specialize (PYD My Dyp D00 DKy DCy DSy Ny). destruct PYD as (Y1 & Y2 & Y3).
    unfold g. cbn [v_x v_px v_y v_py v_zeta add_s add_zeta set_s set_x set_y set_px set_py set_zeta p_x p_px p_y p_py p_zeta].
    change (D (fun t => 1 / p_rvv (cu t)) (dv p u)) in Hv.
    repeat split; [exact X1| |exact Y1| |]; (eapply D_conv; [dv|]); rewrite ?E0, ?Ev; fold PX PY; unfold gP; try ring.
    fold (lx u) (ly u). fold len. unfold gP. ring.
  - intros u v. unfold form. cbn [v_x v_px v_y v_py v_zeta v_ptau].
    assert (PFx := plane_form L fx (gP p) (p_x p) (xp p) (k0 p) h (Kx p) (Cx p) (Sx p) (v_x u) (v_px u) (dg p u)
      (v_x v) (v_px v) (dg p v)). cbv zeta in PFx.
    assert (PFy := plane_form L fy (gP p) (p_y p) (yp p) 0 0 (Ky p) (Cy p) (Sy p) (v_y u) (v_py u) (dg p u)
      (v_y v) (v_py v) (dg p v)). cbv zeta in PFy.
    specialize (PFx (Rgt_not_eq _ _ Hg) (cs_square (Kx p) L)). specialize (PFy (Rgt_not_eq _ _ Hg) (cs_square (Ky p) L)).
    assert (Zf : forall k, k = 0 -> cfun k L = 1 /\ sfun k L = L).
    { intros k ->. unfold cfun, sfun. destruct (Rlt_dec 0 0); [lra|]. auto. }
    lapply PFx; clear PFx; [intros PFx|].
    2:{ destruct fx eqn:Q; [|now apply Nx]. destruct (Zf _ (Tx eq_refl)) as [A B]. refine (conj (Tx eq_refl) (conj A (conj B _))).
        unfold k0, gP in *. apply (Rmult_eq_reg_r (p_delta p + 1)); [|lra]. unfold fx, is0 in Q.
        destruct (Req_EM_T (ch * (k0_ * h + k1_)) 0) as [Q'|]; [|discriminate].
        destruct Hc as [Hc|Hc]; [contradiction|].
        replace (ch * k0_ / (p_delta p + 1) * (p_delta p + 1)) with (ch * k0_) by (field; lra). lra. }
    lapply PFy; clear PFy; [intros PFy|].
    2:{ destruct fy eqn:Q; [|now apply Ny]. destruct (Zf _ (Ty eq_refl)) as [A B]. refine (conj (Ty eq_refl) (conj A (conj B eq_refl))). }
    change (v_px u / gP p - xp p * (dg p u / gP p)) with (e (xp p) (v_px u) u) in PFx.
    change (v_px v / gP p - xp p * (dg p v / gP p)) with (e (xp p) (v_px v) v) in PFx.
    change (v_py u / gP p - yp p * (dg p u / gP p)) with (e (yp p) (v_py u) u) in PFy.
    change (v_py v / gP p - yp p * (dg p v / gP p)) with (e (yp p) (v_py v) v) in PFy.
    change (dg p u / gP p) with (r u) in PFx, PFy. change (dg p v / gP p) with (r v) in PFx, PFy.
    fold (lx u) (lx v) in PFx. fold (ly u) (ly v) in PFy. fold PX in PFx. fold PY in PFy.
    assert (Q : forall a b, v_zeta u * (v_ptau v / p_beta0 p) - v_ptau u / p_beta0 p * v_zeta v
        - (a * dg p v - dg p u * b)
        = (v_zeta u - (a * (wE p / gP p) + len * dv p u)) * (v_ptau v / p_beta0 p)
          - v_ptau u / p_beta0 p * (v_zeta v - (b * (wE p / gP p) + len * dv p v))).
    { intros a b. unfold dg, dv. field. lra. }
    rewrite <- (Q (lx u + ly u) (lx v + ly v)). rewrite <- PFx, <- PFy. ring.
Qed.
