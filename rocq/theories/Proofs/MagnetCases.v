From Coq Require Import Reals ZArith Lra Lia List Bool.
From Verif.Model Require Import Maps Curved Magnet FeedDown.
From Verif.Spec Require Import Frames Magnets.
From Verif.Proofs Require Import Frames FrameMaps Magnet MagnetKick MagnetDrift MagnetBack MagnetSum ThinSlices.
Import ListNotations.
Local Open Scope R_scope.

Definition at_rest : part := mkPart 0 0 0 0 0 0 0 0 1 1 1 1 0 0 0 0 0.
Definition none : mult := mkMult 0 1 [0] [0].
Definition bend (length h k0 : R) (kicks model integrator : Z) : magnet :=
  mkMag length none None 0 kicks model 3 integrator 2 h 0 k0 0 0 0 0 0 0 0 0 0 0.

(** * A bend of nonzero field without curvature in the matrix model *)
Lemma flat_bend l p : p_delta p = 0 -> p_chi p = 1 -> p_rvv p = 1 -> p_y p = 0 -> p_py p = 0 ->
  let q := combined_dipole_quad l 1 0 0 p in
  p_px q = p_px p - l /\ p_zeta q = p_zeta p - 1 / 2 * (p_px p * p_px p) * l /\
  p_delta q = 0 /\ p_chi q = 1 /\ p_rvv q = 1 /\ p_y q = 0 /\ p_py q = 0.
Proof.
  intros Hd Hc Hr Hy Hpy. cbv zeta.
  pose proof (combined_eq l 1 0 0 p) as E. cbv zeta in E. rewrite E. clear E.
  unfold moved. pcbn. rewrite Hd, Hc, Hr, Hy, Hpy.
  replace (1 * 1 / (0 + 1) * 0 + 1 * 0 / (0 + 1)) with 0 by field.
  replace (- (1 * 0 / (0 + 1))) with 0 by field.
  assert (I : is0 0 = true) by (apply is0_true; reflexivity).
  assert (S0 : sfun 0 l = l) by (unfold sfun; destruct (Rlt_dec 0 0); [lra|reflexivity]).
  assert (C0 : cfun 0 l = 1) by (unfold cfun; destruct (Rlt_dec 0 0); [lra|reflexivity]).
  unfold end_x, end_a, path. cbv zeta. rewrite I.
  rewrite ?S0, ?C0.
  repeat split; field.
Qed.
Lemma at_rest_flat : p_delta at_rest = 0 /\ p_chi at_rest = 1 /\ p_rvv at_rest = 1 /\ p_y at_rest = 0 /\ p_py at_rest = 0.
Proof. repeat split. Qed.

Lemma inert k p : kp_rot k = false -> kp_rel k = None -> kp_mult k = none -> kp_h k = 0 -> kp_hxl k = 0 ->
  kp_k0 k = 0 -> kp_k1 k = 0 -> kp_k2 k = 0 -> kp_k3 k = 0 ->
  kp_k0s k = 0 -> kp_k1s k = 0 -> kp_k2s k = 0 -> kp_k3s k = 0 -> forall w, magnet_kick k w p = p.
Proof.
  intros Hr Hrel Hm Hh Hx H0 H1 H2 H3 H4 H5 H6 H7 w. rewrite kick_eq.
  assert (Ht : htot k = 0) by (unfold htot; rewrite Hh, Hx; destruct (is0 _); unfold Rdiv; ring).
  assert (E0 : kc (p_x p) (p_y p) (p_chi p) (kp_mult k) (kp_factor k) = (0, 0)).
  { rewrite Hm. unfold kc, kick_coordinates, none. cbn [mu_order mu_inv mu_knl mu_ksl nth kick_loop]. f_equal; ring. }
  assert (E1 : kc (p_x p) (p_y p) (p_chi p) (mainm k) 1 = (0, 0)).
  { unfold kc, kick_coordinates, mainm. rewrite H0, H1, H2, H3, H4, H5, H6, H7.
    cbn [mu_order mu_inv mu_knl mu_ksl nth kick_loop]. f_equal; ring. }
  unfold FX, FY, FZ, relx, rely. rewrite Ht, E0, E1, Hr, Hrel. cbn [fst snd].
  transitivity (kicked 0 0 0 p); [f_equal; ring|apply kicked_0].
Qed.

Lemma one_kick g : mg_kicks g = 1%Z -> forall L, used_kicks g 1 L = 1%Z.
Proof.
  intros H L. unfold used_kicks. rewrite H.
  destruct (Req_EM_T 1 1); [|congruence]. cbn [negb andb].
  destruct (Z.eqb (used_model g) (-1)); reflexivity.
Qed.

Lemma flat_bend_lost :
  let g := bend 1 0 1 1 4 3 in
  p_zeta (track_magnet true 1 g (track_magnet false 1 g at_rest)) = 1 / 4 /\ p_zeta at_rest = 0.
Proof.
  cbv zeta. set (g := bend 1 0 1 1 4 3). split; [|reflexivity].
  rewrite track_bwd, track_fwd, (one_kick g eq_refl).
  assert (Ho : fwd_only_drift 1 g = false) by (unfold fwd_only_drift; rewrite (one_kick g eq_refl); reflexivity).
  rewrite Ho. change (used_integrator g) with 3%Z.
  unfold body. cbn [Z.eqb Pos.eqb]. unfold uniform.
  change (Z.to_nat 1) with 1%nat. cbn [times].
  assert (Hk : forall w p, magnet_kick (fwd_kick 1 g) w p = p).
  { intros w p. apply inert; reflexivity. }
  assert (Hk' : forall w p, magnet_kick (scale (-1) (fwd_kick 1 g)) w p = p).
  { intros w p. apply inert; try reflexivity. unfold scale. cbn [kp_hxl]. change (kp_hxl (fwd_kick 1 g)) with 0. ring. }
  rewrite Hk, Hk'.
  assert (Hd : forall l p, l <> 0 -> magnet_drift (fwd_drift g) l p = combined_dipole_quad l 1 0 0 p).
  { intros l p Hl. unfold magnet_drift. change (dp_model (fwd_drift g)) with 3%Z. cbn [Z.eqb Pos.eqb].
    unfold is0. destruct (Req_EM_T l 0); [tauto|]. reflexivity. }
  change (mg_length g) with 1.
  rewrite !Hd by lra.
  set (p0 := at_rest).
  assert (F0 : p_delta p0 = 0 /\ p_chi p0 = 1 /\ p_rvv p0 = 1 /\ p_y p0 = 0 /\ p_py p0 = 0) by (repeat split).
  assert (X0 : p_px p0 = 0) by reflexivity. assert (Z0 : p_zeta p0 = 0) by reflexivity.
  clearbody p0.
  set (l := 1 / 2 * (1 / 1) * (1 * 1)). assert (El : l = 1 / 2) by (unfold l; field).
  set (m := 1 / 2 * (1 / 1) * - (1 * 1)). assert (Em : m = - (1 / 2)) by (unfold m; field).
  destruct F0 as (A & B & C & D & E).
  destruct (flat_bend l p0 A B C D E) as (X1 & Z1 & A1 & B1 & C1 & D1 & E1). 
  set (p1 := combined_dipole_quad l 1 0 0 p0) in *. clearbody p1.
  destruct (flat_bend l p1 A1 B1 C1 D1 E1) as (X2 & Z2 & A2 & B2 & C2 & D2 & E2). 
  set (p2 := combined_dipole_quad l 1 0 0 p1) in *. clearbody p2.
  destruct (flat_bend m p2 A2 B2 C2 D2 E2) as (X3 & Z3 & A3 & B3 & C3 & D3 & E3). 
  set (p3 := combined_dipole_quad m 1 0 0 p2) in *. clearbody p3.
  destruct (flat_bend m p3 A3 B3 C3 D3 E3) as (X4 & Z4 & _). 
  rewrite Z4, Z3, Z2, Z1, X3, X2, X1, X0, Z0, El, Em. field.
Qed.

(** * The reference particle passes through a bend whose field matches its curvature *)
Definition on_axis (p : part) : Prop :=
  p_x p = 0 /\ p_px p = 0 /\ p_y p = 0 /\ p_py p = 0 /\ p_delta p = 0 /\ p_chi p = 1.
Lemma all_ok_inv {A} (drift kick : R -> A -> A) (ok : R -> A -> Prop) (inv : A -> Prop) ops a :
  (forall l a, inv a -> ok l a /\ inv (drift l a)) -> (forall w a, inv a -> inv (kick w a)) ->
  inv a -> all_ok drift kick ok ops a.
Proof.
  intros Hd Hk. revert a. induction ops as [|o t IH]; intros a Ha; cbn; [exact I|].
  destruct o; cbn; (split; [try exact I; now apply Hd|]); apply IH; [now apply Hd|now apply Hk].
Qed.
Lemma axis_pz2 p : on_axis p -> pz2 p = 1.
Proof. intros (A & B & C & D & E & F). unfold pz2. rewrite B, D, E. ring. Qed.
Lemma axis_bend h l p : h <> 0 -> on_axis p -> / 100000000 <= Rabs h ->
  bend_ok h h l p /\ on_axis (curved_exact_bend l h h p).
Proof.
  intros Hh H Ht. pose proof (axis_pz2 p H) as P. destruct H as (A & B & C & D & E & F).
  assert (Q : bend_px h h l p = 0).
  { unfold bend_px. rewrite P, sqrt_1, A, B. field. exact Hh. }
  assert (Q2 : bend_pz2 h h l p = 1) by (unfold bend_pz2; rewrite Q, D, E; ring).
  split.
  - unfold bend_ok. rewrite P, Q2, Q, sqrt_1. repeat split; try exact Hh; lra.
  - unfold curved_exact_bend. rewrite F, Rmult_1_r, (proj2 (tiny_false h) Ht). cbv zeta.
    rewrite set_moved3'. unfold on_axis, moved. pcbn. rewrite A, B, C, D, E, F.
    replace ((0 + 1) * (0 + 1) - 0 * 0 - 0 * 0) with 1 by ring. rewrite sqrt_1.
    replace (1 - h * (1 / h + 0)) with 0 by (field; exact Hh).
    replace (0 * cos (h * l) + 0 * sin (h * l)) with 0 by ring.
    repeat split; try ring. unfold Rdiv. ring.
Qed.
Lemma reference_passes n : passes 1 (bend 2 (1 / 10) (1 / 10) n 2 1) at_rest.
Proof.
  set (g := bend 2 (1 / 10) (1 / 10) n 2 1).
  unfold passes, passes_body. rewrite body_run. apply watched. split; [exact I|].
  assert (Hb : Rabs (1 / 10) = 1 / 10) by (apply Rabs_pos_eq; lra).
  assert (T : tiny (1 / 10) = false) by (apply tiny_false; rewrite Hb; lra).
  assert (Ed : fwd_drift g = mkDp 4 (1 / 10) 0 0 (1 / 10) 0 0).
  { unfold fwd_drift. change (used_model g) with 2%Z. unfold drift_model_of. cbn [Z.eqb Pos.eqb].
    change (mg_h g) with (1 / 10). rewrite T. reflexivity. }
  assert (Ek : fwd_kick 1 g = mkKp (2 * 1) none None 0 (1 * 1) 0 0 0 0 0 0 0 0 (1 / 10) 0 0 0 false).
  { unfold fwd_kick. change (used_model g) with 2%Z. unfold drift_model_of. cbn [Z.eqb Pos.eqb].
    change (mg_h g) with (1 / 10). rewrite T. reflexivity. }
  rewrite Ed, Ek.
  apply (all_ok_inv _ _ _ on_axis).
  - intros l a Ha. unfold drift_ok, magnet_drift. cbn [dp_model dp_k0 dp_k1 dp_ks dp_h dp_x0 dp_y0 Z.eqb Pos.eqb].
    assert (Hc : p_chi a = 1) by apply Ha.
    destruct (axis_bend (1 / 10) l a ltac:(lra) Ha ltac:(rewrite Hb; lra)) as [X Y].
    split.
    + intros _. right. rewrite Hc, Rmult_1_r, Hb. split; [lra|exact X].
    + destruct (is0 l); [exact Ha|exact Y].
  - intros w a Ha. rewrite kick_eq. destruct Ha as (A & B & C & D & E & F).
    unfold on_axis, kicked. pcbn. repeat split; try assumption.
    + unfold FX, kc, kick_coordinates, mainm, htot, k0m, k1m, relx, none.
      cbn [kp_length kp_factor kp_hxl kp_mult kp_rel kp_ref kp_k0 kp_k1 kp_k2 kp_k3 kp_k0s kp_k1s kp_rot
        kp_k2s kp_k3s kp_h kp_k0h kp_k1h mu_order mu_inv mu_knl mu_ksl nth kick_loop fst snd Nat.leb].
      rewrite A, B. ring.
    + unfold FY, kc, kick_coordinates, mainm, htot, k0m, k1m, rely, none.
      cbn [kp_length kp_factor kp_hxl kp_mult kp_rel kp_ref kp_k0 kp_k1 kp_k2 kp_k3 kp_k0s kp_k1s kp_rot
        kp_k2s kp_k3s kp_h kp_k0h kp_k1h mu_order mu_inv mu_knl mu_ksl nth kick_loop fst snd Nat.leb].
      rewrite A, D. ring.
  - repeat split.
Qed.

(** * Curvature of a sliced thin multipole *)
Definition curved_multipole : magnet := mkMag 0 none None 0 1 (-1) 6 0 3 0 1 0 0 0 0 0 0 0 0 0 0 0.
Lemma curved_slice w p : 0 < w -> p_px (thin_slice false w curved_multipole p) = p_px p + (1 + p_delta p).
Proof.
  intros Hw. unfold thin_slice. set (o := kick_only curved_multipole). rewrite track_fwd.
  pose proof (slice_kicks curved_multipole w (mg_length o * w) Hw) as Hn. fold o in Hn.
  assert (Ho : fwd_only_drift w o = false).
  { unfold fwd_only_drift. destruct (Z.eqb_spec (used_kicks o w (mg_length o * w)) 0); [lia|reflexivity]. }
  rewrite Ho. change (magnet_drift (fwd_drift o)) with (fun (_ : R) (a : part) => a).
  rewrite body_kicks; [|unfold known; right; right; reflexivity|exact Hn].
  rewrite kick_eq. unfold kicked. pcbn.
  assert (E : fwd_kick w o = mkKp (0 * w) none None 0 (1 * w) 0 0 0 0 0 0 0 0 0 1 0 0 true) by reflexivity.
  rewrite E. unfold FX, kc, kick_coordinates, mainm, htot, k0m, k1m, relx, none.
  cbn [kp_length kp_factor kp_hxl kp_mult kp_rel kp_ref kp_k0 kp_k1 kp_k2 kp_k3 kp_k0s kp_k1s kp_rot
      kp_k2s kp_k3s kp_h kp_k0h kp_k1h mu_order mu_inv mu_knl mu_ksl nth kick_loop fst snd Nat.leb].
  ring.
Qed.

Lemma curved_slices_differ :
  let g := curved_multipole in
  p_px (thin_slice false (1 / 2) g (thin_slice false (1 / 2) g at_rest)) = 2 /\
  p_px (thin_slice false 1 g at_rest) = 1.
Proof.
  cbv zeta. split.
  - rewrite !curved_slice by lra.
    assert (D : p_delta (thin_slice false (1 / 2) curved_multipole at_rest) = 0).
    { unfold thin_slice. rewrite track_fwd, body_run.
      destruct (linear_run (magnet_drift (fwd_drift (kick_only curved_multipole)))
        (magnet_kick (fwd_kick (1 / 2) (kick_only curved_multipole))) p_delta (fun _ => True) 0 0
        (body_ops (fwd_only_drift (1 / 2) (kick_only curved_multipole)) (used_integrator (kick_only curved_multipole))
          (used_kicks (kick_only curved_multipole) (1 / 2) (mg_length (kick_only curved_multipole) * (1 / 2)))
          (mg_length (kick_only curved_multipole) * (1 / 2))) at_rest) as [_ E].
      - intros. split; [exact I|]. change (magnet_drift (fwd_drift (kick_only curved_multipole)) x a) with a. ring.
      - intros. split; [exact I|]. rewrite kick_eq. unfold kicked. pcbn. ring.
      - exact I.
      - rewrite E. cbn [at_rest p_delta]. ring. }
    rewrite D. cbn [at_rest p_px p_delta]. ring.
  - rewrite curved_slice by lra. cbn [at_rest p_px p_delta]. ring.
Qed.

(** * A thick multipole of which only the curvature is set, without a number of kicks *)
Definition thick_curved (kicks : Z) : magnet := mkMag 1 none None 0 kicks 6 6 0 3 0 1 0 0 0 0 0 0 0 0 0 0 0.
Lemma thick_curved_idle : p_px (track_magnet false 1 (thick_curved 0) at_rest) = 0.
Proof.
  set (g := thick_curved 0). rewrite track_fwd.
  assert (I : is0 0 = true) by now apply is0_true.
  assert (Hn : used_kicks g 1 (mg_length g * 1) = 0%Z).
  { unfold used_kicks. change (used_model g) with 6%Z. cbn [Z.eqb Pos.eqb]. change (mg_kicks g) with 0%Z.
    rewrite andb_false_r. cbn [Z.eqb].
    assert (E : kick_is_inactive g = true).
    { unfold kick_is_inactive, all0, g, thick_curved, none.
      cbn [mg_h mg_k0 mg_k1 mg_k2 mg_k3 mg_k0s mg_k1s mg_k2s mg_k3s mg_mult mu_order mu_knl mu_ksl firstn forallb].
      rewrite I. reflexivity. }
    rewrite E. reflexivity. }
  rewrite Hn.
  assert (Ho : fwd_only_drift 1 g = true).
  { unfold fwd_only_drift. rewrite Hn. cbn [Z.eqb andb].
    change (kp_k0 (fwd_kick 1 g)) with 0. change (kp_k1 (fwd_kick 1 g)) with 0. change (kp_h (fwd_kick 1 g)) with 0.
    rewrite I. reflexivity. }
  rewrite Ho. unfold body. unfold magnet_drift. change (dp_model (fwd_drift g)) with 0%Z. cbn [Z.eqb Pos.eqb].
  destruct (is0 (mg_length g * 1)); reflexivity.
Qed.
Lemma thick_curved_one : p_px (track_magnet false 1 (thick_curved 1) at_rest) = 1.
Proof.
  set (g := thick_curved 1). rewrite track_fwd, (one_kick g eq_refl).
  assert (Ho : fwd_only_drift 1 g = false) by (unfold fwd_only_drift; rewrite (one_kick g eq_refl); reflexivity).
  rewrite Ho. change (used_integrator g) with 3%Z. unfold body, uniform. cbn [Z.eqb Pos.eqb].
  change (Z.to_nat 1) with 1%nat. cbn [times].
  assert (Hp : forall l a, p_px (magnet_drift (fwd_drift g) l a) = p_px a /\ p_delta (magnet_drift (fwd_drift g) l a) = p_delta a
     ).
  { intros l a. unfold magnet_drift. change (dp_model (fwd_drift g)) with 0%Z. cbn [Z.eqb Pos.eqb]. destruct (is0 l); split; reflexivity. }
  set (l := 1 / 2 * (1 / 1) * (mg_length g * 1)).
  destruct (Hp l (magnet_kick (fwd_kick 1 g) (1 / 1) (magnet_drift (fwd_drift g) l at_rest))) as [-> _].
  destruct (Hp l at_rest) as [A B].
  rewrite kick_eq. unfold kicked. pcbn. rewrite A.
  assert (E : fwd_kick 1 g = mkKp (1 * 1) none None 0 (1 * 1) 0 0 0 0 0 0 0 0 0 1 0 0 true) by reflexivity.
  rewrite E. unfold FX, kc, kick_coordinates, mainm, htot, k0m, k1m, relx, none.
  cbn [kp_length kp_factor kp_hxl kp_mult kp_rel kp_ref kp_k0 kp_k1 kp_k2 kp_k3 kp_k0s kp_k1s kp_rot
      kp_k2s kp_k3s kp_h kp_k0h kp_k1h mu_order mu_inv mu_knl mu_ksl nth kick_loop fst snd Nat.leb].
  rewrite B. cbn [at_rest p_px p_delta].
  destruct (is0 (1 * 1)); field.
Qed.

(** * A displaced quadrupole *)
Lemma displaced_quadrupole d : feed_down [0; 1] [0; 0] d 0 0 0 0 None = Some ([- d; 1], [0; 0]).
Proof.
  unfold feed_down, fd_order. cbn [length Nat.eqb combine seq map nth Nat.sub Nat.add fold_right fact Nat.mul cpow].
  unfold cexpi, csub, cadd, cmul, cdivr. cbn [fst snd INR].
  replace (- 0) with 0 by ring. replace (- (1 * 0)) with 0 by ring. replace (- ((1 + 1) * 0)) with 0 by ring.
  rewrite cos_0, sin_0. f_equal. f_equal; (f_equal; [field|f_equal; field]).
Qed.

(** * A very short slice of a solenoid *)
Lemma short_solenoid : exists d p l, dp_model d = 6%Z /\ l <> 0 /\ p_s (magnet_drift d l p) = p_s p.
Proof.
  exists (mkDp 6 0 0 2 0 0 0), at_rest, (/ 10000000000). split; [reflexivity|]. split; [lra|].
  unfold magnet_drift. cbn [dp_model Z.eqb Pos.eqb dp_ks dp_x0 dp_y0].
  destruct (is0 (/ 10000000000)); [reflexivity|]. unfold solenoid, IS_ZERO.
  destruct (Rlt_dec (Rabs (2 / 2)) (/ 1000000000)) as [H|_].
  - exfalso. rewrite Rabs_pos_eq in H; lra.
  - destruct (Rlt_dec (Rabs (/ 10000000000)) (/ 1000000000)) as [_|H]; [reflexivity|].
    exfalso. apply H. rewrite Rabs_pos_eq; lra.
Qed.

Lemma strong_enough : / 100000000 <= Rabs (1 * p_chi at_rest).
Proof.
  change (p_chi at_rest) with 1. rewrite Rmult_1_l, Rabs_R1. rewrite <- Rinv_1.
  apply Rinv_le_contravar; [prove_sup|]. apply (IZR_le 1). discriminate.
Qed.

Lemma weak_dipole : exists L k0 n p, L * k0 <> 0 /\ (1 <= n)%Z /\ p_chi p = 1 /\
  p_px (track_magnet false 1 (corrector L k0 0 0 0 n 2 1) p) = p_px p.
Proof.
  assert (0 < / 200000000) as Hp by (apply Rinv_0_lt_compat; prove_sup).
  exists 1, (/ 200000000), 1%Z, at_rest.
  refine (conj _ (conj _ (conj eq_refl _))).
  - rewrite Rmult_1_l. apply Rgt_not_eq. exact Hp.
  - discriminate.
  - apply MagnetSum.weak_dipole_lost; [|discriminate|split; discriminate].
    change (p_chi at_rest) with 1. rewrite Rmult_1_r, Rabs_pos_eq by (left; exact Hp).
    apply Rinv_lt_contravar; [prove_sup|]. apply IZR_lt. reflexivity.
Qed.
