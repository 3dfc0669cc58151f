From Coq Require Import Reals ZArith Lra Lia List Bool.
From Verif.Model Require Import Maps Curved Magnet.
From Verif.Proofs Require Import FrameMaps.
Import ListNotations.
Local Open Scope R_scope.

Definition kicked (a b c : R) (p : part) : part :=
  mkPart (p_x p) (p_px p + a) (p_y p) (p_py p + b) (p_zeta p + c) (p_s p) (p_delta p) (p_ptau p) (p_rpp p)
    (p_rvv p) (p_chi p) (p_beta0 p) (p_ax p) (p_ay p) (p_spin_x p) (p_spin_y p) (p_spin_z p).

Lemma kicked_add a b c a' b' c' p : kicked a' b' c' (kicked a b c p) = kicked (a + a') (b + b') (c + c') p.
Proof. unfold kicked. pcbn. f_equal; ring. Qed.
Lemma kicked_0 p : kicked 0 0 0 p = p.
Proof. destruct p. unfold kicked. pcbn. f_equal; ring. Qed.

(** The strength of a kick of weight one *)
Definition kc (x y chi : R) (m : mult) (f : R) : R * R := kick_coordinates x y chi m f 1.
Definition mainm (k : kickpar) : mult :=
  mkMult 3 (1 / 6)
    [kp_k0 k * kp_length k; kp_k1 k * kp_length k; kp_k2 k * kp_length k; kp_k3 k * kp_length k]
    [kp_k0s k * kp_length k; kp_k1s k * kp_length k; kp_k2s k * kp_length k; kp_k3s k * kp_length k].
Definition htot (k : kickpar) : R :=
  if is0 (kp_length k) then kp_h k else kp_h k + kp_hxl k / kp_length k.
Definition k0m (k : kickpar) : R :=
  match kp_rel k with
  | None => nth 0 (mu_knl (kp_mult k)) 0 * kp_factor k
  | Some m => nth 0 (mu_knl (kp_mult k)) 0 * kp_factor k + nth 0 (mu_knl m) 0 * kp_factor k * kp_ref k
  end.
Definition k1m (k : kickpar) : R :=
  let a := if Nat.leb 1 (mu_order (kp_mult k)) then nth 1 (mu_knl (kp_mult k)) 0 * kp_factor k else 0 in
  match kp_rel k with
  | None => a
  | Some m => if Nat.leb 1 (mu_order m) then a + nth 1 (mu_knl m) 0 * kp_factor k * kp_ref k else a
  end.
Definition relx (k : kickpar) (p : part) : R :=
  match kp_rel k with None => 0 | Some m => fst (kc (p_x p) (p_y p) (p_chi p) m (kp_factor k * kp_ref k)) end.
Definition rely (k : kickpar) (p : part) : R :=
  match kp_rel k with None => 0 | Some m => snd (kc (p_x p) (p_y p) (p_chi p) m (kp_factor k * kp_ref k)) end.
Definition FX (k : kickpar) (p : part) : R :=
  fst (kc (p_x p) (p_y p) (p_chi p) (kp_mult k) (kp_factor k)) + relx k p
  + fst (kc (p_x p) (p_y p) (p_chi p) (mainm k) 1)
  + (if kp_rot k then (kp_h k * kp_length k + kp_hxl k) * (1 + p_delta p) else 0)
  - p_chi p * (kp_k0h k * kp_length k + k0m k) * htot k * p_x p
  + htot k * p_chi p * (kp_k1h k * kp_length k + k1m k) * (- p_x p * p_x p + 1 / 2 * p_y p * p_y p).
Definition FY (k : kickpar) (p : part) : R :=
  snd (kc (p_x p) (p_y p) (p_chi p) (kp_mult k) (kp_factor k)) + rely k p
  + snd (kc (p_x p) (p_y p) (p_chi p) (mainm k) 1)
  + htot k * p_chi p * (kp_k1h k * kp_length k + k1m k) * p_x p * p_y p.
Definition FZ (k : kickpar) (p : part) : R :=
  if kp_rot k then - (1 / p_rvv p) * (kp_h k * kp_length k + kp_hxl k) * p_x p else 0.

Lemma kc_w x y chi m f w :
  kick_coordinates x y chi m f w = (w * fst (kc x y chi m f), w * snd (kc x y chi m f)).
Proof.
  unfold kc, kick_coordinates. destruct (kick_loop _ _ _ _ _ _ _ _ _ _). cbn [fst snd]. f_equal; ring.
Qed.

Lemma kick_simple_eq m f w p :
  kick_simple m f w p =
  kicked (w * fst (kc (p_x p) (p_y p) (p_chi p) m f)) (w * snd (kc (p_x p) (p_y p) (p_chi p) m f)) 0 p.
Proof.
  unfold kick_simple. rewrite kc_w. generalize (fst (kc (p_x p) (p_y p) (p_chi p) m f)).
  generalize (snd (kc (p_x p) (p_y p) (p_chi p) m f)). intros.
  destruct p. unfold kicked, add_py, add_px, set_py, set_px. pcbn. f_equal; ring.
Qed.

Lemma kick_eq k w p : magnet_kick k w p = kicked (w * FX k p) (w * FY k p) (w * FZ k p) p.
Proof.
  unfold magnet_kick. fold (mainm k).
  rewrite !kick_simple_eq.
  set (p1 := kicked _ _ 0 p).
  set (p2 := match kp_rel k with None => p1 | Some m => _ end).
  assert (E2 : p2 = kicked (w * (fst (kc (p_x p) (p_y p) (p_chi p) (kp_mult k) (kp_factor k)) + relx k p))
                     (w * (snd (kc (p_x p) (p_y p) (p_chi p) (kp_mult k) (kp_factor k)) + rely k p)) 0 p).
  { unfold p2, relx, rely, p1. destruct (kp_rel k).
    - rewrite kick_simple_eq, kicked_add. unfold kicked. pcbn. f_equal; ring.
    - f_equal; ring. }
  rewrite E2, kicked_add.
  set (q := kicked _ _ _ p).
  assert (Eq : p_delta q = p_delta p /\ p_rvv q = p_rvv p) by (split; reflexivity).
  destruct Eq as [-> ->].
  change (p_x (kicked (w * (fst (kc (p_x p) (p_y p) (p_chi p) (kp_mult k) (kp_factor k)) + relx k p))
    (w * (snd (kc (p_x p) (p_y p) (p_chi p) (kp_mult k) (kp_factor k)) + rely k p)) 0 p)) with (p_x p) in q.
  change (p_y (kicked (w * (fst (kc (p_x p) (p_y p) (p_chi p) (kp_mult k) (kp_factor k)) + relx k p))
    (w * (snd (kc (p_x p) (p_y p) (p_chi p) (kp_mult k) (kp_factor k)) + rely k p)) 0 p)) with (p_y p) in q.
  change (p_chi (kicked (w * (fst (kc (p_x p) (p_y p) (p_chi p) (kp_mult k) (kp_factor k)) + relx k p))
    (w * (snd (kc (p_x p) (p_y p) (p_chi p) (kp_mult k) (kp_factor k)) + rely k p)) 0 p)) with (p_chi p) in q.
  fold (htot k). fold (k0m k).
  change (match kp_rel k with
          | Some m => if Nat.leb 1 (mu_order m)
             then (if Nat.leb 1 (mu_order (kp_mult k)) then nth 1 (mu_knl (kp_mult k)) 0 * kp_factor k else 0)
                  + nth 1 (mu_knl m) 0 * kp_factor k * kp_ref k
             else (if Nat.leb 1 (mu_order (kp_mult k)) then nth 1 (mu_knl (kp_mult k)) 0 * kp_factor k else 0)
          | None => if Nat.leb 1 (mu_order (kp_mult k)) then nth 1 (mu_knl (kp_mult k)) 0 * kp_factor k else 0
          end) with (k1m k).
  unfold q, FX, FY, FZ.
  generalize (relx k p) (rely k p) (htot k) (k0m k) (k1m k).
  generalize (fst (kc (p_x p) (p_y p) (p_chi p) (kp_mult k) (kp_factor k))).
  generalize (snd (kc (p_x p) (p_y p) (p_chi p) (kp_mult k) (kp_factor k))).
  generalize (fst (kc (p_x p) (p_y p) (p_chi p) (mainm k) 1)).
  generalize (snd (kc (p_x p) (p_y p) (p_chi p) (mainm k) 1)). intros.
  unfold kicked, add_zeta, set_zeta, add_py, add_px, set_py, set_px. pcbn.
  destruct (kp_rot k); f_equal; ring.
Qed.

(** A kick only depends on what kicks do not change *)
Lemma FX_kicked k a b c p : FX k (kicked a b c p) = FX k p. Proof. reflexivity. Qed.
Lemma FY_kicked k a b c p : FY k (kicked a b c p) = FY k p. Proof. reflexivity. Qed.
Lemma FZ_kicked k a b c p : FZ k (kicked a b c p) = FZ k p. Proof. reflexivity. Qed.

(** * Scaling the length and the strength *)
Definition scale (c : R) (k : kickpar) : kickpar :=
  mkKp (c * kp_length k) (kp_mult k) (kp_rel k) (kp_ref k) (c * kp_factor k)
    (kp_k0 k) (kp_k1 k) (kp_k2 k) (kp_k3 k) (kp_k0s k) (kp_k1s k) (kp_k2s k) (kp_k3s k)
    (kp_h k) (c * kp_hxl k) (kp_k0h k) (kp_k1h k) (kp_rot k).

Lemma kick_loop_scale c i inv x y chi f knl ksl a b :
  kick_loop i inv x y chi (c * f) knl ksl (c * a) (c * b) =
  (c * fst (kick_loop i inv x y chi f knl ksl a b), c * snd (kick_loop i inv x y chi f knl ksl a b)).
Proof.
  revert inv a b. induction i as [|i IH]; intros inv a b; [reflexivity|].
  cbn [kick_loop].
  set (g := inv * INR (S i)).
  rewrite <- IH. f_equal; ring.
Qed.
Lemma kc_scale c x y chi m f :
  kc x y chi m (c * f) = (c * fst (kc x y chi m f), c * snd (kc x y chi m f)).
Proof.
  unfold kc, kick_coordinates.
  replace (chi * nth (mu_order m) (mu_knl m) 0 * (c * f) * mu_inv m)
    with (c * (chi * nth (mu_order m) (mu_knl m) 0 * f * mu_inv m)) by ring.
  replace (chi * nth (mu_order m) (mu_ksl m) 0 * (c * f) * mu_inv m)
    with (c * (chi * nth (mu_order m) (mu_ksl m) 0 * f * mu_inv m)) by ring.
  rewrite kick_loop_scale. destruct (kick_loop _ _ _ _ _ _ _ _ _ _). cbn [fst snd]. f_equal; ring.
Qed.
Lemma main_scale c k x y chi :
  kc x y chi (mainm (scale c k)) 1 = (c * fst (kc x y chi (mainm k) 1), c * snd (kc x y chi (mainm k) 1)).
Proof.
  unfold kc, kick_coordinates, mainm, scale.
  cbn [kp_length kp_k0 kp_k1 kp_k2 kp_k3 kp_k0s kp_k1s kp_k2s kp_k3s mu_order mu_inv mu_knl mu_ksl nth
       kick_loop fst snd].
  f_equal; ring.
Qed.
Lemma htot_scale c k : c <> 0 -> htot (scale c k) = htot k.
Proof.
  intros Hc. unfold htot, scale. cbn [kp_length kp_h kp_hxl]. unfold is0.
  destruct (Req_EM_T (kp_length k) 0) as [E|E].
  - destruct (Req_EM_T (c * kp_length k) 0) as [F|F]; [reflexivity|]. rewrite E in F. exfalso. apply F. ring.
  - destruct (Req_EM_T (c * kp_length k) 0) as [F|F].
    + apply Rmult_integral in F. tauto.
    + f_equal. field. tauto.
Qed.
Lemma k0m_scale c k : k0m (scale c k) = c * k0m k.
Proof. unfold k0m, scale. cbn [kp_rel kp_mult kp_factor kp_ref]. destruct (kp_rel k); ring. Qed.
Lemma k1m_scale c k : k1m (scale c k) = c * k1m k.
Proof.
  unfold k1m, scale. cbn [kp_rel kp_mult kp_factor kp_ref].
  destruct (kp_rel k) as [m|]; [destruct (Nat.leb 1 (mu_order m))|]; destruct (Nat.leb 1 (mu_order (kp_mult k))); ring.
Qed.
Lemma relx_scale c k p : relx (scale c k) p = c * relx k p.
Proof.
  unfold relx, scale. cbn [kp_rel kp_mult kp_factor kp_ref]. destruct (kp_rel k); [|ring].
  rewrite Rmult_assoc, kc_scale. reflexivity.
Qed.
Lemma rely_scale c k p : rely (scale c k) p = c * rely k p.
Proof.
  unfold rely, scale. cbn [kp_rel kp_mult kp_factor kp_ref]. destruct (kp_rel k); [|ring].
  rewrite Rmult_assoc, kc_scale. reflexivity.
Qed.
Lemma F_scale c k p : c <> 0 ->
  FX (scale c k) p = c * FX k p /\ FY (scale c k) p = c * FY k p /\ FZ (scale c k) p = c * FZ k p.
Proof.
  intros Hc. unfold FX, FY, FZ.
  rewrite main_scale, relx_scale, rely_scale, k0m_scale, k1m_scale, (htot_scale c k Hc).
  cbn [scale kp_mult kp_factor kp_rot kp_h kp_length kp_hxl kp_k0h kp_k1h].
  rewrite kc_scale. cbn [fst snd]. destruct (kp_rot k); repeat split; ring.
Qed.

Lemma kick_back k w p : magnet_kick (scale (-1) k) w (magnet_kick k w p) = p.
Proof.
  rewrite !kick_eq, FX_kicked, FY_kicked, FZ_kicked, kicked_add.
  destruct (F_scale (-1) k p ltac:(lra)) as (E1 & E2 & E3). rewrite E1, E2, E3.
  transitivity (kicked 0 0 0 p); [f_equal; ring|apply kicked_0].
Qed.
Lemma kick_add k w w' p : magnet_kick k w' (magnet_kick k w p) = magnet_kick k (w + w') p.
Proof.
  rewrite !kick_eq, FX_kicked, FY_kicked, FZ_kicked, kicked_add. f_equal; ring.
Qed.
Lemma kick_zero k p : magnet_kick k 0 p = p.
Proof. rewrite kick_eq, !Rmult_0_l. apply kicked_0. Qed.
