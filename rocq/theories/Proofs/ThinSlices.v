From Coq Require Import Reals ZArith Lra Lia List Bool.
From Verif.Model Require Import Maps Curved Magnet.
From Verif.Spec Require Import Frames Magnets.
From Verif.Proofs Require Import Frames FrameMaps Magnet MagnetKick MagnetDrift MagnetBack MagnetSum.
Import ListNotations.
Local Open Scope R_scope.

Section Slice.
Variable g : magnet.
Hypothesis Hx : mg_hxl g = 0.
Let o := kick_only g.
Let k := fwd_kick 1 o.

Lemma slice_par w : fwd_kick w o = scale w k.
Proof.
  unfold k, fwd_kick, scale. change (drift_model_of (used_model o) (mg_h o)) with (-1)%Z.
  cbn [config Z.eqb Pos.eqb orb kp_length kp_factor kp_hxl kp_mult kp_rel kp_ref kp_k0 kp_k1 kp_k2 kp_k3 kp_k0s kp_k1s
      kp_k2s kp_k3s kp_h kp_k0h kp_k1h kp_rot].
  change (mg_hxl o) with (mg_hxl g). rewrite Hx. f_equal; ring.
Qed.
Lemma slice_kicks w L : 0 < w -> (1 <= used_kicks o w L)%Z.
Proof.
  intros Hw. unfold used_kicks. change (used_model o =? -1)%Z with true. cbv iota.
  set (m := if _ && _ then _ else 1%Z).
  assert (H : (1 <= m)%Z).
  { unfold m. destruct (negb _ && _); [|lia]. apply ceil_pos. lra. }
  destruct (Z.eqb_spec m 0); lia.
Qed.
Lemma slice_fwd w p : 0 < w -> thin_slice false w g p = kicked (w * FX k p) (w * FY k p) (w * FZ k p) p.
Proof.
  intros Hw. unfold thin_slice. fold o. rewrite track_fwd.
  pose proof (slice_kicks w (mg_length o * w) Hw) as Hn.
  assert (Ho : fwd_only_drift w o = false).
  { unfold fwd_only_drift. destruct (Z.eqb_spec (used_kicks o w (mg_length o * w)) 0); [lia|reflexivity]. }
  rewrite Ho.
  change (magnet_drift (fwd_drift o)) with (fun (_ : R) (a : part) => a).
  rewrite body_kicks; [|unfold known; right; right; reflexivity|exact Hn].
  rewrite slice_par, kick_eq. destruct (F_scale w k p ltac:(lra)) as (-> & -> & ->). f_equal; ring.
Qed.
Lemma slice_bwd w p : 0 < w -> thin_slice true w g p = kicked (- w * FX k p) (- w * FY k p) (- w * FZ k p) p.
Proof.
  intros Hw. unfold thin_slice. fold o. rewrite track_bwd.
  pose proof (slice_kicks w (mg_length o * w) Hw) as Hn.
  assert (Ho : fwd_only_drift w o = false).
  { unfold fwd_only_drift. destruct (Z.eqb_spec (used_kicks o w (mg_length o * w)) 0); [lia|reflexivity]. }
  rewrite Ho.
  change (magnet_drift (fwd_drift o)) with (fun (_ : R) (a : part) => a).
  rewrite body_kicks; [|unfold known; right; right; reflexivity|exact Hn].
  rewrite slice_par, kick_eq.
  destruct (F_scale (-1) (scale w k) p ltac:(lra)) as (-> & -> & ->).
  destruct (F_scale w k p ltac:(lra)) as (-> & -> & ->). f_equal; ring.
Qed.
Lemma slice_eq (bt : bool) w p : 0 < w ->
  let s := if bt then - w else w in thin_slice bt w g p = kicked (s * FX k p) (s * FY k p) (s * FZ k p) p.
Proof. destruct bt; [apply slice_bwd|apply slice_fwd]. Qed.

Lemma slices_sum (bt : bool) ws p : ws <> [] -> Forall (fun w => 0 < w) ws ->
  fold_left (fun q w => thin_slice bt w g q) ws p = thin_slice bt (fold_right Rplus 0 ws) g p.
Proof.
  intros Hne Hp.
  assert (Hs : 0 < fold_right Rplus 0 ws).
  { destruct Hp as [|w l Hw Hl]; [tauto|]. clear Hne. cbn [fold_right].
    assert (0 <= fold_right Rplus 0 l) by (induction Hl; cbn; lra). lra. }
  rewrite (slice_eq bt _ p Hs). cbv zeta.
  assert (E : forall l, Forall (fun w => 0 < w) l -> forall q,
    fold_left (fun q w => thin_slice bt w g q) l q =
    let s := if bt then - fold_right Rplus 0 l else fold_right Rplus 0 l in
    kicked (s * FX k q) (s * FY k q) (s * FZ k q) q).
  { clear ws p Hne Hp Hs. induction 1 as [|w l Hw Hl IH]; intros q.
    - cbn [fold_left fold_right]. cbv zeta. destruct bt; rewrite ?Ropp_0, !Rmult_0_l; symmetry; apply kicked_0.
    - cbn [fold_left fold_right]. rewrite IH, (slice_eq bt w q Hw). cbv zeta.
      rewrite FX_kicked, FY_kicked, FZ_kicked, kicked_add. destruct bt; f_equal; ring. }
  apply E. exact Hp.
Qed.
End Slice.
