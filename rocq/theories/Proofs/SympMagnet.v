From Coq Require Import Reals ZArith List Bool Lra Lia.
From Verif.Model Require Import Maps Curved Magnet.
From Verif.Spec Require Import Frames Magnets Symplectic.
From Verif.Proofs Require Import Symplectic.
Import ListNotations.
Local Open Scope R_scope.

(** * Multipole kicks: the field is an analytic function of x + i y *)
Definition analytic (f : R -> R -> R * R) (x y : R) : Prop :=
  exists a b, forall cx cy u v, cx 0 = x -> cy 0 = y -> D cx u -> D cy v ->
    D (fun t => fst (f (cx t) (cy t))) (a * u - b * v) /\ D (fun t => snd (f (cx t) (cy t))) (b * u + a * v).

Lemma loop_analytic chi factor knl ksl x y : forall index inv (f : R -> R -> R * R), analytic f x y ->
  analytic (fun x y => kick_loop index inv x y chi factor knl ksl (fst (f x y)) (snd (f x y))) x y.
Proof.
  induction index as [|i IH]; intros inv f [a [b H]].
  - exists a, b. intros cx cy u v Hx Hy Du Dv. exact (H cx cy u v Hx Hy Du Dv).
  - apply (IH (inv * INR (S i)) (fun x y =>
      (chi * nth i knl 0 * factor * (inv * INR (S i)) + (fst (f x y) * x - snd (f x y) * y),
       chi * nth i ksl 0 * factor * (inv * INR (S i)) + (fst (f x y) * y + snd (f x y) * x)))).
    exists (fst (f x y) + a * x - b * y), (snd (f x y) + b * x + a * y).
    intros cx cy u v Hx Hy Du Dv. destruct (H cx cy u v Hx Hy Du Dv) as [D1 D2]. cbn [fst snd].
    split; (eapply D_conv; [dv|]); rewrite ?Hx, ?Hy; ring.
Qed.
Lemma kick_analytic chi m factor w x y :
  analytic (fun x y => let d := kick_coordinates x y chi m factor w in (- fst d, snd d)) x y.
Proof.
  destruct (loop_analytic chi factor (mu_knl m) (mu_ksl m) x y (mu_order m) (mu_inv m)
    (fun _ _ => (chi * nth (mu_order m) (mu_knl m) 0 * factor * mu_inv m,
                 chi * nth (mu_order m) (mu_ksl m) 0 * factor * mu_inv m))) as [a [b H]].
  { exists 0, 0. intros cx cy u v _ _ _ _. cbn [fst snd]. split; (eapply D_conv; [dv|]); ring. }
  exists (w * a), (w * b). intros cx cy u v Hx Hy Du Dv. destruct (H cx cy u v Hx Hy Du Dv) as [D1 D2].
  cbn [fst snd] in D1, D2. unfold kick_coordinates.
  split.
  - apply (derivable_pt_lim_ext (fun t => w * fst (kick_loop (mu_order m) (mu_inv m) (cx t) (cy t) chi factor (mu_knl m)
      (mu_ksl m) (chi * nth (mu_order m) (mu_knl m) 0 * factor * mu_inv m) (chi * nth (mu_order m) (mu_ksl m) 0 * factor * mu_inv m)))).
    { intros z. destruct (kick_loop _ _ _ _ _ _ _ _ _ _). cbn. ring. }
    eapply D_conv; [dv|]. ring.
  - apply (derivable_pt_lim_ext (fun t => w * snd (kick_loop (mu_order m) (mu_inv m) (cx t) (cy t) chi factor (mu_knl m)
      (mu_ksl m) (chi * nth (mu_order m) (mu_knl m) 0 * factor * mu_inv m) (chi * nth (mu_order m) (mu_ksl m) 0 * factor * mu_inv m)))).
    { intros z. destruct (kick_loop _ _ _ _ _ _ _ _ _ _). reflexivity. }
    eapply D_conv; [dv|]. ring.
Qed.

Lemma keeps_kick_simple m factor w : keeps (kick_simple m factor w).
Proof. intros q. unfold kick_simple. destruct (kick_coordinates _ _ _ _ _ _). repeat split; reflexivity. Qed.
Lemma symp_kick_simple m factor w p : symplectic (kick_simple m factor w) p.
Proof.
  destruct (kick_analytic (p_chi p) m factor w (p_x p) (p_y p)) as [a [b H]].
  apply (symp_keeps _ p (fun u => mkVel (v_x u) (v_px u - (a * v_x u - b * v_y u))
     (v_y u) (v_py u + (b * v_x u + a * v_y u)) (v_zeta u) (v_ptau u))).
  - apply keeps_kick_simple.
  - reflexivity.
  - intros cu u F M. destruct M as (Mx & Mpx & My & Mpy & Mz & Mt). pose proof (fam_0 cu p F) as E0.
    destruct (H (fun t => p_x (cu t)) (fun t => p_y (cu t)) (v_x u) (v_y u)) as [D1 D2];
      try assumption; try now rewrite E0.
    cbn [fst snd] in D1, D2.
    assert (N : near (fun t => p_chi (cu t) = p_chi p)).
    { apply (near_weak _ _) with (2 := fam_near cu p F). tauto. }
    cbn [v_x v_px v_y v_py v_zeta]. repeat split.
    + eapply derivable_pt_lim_ext; [|exact Mx]. intros z. unfold kick_simple. destruct (kick_coordinates _ _ _ _ _ _). reflexivity.
    + eapply (D_near (fun t => p_px (cu t) - - fst (kick_coordinates (p_x (cu t)) (p_y (cu t)) (p_chi p) m factor w))).
      * apply (near_weak _ _) with (2 := N). intros t E. unfold kick_simple. rewrite E.
        destruct (kick_coordinates _ _ _ _ _ _). cbn. ring.
      * dv.
    + eapply derivable_pt_lim_ext; [|exact My]. intros z. unfold kick_simple. destruct (kick_coordinates _ _ _ _ _ _). reflexivity.
    + eapply (D_near (fun t => p_py (cu t) + snd (kick_coordinates (p_x (cu t)) (p_y (cu t)) (p_chi p) m factor w))).
      * apply (near_weak _ _) with (2 := N). intros t E. unfold kick_simple. rewrite E.
        destruct (kick_coordinates _ _ _ _ _ _). reflexivity.
      * dv.
    + eapply derivable_pt_lim_ext; [|exact Mz]. intros z. unfold kick_simple. destruct (kick_coordinates _ _ _ _ _ _). reflexivity.
  - intros u v. unfold form. cbn [v_x v_px v_y v_py v_zeta v_ptau]. ring.
Qed.

(** The terms of the curvature *)
Definition curv_kick (hl A B : R) (rot : bool) (p : part) : part :=
  let dpx := (if rot then hl * (1 + p_delta p) else 0) - p_chi p * A * p_x p
             + p_chi p * B * (- p_x p * p_x p + 1 / 2 * p_y p * p_y p) in
  let dzeta := if rot then - (1 / p_rvv p) * hl * p_x p else 0 in
  add_zeta dzeta (add_py (p_chi p * B * p_x p * p_y p) (add_px dpx p)).
Lemma symp_curv_kick hl A B rot p : kinematic p -> symplectic (curv_kick hl A B rot) p.
Proof.
  intros K. destruct (kin_pos p K) as (Hb & Hg & Hw & _). pose proof (kin_irvv p K) as Ev.
  apply (symp_keeps _ p (fun u => mkVel (v_x u)
     (v_px u + (if rot then hl * dg p u else 0) - p_chi p * A * v_x u
       + p_chi p * B * (- 2 * p_x p * v_x u + p_y p * v_y u))
     (v_y u) (v_py u + p_chi p * B * (v_x u * p_y p + p_x p * v_y u))
     (v_zeta u - (if rot then hl * (dv p u * p_x p + wE p / gP p * v_x u) else 0)) (v_ptau u))).
  - intros q. repeat split; reflexivity.
  - reflexivity.
  - intros cu u F M. pose proof (fam_irvv cu p u F M) as Hv. pose proof (fam_chi cu p F) as HC.
    pose proof (fam_delta cu p u F M) as Hd.
    destruct M as (Mx & Mpx & My & Mpy & Mz & Mt). pose proof (fam_0 cu p F) as E0.
    destruct rot;
    cbn [v_x v_px v_y v_py v_zeta curv_kick add_zeta add_py add_px set_zeta set_px set_py p_x p_px p_y p_py p_zeta p_delta p_rvv p_chi];
    repeat split; try assumption; (eapply D_conv; [dv|]); rewrite ?E0, ?Ev; unfold dg, dv; field; lra.
  - intros u v. unfold form. destruct rot; cbn [v_x v_px v_y v_py v_zeta v_ptau]; [|field; lra].
    unfold dg, dv. field. lra.
Qed.

Lemma magnet_kick_parts k w p : exists hl A B,
  forall q, p_chi q = p_chi p -> magnet_kick k w q =
  curv_kick hl A B (kp_rot k)
   (kick_simple (mkMult 3 (1 / 6)
     [kp_k0 k * kp_length k; kp_k1 k * kp_length k; kp_k2 k * kp_length k; kp_k3 k * kp_length k]
     [kp_k0s k * kp_length k; kp_k1s k * kp_length k; kp_k2s k * kp_length k; kp_k3s k * kp_length k]) 1 w
     (match kp_rel k with None => fun q => q | Some m => kick_simple m (kp_factor k * kp_ref k) w end
        (kick_simple (kp_mult k) (kp_factor k) w q))).
Proof.
  set (htot := if is0 (kp_length k) then kp_h k else kp_h k + kp_hxl k / kp_length k).
  set (k0l := let k0l_mult := nth 0 (mu_knl (kp_mult k)) 0 * kp_factor k in
     match kp_rel k with None => k0l_mult | Some m => k0l_mult + nth 0 (mu_knl m) 0 * kp_factor k * kp_ref k end).
  set (k1l := let k1l_mult := if Nat.leb 1 (mu_order (kp_mult k)) then nth 1 (mu_knl (kp_mult k)) 0 * kp_factor k else 0 in
     match kp_rel k with
     | None => k1l_mult
     | Some m => if Nat.leb 1 (mu_order m) then k1l_mult + nth 1 (mu_knl m) 0 * kp_factor k * kp_ref k else k1l_mult
     end).
  exists (kp_h k * kp_length k * w + kp_hxl k * w), ((kp_k0h k * kp_length k + k0l) * w * htot),
    (htot * (kp_k1h k * kp_length k + k1l) * w).
  intros q Hq. unfold magnet_kick. fold htot. cbv zeta in k0l, k1l. fold k0l k1l.
  set (p1 := kick_simple (kp_mult k) (kp_factor k) w q).
  replace (match kp_rel k with Some m => kick_simple m (kp_factor k * kp_ref k) w p1 | None => p1 end)
    with ((match kp_rel k with Some m => kick_simple m (kp_factor k * kp_ref k) w | None => fun q => q end) p1)
    by (destruct (kp_rel k); reflexivity).
  set (p2 := (match kp_rel k with Some m => _ | None => _ end) p1).
  set (p3 := kick_simple _ 1 w p2).
  assert (S : forall m f r, p_x (kick_simple m f w r) = p_x r /\ p_y (kick_simple m f w r) = p_y r /\
    p_chi (kick_simple m f w r) = p_chi r).
  { intros m f r. unfold kick_simple. destruct (kick_coordinates _ _ _ _ _ _). repeat split; reflexivity. }
  assert (X : p_x p3 = p_x q /\ p_y p3 = p_y q /\ p_chi p3 = p_chi q).
  { unfold p3. destruct (S (mkMult 3 (1 / 6)
     [kp_k0 k * kp_length k; kp_k1 k * kp_length k; kp_k2 k * kp_length k; kp_k3 k * kp_length k]
     [kp_k0s k * kp_length k; kp_k1s k * kp_length k; kp_k2s k * kp_length k; kp_k3s k * kp_length k]) 1 p2) as (-> & -> & ->).
    unfold p2. destruct (S (kp_mult k) (kp_factor k) q) as (E1 & E2 & E3). fold p1 in E1, E2, E3.
    destruct (kp_rel k) as [m|]; [|auto]. destruct (S m (kp_factor k * kp_ref k) p1) as (-> & -> & ->). auto. }
  destruct X as (X1 & X2 & X3). unfold curv_kick. rewrite X1, X2, X3.
  f_equal. f_equal; [ring|]. f_equal. ring.
Qed.
Lemma kick_simple_kin m f w q : kinematic q -> kinematic (kick_simple m f w q).
Proof.
  intros K. destruct (keeps_kick_simple m f w q) as (E1 & E2 & E3 & E4 & E5 & E6). unfold kinematic in *.
  rewrite E1, E2, E3, E4, E5. exact K.
Qed.
Lemma symp_near_chi f g p : (forall q, p_chi q = p_chi p -> f q = g q) -> symplectic g p -> symplectic f p.
Proof.
  intros E [B [J [H F]]]. split; [now rewrite E|]. exists J. split; [|exact F].
  intros c u Hc Hu. destruct (H c u Hc Hu) as [[H0 [d [Hd H1]]] H2].
  assert (N : near (fun t => g (c t) = f (c t))).
  { apply (near_weak _ _) with (2 := fam_near c p Hc). intros t [_ [_ X]]. symmetry. now apply E. }
  split; [split|].
  - now rewrite (fam_0 c p Hc).
  - destruct (near_and _ _ N (ex_intro _ d (conj Hd H1))) as [e [He HH]]. exists e. split; [exact He|]. intros t Ht.
    destruct (HH t Ht) as [X Y]. rewrite <- X, (E p eq_refl). exact Y.
  - unfold moves in *.
    assert (X : forall k : part -> R, forall l, D (fun t => k (g (c t))) l -> D (fun t => k (f (c t))) l).
    { intros k l. apply D_near. apply (near_weak _ _) with (2 := N). intros t Et. now rewrite Et. }
    repeat match goal with H : _ /\ _ |- _ => destruct H end. repeat split; now apply X.
Qed.
Lemma symp_magnet_kick k w p : kinematic p -> symplectic (magnet_kick k w) p.
Proof.
  intros K. destruct (magnet_kick_parts k w p) as (hl & A & B & E).
  eapply symp_near_chi; [exact E|]. clear E.
  set (main := mkMult 3 (1 / 6) _ _).
  set (rel := match kp_rel k with None => fun q => q | Some m => kick_simple m (kp_factor k * kp_ref k) w end).
  assert (S : forall q, symplectic rel q).
  { intros q. unfold rel. destruct (kp_rel k); [apply symp_kick_simple|apply symp_id]. }
  assert (S' : forall q, kinematic q -> kinematic (rel q)).
  { intros q Kq. unfold rel. destruct (kp_rel k); [now apply kick_simple_kin|exact Kq]. }
  apply (symp_comp (kick_simple (kp_mult k) (kp_factor k) w)
           (fun q => curv_kick hl A B (kp_rot k) (kick_simple main 1 w (rel q)))); [apply symp_kick_simple|].
  apply (symp_comp rel (fun q => curv_kick hl A B (kp_rot k) (kick_simple main 1 w q))); [apply S|].
  apply (symp_comp (kick_simple main 1 w) (curv_kick hl A B (kp_rot k))); [apply symp_kick_simple|].
  apply symp_curv_kick. now apply kick_simple_kin, S', kick_simple_kin.
Qed.
