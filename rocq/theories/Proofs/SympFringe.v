From Coq Require Import Reals ZArith List Bool Lra Lia.
From Verif.Model Require Import Maps Curved Magnet Edges.
From Verif.Spec Require Import Frames Magnets Symplectic Edges.
From Verif.Proofs Require Import Symplectic SympMagnet SympBend SympEdge.
Import ListNotations.
Local Open Scope R_scope.

(** * The derivatives which the loop computes *)
Section Loop.
Variables x0 y0 : R.
Definition along (X Y : R -> R) (dx dy : R) : Prop := D X dx /\ D Y dy /\ X 0 = x0 /\ Y 0 = y0.
(** [f] has derivatives [a], [b] at [(x0, y0)]. *)
Definition has (f : R -> R -> R) (a b : R) : Prop :=
  forall X Y dx dy, along X Y dx dy -> D (fun t => f (X t) (Y t)) (a * dx + b * dy).

Record good (n : nat) (i : R) (S : R -> R -> fringe) : Prop := mkGood {
  g_inv : forall x y, fr_inv (S x y) = i;
  g_pow : exists a b, has (fun x y => fr_rx (S x y)) a (- b) /\ has (fun x y => fr_ix (S x y)) b a /\
            a * x0 - b * y0 = INR n * fr_rx (S x0 y0) /\ a * y0 + b * x0 = INR n * fr_ix (S x0 y0);
  g_x : has (fun x y => fr_fx (S x y)) (fr_fxx (S x0 y0)) (fr_fxy (S x0 y0));
  g_y : has (fun x y => fr_fy (S x y)) (fr_fyx (S x0 y0)) (fr_fyy (S x0 y0));
  g_xx : exists A B C, has (fun x y => fr_fxx (S x y)) A B /\ has (fun x y => fr_fxy (S x y)) B C;
  g_yy : exists A B C, has (fun x y => fr_fyx (S x y)) A B /\ has (fun x y => fr_fyy (S x y)) B C }.

Lemma has_ext f g a b : (forall x y, f x y = g x y) -> has g a b -> has f a b.
Proof.
  intros E H X Y dx dy A. eapply derivable_pt_lim_ext; [|apply (H X Y dx dy A)]. intros t. symmetry. apply E.
Qed.
Lemma good_step dir chi kn ks n i S : good n i S ->
  exists i', good (Datatypes.S n) i' (fun x y => fringe_step dir chi x y kn ks n (S x y)).
Proof.
  intros [GI (a & b & Ha & Hb & Ea & Eb) GX GY (A1 & B1 & C1 & Hxx & Hxy) (A2 & B2 & C2 & Hyx & Hyy)].
  exists (if Nat.ltb 1 n then i / INR n else i).
  set (inv := if Nat.ltb 1 n then i / INR n else i).
  set (kj := if Nat.eqb n 0 then 0 else kn n inv * chi). set (ksj := ks n inv * chi).
  set (nj := - dir / (4 * (INR n + 1 + 1))). set (comp := INR n + 1). set (nf := (comp + 2) / comp).
  set (rx := fun x y => fr_rx (S x y)) in *. set (ix := fun x y => fr_ix (S x y)) in *.
  change (fr_rx (S x0 y0)) with (rx x0 y0) in *. change (fr_ix (S x0 y0)) with (ix x0 y0) in *.
  assert (Es : forall x y, fringe_step dir chi x y kn ks n (S x y) =
    mkFr (rx x y * x - ix x y * y) (rx x y * y + ix x y * x) inv
      (fr_fx (S x y) + nj * (kj * (rx x y * x - ix x y * y) - ksj * (rx x y * y + ix x y * x)) * x
         + nf * (nj * (kj * (rx x y * y + ix x y * x) + ksj * (rx x y * x - ix x y * y))) * y)
      (fr_fxx (S x y) + comp * (nj * (kj * rx x y - ksj * ix x y)) * x + nf * (comp * (nj * (kj * ix x y + ksj * rx x y))) * y
         + nj * (kj * (rx x y * x - ix x y * y) - ksj * (rx x y * y + ix x y * x)))
      (fr_fxy (S x y) + - comp * (nj * (kj * ix x y + ksj * rx x y)) * x
         + nf * (comp * (nj * (kj * rx x y - ksj * ix x y)) * y + nj * (kj * (rx x y * y + ix x y * x) + ksj * (rx x y * x - ix x y * y))))
      (fr_fy (S x y) + nj * (kj * (rx x y * x - ix x y * y) - ksj * (rx x y * y + ix x y * x)) * y
         - nf * (nj * (kj * (rx x y * y + ix x y * x) + ksj * (rx x y * x - ix x y * y))) * x)
      (fr_fyx (S x y) + comp * (nj * (kj * rx x y - ksj * ix x y)) * y
         - nf * (comp * (nj * (kj * ix x y + ksj * rx x y)) * x + nj * (kj * (rx x y * y + ix x y * x) + ksj * (rx x y * x - ix x y * y))))
      (fr_fyy (S x y) + - comp * (nj * (kj * ix x y + ksj * rx x y)) * y - nf * (comp * (nj * (kj * rx x y - ksj * ix x y))) * x
         + nj * (kj * (rx x y * x - ix x y * y) - ksj * (rx x y * y + ix x y * x)))).
  { intros x y. unfold fringe_step. rewrite GI. reflexivity. }
  assert (Ha' : has (fun x y => rx x y * x - ix x y * y) (comp * rx x0 y0) (- (comp * ix x0 y0))).
  { intros X Y dx dy AL. pose proof (Ha X Y dx dy AL) as D1. pose proof (Hb X Y dx dy AL) as D2.
    destruct AL as (DX & DY & E1 & E2). eapply D_conv; [dv|]. cbv beta. rewrite E1, E2. unfold comp.
    transitivity ((a * x0 - b * y0) * dx - (a * y0 + b * x0) * dy + rx x0 y0 * dx - ix x0 y0 * dy); [ring|]. rewrite Ea, Eb. ring. }
  assert (Hb' : has (fun x y => rx x y * y + ix x y * x) (comp * ix x0 y0) (comp * rx x0 y0)).
  { intros X Y dx dy AL. pose proof (Ha X Y dx dy AL) as D1. pose proof (Hb X Y dx dy AL) as D2.
    destruct AL as (DX & DY & E1 & E2). eapply D_conv; [dv|]. cbv beta. rewrite E1, E2. unfold comp.
    transitivity ((a * x0 - b * y0) * dy + (a * y0 + b * x0) * dx + rx x0 y0 * dy + ix x0 y0 * dx); [ring|]. rewrite Ea, Eb. ring. }
  set (rx' := fun x y => rx x y * x - ix x y * y) in *. set (ix' := fun x y => rx x y * y + ix x y * x) in *.
  set (al := nj * (kj * a - ksj * b)). set (be := nj * (kj * b + ksj * a)).
  set (du := nj * (kj * rx x0 y0 - ksj * ix x0 y0)). set (dv_ := nj * (kj * ix x0 y0 + ksj * rx x0 y0)).
  assert (Cx : comp = INR (Datatypes.S n)) by (unfold comp; now rewrite S_INR).
  constructor.
  - intros x y. now rewrite Es.
  - exists (comp * rx x0 y0), (comp * ix x0 y0). rewrite Es. cbn [fr_rx fr_ix]. rewrite <- Cx.
    refine (conj _ (conj _ (conj _ _))); try ring.
    + refine (has_ext _ _ _ _ _ Ha'). intros x y. now rewrite Es.
    + refine (has_ext _ _ _ _ _ Hb'). intros x y. now rewrite Es.
  - rewrite Es. cbn [fr_fxx fr_fxy]. eapply has_ext; [intros x y; rewrite Es; cbn [fr_fx]; fold (rx' x y) (ix' x y); reflexivity|].
    intros X Y dx dy AL. pose proof (Ha' X Y dx dy AL) as D1. pose proof (Hb' X Y dx dy AL) as D2. pose proof (GX X Y dx dy AL) as D3.
    fold (rx' x0 y0) (ix' x0 y0). clearbody rx' ix' rx ix.
    destruct AL as (DX & DY & E1 & E2). eapply D_conv; [dv|]. cbv beta. rewrite E1, E2. ring.
  - rewrite Es. cbn [fr_fyx fr_fyy]. eapply has_ext; [intros x y; rewrite Es; cbn [fr_fy]; fold (rx' x y) (ix' x y); reflexivity|].
    intros X Y dx dy AL. pose proof (Ha' X Y dx dy AL) as D1. pose proof (Hb' X Y dx dy AL) as D2. pose proof (GY X Y dx dy AL) as D3.
    fold (rx' x0 y0) (ix' x0 y0). clearbody rx' ix' rx ix.
    destruct AL as (DX & DY & E1 & E2). eapply D_conv; [dv|]. cbv beta. rewrite E1, E2. ring.
  - exists (A1 + comp * (al * x0 + 2 * du + nf * be * y0)), (B1 + comp * (- be * x0 + nf * (al * y0 + dv_) - dv_)),
      (C1 + comp * (- al * x0 + nf * (2 * du - be * y0))). split.
    + eapply has_ext; [intros x y; rewrite Es; cbn [fr_fxx]; fold (rx' x y) (ix' x y); reflexivity|].
      intros X Y dx dy AL. pose proof (Ha' X Y dx dy AL) as D1. pose proof (Hb' X Y dx dy AL) as D2. pose proof (Hxx X Y dx dy AL) as D3.
      pose proof (Ha X Y dx dy AL) as D4. pose proof (Hb X Y dx dy AL) as D5. clearbody rx' ix' rx ix.
      destruct AL as (DX & DY & E1 & E2). eapply D_conv; [dv|]. cbv beta. rewrite E1, E2. unfold al, be, du, dv_. ring.
    + eapply has_ext; [intros x y; rewrite Es; cbn [fr_fxy]; fold (rx' x y) (ix' x y); reflexivity|].
      intros X Y dx dy AL. pose proof (Ha' X Y dx dy AL) as D1. pose proof (Hb' X Y dx dy AL) as D2. pose proof (Hxy X Y dx dy AL) as D3.
      pose proof (Ha X Y dx dy AL) as D4. pose proof (Hb X Y dx dy AL) as D5. clearbody rx' ix' rx ix.
      destruct AL as (DX & DY & E1 & E2). eapply D_conv; [dv|]. cbv beta. rewrite E1, E2. unfold al, be, du, dv_. ring.
  - exists (A2 + comp * (al * y0 - nf * (be * x0 + 2 * dv_))), (B2 + comp * (- be * y0 + du - nf * (al * x0 + du))),
      (C2 + comp * (- al * y0 - 2 * dv_ + nf * be * x0)). split.
    + eapply has_ext; [intros x y; rewrite Es; cbn [fr_fyx]; fold (rx' x y) (ix' x y); reflexivity|].
      intros X Y dx dy AL. pose proof (Ha' X Y dx dy AL) as D1. pose proof (Hb' X Y dx dy AL) as D2. pose proof (Hyx X Y dx dy AL) as D3.
      pose proof (Ha X Y dx dy AL) as D4. pose proof (Hb X Y dx dy AL) as D5. clearbody rx' ix' rx ix.
      destruct AL as (DX & DY & E1 & E2). eapply D_conv; [dv|]. cbv beta. rewrite E1, E2. unfold al, be, du, dv_. ring.
    + eapply has_ext; [intros x y; rewrite Es; cbn [fr_fyy]; fold (rx' x y) (ix' x y); reflexivity|].
      intros X Y dx dy AL. pose proof (Ha' X Y dx dy AL) as D1. pose proof (Hb' X Y dx dy AL) as D2. pose proof (Hyy X Y dx dy AL) as D3.
      pose proof (Ha X Y dx dy AL) as D4. pose proof (Hb X Y dx dy AL) as D5. clearbody rx' ix' rx ix.
      destruct AL as (DX & DY & E1 & E2). eapply D_conv; [dv|]. cbv beta. rewrite E1, E2. unfold al, be, du, dv_. ring.
Qed.
Lemma good_loop dir chi kn ks m : forall n i S, good n i S ->
  exists n' i', good n' i' (fun x y => fringe_loop dir chi x y kn ks m n (S x y)).
Proof.
  induction m as [|m IH]; intros n i S G; cbn [fringe_loop]; [eauto|].
  destruct (good_step dir chi kn ks n i S G) as [i' G']. exact (IH _ _ _ G').
Qed.
Lemma has_const k : has (fun _ _ => k) 0 0.
Proof. intros X Y dx dy _. eapply D_conv; [apply D_const|]. ring. Qed.
Lemma good_start : good 0 1 (fun _ _ => mkFr 1 0 1 0 0 0 0 0 0).
Proof.
  pose proof has_const as H.
  constructor; cbn [fr_inv fr_rx fr_ix fr_fx fr_fy fr_fxx fr_fxy fr_fyx fr_fyy].
  - reflexivity.
  - exists 0, 0. refine (conj _ (conj (H _) (conj _ _))); [rewrite Ropp_0; apply H| |]; cbn; ring.
  - apply H.
  - apply H.
  - exists 0, 0, 0. split; apply H.
  - exists 0, 0, 0. split; apply H.
Qed.
End Loop.

(** * Transformations of the position *)
Section Point.
Variables (fx fy fxx fxy fyx fyy : R -> R -> R).
Definition det_of (r : R) (x y : R) : R :=
  (1 - fxx x y * r) * (1 - fyy x y * r) - (- fyx x y * r) * (- fxy x y * r).
Definition point_px (p : part) : R :=
  let r := p_rpp p in let x := p_x p in let y := p_y p in
  ((1 - fyy x y * r) * p_px p - (- fyx x y * r) * p_py p) / det_of r x y.
Definition point_py (p : part) : R :=
  let r := p_rpp p in let x := p_x p in let y := p_y p in
  ((1 - fxx x y * r) * p_py p - (- fxy x y * r) * p_px p) / det_of r x y.
Definition point (p : part) : part :=
  let r := p_rpp p in let x := p_x p in let y := p_y p in
  set_zeta ((p_zeta p / p_beta0 p
             + (1 / p_beta0 p + p_ptau p) * (point_px p * fx x y + point_py p * fy x y) * (r * r * r)) * p_beta0 p)
   (set_py (point_py p) (set_px (point_px p) (add_y (- fy x y * r) (add_x (- fx x y * r) p)))).

Lemma point_form b0 a b c d det P Q r k k' f1 f2 gxx gxy gyx gyy A1 B1 C1 A2 B2 C2
    x1 y1 e1 h1 z1 t1 x2 y2 e2 h2 z2 t2 :
  b0 <> 0 -> det = a * d - b * c -> det <> 0 ->
  a = 1 - gxx * r -> b = - gyx * r -> c = - gxy * r -> d = 1 - gyy * r ->
  let J dx dpx dy dpy dz dt :=
    let dr := - k / b0 * dt in
    let da := - (A1 * dx + B1 * dy) * r - gxx * dr in
    let db := - (A2 * dx + B2 * dy) * r - gyx * dr in
    let dc := - (B1 * dx + C1 * dy) * r - gxy * dr in
    let dd := - (B2 * dx + C2 * dy) * r - gyy * dr in
    let u := dpx - da * P - db * Q in
    let v := dpy - dc * P - dd * Q in
    let dP := (d * u - b * v) / det in
    let dQ := (a * v - c * u) / det in
    mkVel (a * dx + c * dy - dr * f1) dP (b * dx + d * dy - dr * f2) dQ
      (dz + k' * dt * (P * f1 + Q * f2) + k * (dP * f1 + P * (gxx * dx + gxy * dy) + (dQ * f2 + Q * (gyx * dx + gyy * dy)))) dt in
  form b0 (J x1 e1 y1 h1 z1 t1) (J x2 e2 y2 h2 z2 t2) =
  form b0 (mkVel x1 e1 y1 h1 z1 t1) (mkVel x2 e2 y2 h2 z2 t2).
Proof.
  intros Hb0 Ed Hd Ea Eb Ec Edd. cbv zeta. unfold form. cbn [v_x v_px v_y v_py v_zeta v_ptau].
  set (U1 := e1 - _ - _). set (V1 := h1 - _ - _). set (U2 := e2 - _ - _). set (V2 := h2 - _ - _).
  set (P1 := (d * U1 - b * V1) / det). set (Q1 := (a * V1 - c * U1) / det).
  set (P2 := (d * U2 - b * V2) / det). set (Q2 := (a * V2 - c * U2) / det).
  assert (X1 : a * P1 + b * Q1 = U1). { unfold P1, Q1. field_simplify_eq; [rewrite Ed; ring|exact Hd]. }
  assert (Y1 : c * P1 + d * Q1 = V1). { unfold P1, Q1. field_simplify_eq; [rewrite Ed; ring|exact Hd]. }
  assert (X2 : a * P2 + b * Q2 = U2). { unfold P2, Q2. field_simplify_eq; [rewrite Ed; ring|exact Hd]. }
  assert (Y2 : c * P2 + d * Q2 = V2). { unfold P2, Q2. field_simplify_eq; [rewrite Ed; ring|exact Hd]. }
  clearbody P1 Q1 P2 Q2. unfold U1, V1, U2, V2 in *. clear U1 V1 U2 V2.
  match type of X1 with _ = e1 - ?l - ?m => assert (e1 = a * P1 + b * Q1 + l + m) by lra end.
  match type of Y1 with _ = h1 - ?l - ?m => assert (h1 = c * P1 + d * Q1 + l + m) by lra end.
  match type of X2 with _ = e2 - ?l - ?m => assert (e2 = a * P2 + b * Q2 + l + m) by lra end.
  match type of Y2 with _ = h2 - ?l - ?m => assert (h2 = c * P2 + d * Q2 + l + m) by lra end.
  clear X1 Y1 X2 Y2 Ed Hd. subst e1 h1 e2 h2. subst a b c d. field. exact Hb0.
Qed.

Variable p : part.
Hypothesis K : kinematic p.
Let x := p_x p. Let y := p_y p.
Hypothesis Hx : has x y fx (fxx x y) (fxy x y).
Hypothesis Hy : has x y fy (fyx x y) (fyy x y).
Variables A1 B1 C1 A2 B2 C2 : R.
Hypothesis Hxx : has x y fxx A1 B1.
Hypothesis Hxy : has x y fxy B1 C1.
Hypothesis Hyx : has x y fyx A2 B2.
Hypothesis Hyy : has x y fyy B2 C2.
Hypothesis Hdet : det_of (p_rpp p) x y <> 0.

Lemma symp_point : symplectic point p.
Proof.
  destruct (kin_pos p K) as (Hb & Hg & Hw & EG). pose proof (kin_rpp p K) as Er.
  set (r := p_rpp p) in *.
  set (a := 1 - fxx x y * r). set (b := - fyx x y * r). set (c := - fxy x y * r). set (d := 1 - fyy x y * r).
  set (det := a * d - b * c).
  set (P := (d * p_px p - b * p_py p) / det). set (Q := (a * p_py p - c * p_px p) / det).
  set (k := wE p * (r * r * r)).
  set (k' := p_beta0 p * (r * r * r) - 3 * (wE p * wE p) / p_beta0 p * (r * r * r * r * r)).
  pose (J := fun u : vel =>
    let dx := v_x u in let dy := v_y u in let dt := v_ptau u in
    let dr := - k / p_beta0 p * dt in
    let da := - (A1 * dx + B1 * dy) * r - fxx x y * dr in
    let db := - (A2 * dx + B2 * dy) * r - fyx x y * dr in
    let dc := - (B1 * dx + C1 * dy) * r - fxy x y * dr in
    let dd := - (B2 * dx + C2 * dy) * r - fyy x y * dr in
    let u' := v_px u - da * P - db * Q in
    let v' := v_py u - dc * P - dd * Q in
    let dP := (d * u' - b * v') / det in
    let dQ := (a * v' - c * u') / det in
    mkVel (a * dx + c * dy - dr * fx x y) dP (b * dx + d * dy - dr * fy x y) dQ
      (v_zeta u + k' * dt * (P * fx x y + Q * fy x y)
       + k * (dP * fx x y + P * (fxx x y * dx + fxy x y * dy) + (dQ * fy x y + Q * (fyx x y * dx + fyy x y * dy)))) dt).
  assert (Hdet' : det <> 0) by exact Hdet.
  apply (symp_keeps _ p J).
  - intros q. repeat split; reflexivity.
  - reflexivity.
  - intros cu u F M. pose proof (fam_rpp cu p u F M) as HR. pose proof (fam_0 cu p F) as E0. pose proof (fam_beta0 cu p F) as HB.
    destruct M as (Mx & Mpx & My & Mpy & Mz & Mt).
    assert (AL : along x y (fun t => p_x (cu t)) (fun t => p_y (cu t)) (v_x u) (v_y u)).
    { unfold along. rewrite E0. auto. }
    pose proof (Hx _ _ _ _ AL) as D1. pose proof (Hy _ _ _ _ AL) as D2. pose proof (Hxx _ _ _ _ AL) as D3.
    pose proof (Hxy _ _ _ _ AL) as D4. pose proof (Hyx _ _ _ _ AL) as D5. pose proof (Hyy _ _ _ _ AL) as D6. clear AL.
    assert (HR' : D (fun t => p_rpp (cu t)) (- k / p_beta0 p * v_ptau u)).
    { eapply D_conv; [exact HR|]. unfold k. rewrite Er. field. lra. }
    clear HR. fold r in HR' |- *.
    assert (DP : D (fun t => point_px (cu t)) (v_px (J u))).
    { unfold point_px, det_of. eapply D_conv; [dv|]; cbv beta; rewrite ?E0; fold x y r; fold a b c d.
      - exact Hdet'.
      - unfold J. cbv zeta. cbn [v_px]. set (dr := - k / p_beta0 p * v_ptau u). fold det.
        unfold P, Q. field_simplify_eq; [|exact Hdet']. unfold det. ring. }
    assert (DQ : D (fun t => point_py (cu t)) (v_py (J u))).
    { unfold point_py, det_of. eapply D_conv; [dv|]; cbv beta; rewrite ?E0; fold x y r; fold a b c d.
      - exact Hdet'.
      - unfold J. cbv zeta. cbn [v_py]. set (dr := - k / p_beta0 p * v_ptau u). fold det.
        unfold P, Q. field_simplify_eq; [|exact Hdet']. unfold det. ring. }
    assert (EP : point_px p = P) by reflexivity. assert (EQ : point_py p = Q) by reflexivity.
    unfold point. cbn [set_zeta set_py set_px add_x add_y set_x set_y p_x p_px p_y p_py p_zeta].
    refine (conj _ (conj DP (conj _ (conj DQ _)))).
    + eapply D_conv; [dv|]. cbv beta. rewrite E0. fold x y r. unfold J. cbn [v_x]. unfold a, c. ring.
    + eapply D_conv; [dv|]. cbv beta. rewrite E0. fold x y r. unfold J. cbn [v_y]. unfold b, d. ring.
    + set (dP := v_px (J u)) in *. set (dQ := v_py (J u)) in *.
      assert (EJ : v_zeta (J u) = v_zeta u + k' * v_ptau u * (P * fx x y + Q * fy x y)
       + k * (dP * fx x y + P * (fxx x y * v_x u + fxy x y * v_y u) + (dQ * fy x y + Q * (fyx x y * v_x u + fyy x y * v_y u)))) by reflexivity.
      rewrite EJ. clearbody dP dQ. clear EJ J.
      eapply D_conv; [dv|]; cbv beta; rewrite ?E0; try lra. fold x y r. rewrite EP, EQ. clearbody P Q. unfold k', k. unfold wE.
      field. lra.
  - intros u v. destruct u as [x1 e1 y1 h1 z1 t1], v as [x2 e2 y2 h2 z2 t2].
    apply (point_form (p_beta0 p) a b c d det P Q r k k' (fx x y) (fy x y) (fxx x y) (fxy x y) (fyx x y) (fyy x y) A1 B1 C1 A2 B2 C2); auto.
    lra.
Qed.
End Point.
