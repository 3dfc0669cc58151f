From Coq Require Import Reals ZArith List Bool Lra Lia.
From Verif.Model Require Import Maps Curved Magnet Edges.
From Verif.Spec Require Import Frames Magnets Symplectic Edges.
From Verif.Proofs Require Import Symplectic SympMagnet SympBend SympEdge.
Import ListNotations.
Local Open Scope R_scope.

(** * Functions of the momenta with second derivatives *)
Section Jets.
Variables m1 m2 m3 : R.
Definition thrice := R -> R -> R -> R.
Definition along3 (X Y T : R -> R) (a b c : R) : Prop :=
  D X a /\ D Y b /\ D T c /\ X 0 = m1 /\ Y 0 = m2 /\ T 0 = m3.
Definition has3 (f : thrice) (a b c : R) : Prop :=
  forall X Y T dx dy dt, along3 X Y T dx dy dt -> D (fun s => f (X s) (Y s) (T s)) (a * dx + b * dy + c * dt).
Definition jet (f g1 g2 g3 : thrice) : Prop :=
  has3 f (g1 m1 m2 m3) (g2 m1 m2 m3) (g3 m1 m2 m3) /\
  exists h11 h12 h13 h22 h23 h33, has3 g1 h11 h12 h13 /\ has3 g2 h12 h22 h23 /\ has3 g3 h13 h23 h33.

Lemma has3_conv f a b c a' b' c' : has3 f a b c -> a = a' -> b = b' -> c = c' -> has3 f a' b' c'.
Proof. now intros H -> -> ->. Qed.
Lemma has3_const k : has3 (fun _ _ _ => k) 0 0 0.
Proof. intros X Y T dx dy dt _. eapply D_conv; [apply D_const|]. ring. Qed.
Lemma has3_plus f g a b c a' b' c' : has3 f a b c -> has3 g a' b' c' ->
  has3 (fun x y t => f x y t + g x y t) (a + a') (b + b') (c + c').
Proof.
  intros F G X Y T dx dy dt A. eapply D_conv; [apply D_plus; [apply (F _ _ _ _ _ _ A)|apply (G _ _ _ _ _ _ A)]|]. ring.
Qed.
Lemma has3_mult f g a b c a' b' c' : has3 f a b c -> has3 g a' b' c' ->
  has3 (fun x y t => f x y t * g x y t) (a * g m1 m2 m3 + f m1 m2 m3 * a') (b * g m1 m2 m3 + f m1 m2 m3 * b')
    (c * g m1 m2 m3 + f m1 m2 m3 * c').
Proof.
  intros F G X Y T dx dy dt A. eapply D_conv; [apply D_mult; [apply (F _ _ _ _ _ _ A)|apply (G _ _ _ _ _ _ A)]|].
  destruct A as (_ & _ & _ & -> & -> & ->). ring.
Qed.
Lemma has3_phi f a b c phi d : has3 f a b c -> derivable_pt_lim phi (f m1 m2 m3) d ->
  has3 (fun x y t => phi (f x y t)) (d * a) (d * b) (d * c).
Proof.
  intros F P X Y T dx dy dt A. eapply D_conv.
  - apply (D_comp (fun s => f (X s) (Y s) (T s)) phi); [apply (F _ _ _ _ _ _ A)|].
    destruct A as (_ & _ & _ & -> & -> & ->). exact P.
  - ring.
Qed.

Lemma jet_const k : jet (fun _ _ _ => k) (fun _ _ _ => 0) (fun _ _ _ => 0) (fun _ _ _ => 0).
Proof. split; [apply has3_const|]. exists 0, 0, 0, 0, 0, 0. auto using has3_const. Qed.
Lemma jet_1 : jet (fun x _ _ => x) (fun _ _ _ => 1) (fun _ _ _ => 0) (fun _ _ _ => 0).
Proof.
  split; [|exists 0, 0, 0, 0, 0, 0; auto using has3_const].
  intros X Y T dx dy dt (A & _). eapply D_conv; [exact A|]. ring.
Qed.
Lemma jet_2 : jet (fun _ y _ => y) (fun _ _ _ => 0) (fun _ _ _ => 1) (fun _ _ _ => 0).
Proof.
  split; [|exists 0, 0, 0, 0, 0, 0; auto using has3_const].
  intros X Y T dx dy dt (_ & A & _). eapply D_conv; [exact A|]. ring.
Qed.
Lemma jet_plus f g f1 f2 f3 g1 g2 g3 : jet f f1 f2 f3 -> jet g g1 g2 g3 ->
  jet (fun x y t => f x y t + g x y t) (fun x y t => f1 x y t + g1 x y t) (fun x y t => f2 x y t + g2 x y t)
    (fun x y t => f3 x y t + g3 x y t).
Proof.
  intros [F (a11 & a12 & a13 & a22 & a23 & a33 & F1 & F2 & F3)] [G (b11 & b12 & b13 & b22 & b23 & b33 & G1 & G2 & G3)].
  split; [exact (has3_plus _ _ _ _ _ _ _ _ F G)|].
  exists (a11 + b11), (a12 + b12), (a13 + b13), (a22 + b22), (a23 + b23), (a33 + b33).
  auto using has3_plus.
Qed.
Lemma jet_mult f g f1 f2 f3 g1 g2 g3 : jet f f1 f2 f3 -> jet g g1 g2 g3 ->
  jet (fun x y t => f x y t * g x y t) (fun x y t => f1 x y t * g x y t + f x y t * g1 x y t)
    (fun x y t => f2 x y t * g x y t + f x y t * g2 x y t) (fun x y t => f3 x y t * g x y t + f x y t * g3 x y t).
Proof.
  intros [F (a11 & a12 & a13 & a22 & a23 & a33 & F1 & F2 & F3)] [G (b11 & b12 & b13 & b22 & b23 & b33 & G1 & G2 & G3)].
  split; [exact (has3_mult _ _ _ _ _ _ _ _ F G)|].
  set (e := fun h : thrice => h m1 m2 m3).
  exists (a11 * e g + 2 * (e f1 * e g1) + e f * b11), (a12 * e g + e f1 * e g2 + e f2 * e g1 + e f * b12),
    (a13 * e g + e f1 * e g3 + e f3 * e g1 + e f * b13), (a22 * e g + 2 * (e f2 * e g2) + e f * b22),
    (a23 * e g + e f2 * e g3 + e f3 * e g2 + e f * b23), (a33 * e g + 2 * (e f3 * e g3) + e f * b33).
  refine (conj _ (conj _ _)); (eapply has3_conv;
    [apply has3_plus; apply has3_mult; first [exact F|exact F1|exact F2|exact F3|exact G|exact G1|exact G2|exact G3] | | |]);
    unfold e; ring.
Qed.
Lemma jet_phi f f1 f2 f3 (phi phi1 : R -> R) l : jet f f1 f2 f3 ->
  derivable_pt_lim phi (f m1 m2 m3) (phi1 (f m1 m2 m3)) -> derivable_pt_lim phi1 (f m1 m2 m3) l ->
  jet (fun x y t => phi (f x y t)) (fun x y t => phi1 (f x y t) * f1 x y t) (fun x y t => phi1 (f x y t) * f2 x y t)
    (fun x y t => phi1 (f x y t) * f3 x y t).
Proof.
  intros [F (a11 & a12 & a13 & a22 & a23 & a33 & F1 & F2 & F3)] P P1.
  split; [exact (has3_phi _ _ _ _ _ _ F P)|].
  set (e := fun h : thrice => h m1 m2 m3). set (k := phi1 (f m1 m2 m3)).
  pose proof (has3_phi _ _ _ _ _ _ F P1) as Q.
  exists (l * e f1 * e f1 + k * a11), (l * e f1 * e f2 + k * a12), (l * e f1 * e f3 + k * a13),
    (l * e f2 * e f2 + k * a22), (l * e f2 * e f3 + k * a23), (l * e f3 * e f3 + k * a33).
  refine (conj _ (conj _ _)); (eapply has3_conv;
    [apply has3_mult; [exact Q | first [exact F1|exact F2|exact F3]] | | |]); unfold e, k; ring.
Qed.
End Jets.

(** * The map of a fringe field with potential [F] *)
Section Fringe.
Variables (F G1 G2 G3 : thrice) (K K1 : R -> R).
Definition at3 (f : thrice) (p : part) : R := f (p_px p) (p_py p) (p_ptau p).
Definition fringe_y (p : part) : R := 2 * p_y p / (1 + sqrt (1 - 2 * at3 G2 p * p_y p)).
Definition fringe_map (p : part) : part :=
  let y := fringe_y p in
  set_zeta ((p_zeta p / p_beta0 p + 1 / 2 * at3 G3 p * (y * y) + y * y * y * y * K1 (p_ptau p)) * p_beta0 p)
   (set_py (p_py p - 4 * K (p_ptau p) * (y * y * y) - at3 F p * y)
     (set_y y (set_x (p_x p + 1 / 2 * at3 G1 p * (y * y)) p))).

Variable p : part.
Hypothesis Kp : kinematic p.
Hypothesis HJ : jet (p_px p) (p_py p) (p_ptau p) F G1 G2 G3.
Variable K2 : R.
Hypothesis HK : derivable_pt_lim K (p_ptau p) (K1 (p_ptau p)).
Hypothesis HK1 : derivable_pt_lim K1 (p_ptau p) K2.
Hypothesis Hr : 0 < 1 - 2 * at3 G2 p * p_y p.

Lemma symp_fringe_map : symplectic fringe_map p.
Proof.
  destruct HJ as [HF (h11 & h12 & h13 & h22 & h23 & h33 & H1 & H2 & H3)]. destruct (kin_pos p Kp) as (Hb & Hg & Hw & _).
  set (A := at3 G2 p) in *. pose proof (sqrt_lt_R0 _ Hr) as Hs. pose proof (sqrt_sqrt _ (Rlt_le _ _ Hr)) as Ss.
  set (s := sqrt (1 - 2 * A * p_y p)) in *.
  set (y := fringe_y p).
  assert (Ey : p_y p = y * (1 + s) / 2). { unfold y, fringe_y. fold A. fold s. field. lra. }
  assert (EA : A * y = 1 - s).
  { unfold y, fringe_y. fold A. fold s. apply (Rmult_eq_reg_r (1 + s)); [|lra].
    replace (A * (2 * p_y p / (1 + s)) * (1 + s)) with (2 * A * p_y p) by (field; lra). lra. }
  pose (J := fun u : vel =>
    let a := v_px u in let b := v_py u in let c := v_ptau u in
    let dy := (v_y u + 1 / 2 * (y * y) * (h12 * a + h22 * b + h23 * c)) / s in
    mkVel (v_x u + 1 / 2 * (y * y) * (h11 * a + h12 * b + h13 * c) + at3 G1 p * y * dy) a dy
      (b - at3 F p * dy - y * (at3 G1 p * a + A * b + at3 G3 p * c) - 12 * K (p_ptau p) * (y * y) * dy
        - 4 * (y * y * y) * K1 (p_ptau p) * c)
      (v_zeta u + p_beta0 p * (1 / 2 * (y * y) * (h13 * a + h23 * b + h33 * c) + at3 G3 p * y * dy
        + K2 * c * (y * y * y * y) + 4 * K1 (p_ptau p) * (y * y * y) * dy)) c).
  apply (symp_keeps _ p J).
  - intros q. repeat split; reflexivity.
  - reflexivity.
  - intros cu u Fa M. pose proof (fam_0 cu p Fa) as E0. pose proof (fam_beta0 cu p Fa) as HB.
    destruct M as (Mx & Mpx & My & Mpy & Mz & Mt).
    assert (AL : along3 (p_px p) (p_py p) (p_ptau p) (fun t => p_px (cu t)) (fun t => p_py (cu t)) (fun t => p_ptau (cu t))
                  (v_px u) (v_py u) (v_ptau u)).
    { unfold along3. rewrite E0. auto 10. }
    pose proof (HF _ _ _ _ _ _ AL) as D0. pose proof (H1 _ _ _ _ _ _ AL) as D1. pose proof (H2 _ _ _ _ _ _ AL) as D2.
    pose proof (H3 _ _ _ _ _ _ AL) as D3. clear AL.
    change (D (fun t => at3 F (cu t)) (at3 G1 p * v_px u + A * v_py u + at3 G3 p * v_ptau u)) in D0.
    change (D (fun t => at3 G1 (cu t)) (h11 * v_px u + h12 * v_py u + h13 * v_ptau u)) in D1.
    change (D (fun t => at3 G2 (cu t)) (h12 * v_px u + h22 * v_py u + h23 * v_ptau u)) in D2.
    change (D (fun t => at3 G3 (cu t)) (h13 * v_px u + h23 * v_py u + h33 * v_ptau u)) in D3.
    assert (DK : D (fun t => K (p_ptau (cu t))) (K1 (p_ptau p) * v_ptau u)).
    { apply (D_comp (fun t => p_ptau (cu t)) K); [exact Mt|]. rewrite E0. exact HK. }
    assert (DK1 : D (fun t => K1 (p_ptau (cu t))) (K2 * v_ptau u)).
    { apply (D_comp (fun t => p_ptau (cu t)) K1); [exact Mt|]. rewrite E0. exact HK1. }
    assert (Dy : D (fun t => fringe_y (cu t)) (v_y (J u))).
    { unfold fringe_y. eapply D_conv; [dv|]; cbv beta; rewrite ?E0; fold A s; try lra.
      unfold J. cbv zeta. cbn [v_y]. set (dA := h12 * v_px u + h22 * v_py u + h23 * v_ptau u).
      assert (Ek : y * (1 + s) = 2 * p_y p) by lra.
      replace y with (2 * p_y p / (1 + s)) by (unfold y, fringe_y; fold A; fold s; reflexivity).
      assert (EA' : 2 * A * p_y p = 1 - s * s) by lra.
      transitivity ((v_y u * (2 * s + 2 * (s * s)) + v_y u * (2 * A * p_y p) + 2 * (p_y p * p_y p) * dA) / (s * ((1 + s) * (1 + s)))); [field; lra|].
      rewrite EA'. field. lra. }
    assert (Ed : fringe_y p = y) by reflexivity.
    unfold fringe_map. cbn [set_zeta set_py set_x set_y p_x p_px p_y p_py p_zeta].
    set (dy := v_y (J u)) in *.
    refine (conj _ (conj Mpx (conj Dy (conj _ _)))).
    + change (v_x (J u)) with (v_x u + 1 / 2 * (y * y) * (h11 * v_px u + h12 * v_py u + h13 * v_ptau u) + at3 G1 p * y * dy).
      eapply D_conv; [dv|]. cbv beta. rewrite E0, Ed. field.
    + change (v_py (J u)) with (v_py u - at3 F p * dy - y * (at3 G1 p * v_px u + A * v_py u + at3 G3 p * v_ptau u) - 12 * K (p_ptau p) * (y * y) * dy
        - 4 * (y * y * y) * K1 (p_ptau p) * v_ptau u).
      eapply D_conv; [dv|]. cbv beta. rewrite E0, Ed. ring.
    + change (v_zeta (J u)) with (v_zeta u + p_beta0 p * (1 / 2 * (y * y) * (h13 * v_px u + h23 * v_py u + h33 * v_ptau u) + at3 G3 p * y * dy
        + K2 * v_ptau u * (y * y * y * y) + 4 * K1 (p_ptau p) * (y * y * y) * dy)).
      eapply D_conv; [dv|]; cbv beta; rewrite ?E0, ?Ed; [lra|]. field. lra.
  - intros u v. unfold form, J. cbn [v_x v_px v_y v_py v_zeta v_ptau].
    set (d1 := (v_y u + _) / s). set (d2 := (v_y v + _) / s).
    assert (E1 : v_y u = (1 - A * y) * d1 - 1 / 2 * (y * y) * (h12 * v_px u + h22 * v_py u + h23 * v_ptau u)).
    { rewrite EA. unfold d1. field. lra. }
    assert (E2 : v_y v = (1 - A * y) * d2 - 1 / 2 * (y * y) * (h12 * v_px v + h22 * v_py v + h23 * v_ptau v)).
    { rewrite EA. unfold d2. field. lra. }
    clearbody d1 d2. rewrite E1, E2. field. lra.
Qed.
End Fringe.

(** * The potential of the fringe field of a dipole *)
Section Dipole.
Variables (beta0 b0 c2 : R).
Definition dS : thrice := fun x y t => 1 + 2 * t / beta0 + t * t - x * x - y * y.
Definition dw : thrice := fun x y t => 1 / sqrt (dS x y t).
Definition dw1 : thrice := fun x y t => x * (dw x y t * dw x y t * dw x y t).
Definition dw2 : thrice := fun x y t => y * (dw x y t * dw x y t * dw x y t).
Definition dw3 : thrice := fun x y t => - (1 / beta0 + t) * (dw x y t * dw x y t * dw x y t).
Definition dxp : thrice := fun x y t => x * dw x y t.
Definition dyp : thrice := fun x y t => y * dw x y t.
Definition di : thrice := fun x y t => 1 / (1 + dyp x y t * dyp x y t).
Definition da : thrice := fun x y t => dxp x y t * di x y t.
Definition dc : thrice := fun x y t => (1 + dxp x y t * dxp x y t * (1 + (1 + dyp x y t * dyp x y t))) * dw x y t.
Definition dfi : thrice := fun x y t => atan (da x y t) + - c2 * dc x y t.
Definition dF : thrice := fun x y t => b0 * tan (dfi x y t).

Variables x y t : R.
Hypothesis Hb : beta0 <> 0.
Hypothesis HS : 0 < dS x y t.
Hypothesis Hc : cos (dfi x y t) <> 0.

Lemma has_dw : has3 x y t dw (dw1 x y t) (dw2 x y t) (dw3 x y t).
Proof.
  intros X Y T dx dy dt (DX & DY & DT & E1 & E2 & E3).
  pose proof (sqrt_lt_R0 _ HS) as Hq. pose proof (sqrt_sqrt _ (Rlt_le _ _ HS)) as Sq.
  unfold dw at 1, dS. eapply D_conv; [dv|]; cbv beta; rewrite ?E1, ?E2, ?E3; try exact Hb; try (apply Rgt_not_eq; exact Hq).
  - exact HS.
  - fold (dS x y t). unfold dw1, dw2, dw3, dw. set (q := sqrt (dS x y t)) in *.
    field. split; [lra|exact Hb].
Qed.
Lemma jet_dw : jet x y t dw dw1 dw2 dw3.
Proof.
  split; [exact has_dw|].
  set (w := dw x y t). set (e := 1 / beta0 + t).
  exists (w * w * w + 3 * (x * x) * (w * w * w * w * w)), (3 * (x * y) * (w * w * w * w * w)), (- (3) * (x * e) * (w * w * w * w * w)),
    (w * w * w + 3 * (y * y) * (w * w * w * w * w)), (- (3) * (y * e) * (w * w * w * w * w)),
    (- (w * w * w) + 3 * (e * e) * (w * w * w * w * w)).
  pose proof has_dw as HW.
  refine (conj _ (conj _ _)); intros X Y T dx dy dt AL; pose proof (HW _ _ _ _ _ _ AL) as DW;
    destruct AL as (DX & DY & DT & E1 & E2 & E3); unfold dw1, dw2, dw3 in *;
    (eapply D_conv; [dv; exact Hb|]); cbv beta; rewrite ?E1, ?E2, ?E3; unfold dw1, dw2, dw3; fold w; unfold e; field; exact Hb.
Qed.
Definition g_xp1 : thrice := fun x y t => 1 * dw x y t + x * dw1 x y t.
Definition g_xp2 : thrice := fun x y t => 0 * dw x y t + x * dw2 x y t.
Definition g_xp3 : thrice := fun x y t => 0 * dw x y t + x * dw3 x y t.
Definition g_yp1 : thrice := fun x y t => 0 * dw x y t + y * dw1 x y t.
Definition g_yp2 : thrice := fun x y t => 1 * dw x y t + y * dw2 x y t.
Definition g_yp3 : thrice := fun x y t => 0 * dw x y t + y * dw3 x y t.
Lemma jet_dxp : jet x y t dxp g_xp1 g_xp2 g_xp3.
Proof. exact (jet_mult x y t _ _ _ _ _ _ _ _ (jet_1 x y t) jet_dw). Qed.
Lemma jet_dyp : jet x y t dyp g_yp1 g_yp2 g_yp3.
Proof. exact (jet_mult x y t _ _ _ _ _ _ _ _ (jet_2 x y t) jet_dw). Qed.
(** The gradient of a square *)
Definition sqg (f g : thrice) : thrice := fun x y t => g x y t * f x y t + f x y t * g x y t.
Lemma jet_sq f f1 f2 f3 : jet x y t f f1 f2 f3 -> jet x y t (fun x y t => f x y t * f x y t) (sqg f f1) (sqg f f2) (sqg f f3).
Proof. intros H. exact (jet_mult x y t _ _ _ _ _ _ _ _ H H). Qed.
Lemma D_inv s : s <> 0 -> derivable_pt_lim (fun s => 1 / s) s (- (1 / s * (1 / s))).
Proof.
  intros Hs. eapply derivable_pt_lim_ext; [intros z; reflexivity|].
  pose proof (derivable_pt_lim_div (fun _ => 1) (fun z => z) s 0 1 (derivable_pt_lim_const 1 s) (derivable_pt_lim_id s) Hs) as H.
  unfold div_fct in H. replace (- (1 / s * (1 / s))) with ((0 * s - 1 * 1) / Rsqr s) by (unfold Rsqr; field; exact Hs). exact H.
Qed.
Lemma D_inv1 s : s <> 0 -> derivable_pt_lim (fun s => - (1 / s * (1 / s))) s (2 * (1 / s * (1 / s) * (1 / s))).
Proof.
  intros Hs. pose proof (D_inv s Hs) as H. 
  pose proof (derivable_pt_lim_opp _ _ _ (derivable_pt_lim_mult _ _ _ _ _ H H)) as X. unfold opp_fct, mult_fct in X.
  replace (2 * (1 / s * (1 / s) * (1 / s))) with (- (- (1 / s * (1 / s)) * (1 / s) + 1 / s * - (1 / s * (1 / s)))) by ring. exact X.
Qed.
Definition inv1 (s : R) : R := - (1 / s * (1 / s)).
Definition yy : thrice := fun x y t => 1 + dyp x y t * dyp x y t.
Definition g_i (g : thrice) : thrice := fun x y t => inv1 (yy x y t) * (0 + sqg dyp g x y t).
Lemma yy_pos x' y' t' : 0 < yy x' y' t'.
Proof. unfold yy. pose proof (Rle_0_sqr (dyp x' y' t')) as H. unfold Rsqr in H. lra. Qed.
Lemma jet_di : jet x y t di (g_i g_yp1) (g_i g_yp2) (g_i g_yp3).
Proof.
  pose proof (yy_pos x y t) as Hy.
  apply (jet_phi x y t yy _ _ _ (fun s => 1 / s) inv1 (2 * (1 / yy x y t * (1 / yy x y t) * (1 / yy x y t)))).
  - exact (jet_plus x y t _ _ _ _ _ _ _ _ (jet_const x y t 1) (jet_sq _ _ _ _ jet_dyp)).
  - apply D_inv. lra.
  - apply D_inv1. lra.
Qed.
Definition g_a (g h : thrice) : thrice := fun x y t => g x y t * di x y t + dxp x y t * g_i h x y t.
Lemma jet_da : jet x y t da (g_a g_xp1 g_yp1) (g_a g_xp2 g_yp2) (g_a g_xp3 g_yp3).
Proof. exact (jet_mult x y t _ _ _ _ _ _ _ _ jet_dxp jet_di). Qed.
Definition atan1 (s : R) : R := / (1 + s ^ 2).
Lemma D_atan1 s : derivable_pt_lim atan1 s (- (2 * s) / ((1 + s ^ 2) * (1 + s ^ 2))).
Proof.
  assert (H : 0 < 1 + s ^ 2) by (pose proof (pow2_ge_0 s); lra).
  assert (X : derivable_pt_lim (fun z => 1 + z * z) s (0 + (1 * s + s * 1))).
  { apply (derivable_pt_lim_plus (fun _ => 1) (fun z => z * z)); [apply derivable_pt_lim_const|].
    apply (derivable_pt_lim_mult (fun z => z) (fun z => z)); apply derivable_pt_lim_id. }
  assert (Hn : 1 + s * s <> 0) by (replace (s * s) with (s ^ 2) by ring; lra).
  pose proof (derivable_pt_lim_comp (fun z => 1 + z * z) (fun z => 1 / z) s _ _ X (D_inv _ Hn)) as Y. unfold comp in Y.
  replace (- (2 * s) / ((1 + s ^ 2) * (1 + s ^ 2))) with (- (1 / (1 + s * s) * (1 / (1 + s * s))) * (0 + (1 * s + s * 1))) by (field; repeat split; lra).
  eapply derivable_pt_lim_ext; [|exact Y]. intros z. unfold atan1, Rdiv. rewrite Rmult_1_l. f_equal. ring.
Qed.
Definition g_at (g h : thrice) : thrice := fun x y t => atan1 (da x y t) * g_a g h x y t.
Lemma jet_at : jet x y t (fun x y t => atan (da x y t)) (g_at g_xp1 g_yp1) (g_at g_xp2 g_yp2) (g_at g_xp3 g_yp3).
Proof.
  eapply (jet_phi x y t da _ _ _ atan atan1); [exact jet_da|apply derivable_pt_lim_atan|apply D_atan1].
Qed.
(** The gradient of the correction of the gap *)
Definition g_cc (g h : thrice) : thrice := fun x y t =>
  0 + (sqg dxp g x y t * (1 + (1 + dyp x y t * dyp x y t)) + dxp x y t * dxp x y t * (0 + (0 + sqg dyp h x y t))).
Definition g_c (g h w : thrice) : thrice := fun x y t =>
  g_cc g h x y t * dw x y t + (1 + dxp x y t * dxp x y t * (1 + (1 + dyp x y t * dyp x y t))) * w x y t.
Lemma jet_dc : jet x y t dc (g_c g_xp1 g_yp1 dw1) (g_c g_xp2 g_yp2 dw2) (g_c g_xp3 g_yp3 dw3).
Proof.
  pose proof (jet_plus x y t _ _ _ _ _ _ _ _ (jet_const x y t 1) (jet_plus x y t _ _ _ _ _ _ _ _ (jet_const x y t 1) (jet_sq _ _ _ _ jet_dyp))) as A.
  pose proof (jet_mult x y t _ _ _ _ _ _ _ _ (jet_sq _ _ _ _ jet_dxp) A) as B.
  pose proof (jet_plus x y t _ _ _ _ _ _ _ _ (jet_const x y t 1) B) as C.
  exact (jet_mult x y t _ _ _ _ _ _ _ _ C jet_dw).
Qed.
Definition g_fi (g h w : thrice) : thrice := fun x y t => g_at g h x y t + (0 * dc x y t + - c2 * g_c g h w x y t).
Lemma jet_fi : jet x y t dfi (g_fi g_xp1 g_yp1 dw1) (g_fi g_xp2 g_yp2 dw2) (g_fi g_xp3 g_yp3 dw3).
Proof.
  pose proof (jet_mult x y t _ _ _ _ _ _ _ _ (jet_const x y t (- c2)) jet_dc) as A.
  exact (jet_plus x y t _ _ _ _ _ _ _ _ jet_at A).
Qed.
Definition tan1 (s : R) : R := 1 / (cos s * cos s).
Lemma D_tan s : cos s <> 0 -> derivable_pt_lim tan s (tan1 s).
Proof.
  intros H. pose proof (derivable_pt_lim_div sin cos s _ _ (derivable_pt_lim_sin s) (derivable_pt_lim_cos s) H) as X.
  replace (tan1 s) with ((cos s * cos s - - sin s * sin s) / Rsqr (cos s)); [exact X|].
  unfold tan1, Rsqr. pose proof (sin2_cos2 s) as E. unfold Rsqr in E. replace (cos s * cos s - - sin s * sin s) with 1 by lra. reflexivity.
Qed.
Lemma D_tan1 s : cos s <> 0 -> derivable_pt_lim tan1 s (2 * sin s / (cos s * cos s * cos s)).
Proof.
  intros H. assert (H2 : cos s * cos s <> 0) by (now apply Rmult_integral_contrapositive).
  pose proof (derivable_pt_lim_mult cos cos s _ _ (derivable_pt_lim_cos s) (derivable_pt_lim_cos s)) as X.
  pose proof (derivable_pt_lim_comp (cos * cos)%F (fun z => 1 / z) s _ _ X (D_inv _ H2)) as Y. unfold comp, mult_fct in Y.
  replace (2 * sin s / (cos s * cos s * cos s)) with (- (1 / (cos s * cos s) * (1 / (cos s * cos s))) * (- sin s * cos s + cos s * - sin s)) by (field; exact H).
  exact Y.
Qed.
Definition g_F (g h w : thrice) : thrice := fun x y t => 0 * tan (dfi x y t) + b0 * (tan1 (dfi x y t) * g_fi g h w x y t).
Lemma jet_dF : jet x y t dF (g_F g_xp1 g_yp1 dw1) (g_F g_xp2 g_yp2 dw2) (g_F g_xp3 g_yp3 dw3).
Proof.
  pose proof (jet_phi x y t dfi _ _ _ tan tan1 _ jet_fi (D_tan _ Hc) (D_tan1 _ Hc)) as A.
  exact (jet_mult x y t _ _ _ _ _ _ _ _ (jet_const x y t b0) A).
Qed.
End Dipole.
