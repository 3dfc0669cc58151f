From Coq Require Import Reals ZArith List Bool Lra Lia.
From Verif.Model Require Import Maps Curved Magnet Edges.
From Verif.Spec Require Import Frames Magnets Symplectic Edges.
From Verif.Proofs Require Import Symplectic SympMagnet SympBend SympEdge SympDipole.
Import ListNotations.
Local Open Scope R_scope.

(** * The code computes the derivatives of the potential *)
Section Map.
Variables (fint hgap k0 beta0 chi : R).
Let b0 := k0 * chi. Let fh := hgap * fint. Let c2 := b0 * fh * 2.
Definition gF1 : thrice := g_F beta0 b0 c2 (g_xp1 beta0) (g_yp1 beta0) (dw1 beta0).
Definition gF2 : thrice := g_F beta0 b0 c2 (g_xp2 beta0) (g_yp2 beta0) (dw2 beta0).
Definition gF3 : thrice := g_F beta0 b0 c2 (g_xp3 beta0) (g_yp3 beta0) (dw3 beta0).
Definition fsad : R := if Rlt_dec (/ 1000000000) fh then 1 / (72 * fh) else 0.
Definition erp (t : R) : R := 1 / sqrt (1 + 2 * t / beta0 + t * t).
Definition gK (t : R) : R := b0 * b0 * fsad * erp t.
Definition gK1 (t : R) : R := b0 * b0 * fsad * erp t * (erp t * erp t) * - (1 / beta0 + t).
Definition code_map : part -> part := fringe_map (dF beta0 b0 c2) gF1 gF2 gF3 gK gK1.

Lemma kin_dS q : kinematic q -> p_beta0 q = beta0 ->
  dS beta0 (p_px q) (p_py q) (p_ptau q) = (1 + p_delta q) * (1 + p_delta q) - p_px q * p_px q - p_py q * p_py q.
Proof. intros K E. destruct (kin_pos q K) as (_ & _ & _ & X). unfold gP in X. rewrite X, E. unfold dS. ring. Qed.
Lemma code_agree q : kinematic q -> p_beta0 q = beta0 -> p_chi q = chi -> small k0 = false -> 0 < pz2 q ->
  agree (code_map q) (dipole_fringe fint hgap k0 q) .
Proof.
  intros K E C T Hp. pose proof (kin_dS q K E) as HS. destruct (kin_pos q K) as (Hb & Hg & _ & EG). rewrite E in EG.
  unfold dipole_fringe. rewrite T, C, E. fold b0. fold fh. fold c2. cbv zeta. fold fsad.
  rewrite <- HS.
  assert (W : 1 / sqrt (dS beta0 (p_px q) (p_py q) (p_ptau q)) = dw beta0 (p_px q) (p_py q) (p_ptau q)) by reflexivity.
  assert (RP : 1 / sqrt ((1 + p_delta q) * (1 + p_delta q)) = erp (p_ptau q)).
  { unfold gP in EG. rewrite EG. reflexivity. }
  rewrite !W, !RP.
  assert (DW : forall a, a / sqrt (dS beta0 (p_px q) (p_py q) (p_ptau q)) = a * dw beta0 (p_px q) (p_py q) (p_ptau q)).
  { intros a. unfold dw, Rdiv. ring. }
  rewrite !DW.
  fold (dxp beta0 (p_px q) (p_py q) (p_ptau q)) (dyp beta0 (p_px q) (p_py q) (p_ptau q)).
  set (x := p_px q). set (y := p_py q). set (t := p_ptau q).
  fold (di beta0 x y t). fold (da beta0 x y t).
  set (fi := atan (da beta0 x y t) - _).
  assert (Ef : fi = dfi beta0 c2 x y t). { unfold fi, dfi, dc. ring. }
  rewrite Ef. clear Ef fi.
  set (w := dw beta0 x y t). set (xp := dxp beta0 x y t). set (yp := dyp beta0 x y t).
  set (I := di beta0 x y t). set (fi := dfi beta0 c2 x y t).
  set (co2 := b0 / (cos fi * cos fi)).
  set (at1 := 1 + da beta0 x y t * da beta0 x y t).
  assert (K1 : gF1 x y t = (co2 / at1 * I - co2 * c2 * 2 * xp * (1 + (1 + yp * yp)) * w) * (1 + xp * xp) * w
     + (- (2) * (co2 / at1 * I) * (xp * yp) * I - co2 * c2 * 2 * xp * (xp * yp) * w) * (xp * yp) * w
     - co2 * c2 * (1 + xp * xp * (1 + (1 + yp * yp))) * (w * w) * xp).
  { unfold gF1, g_F, g_fi, g_at, g_a, g_i, g_c, g_cc, sqg, inv1, yy, tan1, atan1, g_xp1, g_yp1, dw1.
    replace (da beta0 x y t ^ 2) with (da beta0 x y t * da beta0 x y t) by ring. fold at1. fold w xp yp I.
    change (1 / (1 + yp * yp)) with I. fold fi. unfold co2, Rdiv.
    replace xp with (x * w) by reflexivity. replace yp with (y * w) by reflexivity. ring. }
  assert (K2 : gF2 x y t = (co2 / at1 * I - co2 * c2 * 2 * xp * (1 + (1 + yp * yp)) * w) * (xp * yp) * w
     + (- (2) * (co2 / at1 * I) * (xp * yp) * I - co2 * c2 * 2 * xp * (xp * yp) * w) * (1 + yp * yp) * w
     - co2 * c2 * (1 + xp * xp * (1 + (1 + yp * yp))) * (w * w) * yp).
  { unfold gF2, g_F, g_fi, g_at, g_a, g_i, g_c, g_cc, sqg, inv1, yy, tan1, atan1, g_xp2, g_yp2, dw2.
    replace (da beta0 x y t ^ 2) with (da beta0 x y t * da beta0 x y t) by ring. fold at1. fold w xp yp I.
    change (1 / (1 + yp * yp)) with I. fold fi. unfold co2, Rdiv.
    replace xp with (x * w) by reflexivity. replace yp with (y * w) by reflexivity. ring. }
  assert (K3 : gF3 x y t = (co2 / at1 * I - co2 * c2 * 2 * xp * (1 + (1 + yp * yp)) * w) * (- (1 / beta0 + t)) * xp * (w * w)
     + (- (2) * (co2 / at1 * I) * (xp * yp) * I - co2 * c2 * 2 * xp * (xp * yp) * w) * (- (1 / beta0 + t)) * yp * (w * w)
     - co2 * c2 * (1 + xp * xp * (1 + (1 + yp * yp))) * (w * w) * (- (1 / beta0 + t)) * w).
  { unfold gF3, g_F, g_fi, g_at, g_a, g_i, g_c, g_cc, sqg, inv1, yy, tan1, atan1, g_xp3, g_yp3, dw3.
    replace (da beta0 x y t ^ 2) with (da beta0 x y t * da beta0 x y t) by ring. fold at1. fold w xp yp I.
    change (1 / (1 + yp * yp)) with I. fold fi. unfold co2, Rdiv.
    replace xp with (x * w) by reflexivity. replace yp with (y * w) by reflexivity. ring. }
  rewrite <- K1, <- K2, <- K3.
  unfold code_map, fringe_map, fringe_y. unfold at3. fold x y t.
  unfold agree. cbn [set_zeta set_py set_x set_y p_x p_px p_y p_py p_zeta].
  refine (conj eq_refl (conj eq_refl (conj eq_refl (conj _ _)))).
  - unfold gK. unfold dF. fold fi. reflexivity.
  - rewrite E. f_equal. unfold gK1. set (yn := 2 * p_y q / _). ring.
Qed.

Lemma spec_angle x y t : fringe_angle b0 fh beta0 x y t = dfi beta0 c2 x y t.
Proof.
  unfold fringe_angle, dfi, dc, da, di, dxp, dyp, dw, dS. unfold c2. cbv zeta. unfold Rdiv. rewrite !Rmult_1_l.
  ring.
Qed.
Lemma spec_potential x y t : potential b0 fh beta0 x y t = dF beta0 b0 c2 x y t.
Proof. unfold potential, dF. now rewrite spec_angle. Qed.
Lemma spec_gap t : gap_term b0 fh beta0 t = gK t.
Proof. unfold gap_term, gK, fsad, erp. destruct (Rlt_dec _ _); unfold Rdiv; ring. Qed.
End Map.

Lemma D_shift f x l : derivable_pt_lim (fun s => f (x + s)) 0 l -> derivable_pt_lim f x l.
Proof.
  intros H eps He. destruct (H eps He) as [d Hd]. exists d. intros h Hh Hs. specialize (Hd h Hh Hs).
  cbv beta in Hd. rewrite Rplus_0_l, Rplus_0_r in Hd. exact Hd.
Qed.
Lemma D_lin x : D (fun s => x + s) 1.
Proof. eapply D_conv; [apply D_plus; [apply D_const|apply derivable_pt_lim_id]|]. ring. Qed.
Lemma has3_partials x y t f a b c : has3 x y t f a b c ->
  derivable_pt_lim (fun z => f z y t) x a /\ derivable_pt_lim (fun z => f x z t) y b /\ derivable_pt_lim (fun z => f x y z) t c.
Proof.
  intros H. refine (conj _ (conj _ _)); apply D_shift.
  - eapply D_conv; [apply (H (fun s => x + s) (fun _ => y) (fun _ => t) 1 0 0)|ring].
    repeat split; auto using D_lin, D_const. ring.
  - eapply D_conv; [apply (H (fun _ => x) (fun s => y + s) (fun _ => t) 0 1 0)|ring].
    repeat split; auto using D_lin, D_const. ring.
  - eapply D_conv; [apply (H (fun _ => x) (fun _ => y) (fun s => t + s) 0 0 1)|ring].
    repeat split; auto using D_lin, D_const. ring.
Qed.

Section At.
Variables (fint hgap k0 : R) (p : part).
Hypothesis T : small k0 = false.
Hypothesis OK : dipole_fringe_ok fint hgap k0 p.
Let b0 := k0 * p_chi p. Let fh := hgap * fint. Let c2 := b0 * fh * 2.
Let F := dF (p_beta0 p) b0 c2.
Let G1 := gF1 fint hgap k0 (p_beta0 p) (p_chi p).
Let G2 := gF2 fint hgap k0 (p_beta0 p) (p_chi p).
Let G3 := gF3 fint hgap k0 (p_beta0 p) (p_chi p).

Lemma at_jet : jet (p_px p) (p_py p) (p_ptau p) F G1 G2 G3 /\ 0 < 1 - 2 * at3 G2 p * p_y p.
Proof.
  destruct OK as [[K Hp] O]. destruct (O (proj1 (small_false _ T))) as [Hc (A & HA & HY)].
  destruct (kin_pos p K) as (Hb & Hg & _ & EG).
  assert (J : jet (p_px p) (p_py p) (p_ptau p) F G1 G2 G3).
  { apply jet_dF; [lra| |].
    - rewrite (kin_dS _ p K eq_refl). exact Hp.
    - rewrite <- (spec_angle fint hgap k0 (p_beta0 p) (p_chi p)). exact Hc. }
  split; [exact J|]. destruct J as [J _]. destruct (has3_partials _ _ _ _ _ _ _ J) as (_ & X & _).
  replace (at3 G2 p) with A; [exact HY|].
  apply (uniqueness_limite (fun z => F (p_px p) z (p_ptau p)) (p_py p)); [|exact X].
  eapply derivable_pt_lim_ext; [|exact HA]. intros z. apply spec_potential.
Qed.
Lemma D_erp beta0 t : beta0 <> 0 -> 0 < 1 + 2 * t / beta0 + t * t ->
  derivable_pt_lim (erp beta0) t (erp beta0 t * (erp beta0 t * erp beta0 t) * - (1 / beta0 + t)).
Proof.
  intros Hb H. apply D_shift. pose proof (D_lin t) as L. pose proof (sqrt_lt_R0 _ H) as Hq. pose proof (sqrt_sqrt _ (Rlt_le _ _ H)) as Sq.
  unfold erp at 1. eapply D_conv; [dv|]; cbv beta; rewrite ?Rplus_0_r; try assumption; try lra.
  unfold erp. set (q := sqrt (1 + 2 * t / beta0 + t * t)) in *. field. split; lra.
Qed.
Lemma at_K : exists K2, derivable_pt_lim (gK fint hgap k0 (p_beta0 p) (p_chi p)) (p_ptau p)
     (gK1 fint hgap k0 (p_beta0 p) (p_chi p) (p_ptau p)) /\
   derivable_pt_lim (gK1 fint hgap k0 (p_beta0 p) (p_chi p)) (p_ptau p) K2.
Proof.
  destruct OK as [[K _] _]. destruct (kin_pos p K) as (Hb & Hg & _ & EG).
  assert (H : 0 < 1 + 2 * p_ptau p / p_beta0 p + p_ptau p * p_ptau p). { rewrite <- EG. now apply Rmult_lt_0_compat. }
  assert (Hb' : p_beta0 p <> 0) by lra. pose proof (D_erp (p_beta0 p) (p_ptau p) Hb' H) as E.
  assert (E' : D (fun s => erp (p_beta0 p) (p_ptau p + s)) (erp (p_beta0 p) (p_ptau p) * (erp (p_beta0 p) (p_ptau p) * erp (p_beta0 p) (p_ptau p)) * - (1 / p_beta0 p + p_ptau p))).
  { eapply D_conv; [apply (D_comp (fun s => p_ptau p + s) (erp (p_beta0 p)) 1); [apply D_lin|rewrite Rplus_0_r; exact E]|]. ring. }
  pose proof (D_lin (p_ptau p)) as L.
  eexists. split.
  - apply D_shift. unfold gK. eapply D_conv; [dv|]. cbv beta. rewrite Rplus_0_r. unfold gK1. ring.
  - apply D_shift. unfold gK1. dv.
Qed.
Lemma symp_at : symplectic (dipole_fringe fint hgap k0) p.
Proof.
  destruct at_jet as [J HY]. destruct at_K as (K2 & H1 & H2). destruct OK as [[K Hp] _].
  apply (symp_agree _ (code_map fint hgap k0 (p_beta0 p) (p_chi p))).
  - intros q. unfold dipole_fringe. destruct (small k0); repeat split; reflexivity.
  - intros cu u Fa M. pose proof (fam_near cu p Fa) as N.
    assert (P : near (fun t => 0 < pz2 (cu t))).
    { unfold pz2. pose proof (fam_delta cu p u Fa M) as Hd. destruct M as (Mx & Mpx & My & Mpy & Mz & Mt).
      eapply D_pos; [dv|]. cbv beta. rewrite (fam_0 cu p Fa). exact Hp. }
    apply (near_weak _ _) with (2 := near_and _ _ N P). intros t ((X1 & X2 & X3) & X4).
    now apply code_agree.
  - intros q. repeat split; reflexivity.
  - exact (symp_fringe_map _ _ _ _ _ _ p K J K2 H1 H2 HY).
Qed.
Lemma image_at : fringe_image b0 fh p (dipole_fringe fint hgap k0 p).
Proof.
  destruct at_jet as [[J _] HY]. destruct at_K as (K2 & H1 & _). destruct OK as [[K Hp] _].
  destruct (code_agree fint hgap k0 (p_beta0 p) (p_chi p) p K eq_refl eq_refl T Hp) as (C1 & C2 & C3 & C4 & C5).
  destruct (has3_partials _ _ _ _ _ _ _ J) as (X1 & X2 & X3).
  unfold fringe_image. cbv zeta.
  exists (at3 G1 p), (at3 G2 p), (at3 G3 p), (gK1 fint hgap k0 (p_beta0 p) (p_chi p) (p_ptau p)).
  rewrite <- C1, <- C2, <- C3, <- C4, <- C5.
  set (A := at3 G2 p) in *. pose proof (sqrt_lt_R0 _ HY) as Hs. pose proof (sqrt_sqrt _ (Rlt_le _ _ HY)) as Ss.
  destruct (kin_pos p K) as (Hb & _).
  unfold b0, fh.
  refine (conj _ (conj _ (conj _ (conj _ (conj eq_refl (conj eq_refl (conj _ (conj _ (conj _ (conj _ _)))))))))).
  - eapply derivable_pt_lim_ext; [|exact X1]. intros z. symmetry. apply spec_potential.
  - eapply derivable_pt_lim_ext; [|exact X2]. intros z. symmetry. apply spec_potential.
  - eapply derivable_pt_lim_ext; [|exact X3]. intros z. symmetry. apply spec_potential.
  - eapply derivable_pt_lim_ext; [|exact H1]. intros z. symmetry. apply spec_gap.
  - unfold code_map, fringe_map. cbn [set_zeta set_py set_x set_y p_y]. unfold fringe_y.
    change (gF2 fint hgap k0 (p_beta0 p) (p_chi p)) with G2. fold A. set (s := sqrt (1 - 2 * A * p_y p)) in *.
    apply (Rmult_eq_reg_r ((1 + s) * (1 + s))); [|apply Rgt_not_eq, Rmult_lt_0_compat; lra].
    transitivity (2 * p_y p * (1 + s) - p_y p * (2 * A * p_y p)); [|field; lra].
    replace (2 * A * p_y p) with (1 - s * s) by lra. ring.
  - rewrite spec_potential, spec_gap. unfold code_map, fringe_map. cbn [set_zeta set_py set_x set_y p_y p_py]. unfold at3. ring.
  - unfold code_map, fringe_map. cbn [set_zeta set_py set_x set_y p_y p_zeta]. 
    change (gF3 fint hgap k0 (p_beta0 p) (p_chi p)) with G3. change (gF2 fint hgap k0 (p_beta0 p) (p_chi p)) with G2. field. lra.
  - unfold dipole_fringe. rewrite T. reflexivity.
  - unfold dipole_fringe. rewrite T. reflexivity.
Qed.
End At.

Lemma symp_dipole_fringe fint hgap k0 p : dipole_fringe_ok fint hgap k0 p -> symplectic (dipole_fringe fint hgap k0) p.
Proof.
  intros O. destruct (small k0) eqn:T.
  - eapply symp_ext; [|apply symp_id]. intros q. unfold dipole_fringe. now rewrite T.
  - now apply symp_at.
Qed.
