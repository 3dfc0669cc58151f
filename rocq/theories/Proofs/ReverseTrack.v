(** The kick of a reversed multipole *)
From Coq Require Import Reals ZArith Lra Lia List Bool Arith String.
From Verif.Model Require Import Maps Curved Magnet FeedDown Reverse.
From Verif.Spec Require Import Magnets Reverse.
From Verif.Proofs Require Import FrameMaps MagnetKick MagnetBack MagnetSum ThinSlices Cx FeedDown FeedDownTrack Reverse.
Import ListNotations.
Local Open Scope R_scope.
Local Open Scope string_scope.

(** A thin multipole with shifts and a tilt *)
Lemma aligned_thin syn dx dy psi anchor o knl ksl p :
  let q := track_aligned syn (mkAlign dx dy 0 0 0 0 anchor psi) 0 0 false
             (fun bt => track_magnet bt 1 (thin_multipole o knl ksl)) p in
  let F := kick_coordinates (cos psi * (p_x p - dx) + sin psi * (p_y p - dy))
             (- sin psi * (p_x p - dx) + cos psi * (p_y p - dy)) (p_chi p)
             (mkMult o (/ INR (fact o)) knl ksl) 1 1 in
  p_x q = p_x p /\ p_y q = p_y p /\
  p_px q = p_px p + (cos psi * fst F - sin psi * snd F) /\ p_py q = p_py p + (sin psi * fst F + cos psi * snd F).
Proof.
  cbv zeta. unfold track_aligned. cbn [al_x al_y al_s al_theta al_phi al_psi al_anchor al_tilt].
  destruct (rot_shift_active _) eqn:A.
  - rewrite entry_roll, exit_roll, thin_multipole_kick.
    set (e := S_ROTATE syn psi (xyshift dx dy p)).
    destruct (roll_coords syn psi (xyshift dx dy p)) as (E1 & E2 & E3 & E4 & E5). fold e in E1, E2, E3, E4, E5.
    change (p_x (xyshift dx dy p)) with (p_x p - dx) in *. change (p_y (xyshift dx dy p)) with (p_y p - dy) in *.
    change (p_px (xyshift dx dy p)) with (p_px p) in *. change (p_py (xyshift dx dy p)) with (p_py p) in *.
    change (p_chi (xyshift dx dy p)) with (p_chi p) in *.
    rewrite E1, E2, E5. set (F := kick_coordinates _ _ _ _ _ _).
    set (f := kicked (fst F) (snd F) 0 e).
    destruct (roll_coords syn (- psi) f) as (G1 & G2 & G3 & G4 & _).
    change (p_px (xyshift (- dx) (- dy) (S_ROTATE syn (- psi) f))) with (p_px (S_ROTATE syn (- psi) f)).
    change (p_py (xyshift (- dx) (- dy) (S_ROTATE syn (- psi) f))) with (p_py (S_ROTATE syn (- psi) f)).
    change (p_x (xyshift (- dx) (- dy) (S_ROTATE syn (- psi) f))) with (p_x (S_ROTATE syn (- psi) f) - - dx).
    change (p_y (xyshift (- dx) (- dy) (S_ROTATE syn (- psi) f))) with (p_y (S_ROTATE syn (- psi) f) - - dy).
    rewrite G1, G2, G3, G4, cos_neg, sin_neg.
    change (p_px f) with (p_px e + fst F). change (p_py f) with (p_py e + snd F).
    change (p_x f) with (p_x e). change (p_y f) with (p_y e).
    rewrite E1, E2, E3, E4.
    pose proof (sin2_cos2 psi) as S. unfold Rsqr in S.
    assert (Sx : forall a, cos psi * cos psi * a + sin psi * sin psi * a = a)
      by (intros a; transitivity ((sin psi * sin psi + cos psi * cos psi) * a); [ring|rewrite S; ring]).
    repeat split.
    + pose proof (Sx (p_x p - dx)). lra.
    + pose proof (Sx (p_y p - dy)). lra.
    + rewrite <- (Sx (p_px p)) at 3. ring.
    + rewrite <- (Sx (p_py p)) at 3. ring.
  - unfold rot_shift_active in A. cbn [al_x al_y al_s al_theta al_phi al_psi al_anchor al_tilt] in A.
    assert (Z : dx = 0 /\ dy = 0 /\ psi = 0).
    { repeat (apply orb_false_elim in A; destruct A as [A ?]).
      repeat match goal with H : negb (is0 _) = false |- _ => apply negb_false_iff in H; apply is0_true in H end.
      auto. }
    destruct Z as (-> & -> & ->). rewrite thin_multipole_kick. rewrite cos_0, sin_0.
    replace (1 * (p_x p - 0) + 0 * (p_y p - 0)) with (p_x p) by ring.
    replace (- 0 * (p_x p - 0) + 1 * (p_y p - 0)) with (p_y p) by ring.
    set (F := kick_coordinates _ _ _ _ _ _). unfold kicked. pcbn. repeat split; ring.
Qed.

Definition conj (a : cx) : cx := (fst a, - snd a).
Lemma conj_add a b : conj (cadd a b) = cadd (conj a) (conj b). Proof. unfold conj. cxr. Qed.
Lemma conj_mul a b : conj (cmul a b) = cmul (conj a) (conj b). Proof. unfold conj. cxr. Qed.
Lemma conj_sum f n : conj (csum f n) = csum (fun i => conj (f i)) n.
Proof. induction n as [|n IH]; cbn [csum]; [unfold conj, C0; cbn; f_equal; ring|now rewrite conj_add, IH]. Qed.
Lemma pow_mirror x y n :
  cpow (x, y) n = cmul (cr (if Nat.odd n then -1 else 1)) (conj (cpow (- x, y) n)).
Proof.
  induction n as [|n IH]; [cbn; unfold conj; cxr|].
  cbn [cpow]. rewrite IH, conj_mul. rewrite Nat.odd_succ, <- Nat.negb_odd.
  destruct (Nat.odd n); cbn [negb]; unfold conj; cxr.
Qed.
Lemma dp_mirror x y n : dp (x, y) n = cmul (cr (if Nat.odd n then -1 else 1)) (conj (dp (- x, y) n)).
Proof.
  unfold dp. rewrite pow_mirror, !cdivr_mul, conj_mul.
  replace (conj (cr (/ INR (fact n)))) with (cr (/ INR (fact n))) by (unfold conj, cr; cbn; f_equal; ring). cring.
Qed.

Lemma kick_mirror o knl ksl x y chi :
  let k := kick_coordinates (- x) y chi (mkMult o (/ INR (fact o)) knl ksl) 1 1 in
  kick_coordinates x y chi (mkMult o (/ INR (fact o)) (flip_from false knl) (flip_from true ksl)) 1 1
  = (fst k, - snd k).
Proof.
  cbv zeta. rewrite !kick_field by reflexivity. cbv zeta. cbn [mu_order].
  set (F := fieldc (coef (mkMult o (/ INR (fact o)) knl ksl)) (S o) (- x, y)).
  assert (E : fieldc (coef (mkMult o (/ INR (fact o)) (flip_from false knl) (flip_from true ksl))) (S o) (x, y) = conj F).
  { unfold F, fieldc. rewrite conj_sum. apply csum_ext. intros i _. rewrite conj_mul, dp_mirror.
    unfold coef. cbn [mu_knl mu_ksl]. rewrite !flip_nth.
    destruct (Nat.odd i); cbn [xorb]; unfold conj; cxr. }
  rewrite E. unfold conj. cbn [fst snd]. f_equal; ring.
Qed.

(** The multipole seen by the same particle travelling in the opposite direction *)
Lemma other_way syn pi e e' p :
  reverse_element pi e = Some e' -> value (e_field e "shift_x") = 0 ->
  let q := thin_track syn e (set_x (- p_x p) p) in
  let r := thin_track syn e' p in
  p_x r = p_x p /\ p_y r = p_y p /\
  p_px r - p_px p = p_px q - p_px p /\ p_py r - p_py p = - (p_py q - p_py p).
Proof.
  intros H Hx. cbv zeta. destruct (reverse_element_spec pi e e' H) as (_ & F & N & S).
  unfold thin_track.
  assert (F1 : value (e_field e' "shift_x") = value (e_field e "shift_x")) by (rewrite F; reflexivity || (unfold field_after; cbn; now rewrite andb_false_r)).
  assert (F2 : value (e_field e' "shift_y") = value (e_field e "shift_y")) by (rewrite F; reflexivity || (unfold field_after; cbn; now rewrite andb_false_r)).
  assert (F3 : value (e_field e' "rot_s_rad") = - value (e_field e "rot_s_rad")).
  { rewrite F. unfold field_after. cbn. destruct (e_field e "rot_s_rad"); cbn; [reflexivity|ring]. }
  rewrite F1, F2, F3, Hx, N, S. clear F1 F2 F3 F.
  assert (A1 : array (option_map (flip_from false) (e_knl e)) = flip_from false (array (e_knl e))) by (destruct (e_knl e); reflexivity).
  assert (A2 : array (option_map (flip_from true) (e_ksl e)) = flip_from true (array (e_ksl e))) by (destruct (e_ksl e); reflexivity).
  rewrite A1, A2, flip_length. clear A1 A2.
  set (knl := array (e_knl e)). set (ksl := array (e_ksl e)). set (o := (List.length knl - 1)%nat).
  set (psi := value (e_field e "rot_s_rad")). set (dy := value (e_field e "shift_y")).
  destruct (aligned_thin syn 0 dy (- psi) 0 o (flip_from false knl) (flip_from true ksl) p) as (R1 & R2 & R3 & R4).
  destruct (aligned_thin syn 0 dy psi 0 o knl ksl (set_x (- p_x p) p)) as (_ & _ & Q3 & Q4).
  change (p_x (set_x (- p_x p) p)) with (- p_x p) in *. change (p_y (set_x (- p_x p) p)) with (p_y p) in *.
  change (p_px (set_x (- p_x p) p)) with (p_px p) in *. change (p_py (set_x (- p_x p) p)) with (p_py p) in *.
  change (p_chi (set_x (- p_x p) p)) with (p_chi p) in *.
  rewrite cos_neg, sin_neg in *. rewrite kick_mirror in R3, R4.
  replace (- (cos psi * (p_x p - 0) + - sin psi * (p_y p - dy))) with (cos psi * (- p_x p - 0) + sin psi * (p_y p - dy)) in R3, R4 by ring.
  replace (- - sin psi * (p_x p - 0) + cos psi * (p_y p - dy)) with (- sin psi * (- p_x p - 0) + cos psi * (p_y p - dy)) in R3, R4 by ring.
  cbn [fst snd] in R3, R4. split; [exact R1|]. split; [exact R2|]. rewrite R3, R4, Q3, Q4.
  split; ring.
Qed.
