From Coq Require Import Reals ZArith List Bool Lra Lia.
From Verif.Model Require Import Maps Curved Magnet Edges.
From Verif.Spec Require Import Frames Magnets Symplectic Edges.
From Verif.Proofs Require Import FrameMaps MagnetBack EdgePaths EdgeShift.
Import ListNotations.
Local Open Scope R_scope.

Lemma store_none ex x0 y0 p : no_potential p -> store ex 0 x0 y0 p = p.
Proof.
  intros [Ha Hb]. destruct p. cbn in Ha, Hb. unfold store. destruct ex; unfold set_ax, set_ay; pcbn; subst; f_equal; ring.
Qed.
Lemma linear_back a b p : edge_linear (a * - 1) (b * - 1) (edge_linear a b p) = p.
Proof.
  destruct p. unfold edge_linear, add_px, add_py, set_px, set_py. pcbn. f_equal; ring.
Qed.
Lemma linear_potential a b p : no_potential p -> no_potential (edge_linear a b p).
Proof. intros H. exact H. Qed.
Lemma edge_part_plain sp m e ex p : mg_ks (eg_mag m) = 0 -> no_potential p ->
  ed_model e <> 1%Z -> ed_model e <> 2%Z ->
  no_potential (through (edge_part sp m e ex) p) /\
  forall ex' ptc, magnet_edge sp ptc true e ex' (kn_of (eg_mag m)) (ks_of (eg_mag m)) (mg_mult (eg_mag m)) (mg_rel (eg_mag m))
    (mg_ref (eg_mag m)) (mg_ks (eg_mag m)) (mg_x0 (eg_mag m)) (mg_y0 (eg_mag m)) (mg_length (inner m)) (through (edge_part sp m e ex) p) = Some p.
Proof.
  intros Hk Hp H1 H2. unfold edge_part. rewrite Hk. cbn [through anywhere]. rewrite (store_none ex _ _ p Hp).
  assert (E : through (edge_steps sp e ex (kn_of (eg_mag m)) (ks_of (eg_mag m)) (mg_mult (eg_mag m)) (mg_rel (eg_mag m)) (mg_ref (eg_mag m)) (mg_length (inner m))) p
     = if Z.eqb (ed_model e) 0 then
         let (r21, r43) := linear_coefficients (edge_k0 (kn_of (eg_mag m)) (mg_mult (eg_mag m)) (mg_rel (eg_mag m)) (mg_ref (eg_mag m)) (mg_length (inner m))) (ed_angle e) (ed_fdown e) (ed_hgap e) (ed_fint e) in
         edge_linear r21 r43 p
       else p).
  { unfold edge_steps. cbv zeta. destruct (ed_model e) as [|[q|[q|q|]|]|]; try reflexivity; try contradiction. }
  rewrite E. clear E.
  assert (T : Z.eqb (ed_model e) 1 || Z.eqb (ed_model e) 2 = false).
  { apply orb_false_iff. split; apply Z.eqb_neq; assumption. }
  unfold magnet_edge. cbv zeta. rewrite T. destruct (Z.eqb (ed_model e) 0).
  - destruct (linear_coefficients _ _ _ _ _) as [r21 r43]. split; [exact Hp|]. intros ex' ptc.
    fold (store ex' 0 (mg_x0 (eg_mag m)) (mg_y0 (eg_mag m)) (edge_linear r21 r43 p)). rewrite store_none by exact Hp.
    now rewrite linear_back.
  - split; [exact Hp|]. intros ex' ptc. fold (store ex' 0 (mg_x0 (eg_mag m)) (mg_y0 (eg_mag m)) p). now rewrite store_none.
Qed.
Lemma add_x_back d p : add_x (- d) (add_x d p) = p.
Proof. destruct p. unfold add_x, set_x. pcbn. f_equal. ring. Qed.
Lemma add_x_back' d p : add_x d (add_x (- d) p) = p.
Proof. destruct p. unfold add_x, set_x. pcbn. f_equal. ring. Qed.
Lemma ds_back d d' p : d' = - d -> add_zeta d' (add_s d' (add_zeta d (add_s d p))) = p.
Proof. intros ->. destruct p. unfold add_zeta, add_s, set_zeta, set_s. pcbn. f_equal; ring. Qed.
Lemma turn_back sp s c p : s * s + c * c = 1 -> turns_forward s c p ->
  yrotation sp (- - s) c (- - s / c) (yrotation sp (- s) c (- s / c) p) = p.
Proof.
  intros E (P & Hc & F). assert (E' : - s * - s + c * c = 1) by lra.
  pose proof (yrotation_back sp false (- s) c (- s / c) p P E' Hc eq_refl F) as H. unfold YRotation_track in H. cbn [negb] in H.
  rewrite <- H at 2. f_equal. field. exact Hc.
Qed.
Lemma turn_potential sp s c t p : no_potential p -> no_potential (yrotation sp s c t p).
Proof. unfold yrotation, no_potential. cbv zeta. destruct (sp && _); exact (fun H => H). Qed.

Lemma edged_shape sp ptc back w m p : track_edged sp ptc back w m p =
  let g := eg_mag m in let f := frame m in
  let edge_of e ex := magnet_edge sp ptc back e ex (kn_of g) (ks_of g) (mg_mult g) (mg_rel g) (mg_ref g) (mg_ks g) (mg_x0 g) (mg_y0 g) (mg_length (inner m)) in
  let e1 := if back then last_edge m else first_edge m in
  let e2 := if back then first_edge m else last_edge m in
  let s1 := if back then - rf_sin_out f else rf_sin_in f in
  let c1 := if back then rf_cos_out f else rf_cos_in f in
  let s2 := if back then - rf_sin_in f else rf_sin_out f in
  let c2 := if back then rf_cos_in f else rf_cos_out f in
  let x1 := if back then rf_x_out f else rf_x_in f in
  let x2 := if back then rf_x_in f else rf_x_out f in
  let ds := if back then - mg_length g * w - - mg_length (inner m) * w else mg_length g * w - mg_length (inner m) * w in
  match (if ed_active e1 then edge_of e1 false (if straight m then add_x x1 (yrotation sp (- s1) c1 (- s1 / c1) p) else p) else Some p) with
  | None => None
  | Some q =>
      let q' := if eg_body m then
          (if straight m && Z.leb 0 (used_model (inner m)) then add_zeta ds (add_s ds (track_magnet back w (inner m) q))
           else track_magnet back w (inner m) q) else q in
      if ed_active e2 then
        match edge_of e2 true q' with
        | Some r => Some (if straight m then yrotation sp (- s2) c2 (- s2 / c2) (add_x (- x2) r) else r)
        | None => None
        end
      else Some q'
  end.
Proof.
  unfold track_edged. cbv zeta.
  assert (E1 : (if Z.eqb (if Z.eqb (rb_model m) 0 then 1 else rb_model m) 1
      then with_angle ((mg_h (eg_mag m) * mg_length (eg_mag m) - rb_angle_diff m) / 2) 0 (eg_entry m)
      else if Z.eqb (if Z.eqb (rb_model m) 0 then 1 else rb_model m) 2
      then with_angle 0 ((mg_h (eg_mag m) * mg_length (eg_mag m) - rb_angle_diff m) / 2) (eg_entry m) else eg_entry m) = first_edge m).
  { unfold first_edge. destruct (rb_model m) as [|[q|[q|q|]|]|]; reflexivity. }
  assert (E2 : (if Z.eqb (if Z.eqb (rb_model m) 0 then 1 else rb_model m) 1
      then with_angle ((mg_h (eg_mag m) * mg_length (eg_mag m) + rb_angle_diff m) / 2) 0 (eg_exit m)
      else if Z.eqb (if Z.eqb (rb_model m) 0 then 1 else rb_model m) 2
      then with_angle 0 ((mg_h (eg_mag m) * mg_length (eg_mag m) + rb_angle_diff m) / 2) (eg_exit m) else eg_exit m) = last_edge m).
  { unfold last_edge. destruct (rb_model m) as [|[q|[q|q|]|]|]; reflexivity. }
  rewrite E1, E2. clear E1 E2.
  assert (E3 : Z.eqb (if Z.eqb (rb_model m) 0 then 1 else rb_model m) 2 = straight m).
  { unfold straight. destruct (rb_model m) as [|[q|[q|q|]|]|]; reflexivity. }
  rewrite E3. clear E3. reflexivity.
Qed.

Lemma edged_back sp ptc w m p : mg_ks (eg_mag m) = 0 -> plain (first_edge m) -> plain (last_edge m) -> returns sp w m p ->
  exists q, track_edged sp false false w m p = Some q /\ track_edged sp ptc true w m q = Some p.
Proof.
  intros Hk Pf Pl (N0 & Hb & N2 & T1 & T2). destruct (frame_unit m) as [U1 U2].
  exists (through (edged_steps sp w m) p). split; [apply edged_path|].
  rewrite edged_shape. cbv zeta. unfold edged_steps. rewrite !through_app.
  set (p1 := through (first_steps sp m) p) in *. set (p2 := through (body_steps w m) p1) in *.
  assert (B1 : (if ed_active (last_edge m) then
      magnet_edge sp ptc true (last_edge m) false (kn_of (eg_mag m)) (ks_of (eg_mag m)) (mg_mult (eg_mag m)) (mg_rel (eg_mag m)) (mg_ref (eg_mag m)) (mg_ks (eg_mag m)) (mg_x0 (eg_mag m)) (mg_y0 (eg_mag m)) (mg_length (inner m))
        (if straight m then add_x (rf_x_out (frame m)) (yrotation sp (- - rf_sin_out (frame m)) (rf_cos_out (frame m)) (- - rf_sin_out (frame m) / rf_cos_out (frame m)) (through (last_steps sp m) p2)) else through (last_steps sp m) p2)
      else Some (through (last_steps sp m) p2)) = Some p2).
  { unfold last_steps. cbv zeta. destruct (ed_active (last_edge m)) eqn:A; [|reflexivity]. destruct (Pl A) as [M1 M2].
    destruct (edge_part_plain sp m (last_edge m) true p2 Hk N2 M1 M2) as [_ H].
    destruct (straight m) eqn:S.
    - rewrite through_app. cbn [through anywhere]. rewrite turn_back; [|exact U2|exact (T2 eq_refl eq_refl)].
      rewrite add_x_back'. apply H.
    - rewrite app_nil_r. apply H. }
  rewrite B1. clear B1 T2 N2. cbv iota.
  set (ds := - mg_length (eg_mag m) * w - - mg_length (inner m) * w).
  assert (B2 : (if eg_body m then
          (if straight m && Z.leb 0 (used_model (inner m)) then add_zeta ds (add_s ds (track_magnet true w (inner m) p2))
           else track_magnet true w (inner m) p2) else p2) = p1).
  { unfold p2, body_steps. destruct (eg_body m); [|reflexivity]. specialize (Hb eq_refl).
    pose proof (magnet_back w (inner m) p1 Hb) as M.
    destruct (straight m && Z.leb 0 (used_model (inner m))) eqn:A.
    - cbn [through anywhere].
      set (d := mg_length (eg_mag m) * w - mg_length (inner m) * w).
      assert (Ed : ds = - d) by (unfold ds, d; ring).
      fold (shift d (track_magnet false w (inner m) p1)). rewrite sh_magnet, M. now apply ds_back.
    - exact M. }
  rewrite B2. clear B2.
  unfold p1, first_steps. cbv zeta. destruct (ed_active (first_edge m)) eqn:A; [|reflexivity]. destruct (Pf A) as [M1 M2].
  destruct (straight m) eqn:S.
  - rewrite through_app. cbn [through anywhere].
    set (q := add_x _ _).
    assert (Nq : no_potential q). { unfold q. apply (turn_potential sp _ _ _ p N0). }
    destruct (edge_part_plain sp m (first_edge m) false q Hk Nq M1 M2) as [_ H]. rewrite H. unfold q.
    rewrite add_x_back, turn_back; [reflexivity|exact U1|exact (T1 eq_refl eq_refl)].
  - destruct (edge_part_plain sp m (first_edge m) false p Hk N0 M1 M2) as [_ H]. cbn [app]. now rewrite H.
Qed.
