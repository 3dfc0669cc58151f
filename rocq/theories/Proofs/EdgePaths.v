From Coq Require Import Reals ZArith List Bool Lra Lia.
From Verif.Model Require Import Maps Curved Magnet Edges.
From Verif.Spec Require Import Frames Magnets Symplectic Edges.
From Verif.Proofs Require Import Symplectic SympMagnet SympBend SympEdge SympFringe SympDipole SympDipoleMap SympBody.
Import ListNotations.
Local Open Scope R_scope.

(** * The multipole fringe *)
Lemma keeps_mult_fringe kn ks ko knl ksl klo l ex mo : keeps (total (mult_fringe false kn ks ko knl ksl klo l ex mo)).
Proof. intros q. unfold total, mult_fringe. destruct (_ && _); repeat split; reflexivity. Qed.
Lemma mult_fringe_total kn ks ko knl ksl klo l ex mo p :
  mult_fringe false kn ks ko knl ksl klo l ex mo p = Some (total (mult_fringe false kn ks ko knl ksl klo l ex mo) p).
Proof. unfold total, mult_fringe. destruct (_ && _); reflexivity. Qed.
Lemma symp_mult_fringe kn ks ko knl ksl klo l ex mo p : mult_fringe_ok kn ks ko knl ksl klo l ex mo p ->
  symplectic (total (mult_fringe false kn ks ko knl ksl klo l ex mo)) p.
Proof.
  intros [K Hd]. destruct (Z.eqb ko (-1) && Z.eqb klo (-1)) eqn:E.
  { eapply symp_ext; [|apply symp_id]. intros q. unfold total, mult_fringe. now rewrite E. }
  set (S := fun x y => fringe_sums kn ks ko knl ksl klo l ex mo (p_chi p) x y).
  destruct (good_loop (p_x p) (p_y p) (if ex then - 1 else 1) (p_chi p)
    (fringe_strength kn knl ko klo l mo) (fringe_strength ks ksl ko klo l mo) (Z.to_nat (Z.max ko klo + 1)) _ _ _
    (good_start (p_x p) (p_y p))) as (n & i & [_ _ HX HY (A1 & B1 & C1 & Hxx & Hxy) (A2 & B2 & C2 & Hyx & Hyy)]).
  apply (symp_near_chi _ (point (fun x y => fr_fx (S x y)) (fun x y => fr_fy (S x y)) (fun x y => fr_fxx (S x y))
            (fun x y => fr_fxy (S x y)) (fun x y => fr_fyx (S x y)) (fun x y => fr_fyy (S x y)))).
  { intros q Hq. unfold total, mult_fringe. rewrite E, Hq. reflexivity. }
  exact (symp_point _ _ _ _ _ _ p K HX HY A1 B1 C1 A2 B2 C2 Hxx Hxy Hyx Hyy Hd).
Qed.

(** * Edges *)
Definition good_step (s : step) : Prop := forall p, snd s p -> symplectic (fst s) p.
Lemma good_turn sp s c : s * s + c * c = 1 -> good_step (yrotation sp (- s) c (- s / c), turn_ok s c).
Proof.
  intros E p (P & Hc & Ht). cbn [fst]. apply symp_yrot; auto.
  - lra.
  - intros N. apply Ht. lra.
Qed.
Lemma good_rot sp a : good_step (yrotation sp (- sin a) (cos a) (- tan a), turn_ok (sin a) (cos a)).
Proof.
  intros p (P & Hc & Ht). cbn [fst]. apply symp_yrot; auto.
  - pose proof (sin2_cos2 a) as X. unfold Rsqr in X. lra.
  - unfold tan. field. exact Hc.
  - intros N. apply Ht. lra.
Qed.
Lemma symp_store b k x y p : symplectic (store b k x y) p.
Proof.
  apply (symp_shift _ p 0 0).
  - intros q. destruct b; repeat split; reflexivity.
  - intros q. destruct b; repeat split; cbn; ring.
  - exists 0. intros q. destruct b; cbn; ring.
Qed.
Lemma good_anywhere f : (forall p, symplectic f p) -> good_step (anywhere f).
Proof. intros H p _. apply H. Qed.
Lemma edge_steps_good sp e ex kn ks m rel ref l : Forall good_step (edge_steps sp e ex kn ks m rel ref l).
Proof.
  unfold edge_steps. cbv zeta. set (turns := if Rlt_dec _ _ then true else false).
  set (rot := if turns then [(yrotation _ _ _ _, _)] else []). set (dip := [(dipole_fringe _ _ _, _)]).
  set (mul := if Z.eqb (ed_model e) 1 then _ else []). set (quad := if _ && turns then _ else []).
  set (wed := if turns then [(wedge _ _ _, _)] else []).
  assert (R1 : Forall good_step rot).
  { unfold rot. destruct turns; constructor; [apply good_rot|constructor]. }
  assert (R2 : Forall good_step dip).
  { constructor; [|constructor]. intros p. apply symp_dipole_fringe. }
  assert (R3 : Forall good_step mul).
  { unfold mul. destruct (Z.eqb _ _); constructor; [|constructor]. intros p. apply symp_mult_fringe. }
  assert (R4 : Forall good_step quad).
  { unfold quad. destruct (_ && _); constructor; [|constructor]. apply good_anywhere. intros p. apply symp_quad_wedge. }
  assert (R5 : Forall good_step wed).
  { unfold wed. destruct turns; constructor; [|constructor]. intros p. apply symp_wedge. }
  assert (R6 : Forall good_step (if ex then wed ++ quad ++ mul ++ dip ++ rot else rot ++ dip ++ mul ++ quad ++ wed)).
  { destruct ex; repeat (apply Forall_app; split); assumption. }
  destruct (ed_model e) as [|[| |]|]; try exact R6; try constructor.
  - intros p _. apply symp_edge_linear.
  - constructor.
  - destruct p; try constructor; exact R6.
Qed.

Lemma through_app a : forall b p, through (a ++ b) p = through b (through a p).
Proof. induction a as [|[f ok] a IH]; intros b p; [reflexivity|]. apply IH. Qed.

Lemma magnet_edge_path sp e ex kn ks m rel ref ksol x0 y0 l p :
  magnet_edge sp false false e ex kn ks m rel ref ksol x0 y0 l p =
  Some (through (anywhere (store ex ksol x0 y0) :: edge_steps sp e ex kn ks m rel ref l) p).
Proof.
  unfold magnet_edge. cbv zeta. cbn [through anywhere]. fold (store ex ksol x0 y0 p). generalize (store ex ksol x0 y0 p). clear p. intros p.
  unfold edge_steps. cbv zeta. cbn [use_fringe].
  destruct (Rlt_dec (/ 1000000000) (Rabs (ed_angle e))) as [H|H]; cbn [negb andb].
  - rewrite !andb_true_r.
    destruct (ed_model e) as [|q|q] eqn:Em; cbn [Z.eqb].
    + destruct (linear_coefficients _ _ _ _ _) as [r21 r43]. cbn [through]. now rewrite !Rmult_1_r.
    + destruct q as [q|q|]; cbn [Pos.eqb orb andb].
      * reflexivity.
      * destruct q; cbn [Pos.eqb orb]; try reflexivity. destruct ex; reflexivity.
      * destruct ex; first [rewrite !mult_fringe_total; reflexivity|reflexivity].
    + reflexivity.
  - rewrite !andb_false_r.
    destruct (ed_model e) as [|q|q] eqn:Em; cbn [Z.eqb].
    + destruct (linear_coefficients _ _ _ _ _) as [r21 r43]. cbn [through]. now rewrite !Rmult_1_r.
    + destruct q as [q|q|]; cbn [Pos.eqb orb andb].
      * reflexivity.
      * destruct q; cbn [Pos.eqb orb]; try reflexivity. destruct ex; reflexivity.
      * destruct ex; first [rewrite !mult_fringe_total; reflexivity|reflexivity].
    + reflexivity.
Qed.

(** * Magnets with edges *)
Lemma frame_unit m : rf_sin_in (frame m) * rf_sin_in (frame m) + rf_cos_in (frame m) * rf_cos_in (frame m) = 1 /\
  rf_sin_out (frame m) * rf_sin_out (frame m) + rf_cos_out (frame m) * rf_cos_out (frame m) = 1.
Proof.
  assert (X : forall a, sin a * sin a + cos a * cos a = 1) by (intros a; exact (sin2_cos2 a)).
  unfold frame, rbend_frame. cbn [rf_sin_in rf_cos_in rf_sin_out rf_cos_out].
  split; destruct (over _); try apply X; ring.
Qed.
Lemma symp_add_x d p : symplectic (add_x d) p.
Proof.
  apply (symp_shift _ p d 0).
  - intros q. repeat split; reflexivity.
  - intros q. repeat split; cbn; ring.
  - exists 0. intros q. cbn. ring.
Qed.
Lemma edged_steps_good sp w m : Forall good_step (edged_steps sp w m).
Proof.
  destruct (frame_unit m) as [U1 U2]. unfold edged_steps, first_steps, body_steps, last_steps, edge_part. cbv zeta.
  repeat (apply Forall_app; split).
  - destruct (ed_active _); [|constructor]. apply Forall_app. split.
    + destruct (straight m); [|constructor]. constructor; [now apply good_turn|]. constructor; [|constructor].
      apply good_anywhere. intros p. apply symp_add_x.
    + constructor; [apply good_anywhere; intros p; apply symp_store|apply edge_steps_good].
  - destruct (eg_body m); [|constructor]. constructor.
    + intros p [K G]. now apply symp_magnet.
    + destruct (_ && _); constructor; [|constructor]. apply good_anywhere. intros p.
      exact (symp_comp (add_s _) (add_zeta _) p (symp_s _ p) (symp_zeta _ _)).
  - destruct (ed_active _); [|constructor]. apply Forall_app. split.
    + constructor; [apply good_anywhere; intros p; apply symp_store|apply edge_steps_good].
    + destruct (straight m); [|constructor]. constructor; [apply good_anywhere; intros p; apply symp_add_x|].
      constructor; [now apply good_turn|constructor].
Qed.

Lemma through_cons s l p : through (s :: l) p = through l (fst s p).
Proof. now destruct s. Qed.
Lemma edged_path sp w m p : track_edged sp false false w m p = Some (through (edged_steps sp w m) p).
Proof.
  unfold track_edged. cbv zeta.
  assert (E1 : (if Z.eqb (if Z.eqb (rb_model m) 0 then 1 else rb_model m) 1
      then with_angle ((mg_h (eg_mag m) * mg_length (eg_mag m) - rb_angle_diff m) / 2) 0 (eg_entry m)
      else if Z.eqb (if Z.eqb (rb_model m) 0 then 1 else rb_model m) 2
      then with_angle 0 ((mg_h (eg_mag m) * mg_length (eg_mag m) - rb_angle_diff m) / 2) (eg_entry m) else eg_entry m) = first_edge m).
  { unfold first_edge. destruct (rb_model m) as [|[q|[q|q|]|]|]; reflexivity. }
  assert (E2 : (if Z.eqb (if Z.eqb (rb_model m) 0 then 1 else rb_model m) 1
      then with_angle ((mg_h (eg_mag m) * mg_length (eg_mag m) + rb_angle_diff m) / 2) 0 (eg_exit m)
      else if Z.eqb (if Z.eqb (rb_model m) 0 then 1 else rb_model m) 2
      then with_angle 0 ((mg_h (eg_mag m) * mg_length (eg_mag m) + rb_angle_diff m) / 2) (eg_exit m) else eg_exit m) = last_edge m).
  { unfold last_edge. destruct (rb_model m) as [|[q|[q|q|]|]|]; reflexivity. }
  rewrite E1, E2. clear E1 E2.
  assert (E3 : Z.eqb (if Z.eqb (rb_model m) 0 then 1 else rb_model m) 2 = straight m).
  { unfold straight. destruct (rb_model m) as [|[q|[q|q|]|]|]; reflexivity. }
  rewrite E3. clear E3. fold (inner m). fold (frame m).
  unfold edged_steps, first_steps, body_steps, last_steps, edge_part. cbv zeta. rewrite !through_app.
  set (k := mg_length (eg_mag m) * w - mg_length (inner m) * w).
  pose proof (magnet_edge_path sp (first_edge m) false (kn_of (eg_mag m)) (ks_of (eg_mag m)) (mg_mult (eg_mag m)) (mg_rel (eg_mag m))
    (mg_ref (eg_mag m)) (mg_ks (eg_mag m)) (mg_x0 (eg_mag m)) (mg_y0 (eg_mag m)) (mg_length (inner m))) as P1.
  pose proof (magnet_edge_path sp (last_edge m) true (kn_of (eg_mag m)) (ks_of (eg_mag m)) (mg_mult (eg_mag m)) (mg_rel (eg_mag m))
    (mg_ref (eg_mag m)) (mg_ks (eg_mag m)) (mg_x0 (eg_mag m)) (mg_y0 (eg_mag m)) (mg_length (inner m))) as P2.
  generalize dependent (magnet_edge sp false false (first_edge m) false (kn_of (eg_mag m)) (ks_of (eg_mag m)) (mg_mult (eg_mag m)) (mg_rel (eg_mag m))
    (mg_ref (eg_mag m)) (mg_ks (eg_mag m)) (mg_x0 (eg_mag m)) (mg_y0 (eg_mag m)) (mg_length (inner m))). intros F1 P1.
  generalize dependent (magnet_edge sp false false (last_edge m) true (kn_of (eg_mag m)) (ks_of (eg_mag m)) (mg_mult (eg_mag m)) (mg_rel (eg_mag m))
    (mg_ref (eg_mag m)) (mg_ks (eg_mag m)) (mg_x0 (eg_mag m)) (mg_y0 (eg_mag m)) (mg_length (inner m))). intros F2 P2.
  generalize dependent (anywhere (store false (mg_ks (eg_mag m)) (mg_x0 (eg_mag m)) (mg_y0 (eg_mag m))) ::
    edge_steps sp (first_edge m) false (kn_of (eg_mag m)) (ks_of (eg_mag m)) (mg_mult (eg_mag m)) (mg_rel (eg_mag m)) (mg_ref (eg_mag m)) (mg_length (inner m))).
  intros L1 P1.
  generalize dependent (anywhere (store true (mg_ks (eg_mag m)) (mg_x0 (eg_mag m)) (mg_y0 (eg_mag m))) ::
    edge_steps sp (last_edge m) true (kn_of (eg_mag m)) (ks_of (eg_mag m)) (mg_mult (eg_mag m)) (mg_rel (eg_mag m)) (mg_ref (eg_mag m)) (mg_length (inner m))).
  intros L2 P2.
  generalize (yrotation sp (- rf_sin_in (frame m)) (rf_cos_in (frame m)) (- rf_sin_in (frame m) / rf_cos_in (frame m))). intros Y1.
  generalize (yrotation sp (- rf_sin_out (frame m)) (rf_cos_out (frame m)) (- rf_sin_out (frame m) / rf_cos_out (frame m))). intros Y2.
  generalize (track_magnet false w (inner m)). intros B.
  destruct (ed_active (first_edge m)), (ed_active (last_edge m)), (straight m), (eg_body m), (Z.leb 0 (used_model (inner m)));
    cbn [andb]; rewrite ?through_app, ?P1; cbv beta iota; rewrite ?P2; reflexivity.
Qed.
Lemma symp_edged sp w m p : fits (edged_steps sp w m) p ->
  exists f, (forall q, track_edged sp false false w m q = Some (f q)) /\ symplectic f p.
Proof.
  intros H. exists (through (edged_steps sp w m)). split; [apply edged_path|].
  apply symp_line; [apply edged_steps_good|exact H].
Qed.
