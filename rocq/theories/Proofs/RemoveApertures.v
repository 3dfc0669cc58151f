From Coq Require Import Reals ZArith List Bool String Lra Psatz Lia.
From Verif.Model Require Import Maps Apertures RemoveApertures.
From Verif.Spec Require Import Frames Aligned Apertures RemoveApertures.
From Verif.Proofs Require Import FrameMaps Aligned FeedDownTrack.
Import ListNotations.
Local Open Scope R_scope.

Lemma equal_same k1 k2 : apertures_equal k1 k2 = true -> exists l a, k1 = KAperture l a /\ k2 = KAperture l a.
Proof.
  destruct k1 as [l a| | |], k2 as [m b| | |]; cbn; try discriminate.
  destruct (limit_eq_dec l m) as [->|]; [|discriminate]. destruct (align_eq_dec a b) as [->|]; [|discriminate]. eauto.
Qed.

Ltac lists := cbn [List.app]; rewrite <- ?app_assoc; cbn [List.app]; rewrite <- ?app_assoc; cbn [List.app]; rewrite <- ?app_assoc; cbn [List.app]; reflexivity.

(** * Geometry *)
(** [q] is further on the straight line of [p] *)
Definition ahead_of (p q : part) : Prop :=
  exists k, 0 <= k /\ p_x q = p_x p + k * p_px p /\ p_y q = p_y p + k * p_py p
    /\ p_px q = p_px p /\ p_py q = p_py p /\ p_delta q = p_delta p /\ p_rpp q = p_rpp p.
Lemma ahead_refl p : ahead_of p p.
Proof. exists 0. repeat split; lra. Qed.
Lemma ahead_trans p q r : ahead_of p q -> ahead_of q r -> ahead_of p r.
Proof.
  intros (k & Hk & X & Y & A & B & C & D) (m & Hm & X' & Y' & A' & B' & C' & D').
  exists (k + m). repeat split; [lra| | | | | |]; try congruence.
  - rewrite X', X, A. ring.
  - rewrite Y', Y, B. ring.
Qed.

Lemma untilted_enter a p : al_theta a = 0 -> al_phi a = 0 -> physical p -> enterable a p.
Proof.
  intros T P H. split; [exact H|]. unfold can_enter. rewrite T, P, sin_0, cos_0.
  assert (F : forward ident p) by now apply forward_ident.
  unfold forward, app, dot, mmul, Rot_y, Rot_x, ident, transp, momentum in *. cbn in F |- *.
  split; [exact R1_neq_R0|]. split; [exact R1_neq_R0|]. unfold dot. cbn. split; lra.
Qed.

(** in the frame of an aperture which is not tilted, positions of particles with the same momentum
    are those outside, turned and shifted *)
Definition same_momentum (p q : part) : Prop := p_px q = p_px p /\ p_py q = p_py p /\ p_delta q = p_delta p.
Definition affine (f : part -> part) : Prop := forall p, exists A B C D E F,
  forall q, same_momentum p q ->
    p_x (f q) = A * p_x q + B * p_y q + C /\ p_y (f q) = D * p_x q + E * p_y q + F /\ same_momentum (f p) (f q).
Lemma affine_id : affine (fun p => p).
Proof. intros p. exists 1, 0, 0, 0, 1, 0. intros q H. repeat split; try apply H; ring. Qed.
Lemma affine_comp f g : affine f -> affine g -> affine (fun p => g (f p)).
Proof.
  intros Hf Hg p. destruct (Hf p) as (A & B & C & D & E & F & H). destruct (Hg (f p)) as (A' & B' & C' & D' & E' & F' & H').
  exists (A' * A + B' * D), (A' * B + B' * E), (A' * C + B' * F + C'), (D' * A + E' * D), (D' * B + E' * E), (D' * C + E' * F + F').
  intros q Hq. destruct (H q Hq) as (X & Y & M). destruct (H' (f q) M) as (X' & Y' & M').
  split; [rewrite X', X, Y; ring|]. split; [rewrite Y', X, Y; ring|exact M'].
Qed.
Lemma xyshift_affine u v : affine (xyshift u v).
Proof.
  intros p. exists 1, 0, (p_x (xyshift u v p) - p_x p), 0, 1, (p_y (xyshift u v p) - p_y p). intros q (H1 & H2 & H3).
  unfold xyshift, add_y, add_x, set_y, set_x, same_momentum. cbn. repeat split; auto; ring.
Qed.
Lemma S_SHIFT_affine ds : affine (S_SHIFT ds).
Proof.
  unfold S_SHIFT. destruct (is0 ds); [apply affine_id|]. intros p.
  set (o := 1 / sqrt ((1 + p_delta p) * (1 + p_delta p) - p_px p * p_px p - p_py p * p_py p)).
  exists 1, 0, (p_px p * o * ds), 0, 1, (p_py p * o * ds). intros q (H1 & H2 & H3).
  rewrite !drift_exact_eq. unfold same_momentum. cbn. unfold o. rewrite H1, H2, H3. repeat split; auto; ring.
Qed.
Lemma S_ROTATE_affine sp a : affine (S_ROTATE sp a).
Proof.
  unfold S_ROTATE. destruct (is0 a); [apply affine_id|]. intros p.
  exists (cos a), (sin a), 0, (- sin a), (cos a), 0. intros q (H1 & H2 & H3).
  unfold srotation, same_momentum. destruct (_ && _), (_ && _); cbn; rewrite ?H1, ?H2, ?H3; repeat split; auto; ring.
Qed.
Lemma entry_affine sp a an : al_theta a = 0 -> al_phi a = 0 ->
  affine (entry_straight sp (al_x a) (al_y a) (al_s a) (al_theta a) (al_phi a) (al_psi a) an (al_tilt a) false).
Proof.
  intros T P. rewrite T, P. unfold entry_straight, to_misaligned.
  assert (Z : forall p, X_ROTATE sp 0 p = p /\ Y_ROTATE sp 0 p = p).
  { intros p. destruct (rots_0 sp p) as (H1 & H2 & _). auto. }
  intros p.
  destruct (affine_comp _ _ (affine_comp _ _ (affine_comp _ _ (xyshift_affine (al_x a - an * cos 0 * sin 0) (al_y a - an * sin 0)) (S_SHIFT_affine (al_s a - an * (cos 0 * cos 0 - 1)))) (S_ROTATE_affine sp (al_psi a)))
    (S_ROTATE_affine sp (al_tilt a)) p) as (A & B & C & D & E & F & H).
  exists A, B, C, D, E, F. intros q Hq. destruct (Z (S_SHIFT (al_s a - an * (cos 0 * cos 0 - 1)) (xyshift (al_x a - an * cos 0 * sin 0) (al_y a - an * sin 0) q))) as [Z1 Z2].
  destruct (Z (S_SHIFT (al_s a - an * (cos 0 * cos 0 - 1)) (xyshift (al_x a - an * cos 0 * sin 0) (al_y a - an * sin 0) p))) as [Z3 Z4].
  rewrite Z2, Z1, Z4, Z3. apply H. exact Hq.
Qed.
(** the aperture lets the particle through unchanged, or not *)
Definition inside sp cpu l a (p : part) : bool :=
  let q := if rot_shift_active a then
      entry_straight sp (al_x a) (al_y a) (al_s a) (al_theta a) (al_phi a) (al_psi a) (al_anchor a - 0) (al_tilt a) false p
    else p in alive cpu l (p_x q) (p_y q).
Lemma aperture_pass sp cpu l a p : al_theta a = 0 -> al_phi a = 0 -> physical p ->
  aperture_track sp cpu l a p = if inside sp cpu l a p then Some p else None.
Proof.
  intros T P H. unfold aperture_track, inside. pose proof (aligned_drift sp a 0 0 p (untilted_enter a p T P H)) as D.
  unfold track_aligned, Drift_track, run_drift in D. cbn [Z.eqb Pos.eqb] in D. rewrite !drift_exact_0 in D.
  destruct (rot_shift_active a); [|reflexivity]. rewrite D. reflexivity.
Qed.
(** a particle inside at the first and at the last position is inside in between *)
Lemma inside_between sp cpu l a p q r : al_theta a = 0 -> al_phi a = 0 -> convex (fun x y => alive cpu l x y = true) ->
  ahead_of p q -> ahead_of q r -> inside sp cpu l a p = true -> inside sp cpu l a r = true -> inside sp cpu l a q = true.
Proof.
  intros T P Cv Hpq Hqr Ip Ir. pose proof (ahead_trans _ _ _ Hpq Hqr) as Hpr.
  destruct Hpq as (k & Hk & X & Y & A & B & C & D). destruct Hqr as (m & Hm & X' & Y' & A' & B' & C' & D').
  assert (Sq : same_momentum p q) by (repeat split; auto).
  assert (Sr : same_momentum p r) by (repeat split; congruence).
  assert (Sp : same_momentum p p) by (repeat split; auto).
  set (f := if rot_shift_active a then
      entry_straight sp (al_x a) (al_y a) (al_s a) (al_theta a) (al_phi a) (al_psi a) (al_anchor a - 0) (al_tilt a) false
    else fun p => p).
  assert (Hf : affine f) by (unfold f; destruct (rot_shift_active a); [now apply entry_affine|apply affine_id]).
  assert (If : forall v, inside sp cpu l a v = alive cpu l (p_x (f v)) (p_y (f v))).
  { intros v. unfold inside, f. destruct (rot_shift_active a); reflexivity. }
  rewrite If in *. destruct (Hf p) as (a1 & a2 & a3 & a4 & a5 & a6 & H).
  destruct (H p Sp) as (Xp & Yp & _). destruct (H q Sq) as (Xq & Yq & _). destruct (H r Sr) as (Xr & Yr & _).
  destruct (Req_dec (k + m) 0) as [Z|Z].
  - assert (k = 0) as K by lra. assert (m = 0) as M by lra. rewrite Xq, Yq, X, Y, K.
    rewrite Xp, Yp in Ip. replace (p_x p + 0 * p_px p) with (p_x p) by ring. replace (p_y p + 0 * p_py p) with (p_y p) by ring. exact Ip.
  - pose proof (Cv _ _ _ _ (k / (k + m)) Ip Ir) as G.
    replace (p_x (f q)) with (p_x (f p) + k / (k + m) * (p_x (f r) - p_x (f p))).
    + replace (p_y (f q)) with (p_y (f p) + k / (k + m) * (p_y (f r) - p_y (f p))).
      * apply G. split.
        -- apply Rmult_le_pos; [lra|]. apply Rlt_le, Rinv_0_lt_compat. lra.
        -- apply (Rmult_le_reg_r (k + m)); [lra|]. unfold Rdiv. rewrite Rmult_assoc, Rinv_l by lra. lra.
      * rewrite Yp, Yq, Yr, X', Y', X, Y, A, B. field. exact Z.
    + rewrite Xp, Xq, Xr, X', Y', X, Y, A, B. field. exact Z.
Qed.

Section Line.
Variable sp cpu ue : bool.
Variable within : part -> bool.
Variable other : string -> part -> option part.
Variable elem : string -> kind.
Variable keep need : list string.
Local Notation trk := (track sp cpu ue within other elem).
Local Notation thr := (through sp cpu ue within other elem).
Hypothesis other_ok : forall n p q, other n p = Some q -> physical p -> physical q.
Definition good (n : string) : Prop :=
  match elem n with
  | KAperture l a => al_theta a = 0 /\ al_phi a = 0 /\ convex (fun x y => alive cpu l x y = true)
  | KDrift _ length => 0 <= length
  | _ => True
  end.
Definition passive (n : string) : Prop := match elem n with KMarker | KDrift _ _ => True | _ => False end.

Lemma trk_app a b p : trk (List.app a b) p = match trk a p with Some q => trk b q | None => None end.
Proof. revert p. induction a as [|n a IH]; intros p; cbn; [reflexivity|]. destruct (thr n p); auto. Qed.

Lemma drift_ahead u m L p : 0 <= L -> physical p -> ahead_of p (run_drift u m L p).
Proof.
  intros HL Hp. unfold run_drift. destruct (if u then 2%Z else _) as [|[q|[q|q|]|]|q]; cbn [Z.eqb Pos.eqb]; try apply ahead_refl.
  - rewrite drift_exact_eq. destruct Hp as [_ Hz]. unfold pz2 in Hz.
    exists (1 / sqrt ((1 + p_delta p) * (1 + p_delta p) - p_px p * p_px p - p_py p * p_py p) * L). cbn.
    repeat split; try ring. apply Rmult_le_pos; [|exact HL]. unfold Rdiv. rewrite Rmult_1_l.
    apply Rlt_le, Rinv_0_lt_compat, sqrt_lt_R0. exact Hz.
  - rewrite drift_expanded_eq. exists (p_rpp p * L). cbn. repeat split; try ring.
    destruct Hp as ((_ & H1 & _ & _ & _ & Hr) & _). apply Rmult_le_pos; [|exact HL]. rewrite Hr. unfold Rdiv. rewrite Rmult_1_l.
    apply Rlt_le, Rinv_0_lt_compat, H1.
Qed.
Lemma drift_physical u m L p : physical p -> physical (run_drift u m L p).
Proof.
  intros Hp. unfold run_drift. destruct (if u then 2%Z else _) as [|[q|[q|q|]|]|q]; cbn [Z.eqb Pos.eqb]; exact Hp.
Qed.
Lemma thr_physical n p q : good n -> physical p -> thr n p = Some q -> physical q.
Proof.
  unfold through, good. destruct (elem n) as [l a| |m L|]; intros G Hp E.
  - destruct G as (T & P & _). rewrite aperture_pass in E by assumption. destruct (inside _ _ _ _ _); [|discriminate]. congruence.
  - congruence.
  - destruct (within _); [|discriminate]. injection E as <-. now apply drift_physical.
  - eauto.
Qed.
Lemma trk_physical ns : forall p q, (forall n, In n ns -> good n) -> physical p -> trk ns p = Some q -> physical q.
Proof.
  induction ns as [|n ns IH]; intros p q G Hp E; cbn in E; [congruence|].
  destruct (thr n p) as [r|] eqn:R; [|discriminate].
  apply (IH r q); auto; [intros; apply G; now right|]. apply (thr_physical n p r); auto. apply G. now left.
Qed.
Lemma passive_ahead ns : forall p q, (forall n, In n ns -> good n /\ passive n) -> physical p -> trk ns p = Some q -> ahead_of p q.
Proof.
  induction ns as [|n ns IH]; intros p q G Hp E; cbn in E.
  - injection E as <-. apply ahead_refl.
  - destruct (thr n p) as [r|] eqn:R; [|discriminate]. destruct (G n (or_introl eq_refl)) as [G1 G2].
    apply (ahead_trans p r q).
    + unfold through, good, passive in *. destruct (elem n) as [l a| |m L|]; try (now destruct G2).
      * injection R as <-. apply ahead_refl.
      * destruct (within _); [|discriminate]. injection R as <-. now apply drift_ahead.
    + apply IH; auto; [intros; apply G; now right|]. now apply (thr_physical n p r).
Qed.
(** the middle one of three equal apertures on a straight line changes nothing *)
Lemma drop_one l a m2 m1 z d1 d2 post p :
  elem m2 = KAperture l a -> elem m1 = KAperture l a -> elem z = KAperture l a -> good m1 ->
  (forall n, In n (List.app d1 d2) -> good n /\ passive n) -> physical p ->
  trk (m2 :: List.app d1 (m1 :: List.app d2 (z :: post))) p = trk (m2 :: List.app d1 (List.app d2 (z :: post))) p.
Proof.
  intros E2 E1 E0 G H Hp. unfold good in G. rewrite E1 in G. destruct G as (T & P & Cv).
  assert (X : forall n v, elem n = KAperture l a -> physical v -> thr n v = if inside sp cpu l a v then Some v else None).
  { intros n v En Hv. unfold through. rewrite En. now apply aperture_pass. }
  cbn [track]. rewrite !(X m2 p) by assumption.
  destruct (inside sp cpu l a p) eqn:I2; [|reflexivity]. rewrite !trk_app.
  destruct (trk d1 p) as [q|] eqn:Q; [|reflexivity].
  assert (Hq : physical q).
  { apply (trk_physical d1 p); auto. intros n Hn. apply H. apply in_or_app. now left. }
  cbn [track]. rewrite (X m1 q) by assumption.
  destruct (inside sp cpu l a q) eqn:I1; [reflexivity|]. rewrite trk_app.
  destruct (trk d2 q) as [r|] eqn:R; [|reflexivity].
  assert (Hr : physical r).
  { apply (trk_physical d2 q); auto. intros n Hn. apply H. apply in_or_app. now right. }
  cbn [track]. rewrite (X z r) by assumption.
  destruct (inside sp cpu l a r) eqn:I0; [|reflexivity]. exfalso.
  rewrite (inside_between sp cpu l a p q r T P Cv) in I1; auto; [discriminate| |].
  - apply (passive_ahead d1); auto. intros n Hn. apply H. apply in_or_app. now left.
  - apply (passive_ahead d2); auto. intros n Hn. apply H. apply in_or_app. now right.
Qed.

(** * The loop *)
Definition aper (n : string) : Prop := exists l a, elem n = KAperture l a.
Definition passives (d : list string) : Prop := forall n, In n d -> passive n.
(** the end of the list seen so far, as the three variables describe it *)
Definition tail_ok (st : loop) (red : list string) : Prop :=
  match aper_0 st, aper_m1 st, aper_m2 st with
  | None, None, None => True
  | Some z, None, None => exists pre d0, red = List.app pre (z :: d0) /\ aper z /\ passives d0
  | Some z, Some m1, None => exists pre d1 d0, red = List.app pre (m1 :: List.app d1 (z :: d0))
      /\ aper z /\ aper m1 /\ passives d1 /\ passives d0
  | Some z, Some m1, Some m2 => exists pre d2 d1 d0, red = List.app pre (m2 :: List.app d2 (m1 :: List.app d1 (z :: d0)))
      /\ aper z /\ aper m1 /\ aper m2 /\ passives d2 /\ passives d1 /\ passives d0
  | _, _, _ => False
  end.
Lemma remove_first_out n a b : ~ In n a -> remove_first n (List.app a (n :: b)) = Some (List.app a b).
Proof.
  induction a as [|m a IH]; intros H; cbn.
  - now rewrite String.eqb_refl.
  - destruct (String.eqb_spec m n) as [->|N]; [destruct H; now left|]. rewrite IH; auto. intros X. apply H. now right.
Qed.
Lemma remove_all_app a b l : remove_all (List.app a b) l = match remove_all a l with Some l => remove_all b l | None => None end.
Proof. revert l. induction a as [|n a IH]; intros l; cbn; [reflexivity|]. destruct (remove_first n l); auto. Qed.
Lemma sublist_refl {A} (l : list A) : sublist l l.
Proof. induction l; constructor; auto. Qed.
Lemma sublist_trans {A} (a b c : list A) : sublist a b -> sublist b c -> sublist a c.
Proof.
  intros H1 H2. revert a H1. induction H2; intros a H1; auto.
  - inversion H1; subst; constructor; auto.
  - constructor; auto.
Qed.
Lemma sublist_app {A} (a b c d : list A) : sublist a b -> sublist c d -> sublist (List.app a c) (List.app b d).
Proof. intros H1 H2. induction H1; cbn; auto; constructor; auto. Qed.
Lemma sublist_in {A} (a b : list A) x : sublist a b -> In x a -> In x b.
Proof. intros H; induction H; cbn; intuition. Qed.
Lemma sublist_nodup {A} (a b : list A) : sublist a b -> NoDup b -> NoDup a.
Proof.
  intros H; induction H; intros N; auto; inversion N; subst; auto. constructor; auto.
  intros X. apply H2. now apply (sublist_in l m).
Qed.
Definition isap (n : string) : bool := match elem n with KAperture _ _ => true | _ => false end.
Lemma sublist_filter {A} (f : A -> bool) (a b : list A) : sublist a b -> sublist (filter f a) (filter f b).
Proof. intros H; induction H; cbn; try destruct (f n); try constructor; auto. Qed.
Lemma nodup_mid (a b : list string) n : isap n = true -> NoDup (filter isap (List.app a (n :: b))) -> ~ In n a.
Proof.
  intros A N X. rewrite filter_app in N. cbn [filter] in N. rewrite A in N. apply NoDup_remove_2 in N. apply N.
  apply in_or_app. left. now apply filter_In.
Qed.

Definition inv (all done : list string) (st : loop) : Prop := exists red,
  tail_ok st red /\ sublist red done
  /\ (forall rest, all = List.app done rest -> remove_all (to_remove st) all = Some (List.app red rest))
  /\ (forall post p, physical p -> trk (List.app done post) p = trk (List.app red post) p)
  /\ (forall n, In n (to_remove st) -> aper n /\ among keep n = false)
  /\ (forall n, In n done -> In n red \/ In n (to_remove st)).

Lemma passives_snoc d nn : passives d -> passive nn -> passives (List.app d [nn]).
Proof. intros H P x X. apply in_app_or in X. destruct X as [X|[<-|[]]]; auto. Qed.
Lemma tail_passive st red nn : passive nn -> tail_ok st red -> tail_ok st (List.app red [nn]).
Proof.
  intros P H. unfold tail_ok in *.
  destruct (aper_0 st) as [z|], (aper_m1 st) as [m1|], (aper_m2 st) as [m2|]; try (now destruct H).
  - destruct H as (pre & d2 & d1 & d0 & -> & ? & ? & ? & ? & ? & ?). exists pre, d2, d1, (List.app d0 [nn]).
    repeat split; auto using passives_snoc. lists.
  - destruct H as (pre & d1 & d0 & -> & ? & ? & ? & ?). exists pre, d1, (List.app d0 [nn]).
    repeat split; auto using passives_snoc. lists.
  - destruct H as (pre & d0 & -> & ? & ?). exists pre, (List.app d0 [nn]). repeat split; auto using passives_snoc.
    lists.
Qed.
Lemma tail_seen st red nn : tail_ok st red -> tail_ok (seen elem need st nn) (List.app red [nn]).
Proof.
  unfold seen. intros H. destruct (elem nn) as [l a| |m L|] eqn:E.
  - assert (A : aper nn) by (exists l, a; exact E). assert (N : passives []) by (intros x []).
    unfold tail_ok in *. cbn [aper_0 aper_m1 aper_m2].
    destruct (aper_0 st) as [z|], (aper_m1 st) as [m1|], (aper_m2 st) as [m2|]; try (now destruct H).
    + destruct H as (pre & d2 & d1 & d0 & -> & ? & ? & ? & ? & ? & ?).
      exists (List.app pre (m2 :: d2)), d1, d0, []. repeat split; auto. lists.
    + destruct H as (pre & d1 & d0 & -> & ? & ? & ? & ?). exists pre, d1, d0, []. repeat split; auto.
      lists.
    + destruct H as (pre & d0 & -> & ? & ?). exists pre, d0, []. repeat split; auto. lists.
    + exists red, []. auto.
  - destruct (among need nn); [exact I|]. apply tail_passive; [|exact H]. unfold passive. now rewrite E.
  - destruct (among need nn); [exact I|]. apply tail_passive; [|exact H]. unfold passive. now rewrite E.
  - exact I.
Qed.

Lemma inv_step all done nn rest st : all = List.app done (nn :: rest) -> NoDup (filter isap all) -> (forall n, In n all -> good n) ->
  inv all done st -> inv all (List.app done [nn]) (drop_middle elem keep (seen elem need st nn)).
Proof.
  intros Eall ND G (red & Ht & Hs & Hr & Htr & Hrem & Hin).
  assert (I1 : inv all (List.app done [nn]) (seen elem need st nn)).
  { assert (TR : to_remove (seen elem need st nn) = to_remove st).
    { unfold seen. destruct (elem nn); try destruct (among need nn); reflexivity. }
    exists (List.app red [nn]). split; [now apply tail_seen|]. split; [apply sublist_app; [exact Hs|apply sublist_refl]|].
    split; [|split; [|split]].
    - intros r E. rewrite TR, <- app_assoc. apply Hr. rewrite E, <- app_assoc. reflexivity.
    - intros post p Hp. rewrite <- !app_assoc. now apply Htr.
    - rewrite TR. exact Hrem.
    - intros n X. rewrite TR. apply in_app_or in X. destruct X as [X|X].
      + destruct (Hin n X) as [Y|Y]; [left; apply in_or_app; now left|now right].
      + left. apply in_or_app. now right. }
  clear red Ht Hs Hr Htr Hrem Hin. revert I1. generalize (seen elem need st nn). clear st. intros st I1.
  unfold drop_middle. destruct (aper_m2 st) as [m2|] eqn:E2; [|exact I1]. destruct (aper_m1 st) as [m1|] eqn:E1; [|exact I1].
  destruct (aper_0 st) as [z|] eqn:E0; [|exact I1].
  destruct (apertures_equal (elem z) (elem m1) && apertures_equal (elem m1) (elem m2)) eqn:Eq; [|exact I1].
  destruct (among keep m1) eqn:K; [exact I1|].
  apply andb_prop in Eq. destruct Eq as [Q1 Q2]. apply equal_same in Q1, Q2.
  destruct Q1 as (l & a & Ez & Em1). destruct Q2 as (l' & a' & Em1' & Em2). rewrite Em1 in Em1'. injection Em1' as <- <-.
  destruct I1 as (red & Ht & Hs & Hr & Htr & Hrem & Hin). unfold tail_ok in Ht. rewrite E0, E1, E2 in Ht.
  destruct Ht as (pre & d2 & d1 & d0 & -> & A0 & A1 & A2 & P2 & P1 & P0).
  assert (Sall : forall n, In n (List.app pre (m2 :: List.app d2 (m1 :: List.app d1 (z :: d0)))) -> In n all).
  { intros n X. apply (sublist_in _ _ _ Hs) in X. rewrite Eall. apply in_app_or in X. apply in_or_app.
    destruct X as [X|[->|[]]]; [now left|right; now left]. }
  assert (NDr : NoDup (filter isap (List.app pre (m2 :: List.app d2 (m1 :: List.app d1 (z :: d0)))))).
  { apply (sublist_nodup _ _ (sublist_filter isap _ _ Hs)). apply (sublist_nodup _ (filter isap all)); [|exact ND]. rewrite Eall.
    apply sublist_filter, sublist_app; [apply sublist_refl|]. constructor. clear. induction rest; constructor; auto. }
  exists (List.app pre (m2 :: List.app d2 (List.app d1 (z :: d0)))). split; [|split; [|split; [|split; [|split]]]].
  - unfold tail_ok. cbn [aper_0 aper_m1 aper_m2]. exists pre, (List.app d2 d1), d0. repeat split; auto.
    + rewrite <- app_assoc. reflexivity.
    + intros n X. apply in_app_or in X. destruct X; auto.
  - apply (sublist_trans _ (List.app pre (m2 :: List.app d2 (m1 :: List.app d1 (z :: d0))))); [|exact Hs].
    apply sublist_app; [apply sublist_refl|]. constructor. apply sublist_app; [apply sublist_refl|]. constructor. apply sublist_refl.
  - intros r E. cbn [to_remove]. rewrite remove_all_app, (Hr r E).
    assert (X : List.app (List.app pre (m2 :: List.app d2 (m1 :: List.app d1 (z :: d0)))) r
      = List.app (List.app pre (m2 :: d2)) (m1 :: List.app (List.app d1 (z :: d0)) r)).
    { lists. }
    rewrite X. cbn [remove_all]. rewrite remove_first_out.
    + f_equal. lists.
    + apply (nodup_mid _ (List.app d1 (z :: d0))); [unfold isap; now rewrite Em1|]. rewrite <- app_assoc. exact NDr.
  - intros post p Hp. rewrite (Htr post p Hp).
    rewrite <- !app_assoc. cbn [List.app]. rewrite !trk_app. destruct (trk pre p) as [q|] eqn:Q; [|reflexivity].
    assert (Hq : physical q).
    { apply (trk_physical pre p); auto. intros n X. apply G, Sall. apply in_or_app. now left. }
    rewrite <- !app_assoc. cbn [List.app]. rewrite <- !app_assoc. apply (drop_one l a); auto.
    + apply G, Sall. apply in_or_app. right. right. apply in_or_app. right. now left.
    + intros n X. apply in_app_or in X. split.
      * apply G, Sall. apply in_or_app. right. right. apply in_or_app. destruct X; [now left|right; right; apply in_or_app; now left].
      * destruct X; auto.
  - intros n X. cbn [to_remove] in X. apply in_app_or in X. destruct X as [X|[<-|[]]]; auto.
  - intros n X. cbn [to_remove]. destruct (Hin n X) as [Y|Y]; [|right; apply in_or_app; now left].
    apply in_app_or in Y. destruct Y as [Y|[Y|Y]].
    + left. apply in_or_app. now left.
    + left. apply in_or_app. right. now left.
    + apply in_app_or in Y. destruct Y as [Y|[Y|Y]].
      * left. apply in_or_app. right. right. apply in_or_app. now left.
      * right. apply in_or_app. right. now left.
      * left. apply in_or_app. right. right. apply in_or_app. now right.
Qed.
Lemma inv_loop all : NoDup (filter isap all) -> (forall n, In n all -> good n) -> forall rest done st,
  all = List.app done rest -> inv all done st ->
  inv all all (fold_left (fun st nn => drop_middle elem keep (seen elem need st nn)) rest st).
Proof.
  intros ND G. induction rest as [|nn rest IH]; intros done st E H.
  - rewrite app_nil_r in E. subst done. exact H.
  - cbn [fold_left]. apply (IH (List.app done [nn])); [rewrite <- app_assoc; exact E|]. now apply (inv_step all done nn rest).
Qed.
Lemma loop_inv all : NoDup (filter isap all) -> (forall n, In n all -> good n) ->
  exists red, remove_redundant_apertures elem keep need all = Some red /\ sublist red all
    /\ (forall p, physical p -> trk red p = trk all p)
    /\ (forall n, In n all -> In n red \/ (exists l a, elem n = KAperture l a) /\ ~ In n keep).
Proof.
  intros ND G.
  assert (H0 : inv all [] (mkLoop None None None [])).
  { exists []. split; [exact I|]. split; [constructor|]. split; [intros rest E; cbn; now rewrite E|].
    split; [reflexivity|]. split; intros n []. }
  destruct (inv_loop all ND G all [] _ eq_refl H0) as (red & _ & Hs & Hr & Htr & Hrem & Hin).
  exists red. repeat split.
  - unfold remove_redundant_apertures, redundant. rewrite (Hr []); [now rewrite app_nil_r|now rewrite app_nil_r].
  - exact Hs.
  - intros p Hp. specialize (Htr [] p Hp). rewrite !app_nil_r in Htr. now symmetry.
  - intros n X. destruct (Hin n X) as [Y|Y]; [now left|right]. destruct (Hrem n Y) as [A K]. split; [exact A|].
    intros C. assert (among keep n = true); [|congruence]. unfold among. apply existsb_exists. exists n. split; [exact C|apply String.eqb_refl].
Qed.
End Line.

Theorem removed_ok sp cpu ue within other elem keep need names : simple_line cpu other elem names ->
  exists red, remove_redundant_apertures elem keep need names = Some red /\ sublist red names
    /\ (forall p, physical p -> track sp cpu ue within other elem red p = track sp cpu ue within other elem names p)
    /\ (forall n, In n names -> In n red \/ (exists l a, elem n = KAperture l a) /\ ~ In n keep).
Proof. intros (ND & O & G). now apply loop_inv. Qed.
