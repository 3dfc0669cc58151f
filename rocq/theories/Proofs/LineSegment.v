From Coq Require Import Reals List Arith Lra Lia Bool.
From Verif.Model Require Import LineSegment.
From Verif.Spec Require Import LineSegment.
Import ListNotations.
Local Open Scope R_scope.

Lemma is0_true : forall a, is0 a = true <-> a = 0.
Proof. intros a. unfold is0. destruct (Req_EM_T a 0); split; congruence. Qed.
Lemma is0_false : forall a, is0 a = false <-> a <> 0.
Proof. intros a. unfold is0. destruct (Req_EM_T a 0); split; congruence. Qed.

(** ** One plane *)
Definition unnormal (bet alf : R) (q : R * R) : R * R := (sqrt bet * fst q, (snd q - alf * fst q) / sqrt bet).

Lemma sqrt_pos : forall b, 0 < b -> sqrt b <> 0 /\ b = sqrt b * sqrt b.
Proof.
  intros b Hb. split.
  - apply Rgt_not_eq. apply sqrt_lt_R0. exact Hb.
  - symmetry. apply sqrt_sqrt. lra.
Qed.
Lemma plane_normal : forall b0 a0 b1 a1 ph z w, 0 < b0 -> 0 < b1 ->
  plane b0 a0 b1 a1 ph (z, w) = unnormal b1 a1 (turn ph (normal b0 a0 z w)).
Proof.
  intros b0 a0 b1 a1 ph z w H0 H1. unfold plane, unnormal, turn, normal. cbn [fst snd].
  rewrite sqrt_mult by lra. rewrite sqrt_div by lra.
  destruct (sqrt_pos b0 H0) as [N0 E0]. destruct (sqrt_pos b1 H1) as [N1 E1].
  set (r0 := sqrt b0) in *. set (r1 := sqrt b1) in *.
  rewrite E0.
  f_equal; field; auto.
Qed.
Lemma normal_unnormal : forall b a q, 0 < b -> normal b a (fst (unnormal b a q)) (snd (unnormal b a q)) = q.
Proof.
  intros b a [u v] H. unfold unnormal, normal. cbn [fst snd].
  destruct (sqrt_pos b H) as [N E]. set (r := sqrt b) in *. rewrite E. f_equal; field; auto.
Qed.
Lemma turn_turn : forall p q z, turn p (turn q z) = turn (q + p) z.
Proof. intros p q [u v]. unfold turn. cbn [fst snd]. rewrite cos_plus, sin_plus. f_equal; ring. Qed.
Lemma turn_square : forall p z, half_square (turn p z) = half_square z.
Proof.
  intros p [u v]. unfold half_square, turn. cbn [fst snd].
  pose proof (sin2_cos2 p) as E. unfold Rsqr in E.
  replace ((cos p * u + sin p * v) * (cos p * u + sin p * v) + (cos p * v - sin p * u) * (cos p * v - sin p * u))
    with ((sin p * sin p + cos p * cos p) * (u * u + v * v)) by ring.
  rewrite E. field.
Qed.
Lemma action_square : forall b a z w, 0 < b -> action b a z w = half_square (normal b a z w).
Proof.
  intros b a z w H. unfold action, half_square, normal. cbn [fst snd].
  destruct (sqrt_pos b H) as [N E]. set (r := sqrt b) in *. rewrite E. field. auto.
Qed.
Lemma turn_wedge : forall p a b,
  fst (turn p a) * snd (turn p b) - snd (turn p a) * fst (turn p b) = fst a * snd b - snd a * fst b.
Proof.
  intros p [u v] [w z]. unfold turn. cbn [fst snd].
  pose proof (sin2_cos2 p) as E. unfold Rsqr in E.
  match goal with |- _ = ?r => replace r with ((sin p * sin p + cos p * cos p) * r) by (rewrite E; ring) end. ring.
Qed.

(** ** The phases *)
Lemma powers_poly : forall l i d, powers i l d = 2 * PI * poly i l d.
Proof.
  induction l as [|a l IH]; intros i d; cbn [powers poly].
  - ring.
  - rewrite IH. ring.
Qed.
Lemma poly_zero : forall l i d, Forall (fun a => a = 0) l -> poly i l d = 0.
Proof.
  induction l as [|a l IH]; intros i d H; cbn [poly].
  - reflexivity.
  - inversion H; subst. rewrite IH by assumption. ring.
Qed.
Lemma any_chroma_hd : forall l, any_chroma l = true <-> hd 0 l <> 0.
Proof.
  intros [|a l]; cbn.
  - split; [discriminate | intros H; exfalso; apply H; reflexivity].
  - rewrite negb_true_iff. apply is0_false.
Qed.
Lemma detuning_detuned : forall g, detuning g = true <-> detuned g.
Proof.
  intros g. unfold detuning, detuned.
  rewrite !orb_true_iff, !any_chroma_hd, !negb_true_iff, !is0_false. tauto.
Qed.
Lemma not_detuned : forall g, detuning g = false ->
  g_det_xx g = 0 /\ g_det_xy g = 0 /\ g_det_yx g = 0 /\ g_det_yy g = 0.
Proof.
  intros g H. unfold detuning in H. rewrite !orb_false_iff, !negb_false_iff, !is0_true in H. tauto.
Qed.
Lemma phases : forall g Jx Jy d, regular g ->
  phase_x g Jx Jy d = angle_x g Jx Jy d /\ phase_y g Jx Jy d = angle_y g Jx Jy d.
Proof.
  intros g Jx Jy d R. unfold phase_x, phase_y, angle_x, angle_y.
  destruct (detuning g) eqn:D.
  - rewrite !powers_poly. split; ring.
  - destruct (not_detuned g D) as (-> & -> & -> & ->).
    destruct R as [R|[Zx Zy]].
    + apply detuning_detuned in R. congruence.
    + rewrite !poly_zero by assumption. split; ring.
Qed.

(** ** The whole map *)
Section Track.
Variable delta_of : R -> R.
Notation track := (track delta_of).
Notation delta := (delta delta_of).

Definition action_x (o : optics) (p : particle) : R := half_square (normal_x o (delta p) p).
Definition action_y (o : optics) (p : particle) : R := half_square (normal_y o (delta p) p).

(** The particle that has given coordinates at a place *)
Definition place (o : optics) (h v : R * R) (z w t : R) : particle :=
  let a := unnormal (o_betx o) (o_alfx o) h in
  let b := unnormal (o_bety o) (o_alfy o) v in
  let d := delta_of w in
  mkParticle (fst a + 1 * o_dx o * d + 1 * o_x o) (snd a + 1 * o_dpx o * d + 1 * o_px o)
    (fst b + 1 * o_dy o * d + 1 * o_y o) (snd b + 1 * o_dpy o * d + 1 * o_py o) z w t.
Definition moved (m : mode) (p : particle) : R * R :=
  let q := longitudinal m p in (zeta q, pzeta q).

Lemma longitudinal_transverse : forall m a b c d a' b' c' d' z w t t',
  moved m (mkParticle a b c d z w t) = moved m (mkParticle a' b' c' d' z w t').
Proof. intros [|qs bets len]; reflexivity. Qed.
Lemma longitudinal_fields : forall m p, longitudinal m p =
  mkParticle (x p) (px p) (y p) (py p) (fst (moved m p)) (snd (moved m p)) (s p).
Proof. intros [|qs bets len] [a b c d z w t]; reflexivity. Qed.

Lemma removed : forall o p,
  add_dispersion delta_of (-1) o (add_orbit (-1) o p) =
  mkParticle (x p - o_x o - o_dx o * delta p) (px p - o_px o - o_dpx o * delta p)
    (y p - o_y o - o_dy o * delta p) (py p - o_py o - o_dpy o * delta p) (zeta p) (pzeta p) (s p).
Proof.
  intros o [a b c d z w t]. unfold add_dispersion, add_orbit, LineSegment.delta. cbn [x px y py zeta pzeta s].
  f_equal; ring.
Qed.
Lemma transverse_normal : forall g a b c d z w t, regular g -> positive (g_start g) -> positive (g_end g) ->
  transverse delta_of g (mkParticle a b c d z w t) =
  let h := normal (o_betx (g_start g)) (o_alfx (g_start g)) a b in
  let v := normal (o_bety (g_start g)) (o_alfy (g_start g)) c d in
  let h' := unnormal (o_betx (g_end g)) (o_alfx (g_end g)) (turn (angle_x g (half_square h) (half_square v) (delta_of w)) h) in
  let v' := unnormal (o_bety (g_end g)) (o_alfy (g_end g)) (turn (angle_y g (half_square h) (half_square v) (delta_of w)) v) in
  mkParticle (fst h') (snd h') (fst v') (snd v') z w t.
Proof.
  intros g a b c d z w t Hr [Bx0 By0] [Bx1 By1]. unfold transverse, LineSegment.delta. cbn [x px y py zeta pzeta s].
  rewrite (action_square _ _ _ _ Bx0), (action_square _ _ _ _ By0).
  rewrite (plane_normal _ _ _ _ _ _ _ Bx0 Bx1), (plane_normal _ _ _ _ _ _ _ By0 By1).
  match goal with |- context [phase_x g ?Jx ?Jy ?e] => destruct (phases g Jx Jy e Hr) as [-> ->] end.
  reflexivity.
Qed.

Lemma track_place : forall g p, regular g -> positive (g_start g) -> positive (g_end g) ->
  track g p =
  place (g_end g)
    (turn (angle_x g (action_x (g_start g) p) (action_y (g_start g) p) (delta p)) (normal_x (g_start g) (delta p) p))
    (turn (angle_y g (action_x (g_start g) p) (action_y (g_start g) p) (delta p)) (normal_y (g_start g) (delta p) p))
    (fst (moved (g_mode g) p)) (snd (moved (g_mode g) p)) (s p + g_length g).
Proof.
  intros g [a b c d z w t] Hr P0 P1.
  unfold LineSegment.track. cbv zeta. rewrite removed. cbn [x px y py zeta pzeta s].
  rewrite (transverse_normal _ _ _ _ _ _ _ _ Hr P0 P1). cbv zeta.
  rewrite longitudinal_fields. cbn [x px y py zeta pzeta s].
  unfold action_x, action_y, normal_x, normal_y, LineSegment.delta. cbn [x px y py zeta pzeta s].
  match goal with |- context [turn ?p ?q] => set (h := turn p q) end.
  match goal with |- context [unnormal (o_bety (g_end g)) (o_alfy (g_end g)) (turn ?p ?q)] => set (v := turn p q) end.
  match goal with |- context [moved (g_mode g) (mkParticle ?e ?f ?i ?j z w t)] =>
    rewrite (longitudinal_transverse (g_mode g) e f i j a b c d z w t t) end.
  generalize (moved (g_mode g) (mkParticle a b c d z w t)). intros [z' w'].
  unfold add_orbit, add_dispersion, place, LineSegment.delta. cbn [x px y py zeta pzeta s fst snd].
  reflexivity.
Qed.

Lemma place_normal : forall o h v z w t, positive o ->
  normal_x o (delta_of w) (place o h v z w t) = h /\ normal_y o (delta_of w) (place o h v z w t) = v.
Proof.
  intros o h v z w t [Bx By]. unfold normal_x, normal_y, place. cbn [x px y py].
  split.
  - match goal with |- normal ?b ?a ?q ?r = h => 
      replace q with (fst (unnormal b a h)) by ring; replace r with (snd (unnormal b a h)) by ring end.
    apply normal_unnormal. exact Bx.
  - match goal with |- normal ?b ?a ?q ?r = v => 
      replace q with (fst (unnormal b a v)) by ring; replace r with (snd (unnormal b a v)) by ring end.
    apply normal_unnormal. exact By.
Qed.

Lemma rotation : forall g p, regular g -> positive (g_start g) -> positive (g_end g) ->
  let q := track g p in
  normal_x (g_end g) (delta q) q =
    turn (angle_x g (action_x (g_start g) p) (action_y (g_start g) p) (delta p)) (normal_x (g_start g) (delta p) p) /\
  normal_y (g_end g) (delta q) q =
    turn (angle_y g (action_x (g_start g) p) (action_y (g_start g) p) (delta p)) (normal_y (g_start g) (delta p) p).
Proof.
  intros g p Hr P0 P1 q. unfold q. rewrite track_place by assumption.
  apply place_normal. exact P1.
Qed.
Lemma actions : forall g p, regular g -> positive (g_start g) -> positive (g_end g) ->
  action_x (g_end g) (track g p) = action_x (g_start g) p /\ action_y (g_end g) (track g p) = action_y (g_start g) p.
Proof.
  intros g p Hr P0 P1. destruct (rotation g p Hr P0 P1) as [X Y].
  unfold action_x, action_y. rewrite X, Y, !turn_square. split; reflexivity.
Qed.

(** ** Two segments *)
Lemma poly_add : forall l m i d, poly i (add_lists l m) d = poly i l d + poly i m d.
Proof.
  induction l as [|a l IH]; intros [|b m] i d; cbn [add_lists poly]; try ring.
  rewrite IH. ring.
Qed.
Lemma tl_add : forall l m, l <> [] -> m <> [] -> tl (add_lists l m) = add_lists (tl l) (tl m).
Proof. intros [|a l] [|b m] H H'; try congruence. reflexivity. Qed.
Lemma add_nil : forall l, add_lists l [] = l.
Proof. intros [|a l]; reflexivity. Qed.
Lemma zero_add : forall l m, Forall (fun a => a = 0) l -> Forall (fun a => a = 0) m -> Forall (fun a => a = 0) (add_lists l m).
Proof.
  induction l as [|a l IH]; intros [|b m] H H'; cbn [add_lists]; auto.
  inversion H; inversion H'; subst. constructor; [ring | auto].
Qed.
Lemma poly_tl : forall l m d, l <> [] -> m <> [] -> poly 1 (tl (add_lists l m)) d = poly 1 (tl l) d + poly 1 (tl m) d.
Proof. intros l m d H H'. rewrite tl_add by assumption. apply poly_add. Qed.

Lemma moved_joined : forall a b p, joinable a b ->
  moved (g_mode b) (longitudinal (g_mode a) p) = moved (g_mode (joined a b)) p.
Proof.
  intros a b p [[Ea Eb]|(qs & qs' & bets & len & Ea & Eb & Hb & Hl & _)]; unfold joined; cbn [g_mode]; rewrite Ea, Eb; cbn [joined_mode].
  - reflexivity.
  - destruct p as [e f g h z w t]. unfold moved, longitudinal. cbn [x px y py zeta pzeta s].
    destruct (Rlt_dec 0 len) as [C|_]; [lra|]. cbn [x px y py zeta pzeta s].
    replace (2 * PI * (qs + qs')) with (2 * PI * qs + 2 * PI * qs') by ring.
    rewrite cos_plus, sin_plus. f_equal; field; exact Hb.
Qed.
Lemma track_zeta : forall g p, regular g -> positive (g_start g) -> positive (g_end g) ->
  zeta (track g p) = fst (moved (g_mode g) p) /\ pzeta (track g p) = snd (moved (g_mode g) p) /\ s (track g p) = s p + g_length g.
Proof. intros g p Hr P0 P1. rewrite track_place by assumption. repeat split. Qed.
Lemma moved_ext : forall m p q, zeta p = zeta q -> pzeta p = pzeta q -> moved m p = moved m q.
Proof.
  intros m [a b c d z w t] [a' b' c' d' z' w' t'] Hz Hw. cbn in Hz, Hw. subst.
  apply longitudinal_transverse.
Qed.

Lemma poly_same : forall a b, joinable a b ->
  (g_mode a = frozen) \/ (achromatic a /\ achromatic b).
Proof. intros a b [[E _]|(qs & qs' & bets & len & _ & _ & _ & _ & A & B)]; auto. Qed.

Theorem compose : forall a b p, g_end a = g_start b ->
  positive (g_start a) -> positive (g_end a) -> positive (g_end b) ->
  regular a -> regular b -> regular (joined a b) -> filled a -> filled b -> joinable a b ->
  track b (track a p) = track (joined a b) p.
Proof.
  intros a b p E P0 P1 P2 Ra Rb Rj [Fax Fay] [Fbx Fby] J.
  rewrite (track_place b) by (try rewrite <- E; assumption).
  rewrite (track_place (joined a b)) by assumption.
  destruct (rotation a p Ra P0 P1) as [X Y]. rewrite E in X, Y.
  destruct (actions a p Ra P0 P1) as [Ax Ay]. rewrite E in Ax, Ay.
  rewrite Ax, Ay, X, Y, !turn_turn.
  destruct (track_zeta a p Ra P0 P1) as (Z & W & St).
  change (g_start (joined a b)) with (g_start a). change (g_end (joined a b)) with (g_end b).
  assert (M : moved (g_mode b) (track a p) = moved (g_mode (joined a b)) p).
  { rewrite <- (moved_joined a b p J). apply moved_ext.
    - rewrite Z. reflexivity.
    - rewrite W. reflexivity. }
  rewrite M, St.
  assert (Ph : forall Jx Jy,
    angle_x a Jx Jy (delta p) + angle_x b Jx Jy (delta (track a p)) = angle_x (joined a b) Jx Jy (delta p) /\
    angle_y a Jx Jy (delta p) + angle_y b Jx Jy (delta (track a p)) = angle_y (joined a b) Jx Jy (delta p)).
  { intros Jx Jy. unfold angle_x, angle_y, joined. cbn [g_qx g_qy g_det_xx g_det_xy g_det_yx g_det_yy g_coeffs_dqx g_coeffs_dqy].
    rewrite !poly_tl by assumption.
    destruct (poly_same a b J) as [Em|[[Zax Zay] [Zbx Zby]]].
    - assert (D : delta (track a p) = delta p).
      { unfold LineSegment.delta. rewrite W, Em. destruct p; reflexivity. }
      rewrite D. split; ring.
    - rewrite !(poly_zero _ _ _ Zax), !(poly_zero _ _ _ Zay), !(poly_zero _ _ _ Zbx), !(poly_zero _ _ _ Zby). split; ring. }
  destruct (Ph (action_x (g_start a) p) (action_y (g_start a) p)) as [-> ->].
  f_equal. unfold joined. cbn [g_length]. ring.
Qed.

(** ** Turns *)
Lemma map_succ : forall n l, add_lists l (map (Rmult (INR n)) l) = map (Rmult (INR (S n))) l.
Proof.
  intros n. rewrite S_INR. induction l as [|a l IH]; cbn [add_lists map].
  - reflexivity.
  - rewrite IH. f_equal. ring.
Qed.
Lemma joined_times : forall n g, g_end g = g_start g -> joined g (times n g) = times (S n) g.
Proof.
  intros n [len qx qy cx cy a b c d o o' m] E. cbn in E. subst o'.
  unfold joined, times. cbn [g_length g_qx g_qy g_coeffs_dqx g_coeffs_dqy g_det_xx g_det_xy g_det_yx g_det_yy g_start g_end g_mode].
  rewrite !map_succ. rewrite !S_INR.
  replace (joined_mode m (times_mode n m)) with (times_mode (S n) m).
  - f_equal; ring.
  - destruct m as [|qs bets bl]; cbn [joined_mode times_mode]; [reflexivity | rewrite S_INR; f_equal; ring].
Qed.
Lemma zero_map : forall k l, Forall (fun a => a = 0) l -> Forall (fun a => a = 0) (map (Rmult k) l).
Proof. intros k l H. induction H as [|a l Ha _ IH]; cbn [map]; constructor; [subst; ring | exact IH]. Qed.
Lemma tl_map : forall (k : R) l, tl (map (Rmult k) l) = map (Rmult k) (tl l).
Proof. intros k [|a l]; reflexivity. Qed.
Lemma hd_map : forall (k : R) l, hd 0 (map (Rmult k) l) = k * hd 0 l.
Proof. intros k [|a l]; cbn; ring. Qed.
Lemma achromatic_times : forall n g, achromatic g -> achromatic (times n g).
Proof.
  intros n g [A B]. split; unfold times; cbn [g_coeffs_dqx g_coeffs_dqy]; rewrite tl_map; apply zero_map; assumption.
Qed.
Lemma regular_times : forall n g, regular g -> regular (times n g).
Proof.
  intros n g [D|A]; [|right; apply achromatic_times; exact A].
  destruct n as [|n].
  - right. split; unfold times; cbn [g_coeffs_dqx g_coeffs_dqy INR]; rewrite tl_map; apply Forall_forall;
      intros v Hv; apply in_map_iff in Hv as (w & <- & _); ring.
  - left. unfold detuned, times in *. cbn [g_coeffs_dqx g_coeffs_dqy g_det_xx g_det_xy g_det_yx g_det_yy].
    rewrite !hd_map.
    assert (N : INR (S n) <> 0) by (apply not_0_INR; discriminate).
    destruct D as [D|[D|[D|[D|[D|D]]]]];
      [left | right; left | right; right; left | right; right; right; left | do 4 right; left | do 5 right];
      apply Rmult_integral_contrapositive_currified; assumption.
Qed.
Lemma filled_times : forall n g, filled g -> filled (times n g).
Proof.
  intros n g [A B]. split; unfold times; cbn [g_coeffs_dqx g_coeffs_dqy]; intros H; apply map_eq_nil in H; congruence.
Qed.
Lemma joinable_times : forall n g, joinable g g -> joinable g (times n g).
Proof.
  intros n g [[E _]|(qs & qs' & bets & len & E & E' & Hb & Hl & A & _)].
  - left. split; [exact E|]. unfold times. cbn [g_mode]. rewrite E. reflexivity.
  - right. exists qs, (INR n * qs), bets, len.
    repeat split; try assumption; try apply A.
    + unfold times. cbn [g_mode]. rewrite E. reflexivity.
    + apply (achromatic_times n g A).
    + apply (achromatic_times n g A).
Qed.
Lemma zero_times : forall g p, g_end g = g_start g -> positive (g_start g) -> regular g -> joinable g g -> track (times 0 g) p = p.
Proof.
  intros g p E P Hr J.
  rewrite track_place; change (g_start (times 0 g)) with (g_start g); change (g_end (times 0 g)) with (g_end g);
    try rewrite E; try assumption; [|apply regular_times; exact Hr].
  assert (Ph : forall Jx Jy d, angle_x (times 0 g) Jx Jy d = 0 /\ angle_y (times 0 g) Jx Jy d = 0).
  { intros Jx Jy d. unfold angle_x, angle_y, times. cbn [g_qx g_qy g_det_xx g_det_xy g_det_yx g_det_yy g_coeffs_dqx g_coeffs_dqy INR].
    rewrite !tl_map.
    assert (Z : forall l, poly 1 (map (Rmult 0) l) d = 0).
    { intros l. apply poly_zero. apply Forall_forall. intros v Hv. apply in_map_iff in Hv as (w & <- & _). ring. }
    rewrite !Z. split; ring. }
  match goal with |- context [angle_x _ ?Jx ?Jy ?d] => destruct (Ph Jx Jy d) as [Hx Hy] end.
  rewrite Hx, Hy. unfold turn. rewrite cos_0, sin_0.
  assert (M : moved (times_mode 0 (g_mode g)) p = (zeta p, pzeta p)).
  { destruct J as [[Em _]|(qs & qs' & bets & len & Em & _ & Hb & Hl & _)]; rewrite Em; cbn [times_mode INR].
    - reflexivity.
    - unfold moved, longitudinal. destruct (Rlt_dec 0 len) as [C|_]; [lra|]. cbn [zeta pzeta].
      replace (2 * PI * (0 * qs)) with 0 by ring. rewrite cos_0, sin_0. f_equal; field. exact Hb. }
  change (g_mode (times 0 g)) with (times_mode 0 (g_mode g)). change (g_length (times 0 g)) with (0 * g_length g).
  rewrite M. cbn [fst snd].
  destruct P as [Bx By].
  destruct (sqrt_pos _ Bx) as [Nx Ex]. destruct (sqrt_pos _ By) as [Ny Ey].
  unfold place, unnormal, normal_x, normal_y, normal, LineSegment.delta. cbn [fst snd].
  destruct p as [a b c d z w t]. cbn [x px y py zeta pzeta s].
  f_equal; try ring.
  - field. exact Nx.
  - set (r := sqrt (o_betx (g_start g))) in *. rewrite Ex. field. exact Nx.
  - field. exact Ny.
  - set (r := sqrt (o_bety (g_start g))) in *. rewrite Ey. field. exact Ny.
Qed.
Lemma iter_r : forall (f : particle -> particle) n p, Nat.iter (S n) f p = Nat.iter n f (f p).
Proof. intros f n p. induction n as [|n IH]; [reflexivity|]. cbn [Nat.iter nat_rect] in *. f_equal. exact IH. Qed.
Theorem turns : forall n g p, g_end g = g_start g -> positive (g_start g) -> regular g -> filled g -> joinable g g ->
  Nat.iter n (track g) p = track (times n g) p.
Proof.
  intros n g p E P Hr F J. revert p. induction n as [|n IH]; intros p.
  - symmetry. apply zero_times; assumption.
  - rewrite iter_r, IH. rewrite <- (joined_times n g E).
    apply compose; cbn [times g_start g_end]; try rewrite E; try assumption; try reflexivity.
    + apply regular_times. exact Hr.
    + rewrite joined_times by exact E. apply regular_times. exact Hr.
    + apply filled_times. exact F.
    + apply joinable_times. exact J.
Qed.

(** ** Areas *)
Lemma normal_wedge : forall b a z w z' w', 0 < b -> wedge (normal b a z w) (normal b a z' w') = z * w' - w * z'.
Proof.
  intros b a z w z' w' H. unfold wedge, normal. cbn [fst snd].
  destruct (sqrt_pos b H) as [N E]. set (r := sqrt b) in *. rewrite E. field. exact N.
Qed.
Lemma offset_wedge_x : forall o d e p q, 0 < o_betx o -> wedge (normal_x o d p) (normal_x o e q) = wedge (offset_x o d p) (offset_x o e q).
Proof. intros o d e p q H. unfold normal_x. rewrite normal_wedge by exact H. reflexivity. Qed.
Lemma offset_wedge_y : forall o d e p q, 0 < o_bety o -> wedge (normal_y o d p) (normal_y o e q) = wedge (offset_y o d p) (offset_y o e q).
Proof. intros o d e p q H. unfold normal_y. rewrite normal_wedge by exact H. reflexivity. Qed.
Theorem area : forall g p q, regular g -> positive (g_start g) -> positive (g_end g) ->
  g_det_xx g = 0 -> g_det_xy g = 0 -> g_det_yx g = 0 -> g_det_yy g = 0 -> delta p = delta q ->
  let p' := track g p in
  let q' := track g q in
  wedge (offset_x (g_end g) (delta p') p') (offset_x (g_end g) (delta q') q') =
  wedge (offset_x (g_start g) (delta p) p) (offset_x (g_start g) (delta q) q) /\
  wedge (offset_y (g_end g) (delta p') p') (offset_y (g_end g) (delta q') q') =
  wedge (offset_y (g_start g) (delta p) p) (offset_y (g_start g) (delta q) q).
Proof.
  intros g p q Hr P0 P1 D1 D2 D3 D4 E p' q'. unfold p', q'.
  destruct (rotation g p Hr P0 P1) as [Xp Yp]. destruct (rotation g q Hr P0 P1) as [Xq Yq].
  rewrite <- !offset_wedge_x by (apply P0 || apply P1). rewrite <- !offset_wedge_y by (apply P0 || apply P1).
  rewrite Xp, Yp, Xq, Yq. unfold angle_x, angle_y. rewrite D1, D2, D3, D4, <- E.
  split.
  - replace (2 * PI * (g_qx g + 0 * action_x (g_start g) q + 0 * action_y (g_start g) q + poly 1 (tl (g_coeffs_dqx g)) (delta p)))
      with (2 * PI * (g_qx g + 0 * action_x (g_start g) p + 0 * action_y (g_start g) p + poly 1 (tl (g_coeffs_dqx g)) (delta p))) by ring.
    apply turn_wedge.
  - replace (2 * PI * (g_qy g + 0 * action_x (g_start g) q + 0 * action_y (g_start g) q + poly 1 (tl (g_coeffs_dqy g)) (delta p)))
      with (2 * PI * (g_qy g + 0 * action_x (g_start g) p + 0 * action_y (g_start g) p + poly 1 (tl (g_coeffs_dqy g)) (delta p))) by ring.
    apply turn_wedge.
Qed.

(** ** Longitudinal plane *)
Lemma bunch : forall g p qs bets len, regular g -> positive (g_start g) -> positive (g_end g) ->
  g_mode g = fixed_qs qs bets len -> bets <> 0 -> len <= 0 ->
  zeta (track g p) * zeta (track g p) + bets * bets * (pzeta (track g p) * pzeta (track g p)) =
  zeta p * zeta p + bets * bets * (pzeta p * pzeta p).
Proof.
  intros g p qs bets len Hr P0 P1 Em Hb Hl.
  destruct (track_zeta g p Hr P0 P1) as (Z & W & _). rewrite Z, W, Em.
  unfold moved, longitudinal. destruct (Rlt_dec 0 len) as [C|_]; [lra|]. cbn [zeta pzeta fst snd].
  rewrite !Rminus_0_r, !Rplus_0_r.
  set (c := cos (2 * PI * qs)). set (n := sin (2 * PI * qs)).
  assert (E : n * n + c * c = 1) by exact (sin2_cos2 (2 * PI * qs)).
  transitivity ((n * n + c * c) * (zeta p * zeta p + bets * bets * (pzeta p * pzeta p))).
  - field. exact Hb.
  - rewrite E. ring.
Qed.
End Track.

(** ** The constructor *)
Lemma poly_coefficients : forall l i d, poly i (coefficients_from i l) d = taylor i l d.
Proof.
  induction l as [|a l IH]; intros i d; cbn [coefficients_from poly taylor]; [reflexivity | rewrite IH; reflexivity].
Qed.
Lemma derivatives_given : forall dnq q dq ddq q' l d, derivatives dnq q dq ddq = Some (q', l) -> (dq <> 0 \/ ddq = 0) ->
  exists r, l = q' :: r /\ q' + taylor 1 r d = taylor 0 (given dnq q dq ddq) d.
Proof.
  intros dnq q dq ddq q' l d E H. unfold derivatives in E. destruct dnq as [m|].
  - destruct (is0 q && is0 dq && is0 ddq); [|discriminate].
    destruct m as [|a m]; [discriminate|]. injection E as <- <-.
    exists m. split; [reflexivity|]. cbn [given taylor fact INR pow]. field.
  - injection E as <- <-.
    exists ((if is0 dq then [] else [dq]) ++ (if is0 ddq then [] else [ddq])). split; [reflexivity|].
    cbn [given taylor fact INR pow].
    destruct (is0 dq) eqn:Z1; destruct (is0 ddq) eqn:Z2; cbn [app taylor].
    + apply is0_true in Z1, Z2. subst. cbn. field.
    + apply is0_true in Z1. apply is0_false in Z2. tauto.
    + apply is0_true in Z2. subst. cbn. field.
    + cbn. field.
Qed.
Lemma make_angles : forall len dnqx qx dqx ddqx dnqy qy dqy ddqy a b c d o0 o1 m g Jx Jy e,
  make len dnqx qx dqx ddqx dnqy qy dqy ddqy a b c d o0 o1 m = Some g ->
  (dqx <> 0 \/ ddqx = 0) -> (dqy <> 0 \/ ddqy = 0) ->
  filled g /\ g_start g = o0 /\ g_end g = o1 /\
  angle_x g Jx Jy e = 2 * PI * (taylor 0 (given dnqx qx dqx ddqx) e + a * Jx + b * Jy) /\
  angle_y g Jx Jy e = 2 * PI * (taylor 0 (given dnqy qy dqy ddqy) e + c * Jx + d * Jy).
Proof.
  intros len dnqx qx dqx ddqx dnqy qy dqy ddqy a b c d o0 o1 m g Jx Jy e E Hx Hy.
  unfold make in E.
  destruct (derivatives dnqx qx dqx ddqx) as [[kx lx]|] eqn:Dx; [|discriminate].
  destruct (derivatives dnqy qy dqy ddqy) as [[ky ly]|] eqn:Dy; [|discriminate].
  injection E as <-.
  destruct (derivatives_given _ _ _ _ _ _ e Dx Hx) as (rx & -> & Tx).
  destruct (derivatives_given _ _ _ _ _ _ e Dy Hy) as (ry & -> & Ty).
  unfold filled, angle_x, angle_y, coefficients.
  cbn [g_start g_end g_qx g_qy g_det_xx g_det_xy g_det_yx g_det_yy g_coeffs_dqx g_coeffs_dqy coefficients_from tl].
  rewrite !poly_coefficients, <- Tx, <- Ty.
  repeat split; try discriminate; ring.
Qed.
Lemma hd_given : forall dnq q dq ddq q' l, derivatives dnq q dq ddq = Some (q', l) ->
  hd 0 (coefficients l) = hd 0 (given dnq q dq ddq).
Proof.
  intros dnq q dq ddq q' l E. unfold derivatives in E. destruct dnq as [m|].
  - destruct (is0 q && is0 dq && is0 ddq); [|discriminate].
    destruct m as [|a m]; [discriminate|]. injection E as <- <-. cbn. field.
  - injection E as <- <-. cbn. field.
Qed.
Lemma make_regular : forall len dnqx qx dqx ddqx dnqy qy dqy ddqy a b c d o0 o1 m g,
  make len dnqx qx dqx ddqx dnqy qy dqy ddqy a b c d o0 o1 m = Some g ->
  hd 0 (given dnqx qx dqx ddqx) <> 0 \/ hd 0 (given dnqy qy dqy ddqy) <> 0 \/ a <> 0 \/ b <> 0 \/ c <> 0 \/ d <> 0 ->
  regular g.
Proof.
  intros len dnqx qx dqx ddqx dnqy qy dqy ddqy a b c d o0 o1 m g E H.
  unfold make in E.
  destruct (derivatives dnqx qx dqx ddqx) as [[kx lx]|] eqn:Dx; [|discriminate].
  destruct (derivatives dnqy qy dqy ddqy) as [[ky ly]|] eqn:Dy; [|discriminate].
  injection E as <-. left. unfold detuned.
  cbn [g_det_xx g_det_xy g_det_yx g_det_yy g_coeffs_dqx g_coeffs_dqy].
  rewrite (hd_given _ _ _ _ _ _ Dx), (hd_given _ _ _ _ _ _ Dy). exact H.
Qed.

Theorem tunes : forall delta_of len dnqx qx dqx ddqx dnqy qy dqy ddqy a b c d o0 o1 m g p,
  make len dnqx qx dqx ddqx dnqy qy dqy ddqy a b c d o0 o1 m = Some g ->
  hd 0 (given dnqx qx dqx ddqx) <> 0 \/ hd 0 (given dnqy qy dqy ddqy) <> 0 \/ a <> 0 \/ b <> 0 \/ c <> 0 \/ d <> 0 ->
  dqx <> 0 \/ ddqx = 0 -> dqy <> 0 \/ ddqy = 0 -> positive o0 -> positive o1 ->
  let q := track delta_of g p in
  let e := delta delta_of p in
  let Jx := half_square (normal_x o0 e p) in
  let Jy := half_square (normal_y o0 e p) in
  normal_x o1 (delta delta_of q) q =
    turn (2 * PI * (taylor 0 (given dnqx qx dqx ddqx) e + a * Jx + b * Jy)) (normal_x o0 e p) /\
  normal_y o1 (delta delta_of q) q =
    turn (2 * PI * (taylor 0 (given dnqy qy dqy ddqy) e + c * Jx + d * Jy)) (normal_y o0 e p).
Proof.
  intros delta_of len dnqx qx dqx ddqx dnqy qy dqy ddqy a b c d o0 o1 m g p E N Hx Hy P0 P1 q e Jx Jy.
  destruct (make_angles _ _ _ _ _ _ _ _ _ _ _ _ _ _ _ _ g Jx Jy e E Hx Hy) as (_ & Es & Ee & Ax & Ay).
  pose proof (make_regular _ _ _ _ _ _ _ _ _ _ _ _ _ _ _ _ g E N) as Hr.
  destruct (rotation delta_of g p Hr) as [X Y]; [rewrite Es; exact P0 | rewrite Ee; exact P1 |].
  rewrite Es, Ee in X, Y. unfold action_x, action_y in X, Y. fold e Jx Jy in X, Y.
  rewrite Ax in X. rewrite Ay in Y. split; assumption.
Qed.
