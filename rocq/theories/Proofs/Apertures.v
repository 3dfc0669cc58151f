From Coq Require Import Reals List Bool Lra Psatz.
From Verif.Model Require Import Apertures.
From Verif.Spec Require Import Apertures.
From Verif.Proofs Require Import Polygon.
Import ListNotations.
Local Open Scope R_scope.

Lemma rect_iff x0 x1 y0 y1 x y : rect_alive x0 x1 y0 y1 x y = true <-> in_rect x0 x1 y0 y1 x y.
Proof. unfold rect_alive, in_rect. rewrite !andb_true_iff, !Rleb_iff. tauto. Qed.

Lemma ellipse_algebra a b x y : a <> 0 -> b <> 0 ->
  (in_ellipse a b x y <-> x * x * (b * b) + y * y * (a * a) <= a * a * (b * b)).
Proof.
  intros Ha Hb. unfold in_ellipse.
  assert (P : 0 < a * a * (b * b)).
  { apply Rmult_lt_0_compat; nra. }
  assert (E : (x / a) ^ 2 + (y / b) ^ 2 = (x * x * (b * b) + y * y * (a * a)) / (a * a * (b * b))).
  { field. auto. }
  rewrite E. clear E. set (n := x * x * (b * b) + y * y * (a * a)). clearbody n.
  set (d := a * a * (b * b)) in *. clearbody d. split; intros H.
  - apply (Rmult_le_compat_r d) in H; [|lra]. replace (n / d * d) with n in H by (field; lra). lra.
  - apply (Rmult_le_reg_r d); [lra|]. replace (n / d * d) with n by (field; lra). lra.
Qed.
Definition whole (e : ellipse) : Prop := 0 < a_squ e /\ 0 < b_squ e /\ a_b_squ e = a_squ e * b_squ e.
Lemma ellipse_iff e x y : whole e -> (ellipse_alive e x y = true <-> in_ellipse (get_a e) (get_b e) x y).
Proof.
  intros (Ha & Hb & Hab). unfold ellipse_alive, get_a, get_b. rewrite Rleb_iff, Hab.
  rewrite ellipse_algebra by (apply Rgt_not_eq, sqrt_lt_R0; assumption).
  rewrite !sqrt_sqrt by lra. reflexivity.
Qed.
Lemma new_whole u a b a2 b2 e : new_ellipse u a b a2 b2 = Some e -> whole e.
Proof.
  unfold new_ellipse. destruct (_ && _) eqn:E; [|discriminate]. intros H. injection H as <-.
  apply andb_true_iff in E as [E1 E2]. apply Rltb_iff in E1, E2. unfold whole. auto.
Qed.
Lemma new_axes_read u a b e : new_ellipse u (Some a) (Some b) None None = Some e ->
  get_a e = Rabs a /\ get_b e = Rabs b.
Proof.
  unfold new_ellipse. destruct (_ && _); [|discriminate]. intros H. injection H as <-.
  unfold get_a, get_b. cbn. fold (Rsqr a) (Rsqr b). now rewrite !sqrt_Rsqr_abs.
Qed.
Lemma new_defined u a b : a <> 0 -> b <> 0 -> exists e, new_ellipse u (Some a) (Some b) None None = Some e.
Proof.
  intros Ha Hb. unfold new_ellipse.
  replace (Rltb 0 (a * a)) with true by (symmetry; apply Rltb_iff; nra).
  replace (Rltb 0 (b * b)) with true by (symmetry; apply Rltb_iff; nra). cbn. eauto.
Qed.
Lemma set_whole e o : whole e -> through_api o ->
  whole (ellipse_set e o) /\ (get_a (ellipse_set e o), get_b (ellipse_set e o)) = new_axes (get_a e, get_b e) o.
Proof.
  intros (H1 & H2 & H3) Ho.
  destruct o as [a|b|a b|a2 b2|a2|b2]; cbn in Ho; try contradiction; unfold whole, get_a, get_b; cbn;
    (split; [repeat split; try nra|]).
  - fold (Rsqr a). now rewrite sqrt_Rsqr_abs.
  - fold (Rsqr b). now rewrite sqrt_Rsqr_abs.
  - fold (Rsqr a) (Rsqr b). now rewrite !sqrt_Rsqr_abs.
  - reflexivity.
Qed.
Theorem ellipse_history u a b a2 b2 e ops x y : new_ellipse u a b a2 b2 = Some e -> Forall through_api ops ->
  let ab := fold_left new_axes ops (get_a e, get_b e) in
  ellipse_alive (fold_left ellipse_set ops e) x y = true <-> in_ellipse (fst ab) (snd ab) x y.
Proof.
  intros H Ho. cbn zeta. apply new_whole in H. revert e H.
  induction Ho as [|o ops Ho _ IH]; intros e H; [now apply ellipse_iff|].
  cbn [fold_left]. destruct (set_whole e o H Ho) as [W E]. rewrite <- E. now apply IH.
Qed.

Theorem rect_ellipse_iff u mx my a b a2 b2 mx' my' e x y :
  new_rect_ellipse u mx my a b a2 b2 = Some (mx', my', e) -> 0 < a_squ e -> 0 < b_squ e ->
  (rect_ellipse_alive mx' my' e x y = true <-> in_rect (- mx') mx' (- my') my' x y /\ in_ellipse (get_a e) (get_b e) x y).
Proof.
  intros H Ha Hb. assert (W : whole e).
  { unfold new_rect_ellipse in H. destruct (_ || _ || _ || _); [discriminate|]. injection H as _ _ <-. cbn in *. unfold whole. auto. }
  rewrite <- (ellipse_iff e x y W). unfold rect_ellipse_alive, ellipse_alive, in_rect.
  rewrite !andb_true_iff, !Rleb_iff. tauto.
Qed.

Lemma sq_le a b : 0 <= a -> a <= b -> a * a <= b * b.
Proof. intros. nra. Qed.
Lemma sq_bound dx a : 0 <= a -> dx * dx <= a * a -> - a <= dx <= a.
Proof. intros. nra. Qed.

Section Racetrack.
Variables x0 x1 y0 y1 a b : R.
Hypothesis valid : racetrack_valid x0 x1 y0 y1 a b = true.
Lemma valid_facts : 0 <= a /\ 0 <= b /\ x0 + a <= x1 - a /\ y0 + b <= y1 - b.
Proof.
  unfold racetrack_valid in valid. rewrite !andb_true_iff, negb_true_iff, orb_false_iff, !Rleb_iff, !Rltb_no in valid.
  destruct valid as ((((A & B) & _) & _) & C & D). lra.
Qed.
Definition corner_ok (dx dy : R) : Prop := dx * dx * b * b + dy * dy * a * a <= a * a * b * b.
Lemma racetrack_cases x y : racetrack_alive x0 x1 y0 y1 a b x y = true <->
  in_rect x0 x1 y0 y1 x y
  /\ (x1 - a < x -> y1 - b < y -> corner_ok (x - (x1 - a)) (y - (y1 - b)))
  /\ (x < x0 + a -> y1 - b < y -> corner_ok (x - (x0 + a)) (y - (y1 - b)))
  /\ (x < x0 + a -> y < y0 + b -> corner_ok (x - (x0 + a)) (y - (y0 + b)))
  /\ (x1 - a < x -> y < y0 + b -> corner_ok (x - (x1 - a)) (y - (y0 + b))).
Proof.
  destruct valid_facts as (Ha & Hb & HX & HY).
  unfold racetrack_alive. fold (rect_alive x0 x1 y0 y1 x y).
  destruct (rect_alive x0 x1 y0 y1 x y) eqn:E.
  - apply rect_iff in E. unfold corner_ok.
    destruct (Rltb (x1 - a) x) eqn:E1, (Rltb (y1 - b) y) eqn:E2, (Rltb x (x0 + a)) eqn:E3, (Rltb y (y0 + b)) eqn:E4;
      cbn [andb]; rewrite ?Rltb_iff, ?Rltb_no in *; rewrite ?Rleb_iff;
      try (exfalso; lra);
      (split; [intros H; repeat split; try apply E; intros; try lra; try exact H|]); intros H; try reflexivity; apply H; lra.
  - split; [discriminate|]. intros [H _]. apply rect_iff in H. congruence.
Qed.
Theorem racetrack_iff x y : 0 < a -> 0 < b ->
  (racetrack_alive x0 x1 y0 y1 a b x y = true <-> in_racetrack x0 x1 y0 y1 a b x y).
Proof.
  intros Pa Pb. destruct valid_facts as (_ & _ & HX & HY). rewrite racetrack_cases. unfold corner_ok. split.
  - intros ((Rx & Ry) & C1 & C2 & C3 & C4).
    assert (W : forall u v, in_rect (x0 + a) (x1 - a) (y0 + b) (y1 - b) u v ->
      (x - u) * (x - u) * (b * b) + (y - v) * (y - v) * (a * a) <= a * a * (b * b) -> in_racetrack x0 x1 y0 y1 a b x y).
    { intros u v U V. exists u, v. split; [exact U|]. apply ellipse_algebra; lra. }
    assert (QX : forall d, - a <= d <= a -> d * d * (b * b) <= a * a * (b * b)) by (intros d Hd; apply Rmult_le_compat_r; nra).
    assert (QY : forall d, - b <= d <= b -> d * d * (a * a) <= a * a * (b * b)).
    { intros d Hd. rewrite (Rmult_comm (a * a)). apply Rmult_le_compat_r; nra. }
    unfold in_rect in W.
    destruct (Rlt_le_dec (x1 - a) x) as [X|X]; [|destruct (Rlt_le_dec x (x0 + a)) as [X'|X']];
    (destruct (Rlt_le_dec (y1 - b) y) as [Y|Y]; [|destruct (Rlt_le_dec y (y0 + b)) as [Y'|Y']]).
    + apply (W (x1 - a) (y1 - b)); [lra|]. specialize (C1 X Y). lra.
    + apply (W (x1 - a) (y0 + b)); [lra|]. specialize (C4 X Y'). lra.
    + apply (W (x1 - a) y); [lra|]. pose proof (QX (x - (x1 - a)) ltac:(lra)). lra.
    + apply (W (x0 + a) (y1 - b)); [lra|]. specialize (C2 X' Y). lra.
    + apply (W (x0 + a) (y0 + b)); [lra|]. specialize (C3 X' Y'). lra.
    + apply (W (x0 + a) y); [lra|]. pose proof (QX (x - (x0 + a)) ltac:(lra)). lra.
    + apply (W x (y1 - b)); [lra|]. pose proof (QY (y - (y1 - b)) ltac:(lra)). lra.
    + apply (W x (y0 + b)); [lra|]. pose proof (QY (y - (y0 + b)) ltac:(lra)). lra.
    + apply (W x y); [lra|]. pose proof (QX 0 ltac:(lra)). lra.
  - intros (u & v & (Ux & Vy) & E). apply ellipse_algebra in E; [|lra|lra].
    assert (B2 : 0 < b * b) by nra. assert (A2 : 0 < a * a) by nra.
    assert (X2 : (x - u) * (x - u) <= a * a).
    { apply (Rmult_le_reg_r (b * b)); [exact B2|]. assert (0 <= (y - v) * (y - v) * (a * a)) by (apply Rmult_le_pos; [apply Rle_0_sqr|lra]). lra. }
    assert (Y2 : (y - v) * (y - v) <= b * b).
    { apply (Rmult_le_reg_r (a * a)); [exact A2|]. assert (0 <= (x - u) * (x - u) * (b * b)) by (apply Rmult_le_pos; [apply Rle_0_sqr|lra]). lra. }
    apply sq_bound in X2; [|lra]. apply sq_bound in Y2; [|lra].
    assert (M : forall dx dy, dx * dx <= (x - u) * (x - u) -> dy * dy <= (y - v) * (y - v) ->
       dx * dx * b * b + dy * dy * a * a <= a * a * b * b).
    { intros dx dy Hx Hy. apply (Rmult_le_compat_r (b * b)) in Hx; [|lra]. apply (Rmult_le_compat_r (a * a)) in Hy; [|lra]. lra. }
    split; [unfold in_rect; lra|]. repeat split; intros; apply M; nra.
Qed.
Theorem racetrack_square x y : a = 0 \/ b = 0 ->
  (racetrack_alive x0 x1 y0 y1 a b x y = true <-> in_rect x0 x1 y0 y1 x y).
Proof.
  intros Z. rewrite racetrack_cases. unfold in_rect. split; [tauto|]. intros H. split; [exact H|].
  repeat split; intros; exfalso; lra.
Qed.
End Racetrack.

(** * Convexity *)
Lemma convex_ext (S T : R -> R -> Prop) : (forall x y, S x y <-> T x y) -> convex T -> convex S.
Proof. intros H C x1 y1 x2 y2 t H1 H2 Ht. apply H. apply C; try (apply H; assumption). exact Ht. Qed.
Lemma convex_and S T : convex S -> convex T -> convex (fun x y => S x y /\ T x y).
Proof. intros C D x1 y1 x2 y2 t [H1 H2] [H3 H4] Ht. split; [now apply C|now apply D]. Qed.
Lemma mix_le m M a c t : m <= a <= M -> m <= c <= M -> 0 <= t <= 1 -> m <= a + t * (c - a) <= M.
Proof.
  intros A C T. assert (0 <= (1 - t) * (a - m)) by (apply Rmult_le_pos; lra).
  assert (0 <= t * (c - m)) by (apply Rmult_le_pos; lra).
  assert (0 <= (1 - t) * (M - a)) by (apply Rmult_le_pos; lra).
  assert (0 <= t * (M - c)) by (apply Rmult_le_pos; lra). lra.
Qed.
Lemma rect_convex x0 x1 y0 y1 : convex (in_rect x0 x1 y0 y1).
Proof. intros a b c d t [A1 A2] [B1 B2] Ht. split; now apply mix_le. Qed.
Lemma sq_convex x1 x2 t : 0 <= t <= 1 ->
  (x1 + t * (x2 - x1)) * (x1 + t * (x2 - x1)) <= (1 - t) * (x1 * x1) + t * (x2 * x2).
Proof.
  intros Ht. assert (0 <= t * (1 - t) * ((x1 - x2) * (x1 - x2))) by (apply Rmult_le_pos; [apply Rmult_le_pos; lra|apply Rle_0_sqr]). lra.
Qed.
Lemma quad_convex a2 b2 c : 0 <= a2 -> 0 <= b2 -> convex (fun x y => x * x * b2 + y * y * a2 <= c).
Proof.
  intros Ha Hb x1 y1 x2 y2 t H1 H2 Ht.
  pose proof (Rmult_le_compat_r b2 _ _ Hb (sq_convex x1 x2 t Ht)).
  pose proof (Rmult_le_compat_r a2 _ _ Ha (sq_convex y1 y2 t Ht)).
  assert ((1 - t) * (x1 * x1 * b2 + y1 * y1 * a2) <= (1 - t) * c) by (apply Rmult_le_compat_l; lra).
  assert (t * (x2 * x2 * b2 + y2 * y2 * a2) <= t * c) by (apply Rmult_le_compat_l; lra). lra.
Qed.
Lemma racetrack_convex x0 x1 y0 y1 a b : a <> 0 -> b <> 0 -> convex (in_racetrack x0 x1 y0 y1 a b).
Proof.
  intros Ha Hb p1 q1 p2 q2 t (u1 & v1 & U1 & E1) (u2 & v2 & U2 & E2) Ht.
  exists (u1 + t * (u2 - u1)), (v1 + t * (v2 - v1)). split; [now apply rect_convex|].
  replace (p1 + t * (p2 - p1) - (u1 + t * (u2 - u1))) with ((p1 - u1) + t * ((p2 - u2) - (p1 - u1))) by ring.
  replace (q1 + t * (q2 - q1) - (v1 + t * (v2 - v1))) with ((q1 - v1) + t * ((q2 - v2) - (q1 - v1))) by ring.
  apply ellipse_algebra in E1, E2; auto. apply ellipse_algebra; auto.
  apply (quad_convex (a * a) (b * b) (a * a * (b * b))); auto; nra.
Qed.
Theorem alive_convex cpu l : well_formed l -> (forall vs, l <> LimitPolygon vs) ->
  convex (fun x y => alive cpu l x y = true).
Proof.
  intros W NP. destruct l as [x0 x1 y0 y1|e|mx my e|x0 x1 y0 y1 a b|vs]; cbn [alive well_formed] in *.
  - apply (convex_ext _ (in_rect x0 x1 y0 y1)); [intros; apply rect_iff|apply rect_convex].
  - destruct W as (Ha & Hb & _). unfold ellipse_alive.
    apply (convex_ext _ (fun x y => x * x * b_squ e + y * y * a_squ e <= a_b_squ e)); [intros; apply Rleb_iff|].
    apply quad_convex; lra.
  - destruct W as (Ha & Hb & _). unfold rect_ellipse_alive.
    apply (convex_ext _ (fun x y => in_rect (- mx) mx (- my) my x y /\ x * x * b_squ e + y * y * a_squ e <= a_b_squ e)).
    { intros x y. rewrite !andb_true_iff, !Rleb_iff. unfold in_rect. tauto. }
    apply convex_and; [apply rect_convex|]. apply quad_convex; lra.
  - destruct (valid_facts _ _ _ _ _ _ W) as (Ha & Hb & _).
    destruct (Req_dec a 0) as [Za|Za]; [|destruct (Req_dec b 0) as [Zb|Zb]].
    + apply (convex_ext _ (in_rect x0 x1 y0 y1)); [intros; apply racetrack_square; auto|apply rect_convex].
    + apply (convex_ext _ (in_rect x0 x1 y0 y1)); [intros; apply racetrack_square; auto|apply rect_convex].
    + apply (convex_ext _ (in_racetrack x0 x1 y0 y1 a b)); [intros; apply racetrack_iff; auto; lra|].
      now apply racetrack_convex.
  - destruct (NP vs eq_refl).
Qed.
