From Coq Require Import Reals List Bool Lra Psatz.
From Verif.Model Require Import Apertures.
From Verif.Spec Require Import Apertures.
From Verif.Proofs Require Import Polygon PolygonTest PolygonArea Apertures.
Import ListNotations.
Local Open Scope R_scope.

(** * The disc accepted without test *)
Lemma edge_dist_at v w : exists t, 0 <= t <= 1 /\ edge_dist_sq v w = norm2 (along v w t).
Proof.
  destruct v as [x0 y0], w as [x1 y1]. unfold edge_dist_sq, norm2, along. cbn [fst snd].
  destruct (Rltb 0 _).
  - set (u := _ / _). destruct (Rltb u 0) eqn:A; [exists 0; split; [lra|reflexivity]|].
    destruct (Rltb 1 u) eqn:B; [exists 1; split; [lra|reflexivity]|].
    exists u. apply Rltb_no in A, B. split; [lra|reflexivity].
  - exists 0. split; [lra|]. ring.
Qed.
Lemma inner_loop_at first : forall vs acc r, inner_loop first vs acc = Some r ->
  acc = Some r \/ exists v w, In (v, w) (combine vs (tl vs ++ [first])) /\ r = edge_dist_sq v w.
Proof.
  induction vs as [|v vs IH]; intros acc r E; [now left|]. cbn [inner_loop] in E. apply IH in E.
  assert (T : forall w, w = match vs with [] => first | w :: _ => w end -> In (v, w) (combine (v :: vs) (tl (v :: vs) ++ [first]))).
  { intros w ->. destruct vs; cbn; now left. }
  assert (L : forall e, In e (combine vs (tl vs ++ [first])) -> In e (combine (v :: vs) (tl (v :: vs) ++ [first]))).
  { intros e He. destruct vs as [|u vs]; [destruct He|]. cbn [tl app]. right. exact He. }
  destruct E as [E|(a & b & I & ->)].
  - assert (X : r = edge_dist_sq v match vs with [] => first | w :: _ => w end \/ acc = Some r).
    { destruct acc as [q|]; [destruct (Rltb _ q)|]; injection E as <-; auto. }
    destruct X as [->|X]; [|now left]. right. eauto.
  - right. exists a, b. auto.
Qed.
Lemma inner_attained vs : vs <> [] -> exists r, on_boundary vs r /\ inner_radius_sq vs = norm2 r.
Proof.
  destruct vs as [|first vs]; [congruence|]. intros _. unfold inner_radius_sq.
  destruct (inner_loop first (first :: vs) None) as [q|] eqn:E.
  - destruct (inner_loop_at _ _ _ _ E) as [X|(v & w & I & ->)]; [discriminate|].
    destruct (edge_dist_at v w) as (t & Ht & X). exists (along v w t). split; [|exact X].
    exists (v, w). split; [exact I|]. exists t. auto.
  - exfalso. revert E. apply inner_some. left. discriminate.
Qed.
(** a particle nearer to the origin than the boundary is accepted wherever the origin is *)
Theorem disc_accepted vs p : vs <> [] -> (forall r, on_boundary vs r -> fst p ^ 2 + snd p ^ 2 <= fst r ^ 2 + snd r ^ 2) ->
  polygon_alive true vs p = true.
Proof.
  intros Hv H. destruct (inner_attained vs Hv) as (r & B & E). unfold polygon_alive.
  assert (X : Rltb (inner_radius_sq vs) (fst p * fst p + snd p * snd p) = false).
  { apply Rltb_no. rewrite E. unfold norm2. specialize (H r B). lra. }
  rewrite X. reflexivity.
Qed.
Theorem origin_accepted cpu vs : polygon_alive cpu vs (0, 0) = true.
Proof.
  unfold polygon_alive. cbn [fst snd].
  assert (N : 0 <= (if cpu then inner_radius_sq vs else 0)).
  { destruct cpu; [|lra]. destruct vs as [|v vs]; [cbn; lra|].
    destruct (inner_attained (v :: vs)) as (r & _ & ->); [discriminate|]. unfold norm2.
    pose proof (Rle_0_sqr (fst r)). pose proof (Rle_0_sqr (snd r)). unfold Rsqr in *. lra. }
  rewrite (proj2 (Rltb_no _ _)) by lra. reflexivity.
Qed.

Definition far : list point := [(1, 1); (2, 1); (2, 2); (1, 2)].
Lemma far_separated p : fst p < 1 -> separated far p.
Proof. intros H. exists (- 1, 0). unfold far. repeat constructor; cbn [fst snd]; lra. Qed.
Lemma far_boundary r : on_boundary far r -> 1 <= fst r.
Proof.
  intros (e & He & t & Ht & ->). cbn in He. destruct He as [<-|[<-|[<-|[<-|[]]]]]; cbn; lra.
Qed.
Lemma origin_outside : exists vs p, separated vs p /\ polygon_alive true vs p = true
  /\ exists q, separated vs q /\ polygon_alive false vs q = true.
Proof.
  exists far, (1 / 2, 0). split; [|split].
  - apply far_separated. cbn. lra.
  - apply disc_accepted; [discriminate|]. intros r B. apply far_boundary in B. cbn [fst snd]. nra.
  - exists (0, 0). split; [apply far_separated; cbn; lra|apply origin_accepted].
Qed.

Definition square : list point := [(- 1, - 1); (1, - 1); (1, 1); (- 1, 1)].
Ltac num := repeat first
  [ rewrite (proj2 (Rltb_iff _ _)) by lra
  | rewrite (proj2 (Rltb_no _ _)) by lra ].
Lemma square_test x y : - 1 <= y < 1 -> polygon_test square (x, y) = negb (Bool.eqb (Rltb x 1) (Rltb x (- 1))).
Proof.
  intros H. unfold polygon_test, square. cbn [last toggle_loop toggles fst snd].
  rewrite (proj2 (Rltb_no y (- 1))) by lra. rewrite (proj2 (Rltb_iff y 1)) by lra. cbn [Bool.eqb negb andb].
  replace ((- 1 - - 1) * (y - - 1) / (1 - - 1) + - 1) with (- 1) by field.
  replace ((1 - 1) * (y - 1) / (- 1 - 1) + 1) with 1 by field.
  destruct (Rltb x 1), (Rltb x (- 1)); reflexivity.
Qed.
Lemma square_boundary_x s y : (s = 1 \/ s = - 1) -> - 1 <= y <= 1 -> on_boundary square (s, y).
Proof.
  intros [->| ->] Hy.
  - exists ((1, - 1), (1, 1)). split; [cbn; auto|]. exists ((y + 1) / 2). split; [lra|]. unfold along. cbn. f_equal; field.
  - exists ((- 1, 1), (- 1, - 1)). split; [cbn; auto|]. exists ((1 - y) / 2). split; [lra|]. unfold along. cbn. f_equal; field.
Qed.
Lemma square_inner : inner_radius_sq square <= 1.
Proof.
  pose proof (inner_boundary square (1, 0)) as H. unfold norm2 in H. cbn [fst snd] in H.
  assert (on_boundary square (1, 0)) by (apply square_boundary_x; [now left|lra]). specialize (H H0). lra.
Qed.
Lemma square_alive cpu x y : - 1 <= y < 1 -> 1 < x * x + y * y ->
  polygon_alive cpu square (x, y) = negb (Bool.eqb (Rltb x 1) (Rltb x (- 1))).
Proof.
  intros Hy H. unfold polygon_alive. pose proof square_inner. cbn [fst snd].
  rewrite (proj2 (Rltb_iff _ _)) by (destruct cpu; lra). now apply square_test.
Qed.
Lemma polygon_edge cpu : exists vs p q, on_boundary vs p /\ on_boundary vs q
  /\ polygon_alive cpu vs p = true /\ polygon_alive cpu vs q = false.
Proof.
  exists square, (- 1, 1 / 2), (1, 1 / 2). repeat split.
  - apply square_boundary_x; [now right|lra].
  - apply square_boundary_x; [now left|lra].
  - rewrite square_alive by lra. num. reflexivity.
  - rewrite square_alive by lra. num. reflexivity.
Qed.
(** the square contains the origin, accepts what is inside and refuses what is outside *)
Lemma square_case cpu :
  polygon_test square (0, 0) = true
  /\ polygon_alive cpu square (9 / 10, 9 / 10) = true /\ polygon_alive cpu square (11 / 10, 0) = false
  /\ Forall2 (fun e (b : bool) => if b then crosses (0, 0) (3, 0) e else apart (0, 0) (3, 0) e)
       (edges square) [false; true; false; false] /\ separated square (3, 0).
Proof.
  split; [rewrite square_test by lra; num; reflexivity|].
  split; [rewrite square_alive by lra; num; reflexivity|].
  split; [rewrite square_alive by lra; num; reflexivity|]. split.
  - cbn [edges square app combine].
    assert (N : forall (a b : point), snd a < 0 /\ snd b < 0 \/ 0 < snd a /\ 0 < snd b \/ fst a < 0 /\ fst b < 0 -> apart (0, 0) (3, 0) (a, b)).
    { intros a b H r (t & Ht & ->) (s & Hs & E). unfold along in E. cbn in E. injection E as Ex Ey. nra. }
    repeat constructor.
    + apply N. cbn. lra.
    + unfold cross, diff. cbn. lra.
    + exists (1 / 3), (1 / 2). repeat split; try lra. unfold along. cbn. f_equal; field.
    + apply N. cbn. lra.
    + apply N. cbn. lra.
  - exists (1, 0). unfold square. repeat constructor; cbn [fst snd]; lra.
Qed.

(** assigning the field a_squ leaves the product unchanged *)
Lemma stale_ellipse : exists u e a2 x y, new_ellipse u (Some 1) (Some 1) None None = Some e /\ 0 < a2
  /\ in_ellipse (get_a (ellipse_set e (SetFieldASqu a2))) (get_b (ellipse_set e (SetFieldASqu a2))) x y
  /\ ellipse_alive (ellipse_set e (SetFieldASqu a2)) x y = false.
Proof.
  exists 1, (mkEllipse (1 * 1) (1 * 1) (1 * 1 * (1 * 1))), (2 * 2), (3 / 2), 0. split; [|split; [lra|split]].
  - unfold new_ellipse. rewrite (proj2 (Rltb_iff 0 (1 * 1))) by lra. reflexivity.
  - unfold in_ellipse, get_a, get_b. cbn [ellipse_set a_squ b_squ]. rewrite !sqrt_square by lra. lra.
  - unfold ellipse_alive. cbn [ellipse_set a_squ b_squ a_b_squ]. apply Rleb_no. lra.
Qed.
(** half axes zero are accepted by LimitRectEllipse and switch the ellipse off *)
Lemma rect_ellipse_zero : exists u e, new_rect_ellipse u (Some 2) (Some 2) (Some 0) (Some 0) None None = Some (2, 2, e)
  /\ forall x y, rect_ellipse_alive 2 2 e x y = rect_alive (- 2) 2 (- 2) 2 x y.
Proof.
  exists 1, (mkEllipse (0 * 0) (0 * 0) (0 * 0 * (0 * 0))). split.
  - unfold new_rect_ellipse. rewrite !(proj2 (Rltb_no _ 0)) by lra. reflexivity.
  - intros x y. unfold rect_ellipse_alive, rect_alive. cbn [a_squ b_squ a_b_squ].
    assert (Z : Rleb (x * x * (0 * 0) + y * y * (0 * 0)) (0 * 0 * (0 * 0)) = true) by (apply Rleb_iff; lra).
    rewrite Z, andb_true_r. replace (- (2)) with (- 2) by ring. destruct (Rleb x 2), (Rleb (- 2) x), (Rleb y 2), (Rleb (- 2) y); reflexivity.
Qed.
(** a racetrack which is neither a rectangle nor an ellipse *)
Lemma racetrack_case : racetrack_valid (- 3) 3 (- 2) 2 1 1 = true
  /\ in_rect (- 3) 3 (- 2) 2 (29 / 10) (19 / 10) /\ racetrack_alive (- 3) 3 (- 2) 2 1 1 (29 / 10) (19 / 10) = false
  /\ racetrack_alive (- 3) 3 (- 2) 2 1 1 (29 / 10) 0 = true.
Proof.
  repeat split; try lra.
  - unfold racetrack_valid. rewrite !(proj2 (Rleb_iff _ _)) by lra. rewrite !(proj2 (Rltb_no _ _)) by lra. reflexivity.
  - unfold racetrack_alive. rewrite !(proj2 (Rleb_iff _ _)) by lra. cbn [andb].
    rewrite !(proj2 (Rltb_iff (3 - 1) _)) by lra. rewrite !(proj2 (Rltb_iff (2 - 1) _)) by lra. cbn [andb]. apply Rleb_no. lra.
  - unfold racetrack_alive. rewrite !(proj2 (Rleb_iff _ _)) by lra. cbn [andb].
    rewrite (proj2 (Rltb_no (2 - 1) _)) by lra. rewrite (proj2 (Rltb_no _ (- 2 + 1))) by lra.
    rewrite !andb_false_r. reflexivity.
Qed.

(** the centroid is reported at the origin *)
Definition unit_square : list point := [(1, 1); (2, 1); (2, 2); (1, 2)].
Lemma centroid_case : exists vs, signed_area vs = 1 /\ (forall v, In v vs -> 1 <= fst v /\ 1 <= snd v) /\ centroid vs = (0, 0).
Proof.
  exists unit_square. split; [|split; [|apply centroid_zero]].
  - unfold signed_area. cbn. field.
  - intros v. cbn. intros [<-|[<-|[<-|[<-|[]]]]]; cbn; lra.
Qed.
Lemma square_sides : one_side 1 square /\ signed_area square = 4 /\ hd_error (normals square) = Some (0, 1).
Proof.
  split; [|split].
  - intros e v He Hv. cbn in He, Hv. unfold cross, diff.
    destruct He as [<-|[<-|[<-|[<-|[]]]]]; destruct Hv as [<-|[<-|[<-|[<-|[]]]]]; cbn; lra.
  - unfold signed_area. cbn. field.
  - unfold normals. replace (Rltb (signed_area square) 0) with false.
    + cbn -[Rmult Rplus Rminus Rdiv Ropp]. unfold normal. cbn [fst snd].
      replace (- (- 1 - - 1) * - (- 1 - - 1) + (1 - - 1) * (1 - - 1)) with (2 * 2) by ring.
      rewrite sqrt_square by lra. do 2 f_equal; field.
    + symmetry. apply Rltb_no. unfold signed_area. cbn. lra.
Qed.
