From Coq Require Import Reals List Bool Lra Psatz.
From Verif.Model Require Import Apertures.
From Verif.Spec Require Import Apertures.
From Verif.Proofs Require Import Polygon.
Import ListNotations.
Local Open Scope R_scope.

Definition xors (l : list bool) : bool := fold_right xorb false l.
Lemma xors_app a b : xors (a ++ b) = xorb (xors a) (xors b).
Proof.
  unfold xors. induction a as [|x a IH]; [cbn [app fold_right]; now rewrite xorb_false_l|].
  cbn [app fold_right]. rewrite IH. now rewrite xorb_assoc.
Qed.
Lemma xors_map {A} (f g : A -> bool) l : xors (map (fun a => xorb (f a) (g a)) l) = xorb (xors (map f l)) (xors (map g l)).
Proof.
  induction l as [|x l IH]; [reflexivity|]. cbn [map xors fold_right]. fold (xors (map (fun a => xorb (f a) (g a)) l)).
  rewrite IH. fold (xors (map f l)) (xors (map g l)). destruct (f x), (g x), (xors (map f l)), (xors (map g l)); reflexivity.
Qed.

Lemma loop_path p vs : forall w a,
  toggle_loop w vs p a = xorb a (xors (map (fun e => sees (fst e) (snd e) p) (combine (w :: vs) vs))).
Proof.
  induction vs as [|v vs IH]; intros w a; [cbn; now rewrite xorb_false_r|].
  cbn [toggle_loop]. rewrite IH, toggles_sees.
  change (combine (w :: v :: vs) (v :: vs)) with ((w, v) :: combine (v :: vs) vs).
  unfold xors. cbn [map fold_right fst snd].
  generalize (fold_right xorb false (map (fun e => sees (fst e) (snd e) p) (combine (v :: vs) vs))).
  intros b. destruct (sees w v p), a, b; reflexivity.
Qed.
Lemma path_close vs : forall v z,
  combine (v :: vs) (vs ++ [z]) = combine (v :: vs) vs ++ [(last (v :: vs) (0, 0), z)].
Proof.
  induction vs as [|w vs IH]; intros v z; [reflexivity|]. cbn [app].
  change (combine (v :: w :: vs) (w :: vs ++ [z])) with ((v, w) :: combine (w :: vs) (vs ++ [z])).
  rewrite IH. reflexivity.
Qed.
Lemma test_edges vs p : polygon_test vs p = xors (map (fun e => sees (fst e) (snd e) p) (edges vs)).
Proof.
  unfold polygon_test. rewrite loop_path, xorb_false_l. destruct vs as [|v vs]; [reflexivity|].
  cbn [edges]. rewrite path_close, map_app, xors_app.
  change (combine (last (v :: vs) (0, 0) :: v :: vs) (v :: vs)) with ((last (v :: vs) (0, 0), v) :: combine (v :: vs) vs).
  cbn [map xors fold_right fst snd]. rewrite xorb_false_r. apply xorb_comm.
Qed.

Lemma edges_fst vs : map fst (edges vs) = vs.
Proof.
  destruct vs as [|v vs]; [reflexivity|]. cbn [edges].
  assert (forall (a b : list point), length a = length b -> map fst (combine a b) = a) as H.
  { induction a as [|x a IH]; intros [|y b] L; cbn in *; try discriminate; auto. f_equal. apply IH. congruence. }
  apply H. rewrite app_length. cbn. rewrite PeanoNat.Nat.add_comm. reflexivity.
Qed.
Lemma edges_snd v vs : map snd (edges (v :: vs)) = vs ++ [v].
Proof.
  cbn [edges].
  assert (forall (a b : list point), length a = length b -> map snd (combine a b) = b) as H.
  { induction a as [|x a IH]; intros [|y b] L; cbn in *; try discriminate; auto. f_equal. apply IH. congruence. }
  apply H. rewrite app_length. cbn. rewrite PeanoNat.Nat.add_comm. reflexivity.
Qed.
(** going round, every vertex counts twice *)
Lemma telescope (g : point -> bool) vs : xors (map (fun e => xorb (g (fst e)) (g (snd e))) (edges vs)) = false.
Proof.
  rewrite (xors_map (fun e => g (fst e)) (fun e => g (snd e))).
  rewrite <- (map_map fst g), <- (map_map snd g). destruct vs as [|v vs]; [reflexivity|].
  rewrite edges_fst, edges_snd, map_app, xors_app. cbn [map xors fold_right]. fold (xors (map g vs)).
  destruct (g v), (xors (map g vs)); reflexivity.
Qed.

Lemma apart_meet p q e : apart p q e -> ~ meet (fst e) (snd e) p q.
Proof.
  intros H (s & t & Hs & Ht & E). apply (H (along p q s)); [|now exists s]. exists t. split; [exact Ht|now symmetry].
Qed.

(** the even-odd rule along any segment *)
Theorem crossing_parity vs p q bs :
  Forall2 (fun e (b : bool) => if b then crosses p q e else apart p q e) (edges vs) bs ->
  xorb (polygon_test vs p) (polygon_test vs q) = fold_right xorb false bs.
Proof.
  intros H. rewrite !test_edges, <- xors_map.
  assert (E : xors (map (fun e => xorb (sees (fst e) (snd e) p) (sees (fst e) (snd e) q)) (edges vs))
    = xorb (xors (map (fun e => xorb (right_of p q (fst e)) (right_of p q (snd e))) (edges vs))) (xors bs)).
  { revert H. generalize (edges vs) as es. intros es H. induction H as [|e b es bs Hb _ IH]; [reflexivity|].
    cbn [map xors fold_right]. fold (xors bs).
    fold (xors (map (fun e => xorb (sees (fst e) (snd e) p) (sees (fst e) (snd e) q)) es)).
    fold (xors (map (fun e => xorb (right_of p q (fst e)) (right_of p q (snd e))) es)).
    rewrite IH. destruct b.
    - rewrite (key_cross _ _ _ _ Hb).
      destruct (xorb (right_of p q (fst e)) (right_of p q (snd e))), (xors bs),
        (xors (map (fun e => xorb (right_of p q (fst e)) (right_of p q (snd e))) es)); reflexivity.
    - rewrite (key _ _ _ _ (apart_meet _ _ _ Hb)).
      destruct (xorb (right_of p q (fst e)) (right_of p q (snd e))), (xors bs),
        (xors (map (fun e => xorb (right_of p q (fst e)) (right_of p q (snd e))) es)); reflexivity. }
  rewrite E, telescope. apply xorb_false_l.
Qed.
Theorem same_region vs p q : (forall r, on_segment p q r -> ~ on_boundary vs r) ->
  polygon_test vs p = polygon_test vs q.
Proof.
  intros H. assert (X : xorb (polygon_test vs p) (polygon_test vs q) = fold_right xorb false (map (fun _ => false) (edges vs))).
  { apply crossing_parity. assert (K : Forall (apart p q) (edges vs)).
    { apply Forall_forall. intros e He r R1 R2. apply (H r R2). now exists e. }
    revert K. generalize (edges vs). induction 1; constructor; auto. }
  assert (Z : fold_right xorb false (map (fun _ => false) (edges vs)) = false).
  { generalize (edges vs) as es. induction es as [|e es IH]; [reflexivity|]. cbn [map fold_right].
    rewrite IH. reflexivity. }
  rewrite Z in X. now apply xorb_eq.
Qed.

(** * Far points *)
Lemma in_edges vs e : In e (edges vs) -> In (fst e) vs /\ In (snd e) vs.
Proof.
  intros H. split; [rewrite <- (edges_fst vs); now apply in_map|].
  destruct vs as [|v vs]; [destruct H|]. apply (in_map snd) in H. rewrite edges_snd in H.
  apply in_app_or in H as [H|[H|[]]]; [now right|left; now symmetry].
Qed.
Lemma xors_none {A} (f : A -> bool) l : (forall a, In a l -> f a = false) -> xors (map f l) = false.
Proof. induction l as [|a l IH]; intros H; [reflexivity|]. cbn. rewrite H by now left. unfold xors in IH. rewrite IH; auto. intros; apply H; now right. Qed.

Lemma test_above vs p : (forall v, In v vs -> snd v <= snd p) -> polygon_test vs p = false.
Proof.
  intros H. rewrite test_edges. apply xors_none. intros e He. destruct (in_edges _ _ He) as [A B].
  pose proof (H _ A). pose proof (H _ B). unfold sees. settle. now rewrite ?andb_false_r.
Qed.
Lemma test_below vs p : (forall v, In v vs -> snd p < snd v) -> polygon_test vs p = false.
Proof.
  intros H. rewrite test_edges. apply xors_none. intros e He. destruct (in_edges _ _ He) as [A B].
  pose proof (H _ A). pose proof (H _ B). unfold sees. settle. reflexivity.
Qed.
Lemma test_right vs p : (forall v, In v vs -> fst v <= fst p) -> polygon_test vs p = false.
Proof.
  intros H. rewrite test_edges. apply xors_none. intros e He. destruct (in_edges _ _ He) as [A B].
  pose proof (H _ A). pose proof (H _ B). unfold sees, orient, cross, diff. cbn [fst snd].
  destruct e as [[ax ay] [bx by_]], p as [x y]. cbn [fst snd] in *.
  decide_all; cbn; try reflexivity; exfalso; nra.
Qed.
Lemma test_left vs p : (forall v, In v vs -> fst p < fst v) -> polygon_test vs p = false.
Proof.
  intros H. rewrite test_edges. rewrite <- (telescope (fun v => Rltb (snd p) (snd v)) vs). f_equal.
  apply map_ext_in. intros e He. destruct (in_edges _ _ He) as [A B].
  pose proof (H _ A). pose proof (H _ B). unfold sees, orient, cross, diff. cbn [fst snd].
  destruct e as [[ax ay] [bx by_]], p as [x y]. cbn [fst snd] in *.
  destruct (Rlt_le_dec y ay), (Rlt_le_dec y by_).
  - decide_all; cbn; try reflexivity; exfalso; lra.
  - replace (Rleb by_ y) with true by (symmetry; apply Rleb_iff; lra).
    replace (Rltb y ay) with true by (symmetry; apply Rltb_iff; lra).
    replace (Rltb y by_) with false by (symmetry; apply Rltb_no; lra).
    replace (Rltb ((bx - ax) * (y - ay) - (by_ - ay) * (x - ax)) 0) with true by (symmetry; apply Rltb_iff; nra).
    cbn. now rewrite andb_false_r.
  - replace (Rleb ay y) with true by (symmetry; apply Rleb_iff; lra).
    replace (Rltb y ay) with false by (symmetry; apply Rltb_no; lra).
    replace (Rltb y by_) with true by (symmetry; apply Rltb_iff; lra).
    replace (Rltb 0 ((bx - ax) * (y - ay) - (by_ - ay) * (x - ax))) with true by (symmetry; apply Rltb_iff; nra).
    reflexivity.
  - decide_all; cbn; try reflexivity; exfalso; lra.
Qed.
Lemma upper (vs : list point) (m : R) : exists M, m <= M /\ forall v, In v vs -> snd v <= M.
Proof.
  induction vs as [|v vs (M & L & IH)]; [exists m; split; [lra|intros _ []]|].
  exists (Rmax M (snd v)). split; [pose proof (Rmax_l M (snd v)); lra|]. intros w [<-|Hw]; [apply Rmax_r|].
  specialize (IH w Hw). pose proof (Rmax_l M (snd v)). lra.
Qed.
Lemma lower (vs : list point) (m : R) : exists M, M < m /\ forall v, In v vs -> M < snd v.
Proof.
  induction vs as [|v vs (M & L & IH)]; [exists (m - 1); split; [lra|intros _ []]|].
  exists (Rmin M (snd v - 1)). pose proof (Rmin_l M (snd v - 1)). pose proof (Rmin_r M (snd v - 1)).
  split; [lra|]. intros w [<-|Hw]; [lra|]. specialize (IH w Hw). lra.
Qed.
Lemma boundary_side vs n p : Forall (fun v => fst n * (fst v - fst p) + snd n * (snd v - snd p) < 0) vs ->
  forall r, on_boundary vs r -> fst n * (fst r - fst p) + snd n * (snd r - snd p) < 0.
Proof.
  intros F r (e & He & t & Ht & ->). destruct (in_edges _ _ He) as [A B]. rewrite Forall_forall in F.
  apply F in A, B. unfold along. cbn [fst snd].
  set (a := fst n * (fst (fst e) - fst p) + snd n * (snd (fst e) - snd p)) in *.
  set (b := fst n * (fst (snd e) - fst p) + snd n * (snd (snd e) - snd p)) in *.
  replace (fst n * (fst (fst e) + t * (fst (snd e) - fst (fst e)) - fst p) + snd n * (snd (fst e) + t * (snd (snd e) - snd (fst e)) - snd p))
    with ((1 - t) * a + t * b) by (unfold a, b; ring). clearbody a b. nra.
Qed.
(** a point beyond a line which has all the vertices on the other side is outside *)
Theorem separated_out vs p : separated vs p -> polygon_test vs p = false.
Proof.
  intros (n & F).
  assert (G : forall l, 0 <= l -> polygon_test vs p = polygon_test vs (fst p + l * fst n, snd p + l * snd n)).
  { intros l Hl. apply same_region. intros r (t & Ht & ->) B. apply (boundary_side _ _ _ F) in B.
    unfold along in B. cbn [fst snd] in B. assert (0 <= t * l * (fst n * fst n + snd n * snd n)).
    { apply Rmult_le_pos; [apply Rmult_le_pos; lra|nra]. }
    nra. }
  rewrite Forall_forall in F. destruct (Rtotal_order (snd n) 0) as [L|[L|L]].
  - destruct (lower vs (snd p)) as (M & H1 & H2). rewrite (G ((M - snd p) / snd n)).
    + apply test_below. cbn [snd]. intros v Hv. specialize (H2 v Hv).
      replace (snd p + (M - snd p) / snd n * snd n) with M by (field; lra). exact H2.
    + replace ((M - snd p) / snd n) with ((snd p - M) * / (- snd n)) by (field; lra).
      apply Rlt_le, Rmult_lt_0_compat; [lra|apply Rinv_0_lt_compat; lra].
  - destruct (Rle_lt_dec 0 (fst n)).
    + apply test_right. intros v Hv. specialize (F v Hv). cbn in F. rewrite L in F. nra.
    + apply test_left. intros v Hv. specialize (F v Hv). cbn in F. rewrite L in F. nra.
  - destruct (upper vs (snd p)) as (M & H1 & H2). rewrite (G ((M - snd p) / snd n)).
    + apply test_above. cbn [snd]. intros v Hv. specialize (H2 v Hv).
      replace (snd p + (M - snd p) / snd n * snd n) with M by (field; lra). exact H2.
    + apply Rmult_le_pos; [lra|]. apply Rlt_le, Rinv_0_lt_compat, L.
Qed.
(** the even-odd rule *)
Theorem even_odd vs p q bs : separated vs q ->
  Forall2 (fun e (b : bool) => if b then crosses p q e else apart p q e) (edges vs) bs ->
  polygon_test vs p = fold_right xorb false bs.
Proof. intros S H. rewrite <- (crossing_parity _ _ _ _ H), (separated_out _ _ S). now rewrite xorb_false_r. Qed.

(** * The inscribed circle *)
Definition norm2 (p : point) : R := fst p * fst p + snd p * snd p.
Lemma edge_dist_le v w t : 0 <= t <= 1 -> edge_dist_sq v w <= norm2 (along v w t).
Proof.
  intros Ht. destruct v as [x0 y0], w as [x1 y1]. unfold edge_dist_sq, norm2, along. cbn [fst snd].
  set (dx := x1 - x0). set (dy := y1 - y0). destruct (Rltb 0 (dx * dx + dy * dy)) eqn:E.
  - apply Rltb_iff in E. set (u := - (x0 * dx + y0 * dy) / (dx * dx + dy * dy)).
    assert (Hu : u * (dx * dx + dy * dy) = - (x0 * dx + y0 * dy)) by (unfold u; field; lra). clearbody u.
    assert (X : forall c, (x0 + t * dx) * (x0 + t * dx) + (y0 + t * dy) * (y0 + t * dy)
      - ((x0 + c * dx) * (x0 + c * dx) + (y0 + c * dy) * (y0 + c * dy))
      = (dx * dx + dy * dy) * ((t - c) * (t - c) + 2 * (c - u) * (t - c))).
    { intros c. replace ((dx * dx + dy * dy) * ((t - c) * (t - c) + 2 * (c - u) * (t - c)))
        with ((dx * dx + dy * dy) * ((t - c) * (t - c) + 2 * c * (t - c)) - 2 * (u * (dx * dx + dy * dy)) * (t - c)) by ring.
      rewrite Hu. ring. }
    assert (Y : forall c, 0 <= (t - c) * (t - c) + 2 * (c - u) * (t - c) ->
      (x0 + c * dx) * (x0 + c * dx) + (y0 + c * dy) * (y0 + c * dy)
      <= (x0 + t * dx) * (x0 + t * dx) + (y0 + t * dy) * (y0 + t * dy)).
    { intros c Hc. specialize (X c). assert (0 <= (dx * dx + dy * dy) * ((t - c) * (t - c) + 2 * (c - u) * (t - c))).
      { apply Rmult_le_pos; [lra|exact Hc]. } lra. }
    destruct (Rltb u 0) eqn:U0; [|destruct (Rltb 1 u) eqn:U1].
    + apply Rltb_iff in U0. apply Y. nra.
    + apply Rltb_iff in U1. apply Y. nra.
    + apply Y. replace ((t - u) * (t - u) + 2 * (u - u) * (t - u)) with (Rsqr (t - u)) by (unfold Rsqr; ring). apply Rle_0_sqr.
  - apply Rltb_no in E. assert (dx = 0) as -> by nra. assert (dy = 0) as -> by nra. lra.
Qed.
Lemma inner_loop_le first : forall vs acc r, inner_loop first vs acc = Some r ->
  (forall a, acc = Some a -> r <= a) /\
  (forall v w, In (v, w) (combine vs (tl vs ++ [first])) -> r <= edge_dist_sq v w).
Proof.
  induction vs as [|v vs IH]; intros acc r H; cbn [inner_loop] in H.
  - subst acc. split; [intros a Ha; injection Ha as <-; lra|intros v w []].
  - destruct (IH _ _ H) as [H1 H2]. specialize (H1 _ eq_refl).
    set (w := match vs with [] => first | w :: _ => w end) in *.
    assert (D : r <= edge_dist_sq v w).
    { destruct acc as [a|]; [|exact H1]. destruct (Rltb (edge_dist_sq v w) a) eqn:E; [exact H1|].
      apply Rltb_no in E. lra. }
    split.
    + intros a ->. destruct (Rltb (edge_dist_sq v w) a) eqn:E; [|exact H1]. apply Rltb_iff in E. lra.
    + intros a b I. cbn [tl] in I. destruct vs as [|w' vs]; cbn in I.
      * destruct I as [I|[]]. injection I as <- <-. exact D.
      * destruct I as [I|I]; [injection I as <- <-; exact D|]. apply H2. exact I.
Qed.
Lemma inner_some first vs acc : vs <> [] \/ acc <> None -> inner_loop first vs acc <> None.
Proof.
  revert acc. induction vs as [|v vs IH]; intros acc [H|H]; cbn; auto; try (destruct H; reflexivity);
    apply IH; right; discriminate.
Qed.
Lemma inner_boundary vs r : on_boundary vs r -> inner_radius_sq vs <= norm2 r.
Proof.
  intros ([v w] & He & t & Ht & ->). cbn [fst snd]. destruct vs as [|f vs]; [destruct He|].
  unfold inner_radius_sq. destruct (inner_loop f (f :: vs) None) as [r|] eqn:E.
  - destruct (inner_loop_le _ _ _ _ E) as [_ H]. specialize (H v w He). pose proof (edge_dist_le v w t Ht). lra.
  - exfalso. revert E. apply inner_some. left. discriminate.
Qed.
(** when the origin is inside, the short cut and the test agree *)
Theorem shortcut_exact cpu vs p : polygon_test vs (0, 0) = true -> ~ on_boundary vs p ->
  polygon_alive cpu vs p = polygon_test vs p.
Proof.
  intros H0 Hp. unfold polygon_alive. fold (norm2 p).
  destruct (Rltb (if cpu then inner_radius_sq vs else 0) (norm2 p)) eqn:E; [reflexivity|].
  apply Rltb_no in E. symmetry. rewrite <- H0.
  destruct (Req_dec (norm2 p) 0) as [Z|Z].
  - replace p with (0, 0); [reflexivity|]. destruct p as [x y]. unfold norm2 in Z. cbn in Z. f_equal; nra.
  - assert (P : 0 < norm2 p) by (unfold norm2 in *; nra). destruct cpu; [|lra].
    symmetry. apply same_region. intros r (t & Ht & ->) B.
    pose proof (inner_boundary _ _ B) as I.
    assert (N : norm2 (along (0, 0) p t) = t * t * norm2 p) by (unfold norm2, along; cbn; ring).
    rewrite N in I. assert (T : 1 <= t * t). { apply Rnot_lt_le. intros C. nra. }
    assert (t = 1) by nra. subst t. apply Hp.
    replace (along (0, 0) p 1) with p in B; [exact B|]. destruct p. unfold along. cbn. f_equal; ring.
Qed.
