From Coq Require Import Reals List Bool Lra Psatz Lia.
From Verif.Model Require Import Apertures.
From Verif.Spec Require Import Apertures.
From Verif.Proofs Require Import Polygon PolygonTest.
Import ListNotations.
Local Open Scope R_scope.

Definition sumf {A} (f : A -> R) (l : list A) : R := fold_right (fun a s => f a + s) 0 l.
Lemma sumf_app {A} (f : A -> R) a b : sumf f (a ++ b) = sumf f a + sumf f b.
Proof. unfold sumf. induction a as [|x a IH]; cbn [app fold_right]; [ring|]. rewrite IH. ring. Qed.
Lemma sumf_ext {A} (f g : A -> R) l : (forall a, In a l -> f a = g a) -> sumf f l = sumf g l.
Proof.
  induction l as [|x l IH]; intros H; [reflexivity|]. unfold sumf in *. cbn. rewrite H by now left.
  rewrite IH; [reflexivity|]. intros; apply H; now right.
Qed.
Lemma sumf_plus {A} (f g : A -> R) l : sumf (fun a => f a + g a) l = sumf f l + sumf g l.
Proof. induction l as [|x l IH]; unfold sumf in *; cbn; [ring|]. rewrite IH. ring. Qed.
Lemma sumf_scale {A} c (f : A -> R) l : sumf (fun a => c * f a) l = c * sumf f l.
Proof. induction l as [|x l IH]; unfold sumf in *; cbn; [ring|]. rewrite IH. ring. Qed.
Lemma sumf_nonneg {A} (f : A -> R) l : (forall a, In a l -> 0 <= f a) -> 0 <= sumf f l.
Proof.
  induction l as [|x l IH]; unfold sumf in *; intros H; cbn; [lra|].
  pose proof (H x (or_introl eq_refl)). assert (0 <= fold_right (fun a s => f a + s) 0 l) by (apply IH; intros; apply H; now right). lra.
Qed.
Lemma sumf_zero {A} (f : A -> R) l : (forall a, In a l -> 0 <= f a) -> sumf f l <= 0 -> forall a, In a l -> f a = 0.
Proof.
  induction l as [|x l IH]; intros H Z a [].
  - subst a. assert (0 <= sumf f l) by (apply sumf_nonneg; intros; apply H; now right). unfold sumf in *. cbn in Z.
    pose proof (H x (or_introl eq_refl)). lra.
  - apply IH; auto; [intros; apply H; now right|]. unfold sumf in *. cbn in Z. pose proof (H x (or_introl eq_refl)). lra.
Qed.

Definition term (e : point * point) : R := (snd (snd e) + snd (fst e)) * (fst (snd e) - fst (fst e)).
Lemma area_path vs : forall v, area_sum (v :: vs) = sumf term (combine (v :: vs) vs).
Proof.
  induction vs as [|w vs IH]; intros v; [reflexivity|].
  change (combine (v :: w :: vs) (w :: vs)) with ((v, w) :: combine (w :: vs) vs).
  change (area_sum (v :: w :: vs)) with ((snd w + snd v) * (fst w - fst v) + area_sum (w :: vs)).
  rewrite IH. reflexivity.
Qed.
Lemma area_edges vs : area_sum (closed vs) = sumf term (edges vs).
Proof.
  destruct vs as [|v vs]; [reflexivity|]. unfold closed, edges. cbn [app]. rewrite area_path. f_equal.
  rewrite path_close.
  assert (H : forall (l : list point) a z, combine (a :: l ++ [z]) (l ++ [z]) = combine (a :: l) (l ++ [z])).
  { induction l as [|b l IH]; intros a z; [reflexivity|]. cbn [app].
    change (combine (a :: b :: l ++ [z]) (b :: l ++ [z])) with ((a, b) :: combine (b :: l ++ [z]) (l ++ [z])).
    rewrite IH. reflexivity. }
  rewrite H, path_close. reflexivity.
Qed.
(** going round, what is added at the end of an edge is removed at the start of the next *)
Lemma sum_round (g : point -> R) vs : sumf (fun e => g (snd e) - g (fst e)) (edges vs) = 0.
Proof.
  destruct vs as [|v vs]; [reflexivity|].
  rewrite (sumf_ext _ (fun e => g (snd e) + - 1 * g (fst e))) by (intros; ring).
  rewrite sumf_plus, sumf_scale.
  assert (S : forall (h : point -> R) (k : point * point -> point) l, sumf (fun e => h (k e)) l = sumf h (map k l)).
  { intros h k l. induction l as [|x l IH]; [reflexivity|]. unfold sumf in *. cbn. now rewrite IH. }
  rewrite (S g snd), (S g fst), edges_fst, edges_snd, sumf_app. unfold sumf. cbn. ring.
Qed.

(** the shoelace formula, about any point *)
Lemma signed_area_about p vs :
  signed_area vs = / 2 * sumf (fun e => cross (diff (fst e) p) (diff (snd e) p)) (edges vs).
Proof.
  unfold signed_area. rewrite area_edges.
  rewrite (sumf_ext (fun e => cross (diff (fst e) p) (diff (snd e) p))
    (fun e => - 1 * term e + ((fun v => fst v * snd v + snd p * fst v - fst p * snd v) (snd e)
       - (fun v => fst v * snd v + snd p * fst v - fst p * snd v) (fst e)
       ))).
  - rewrite sumf_plus, sumf_scale. rewrite (sum_round (fun v => fst v * snd v + snd p * fst v - fst p * snd v)). lra.
  - intros [[ax ay] [bx by_]] _. unfold cross, diff, term. cbn. ring.
Qed.
Theorem area_start v vs : signed_area (vs ++ [v]) = signed_area (v :: vs).
Proof.
  destruct vs as [|w vs]; [reflexivity|]. unfold signed_area. f_equal. rewrite !area_edges.
  unfold edges. cbn [app].
  change (combine (v :: w :: vs) (w :: vs ++ [v])) with ((v, w) :: combine (w :: vs) (vs ++ [v])).
  assert (L : forall (a b c d : list point), length a = length c -> combine (a ++ b) (c ++ d) = combine a c ++ combine b d).
  { induction a as [|x a IH]; intros b [|y c] d H; cbn in *; try discriminate; auto. f_equal. apply IH. congruence. }
  change (w :: vs ++ [v]) with ((w :: vs) ++ [v]). rewrite L.
  - rewrite sumf_app. unfold sumf. cbn. ring.
  - rewrite app_length. cbn. lia.
Qed.
Theorem area_reverse vs : signed_area (rev vs) = - signed_area vs.
Proof.
  assert (K : forall l, area_sum (rev l) = - area_sum l).
  { assert (A : forall l a z, area_sum (l ++ [a; z]) = area_sum (l ++ [a]) + (snd z + snd a) * (fst z - fst a)).
    { induction l as [|x l IH]; intros a z; [cbn; ring|]. destruct l as [|y l].
      - cbn. ring.
      - cbn [app] in *. change (area_sum (x :: y :: l ++ [a; z])) with ((snd y + snd x) * (fst y - fst x) + area_sum (y :: l ++ [a; z])).
        rewrite IH. change (area_sum (x :: y :: l ++ [a])) with ((snd y + snd x) * (fst y - fst x) + area_sum (y :: l ++ [a])). ring. }
    induction l as [|x l IH]; [cbn; ring|]. destruct l as [|y l]; [cbn; ring|].
    cbn [rev] in *. rewrite <- app_assoc. cbn [app]. rewrite A, IH.
    change (area_sum (x :: y :: l)) with ((snd y + snd x) * (fst y - fst x) + area_sum (y :: l)). ring. }
  destruct vs as [|v vs]; [cbn; unfold signed_area; cbn; ring|].
  cbn [rev]. rewrite area_start. unfold signed_area, closed.
  replace ((v :: rev vs) ++ [v]) with (rev ((v :: vs) ++ [v])).
  - rewrite K. ring.
  - cbn [app rev]. rewrite rev_app_distr. reflexivity.
Qed.
Lemma combine_map_both {A B} (f : A -> B) : forall l m : list A,
  combine (map f l) (map f m) = map (fun e => (f (fst e), f (snd e))) (combine l m).
Proof. induction l as [|a l IH]; intros [|b m]; cbn; auto. f_equal. apply IH. Qed.
Theorem area_shift dx dy vs : signed_area (map (fun v => (fst v + dx, snd v + dy)) vs) = signed_area vs.
Proof.
  rewrite (signed_area_about (dx, dy)), (signed_area_about (0, 0) vs). f_equal.
  assert (E : edges (map (fun v => (fst v + dx, snd v + dy)) vs)
    = map (fun e => ((fst (fst e) + dx, snd (fst e) + dy), (fst (snd e) + dx, snd (snd e) + dy))) (edges vs)).
  { destruct vs as [|v vs]; [reflexivity|]. unfold edges. cbn [map].
    pose proof (combine_map_both (fun v : point => (fst v + dx, snd v + dy)) (v :: vs) (vs ++ [v])) as C.
    cbn [map] in C. rewrite map_app in C. exact C. }
  rewrite E. generalize (edges vs). induction l as [|e l IH]; [reflexivity|]. unfold sumf in *. cbn [map fold_right]. rewrite IH.
  apply (f_equal2 Rplus); [|reflexivity]. destruct e as [[ax ay] [bx by_]]. unfold cross, diff. cbn [fst snd]. ring.
Qed.

(** the area of a triangle, and of a polygon cut along a diagonal *)
Lemma area_join l x m : area_sum (l ++ x :: m) = area_sum (l ++ [x]) + area_sum (x :: m).
Proof.
  induction l as [|a l IH]; [cbn; ring|]. destruct l as [|b l].
  - cbn [app]. change (area_sum (a :: x :: m)) with ((snd x + snd a) * (fst x - fst a) + area_sum (x :: m)). cbn [area_sum]. ring.
  - cbn [app] in *. change (area_sum (a :: b :: l ++ x :: m)) with ((snd b + snd a) * (fst b - fst a) + area_sum (b :: l ++ x :: m)).
    rewrite IH. change (area_sum (a :: b :: l ++ [x])) with ((snd b + snd a) * (fst b - fst a) + area_sum (b :: l ++ [x])). ring.
Qed.
Theorem area_triangle a b c : signed_area [a; b; c] = / 2 * cross (diff b a) (diff c a).
Proof. destruct a, b, c. unfold signed_area, cross, diff. cbn. field. Qed.
Theorem area_cut a l b m : signed_area (a :: l ++ b :: m) = signed_area (a :: l ++ [b]) + signed_area (a :: b :: m).
Proof.
  unfold signed_area, closed.
  assert (J : forall u z, area_sum ((a :: u) ++ [z]) = area_sum (a :: u) + area_sum [last (a :: u) (0, 0); z]).
  { intros u z. assert (E : a :: u = removelast (a :: u) ++ [last (a :: u) (0, 0)]) by (apply app_removelast_last; discriminate).
    rewrite E at 1. rewrite <- app_assoc. cbn [app]. rewrite area_join. rewrite <- E. reflexivity. }
  change (a :: l ++ b :: m) with ((a :: l) ++ b :: m). change (a :: l ++ [b]) with ((a :: l) ++ [b]).
  rewrite <- !app_assoc. cbn [app].
  pose proof (area_join (a :: l) b (m ++ [a])) as A1. pose proof (area_join (a :: l) b [a]) as A2.
  cbn [app] in A1, A2. rewrite A1, A2.
  change (area_sum (a :: b :: m ++ [a])) with ((snd b + snd a) * (fst b - fst a) + area_sum (b :: m ++ [a])).
  cbn [area_sum]. ring.
Qed.

(** * The normals *)
Lemma normals_edges vs : normals vs = map (fun e => normal (Rltb (signed_area vs) 0) (fst e) (snd e)) (edges vs).
Proof.
  unfold normals. generalize (Rltb (signed_area vs) 0) as b. intros b.
  assert (P : forall l v, normals_of b (v :: l) = map (fun e => normal b (fst e) (snd e)) (combine (v :: l) l)).
  { induction l as [|w l IH]; intros v; [reflexivity|].
    change (combine (v :: w :: l) (w :: l)) with ((v, w) :: combine (w :: l) l).
    change (normals_of b (v :: w :: l)) with (normal b v w :: normals_of b (w :: l)). rewrite IH. reflexivity. }
  destruct vs as [|v vs]; [reflexivity|]. unfold closed, edges. cbn [app]. rewrite P. f_equal.
  assert (H : forall (l : list point) a z, combine (a :: l ++ [z]) (l ++ [z]) = combine (a :: l) (l ++ [z])).
  { induction l as [|c l IH]; intros a z; [reflexivity|]. cbn [app].
    change (combine (a :: c :: l ++ [z]) (c :: l ++ [z])) with ((a, c) :: combine (c :: l ++ [z]) (l ++ [z])).
    rewrite IH. reflexivity. }
  apply H.
Qed.
Lemma normal_spec b v w : v <> w ->
  fst (normal b v w) * (fst w - fst v) + snd (normal b v w) * (snd w - snd v) = 0
  /\ fst (normal b v w) ^ 2 + snd (normal b v w) ^ 2 = 1
  /\ exists k, 0 < k /\ forall p, fst (normal b v w) * (fst p - fst v) + snd (normal b v w) * (snd p - snd v)
       = k * ((if b then - 1 else 1) * cross (diff w v) (diff p v)).
Proof.
  intros N. destruct v as [vx vy], w as [wx wy].
  assert (P : 0 < (wx - vx) * (wx - vx) + (wy - vy) * (wy - vy)).
  { pose proof (Rle_0_sqr (wx - vx)) as Qx. pose proof (Rle_0_sqr (wy - vy)) as Qy.
    destruct (Req_dec wx vx) as [X|X]; [destruct (Req_dec wy vy) as [Y|Y]|].
    - destruct N. congruence.
    - assert (0 < Rsqr (wy - vy)) by (apply Rsqr_pos_lt; lra). unfold Rsqr in *. lra.
    - assert (0 < Rsqr (wx - vx)) by (apply Rsqr_pos_lt; lra). unfold Rsqr in *. lra. }
  unfold normal. cbn [fst snd].
  set (n := sqrt ((wx - vx) * (wx - vx) + (wy - vy) * (wy - vy))).
  assert (Pn : 0 < n) by now apply sqrt_lt_R0.
  assert (Sn : n * n = (wx - vx) * (wx - vx) + (wy - vy) * (wy - vy)) by (apply sqrt_sqrt; lra).
  assert (E : (if b then (- - (wy - vy), - (wx - vx)) else (- (wy - vy), wx - vx))
              = ((if b then - 1 else 1) * - (wy - vy), (if b then - 1 else 1) * (wx - vx))) by (destruct b; f_equal; ring).
  rewrite E. clear E. set (c := if b then - 1 else 1). assert (C : c * c = 1) by (unfold c; destruct b; ring). clearbody c.
  replace (sqrt (c * - (wy - vy) * (c * - (wy - vy)) + c * (wx - vx) * (c * (wx - vx)))) with n.
  - cbn [fst snd]. clearbody n. split; [field; lra|]. split.
    + replace ((c * - (wy - vy) / n) ^ 2 + (c * (wx - vx) / n) ^ 2)
        with (c * c * ((wx - vx) * (wx - vx) + (wy - vy) * (wy - vy)) / (n * n)) by (field; lra).
      rewrite <- Sn, C. field. lra.
    + exists (/ n). split; [now apply Rinv_0_lt_compat|]. intros [px py]. unfold cross, diff. cbn [fst snd]. field. lra.
  - unfold n. f_equal. transitivity (c * c * ((wx - vx) * (wx - vx) + (wy - vy) * (wy - vy))); [rewrite C; ring|ring].
Qed.
Theorem normals_unit vs i e n : nth_error (edges vs) i = Some e -> nth_error (normals vs) i = Some n -> fst e <> snd e ->
  fst n * (fst (snd e) - fst (fst e)) + snd n * (snd (snd e) - snd (fst e)) = 0 /\ fst n ^ 2 + snd n ^ 2 = 1.
Proof.
  intros He Hn N. rewrite normals_edges in Hn. rewrite (map_nth_error _ _ _ He) in Hn. injection Hn as <-.
  destruct (normal_spec (Rltb (signed_area vs) 0) _ _ N) as (A & B & _). auto.
Qed.
Theorem normals_inward c vs i e n v : (c = 1 \/ c = - 1) -> one_side c vs ->
  nth_error (edges vs) i = Some e -> nth_error (normals vs) i = Some n -> fst e <> snd e -> In v vs ->
  0 <= fst n * (fst v - fst (fst e)) + snd n * (snd v - snd (fst e)).
Proof.
  intros Hc One He Hn N Hv. rewrite normals_edges in Hn. rewrite (map_nth_error _ _ _ He) in Hn. injection Hn as <-.
  destruct (normal_spec (Rltb (signed_area vs) 0) _ _ N) as (_ & _ & k & Hk & K). rewrite K.
  apply nth_error_In in He. pose proof (One e v He Hv) as Oe.
  assert (S : 0 <= c * signed_area vs).
  { rewrite (signed_area_about v). 
    replace (c * (/ 2 * sumf (fun e => cross (diff (fst e) v) (diff (snd e) v)) (edges vs)))
      with (/ 2 * sumf (fun e => c * cross (diff (fst e) v) (diff (snd e) v)) (edges vs)) by (rewrite sumf_scale; ring).
    apply Rmult_le_pos; [lra|]. apply sumf_nonneg. intros d Hd. specialize (One d v Hd Hv).
    replace (cross (diff (fst d) v) (diff (snd d) v)) with (cross (diff (snd d) (fst d)) (diff v (fst d))); [exact One|].
    unfold cross, diff. cbn. ring. }
  apply Rmult_le_pos; [lra|].
  destruct (Rltb (signed_area vs) 0) eqn:E; [apply Rltb_iff in E|apply Rltb_no in E].
  - destruct Hc as [->| ->]; lra.
  - destruct Hc as [->| ->]; [lra|].
    assert (Z : signed_area vs = 0) by lra. rewrite (signed_area_about v) in Z.
    assert (cross (diff (snd e) (fst e)) (diff v (fst e)) = 0); [|lra].
    assert (Q : - 1 * cross (diff (snd e) (fst e)) (diff v (fst e)) = 0); [|lra].
    apply (sumf_zero (fun e => - 1 * cross (diff (snd e) (fst e)) (diff v (fst e))) (edges vs)); auto.
    rewrite (sumf_ext _ (fun d => - 1 * cross (diff (fst d) v) (diff (snd d) v))).
    + rewrite sumf_scale. lra.
    + intros d _. unfold cross, diff. cbn. ring.
Qed.

Lemma centroid_zero vs : centroid vs = (0, 0).
Proof.
  assert (Z : forall f, (forall a b, f a b a b = 0) -> forall l, centroid_sum f l l = 0).
  { intros f Hf. induction l as [|a l IH]; [reflexivity|]. destruct l as [|b l]; [reflexivity|].
    change (centroid_sum f (a :: b :: l) (a :: b :: l)) with (f a b a b + centroid_sum f (b :: l) (b :: l)). rewrite IH, Hf. ring. }
  unfold centroid. rewrite !Z by (intros; ring). f_equal; ring.
Qed.
