From Coq Require Import Reals List Bool Lra Psatz.
From Verif.Model Require Import Apertures.
From Verif.Spec Require Import Apertures.
Import ListNotations.
Local Open Scope R_scope.

Lemma Rleb_iff a b : Rleb a b = true <-> a <= b.
Proof. unfold Rleb. destruct (Rle_dec a b); split; intros; auto; congruence. Qed.
Lemma Rltb_iff a b : Rltb a b = true <-> a < b.
Proof. unfold Rltb. destruct (Rlt_dec a b); split; intros; auto; congruence. Qed.
Lemma Rltb_no a b : Rltb a b = false <-> b <= a.
Proof. unfold Rltb. destruct (Rlt_dec a b); split; intros; auto; try congruence; lra. Qed.
Lemma Rleb_no a b : Rleb a b = false <-> b < a.
Proof. unfold Rleb. destruct (Rle_dec a b); split; intros; auto; try congruence; lra. Qed.

(** Twice the area of a triangle. *)
Definition orient (A B p : point) : R := cross (diff B A) (diff p A).
(** [p] sees the edge on its right. *)
Definition sees (A B p : point) : bool :=
  (Rleb (snd A) (snd p) && Rltb (snd p) (snd B) && Rltb 0 (orient A B p))
  || (Rleb (snd B) (snd p) && Rltb (snd p) (snd A) && Rltb (orient A B p) 0).
(** [V] is on the right of the segment. *)
Definition right_of (p q V : point) : bool :=
  (Rltb (snd p) (snd V) && Rleb (snd V) (snd q) && Rltb (orient p q V) 0)
  || (Rltb (snd q) (snd V) && Rleb (snd V) (snd p) && Rltb 0 (orient p q V)).

Ltac decide_all := repeat match goal with
  | |- context [Rleb ?a ?b] => let E := fresh "E" in destruct (Rleb a b) eqn:E; [apply Rleb_iff in E|apply Rleb_no in E]
  | |- context [Rltb ?a ?b] => let E := fresh "E" in destruct (Rltb a b) eqn:E; [apply Rltb_iff in E|apply Rltb_no in E]
  end.

Lemma toggles_sees v w p : toggles v w p = sees w v p.
Proof.
  destruct v as [vx vy], w as [wx wy], p as [x y]. unfold toggles, sees, orient, cross, diff. cbn [fst snd].
  assert (K : vy <> wy -> (x < (wx - vx) * (y - vy) / (wy - vy) + vx <->
     (wy < vy -> 0 < (vx - wx) * (y - wy) - (vy - wy) * (x - wx))
     /\ (vy < wy -> (vx - wx) * (y - wy) - (vy - wy) * (x - wx) < 0))).
  { intros N. assert (N' : wy - vy <> 0) by lra.
    set (k := (wx - vx) * (y - vy) / (wy - vy)).
    assert (Hk : k * (wy - vy) = (wx - vx) * (y - vy)) by (unfold k; field; exact N').
    clearbody k. split.
    - intros H. split; intros L; nra.
    - intros [H1 H2]. destruct (Rtotal_order wy vy) as [L|[L|L]]; [specialize (H1 L)|lra|specialize (H2 L)].
      + apply Rnot_le_lt. intros C. nra.
      + apply Rnot_le_lt. intros C. nra. }
  destruct (Rltb y vy) eqn:E1, (Rltb y wy) eqn:E2; cbn [Bool.eqb negb andb];
    try apply Rltb_iff in E1; try apply Rltb_no in E1; try apply Rltb_iff in E2; try apply Rltb_no in E2.
  - replace (Rleb wy y) with false by (symmetry; apply Rleb_no; lra).
    replace (Rleb vy y) with false by (symmetry; apply Rleb_no; lra). reflexivity.
  - destruct K as [K1 K2]; [lra|].
    replace (Rleb wy y) with true by (symmetry; apply Rleb_iff; lra).
    replace (Rleb vy y) with false by (symmetry; apply Rleb_no; lra). cbn [andb orb]. rewrite orb_false_r.
    apply eq_true_iff_eq. rewrite !Rltb_iff. split; [intros H; apply K1; [exact H|lra]|].
    intros H. apply K2. split; intros; [exact H|lra].
  - destruct K as [K1 K2]; [lra|].
    replace (Rleb wy y) with false by (symmetry; apply Rleb_no; lra).
    replace (Rleb vy y) with true by (symmetry; apply Rleb_iff; lra). cbn [andb orb].
    apply eq_true_iff_eq. rewrite !Rltb_iff. split; [intros H; apply K1; [exact H|lra]|].
    intros H. apply K2. split; intros; [lra|exact H].
  - rewrite !andb_false_r. reflexivity.
Qed.

Lemma sees_sym A B p : sees A B p = sees B A p.
Proof.
  unfold sees. rewrite orb_comm. f_equal; f_equal; apply eq_true_iff_eq; rewrite !Rltb_iff;
    unfold orient, cross, diff; cbn [fst snd]; split; intros; lra.
Qed.
Lemma right_sym p q V : right_of p q V = right_of q p V.
Proof.
  unfold right_of. rewrite orb_comm. f_equal; f_equal; apply eq_true_iff_eq; rewrite !Rltb_iff;
    unfold orient, cross, diff; cbn [fst snd]; split; intros; lra.
Qed.

(** Segments meet. *)
Definition meet (A B p q : point) : Prop :=
  exists s t, 0 <= s <= 1 /\ 0 <= t <= 1 /\ along A B t = along p q s.
Lemma along_rev p q t : along q p t = along p q (1 - t).
Proof. unfold along. f_equal; ring. Qed.
Lemma meet_sym A B p q : meet A B p q -> meet B A p q.
Proof.
  intros (s & t & H1 & H2 & H). exists s, (1 - t). split; [exact H1|]. split; [lra|].
  rewrite along_rev. now replace (1 - (1 - t)) with t by ring.
Qed.
Lemma meet_swap A B p q : meet A B p q -> meet p q A B.
Proof. intros (s & t & H1 & H2 & H). exists t, s. auto. Qed.
Lemma meet_rev A B p q : meet A B p q -> meet A B q p.
Proof. intros H. apply meet_swap, meet_sym, meet_swap, H. Qed.

Lemma div_01 a b : 0 <= a <= b -> 0 < b -> 0 <= a / b <= 1.
Proof.
  intros H1 H2. assert (0 < / b) by now apply Rinv_0_lt_compat. unfold Rdiv. split; [nra|].
  replace 1 with (b * / b) by (field; lra). nra.
Qed.

(** both ends of a segment between the heights of an edge *)
Lemma meet_within A B p q : snd A <= snd p -> snd p < snd B -> snd A <= snd q -> snd q < snd B ->
  0 < orient A B p -> orient A B q <= 0 -> meet A B p q.
Proof.
  intros H1 H2 H3 H4 Hp Hq.
  set (s := orient A B p / (orient A B p - orient A B q)).
  assert (S : 0 <= s <= 1) by (apply div_01; lra).
  assert (Hs : s * (orient A B p - orient A B q) = orient A B p) by (unfold s; field; lra).
  clearbody s. exists s.
  set (h := snd p + s * (snd q - snd p)).
  assert (Hh : snd A <= h < snd B) by (unfold h; nra).
  exists ((h - snd A) / (snd B - snd A)). split; [exact S|]. split; [apply div_01; lra|].
  unfold along. f_equal; [|unfold h; field; lra].
  fold h. set (t := (h - snd A) / (snd B - snd A)).
  assert (Ht : t * (snd B - snd A) = h - snd A) by (unfold t; field; lra). clearbody t.
  unfold orient, cross, diff in Hs. cbn [fst snd] in Hs. unfold h in *.
  apply (Rmult_eq_reg_r (snd B - snd A)); [|lra].
  replace ((fst A + t * (fst B - fst A)) * (snd B - snd A))
    with (fst A * (snd B - snd A) + (t * (snd B - snd A)) * (fst B - fst A)) by ring.
  rewrite Ht. nra.
Qed.
Lemma meet_within' A B p q : snd A <= snd p -> snd p < snd B -> snd A <= snd q -> snd q < snd B ->
  orient A B p <= 0 -> 0 < orient A B q -> meet A B p q.
Proof. intros. apply meet_rev. now apply meet_within. Qed.

(** Plücker's relation *)
Lemma pluecker_x u w e : fst e * cross u w = fst u * cross e w + fst w * cross u e.
Proof. unfold cross. ring. Qed.
Lemma pluecker_y u w e : snd e * cross u w = snd u * cross e w + snd w * cross u e.
Proof. unfold cross. ring. Qed.
(** decomposition of a vector between two others *)
Lemma between u w e : 0 < snd u -> 0 < snd w -> 0 <= snd e -> snd e <= snd u -> snd e <= snd w ->
  0 <= cross u e -> 0 <= cross e w -> 0 < cross u e + cross e w ->
  exists a b, 0 <= a <= 1 /\ 0 <= b <= 1 /\ fst e = a * fst u + b * fst w /\ snd e = a * snd u + b * snd w.
Proof.
  intros U W E0 E1 E2 C1 C2 C3. pose proof (pluecker_y u w e) as P. pose proof (pluecker_x u w e) as Q.
  set (c1 := cross u e) in *. set (c2 := cross e w) in *. set (D := cross u w) in *. clearbody c1 c2 D.
  assert (Z1 : 0 <= snd u * c2) by nra. assert (Z2 : 0 <= snd w * c1) by nra.
  assert (Z3 : 0 < snd u * c2 + snd w * c1).
  { destruct (Rlt_le_dec 0 c1); [assert (0 < snd w * c1) by nra; lra|].
    assert (0 < snd u * c2) by (apply Rmult_lt_0_compat; lra). lra. }
  assert (E : 0 < snd e). { destruct E0 as [Z|Z]; [exact Z|]. rewrite <- Z in P. lra. }
  assert (HD : 0 < D).
  { apply Rnot_le_lt. intros C. assert (0 <= snd e * - D) by (apply Rmult_le_pos; lra). lra. }
  assert (L1 : c2 <= D) by (apply Rnot_lt_le; intros C; nra).
  assert (L2 : c1 <= D) by (apply Rnot_lt_le; intros C; nra).
  exists (c2 / D), (c1 / D).
  split; [apply div_01; lra|]. split; [apply div_01; lra|].
  split; apply (Rmult_eq_reg_r D); try lra; rewrite Rmult_plus_distr_r; [rewrite Q|rewrite P]; field; lra.
Qed.
Definition flip (v : point) : point := (- fst v, snd v).
Lemma between' u w e : 0 < snd u -> 0 < snd w -> 0 <= snd e -> snd e <= snd u -> snd e <= snd w ->
  cross u e <= 0 -> cross e w <= 0 -> cross u e + cross e w < 0 ->
  exists a b, 0 <= a <= 1 /\ 0 <= b <= 1 /\ fst e = a * fst u + b * fst w /\ snd e = a * snd u + b * snd w.
Proof.
  intros U W E0 E1 E2 C1 C2 C3.
  destruct (between (flip u) (flip w) (flip e)) as (a & b & H1 & H2 & H3 & H4); unfold flip, cross in *; cbn [fst snd] in *; try lra.
  exists a, b. repeat split; lra.
Qed.

(** the edge starts between the ends of the segment and ends above *)
Lemma meet_above A B p q : snd p < snd A -> snd A <= snd q -> snd q < snd B ->
  (0 < orient A B q /\ 0 <= orient p q A) \/ (orient A B q <= 0 /\ orient p q A < 0) -> meet A B p q.
Proof.
  intros H1 H2 H3 H.
  assert (K : exists a b, 0 <= a <= 1 /\ 0 <= b <= 1
     /\ fst (diff q A) = a * fst (diff B A) + b * fst (diff q p) /\ snd (diff q A) = a * snd (diff B A) + b * snd (diff q p)).
  { assert (O : orient p q A = cross (diff q A) (diff q p)) by (unfold orient, cross, diff; cbn [fst snd]; ring).
    assert (O' : orient A B q = cross (diff B A) (diff q A)) by reflexivity.
    destruct H as [[C1 C2]|[C1 C2]]; rewrite O, O' in *.
    - apply between; unfold diff in *; cbn [fst snd] in *; lra.
    - apply between'; unfold diff in *; cbn [fst snd] in *; lra. }
  destruct K as (a & b & Ha & Hb & X & Y). unfold diff in X, Y. cbn [fst snd] in X, Y.
  exists (1 - b), a. split; [lra|]. split; [lra|]. unfold along. f_equal; lra.
Qed.
(** the edge ends between the ends of the segment and starts below *)
Lemma meet_below A B p q : snd A <= snd p -> snd p < snd B -> snd B <= snd q ->
  (0 < orient A B p /\ 0 <= orient p q B) \/ (orient A B p <= 0 /\ orient p q B < 0) -> meet A B p q.
Proof.
  intros H1 H2 H3 H.
  assert (K : exists a b, 0 <= a <= 1 /\ 0 <= b <= 1
     /\ fst (diff B p) = a * fst (diff B A) + b * fst (diff q p) /\ snd (diff B p) = a * snd (diff B A) + b * snd (diff q p)).
  { assert (O : orient p q B = - cross (diff B p) (diff q p)) by (unfold orient, cross, diff; cbn [fst snd]; ring).
    assert (O' : orient A B p = - cross (diff B A) (diff B p)) by (unfold orient, cross, diff; cbn [fst snd]; ring).
    destruct H as [[C1 C2]|[C1 C2]]; rewrite O, O' in *.
    - apply between'; unfold diff in *; cbn [fst snd] in *; lra.
    - apply between; unfold diff in *; cbn [fst snd] in *; lra. }
  destruct K as (a & b & Ha & Hb & X & Y). unfold diff in X, Y. cbn [fst snd] in X, Y.
  exists b, (1 - a). split; [lra|]. split; [lra|]. unfold along. f_equal; lra.
Qed.
(** both ends of the edge between the heights of the segment *)
Lemma meet_inside A B p q : snd p < snd A -> snd A <= snd q -> snd p < snd B -> snd B <= snd q ->
  orient p q A < 0 -> 0 <= orient p q B -> meet A B p q.
Proof.
  intros H1 H2 H3 H4 HA HB. apply meet_swap.
  (* as meet_within, with the other end of the interval included *)
  set (s := - orient p q A / (orient p q B - orient p q A)).
  assert (S : 0 <= s <= 1) by (apply div_01; lra).
  assert (Hs : s * (orient p q B - orient p q A) = - orient p q A) by (unfold s; field; lra).
  clearbody s. exists s.
  set (h := snd A + s * (snd B - snd A)).
  assert (Hh : snd p < h <= snd q) by (unfold h; nra).
  exists ((h - snd p) / (snd q - snd p)). split; [exact S|]. split; [apply div_01; lra|].
  unfold along. f_equal; [|unfold h; field; lra].
  fold h. set (t := (h - snd p) / (snd q - snd p)).
  assert (Ht : t * (snd q - snd p) = h - snd p) by (unfold t; field; lra). clearbody t.
  unfold orient, cross, diff in Hs. cbn [fst snd] in Hs. unfold h in *.
  apply (Rmult_eq_reg_r (snd q - snd p)); [|lra].
  replace ((fst p + t * (fst q - fst p)) * (snd q - snd p))
    with (fst p * (snd q - snd p) + (t * (snd q - snd p)) * (fst q - fst p)) by ring.
  rewrite Ht. nra.
Qed.

Ltac settle := repeat match goal with
  | |- context [Rleb (snd ?a) (snd ?b)] =>
      first [replace (Rleb (snd a) (snd b)) with true by (symmetry; apply Rleb_iff; lra)
            |replace (Rleb (snd a) (snd b)) with false by (symmetry; apply Rleb_no; lra)]
  | |- context [Rltb (snd ?a) (snd ?b)] =>
      first [replace (Rltb (snd a) (snd b)) with true by (symmetry; apply Rltb_iff; lra)
            |replace (Rltb (snd a) (snd b)) with false by (symmetry; apply Rltb_no; lra)]
  end; cbn [andb orb xorb]; rewrite ?orb_false_r.

Lemma key_up A B p q : ~ meet A B p q -> snd A <= snd B -> snd p <= snd q ->
  xorb (sees A B p) (sees A B q) = xorb (right_of p q A) (right_of p q B).
Proof.
  intros N HA Hp. unfold sees, right_of.
  destruct (Rlt_le_dec (snd q) (snd A)) as [Q|Q]; [settle; reflexivity|].
  destruct (Rle_lt_dec (snd B) (snd p)) as [P|P]; [settle; reflexivity|].
  destruct (Rlt_le_dec (snd p) (snd A)) as [PA|PA]; destruct (Rlt_le_dec (snd q) (snd B)) as [QB|QB]; settle.
  - assert (M := meet_above A B p q PA Q QB).
    decide_all; cbn; try reflexivity; exfalso; apply N, M; lra.
  - assert (M := meet_inside A B p q PA Q P QB).
    assert (M' := meet_inside B A p q P QB PA Q).
    decide_all; cbn; try reflexivity; exfalso; first [apply N, M; lra|apply N, meet_sym, M'; lra].
  - assert (M := meet_within A B p q PA P Q QB).
    assert (M' := meet_within' A B p q PA P Q QB).
    decide_all; cbn; try reflexivity; exfalso; first [apply N, M; lra|apply N, M'; lra].
  - assert (M := meet_below A B p q PA P QB).
    decide_all; cbn; try reflexivity; exfalso; apply N, M; lra.
Qed.
Lemma key A B p q : ~ meet A B p q ->
  xorb (sees A B p) (sees A B q) = xorb (right_of p q A) (right_of p q B).
Proof.
  intros N. destruct (Rle_lt_dec (snd A) (snd B)) as [L|L]; destruct (Rle_lt_dec (snd p) (snd q)) as [K|K].
  - now apply key_up.
  - rewrite (right_sym p q A), (right_sym p q B), xorb_comm. apply key_up; try lra. intros M. apply N, meet_rev, M.
  - rewrite (sees_sym A B p), (sees_sym A B q), (xorb_comm (right_of p q A)). apply key_up; try lra. intros M. apply N, meet_sym, M.
  - rewrite (right_sym p q A), (right_sym p q B), (xorb_comm (sees A B p)), (xorb_comm (right_of q p A)),
      (sees_sym A B p), (sees_sym A B q). apply key_up; try lra. intros M. apply N, meet_rev, meet_sym, M.
Qed.

(** * Proper crossings *)
Definition proper (A B p q : point) : Prop :=
  cross (diff B A) (diff q p) <> 0 /\ exists s t, 0 < s < 1 /\ 0 < t < 1 /\ along A B t = along p q s.
Lemma proper_signs A B p q : proper A B p q ->
  let D := cross (diff B A) (diff q p) in
  (0 < D /\ orient A B p < 0 /\ 0 < orient A B q /\ 0 < orient p q A /\ orient p q B < 0)
  \/ (D < 0 /\ 0 < orient A B p /\ orient A B q < 0 /\ orient p q A < 0 /\ 0 < orient p q B).
Proof.
  intros (Hd & s & t & Hs & Ht & H). cbn zeta. unfold along in H.
  pose proof (f_equal fst H) as X. pose proof (f_equal snd H) as Y. cbn [fst snd] in X, Y. clear H.
  set (D := cross (diff B A) (diff q p)) in *.
  assert (E1 : orient A B p = - (s * D)).
  { unfold D, orient, cross, diff. cbn [fst snd].
    replace (fst p - fst A) with (t * (fst B - fst A) - s * (fst q - fst p)) by lra.
    replace (snd p - snd A) with (t * (snd B - snd A) - s * (snd q - snd p)) by lra. ring. }
  assert (E2 : orient A B q = (1 - s) * D).
  { unfold D, orient, cross, diff. cbn [fst snd].
    replace (fst q - fst A) with (t * (fst B - fst A) + (1 - s) * (fst q - fst p)) by lra.
    replace (snd q - snd A) with (t * (snd B - snd A) + (1 - s) * (snd q - snd p)) by lra. ring. }
  assert (E3 : orient p q A = t * D).
  { unfold D, orient, cross, diff. cbn [fst snd].
    replace (fst A - fst p) with (s * (fst q - fst p) - t * (fst B - fst A)) by lra.
    replace (snd A - snd p) with (s * (snd q - snd p) - t * (snd B - snd A)) by lra. ring. }
  assert (E4 : orient p q B = - ((1 - t) * D)).
  { unfold D, orient, cross, diff. cbn [fst snd].
    replace (fst B - fst p) with (s * (fst q - fst p) + (1 - t) * (fst B - fst A)) by lra.
    replace (snd B - snd p) with (s * (snd q - snd p) + (1 - t) * (snd B - snd A)) by lra. ring. }
  rewrite E1, E2, E3, E4. clearbody D. destruct (Rtotal_order D 0) as [L|[L|L]]; [right|lra|left]; repeat split; nra.
Qed.
Lemma proper_heights A B p q : proper A B p q -> snd A <= snd B -> snd p <= snd q ->
  snd A <= snd q /\ snd p <= snd B /\ (snd A < snd B \/ snd p < snd q)
  /\ (snd A = snd B -> snd p < snd A < snd q) /\ (snd p = snd q -> snd A < snd p < snd B)
  /\ (snd A < snd q) /\ snd p < snd B.
Proof.
  intros (Hd & s & t & Hs & Ht & H) HA Hp. unfold along in H. pose proof (f_equal snd H) as Y. cbn [snd] in Y. clear H.
  unfold cross, diff in Hd. cbn [fst snd] in Hd.
  assert (Z : snd A < snd B \/ snd p < snd q).
  { destruct HA as [HA|HA]; [now left|]. destruct Hp as [Hp|Hp]; [now right|]. exfalso. apply Hd. rewrite HA, Hp. ring. }
  repeat split; try nra.
Qed.
Lemma key_cross_up A B p q : proper A B p q -> snd A <= snd B -> snd p <= snd q ->
  xorb (sees A B p) (sees A B q) = negb (xorb (right_of p q A) (right_of p q B)).
Proof.
  intros C HA Hp. destruct (proper_heights A B p q C HA Hp) as (H1 & H2 & H3 & H4 & H5 & H6 & H7).
  pose proof (proper_signs A B p q C) as S. cbn zeta in S. unfold sees, right_of.
  destruct (Rlt_le_dec (snd p) (snd A)) as [PA|PA]; destruct (Rlt_le_dec (snd q) (snd B)) as [QB|QB]; settle;
    decide_all; cbn; try reflexivity; exfalso; lra.
Qed.
Lemma proper_sym A B p q : proper A B p q -> proper B A p q.
Proof.
  intros (H & s & t & Hs & Ht & E). split.
  - unfold cross, diff in *. cbn [fst snd] in *. lra.
  - exists s, (1 - t). split; [exact Hs|]. split; [lra|]. rewrite along_rev. now replace (1 - (1 - t)) with t by ring.
Qed.
Lemma proper_rev A B p q : proper A B p q -> proper A B q p.
Proof.
  intros (H & s & t & Hs & Ht & E). split.
  - unfold cross, diff in *. cbn [fst snd] in *. lra.
  - exists (1 - s), t. split; [lra|]. split; [exact Ht|]. rewrite E, (along_rev p q). now replace (1 - (1 - s)) with s by ring.
Qed.
Lemma key_cross A B p q : proper A B p q ->
  xorb (sees A B p) (sees A B q) = negb (xorb (right_of p q A) (right_of p q B)).
Proof.
  intros N. destruct (Rle_lt_dec (snd A) (snd B)) as [L|L]; destruct (Rle_lt_dec (snd p) (snd q)) as [K|K].
  - now apply key_cross_up.
  - rewrite (right_sym p q A), (right_sym p q B), xorb_comm. apply key_cross_up; try lra. apply proper_rev, N.
  - rewrite (sees_sym A B p), (sees_sym A B q), (xorb_comm (right_of p q A)). apply key_cross_up; try lra. apply proper_sym, N.
  - rewrite (right_sym p q A), (right_sym p q B), (xorb_comm (sees A B p)), (xorb_comm (right_of q p A)),
      (sees_sym A B p), (sees_sym A B q). apply key_cross_up; try lra. apply proper_rev, proper_sym, N.
Qed.
