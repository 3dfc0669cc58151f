From Coq Require Import Reals ZArith Lra Lia List Bool.
From Verif.Model Require Import Maps Curved Survey.
From Verif.Spec Require Import Frames Poses Survey.
From Verif.Proofs Require Import Frames FrameMaps Misalign Curved Survey SurveyTrack.
Import ListNotations.
Local Open Scope R_scope.

(** * Slices *)
(** an arc of radius [r] *)
Definition turnout (r a : R) : pose :=
  Pose (M3 (V3 (cos a) 0 (- sin a)) (V3 0 1 0) (V3 (sin a) 0 (cos a)))
       (V3 (r * (cos a - 1)) 0 (r * sin a)).
Definition conj (f : R) (P : pose) : pose := pmul (tilt f) (pmul P (pinv (tilt f))).

Lemma conj_mul f P Q : pmul (conj f P) (conj f Q) = conj f (pmul P Q).
Proof.
  unfold conj. rewrite <- !pmul_assoc, (pmul_assoc (pinv (tilt f)) (tilt f)), pinv_l, pmul_id_l by apply rigid_tilt.
  reflexivity.
Qed.
Lemma conj_id f : conj f pid = pid.
Proof. unfold conj. rewrite pmul_id_l. apply pinv_r, rigid_tilt. Qed.
Lemma cc1 f : cos f * cos f = 1 - sin f * sin f.
Proof. pose proof (sc1 f). lra. Qed.
Lemma conj_straight f l : conj f (straight l) = straight l.
Proof.
  unfold conj, tilt. pose proof (cc1 f) as E. set (c := cos f) in *. set (s := sin f) in *. clearbody c s.
  peq; scbv; ring [E].
Qed.
Lemma conj_shifted f x : conj f (shifted x 0) = shifted (x * cos f) (x * sin f).
Proof.
  unfold conj, tilt. pose proof (cc1 f) as E. set (c := cos f) in *. set (s := sin f) in *. clearbody c s.
  peq; scbv; ring [E].
Qed.
Lemma turnout_add r a b : pmul (turnout r a) (turnout r b) = turnout r (a + b).
Proof.
  unfold turnout. rewrite cos_plus, sin_plus. pose proof (cc1 a). peq; pcbv; ring.
Qed.
Lemma turnout_0 r : turnout r 0 = pid.
Proof. unfold turnout. rewrite cos_0, sin_0. peq; pcbv; ring. Qed.
Lemma bend_turnout l a f : bend_end l a f = conj f (turnout (l / a) a).
Proof. reflexivity. Qed.

Lemma other_turnout l a f w : a <> 0 -> exit_of (Other (l * w) (a * w) f) = conj f (turnout (l / a) (a * w)).
Proof.
  intros Ha. cbn [exit_of]. destruct (is0 (a * w)) eqn:E.
  - apply is0_true in E. assert (w = 0) as -> by (apply Rmult_integral in E; tauto).
    rewrite !Rmult_0_r, turnout_0, conj_id. reflexivity.
  - rewrite bend_turnout. do 2 f_equal. apply is0_false in E. field. split; [exact Ha|].
    intros ->. apply E. ring.
Qed.

Lemma prod_from P els : fold_left (fun P e => pmul P (exit_of e)) els P = pmul P (end_of els).
Proof. exact (prod_mul false els P). Qed.
Lemma end_cons e els : end_of (e :: els) = pmul (exit_of e) (end_of els).
Proof. unfold end_of at 1. cbn [fold_left]. now rewrite prod_from, pmul_id_l. Qed.
Lemma end_app A B : end_of (A ++ B) = pmul (end_of A) (end_of B).
Proof. unfold end_of at 1. rewrite fold_left_app, prod_from. reflexivity. Qed.
Lemma end_one e : end_of [e] = exit_of e.
Proof. rewrite end_cons. unfold end_of. cbn [fold_left]. apply pmul_id_r. Qed.

Definition total (ws : list R) : R := fold_right Rplus 0 ws.

Lemma straight_add a b : pmul (straight a) (straight b) = straight (a + b).
Proof. peq; scbv; ring. Qed.
Lemma straight_0 : straight 0 = pid.
Proof. reflexivity. Qed.

Lemma bend_slices_end l a f ws : end_of (bend_slices l a f ws) = exit_of (Other (l * total ws) (a * total ws) f).
Proof.
  destruct (Req_dec a 0) as [->|Ha].
  - induction ws as [|w ws IH]; cbn [bend_slices map total fold_right].
    + unfold end_of. cbn [fold_left exit_of]. rewrite !Rmult_0_r, plain_0. reflexivity.
    + rewrite end_cons. fold (bend_slices l 0 f ws). rewrite IH. cbn [exit_of].
      rewrite !Rmult_0_l, plain_0, straight_add. f_equal. fold (total ws). ring.
  - rewrite other_turnout by exact Ha. induction ws as [|w ws IH]; cbn [bend_slices map total fold_right].
    + rewrite Rmult_0_r, turnout_0, conj_id. reflexivity.
    + rewrite end_cons. fold (bend_slices l a f ws). rewrite IH, other_turnout by exact Ha.
      rewrite conj_mul, turnout_add. do 2 f_equal. fold (total ws). ring.
Qed.
Theorem bend_slices_whole l a f ws : fold_right Rplus 0 ws = 1 ->
  end_of (bend_slices l a f ws) = exit_of (Other l a f).
Proof. intros H. rewrite bend_slices_end. unfold total. rewrite H, !Rmult_1_r. reflexivity. Qed.

(** ** RBends *)
Definition body_total (body : list body_slice) : R := fold_right (fun s a => body_weight s + a) 0 body.

Lemma straight_body_end b body : rb_straight_body b = true ->
  end_of (map (rbend_slice b) body) = straight (rb_length_straight b * body_total body).
Proof.
  intros Hs. induction body as [|s body IH]; cbn [map body_total fold_right].
  - rewrite Rmult_0_r. reflexivity.
  - rewrite end_cons, IH. fold (body_total body).
    replace (exit_of (rbend_slice b s)) with (straight (rb_length_straight b * body_weight s)).
    + rewrite straight_add. f_equal. ring.
    + destruct s; cbn [rbend_slice exit_of body_weight]; rewrite ?Hs; try reflexivity.
      rewrite plain_0, Rmult_0_r. reflexivity.
Qed.

Lemma curved_slice b w : sliceable b -> rb_straight_body b = false ->
  exit_of (ThickRB b w) = exit_of (Other (rb_length b * w) (rb_h b * rb_length b * w) (rb_tilt b)).
Proof.
  intros Hk Hs. cbn [exit_of]. rewrite Hs. destruct Hk as [[Ha Hd]|(Ha & HL & Hn)].
  - unfold rb_h. rewrite Ha, Rabs_R0. destruct (Rlt_dec 0 (/ 10 ^ 10)) as [_|N].
    + rewrite !Rmult_0_l. reflexivity.
    + exfalso. apply N, Rinv_0_lt_compat, pow_lt. lra.
  - assert (E : rb_h b * rb_length b = rb_angle b).
    { unfold rb_length. destruct (Rlt_dec (Rabs (rb_angle b)) (/ 10 ^ 10)); [lra|].
      destruct (Rlt_dec (Rabs (rb_length_straight b)) (/ 10 ^ 10)); [lra|].
      assert (N : rb_h b <> 0).
      { unfold rb_h. destruct (Rlt_dec (Rabs (rb_angle b)) (/ 10 ^ 10)); [lra|].
        destruct (Rlt_dec (Rabs (rb_length_straight b)) (/ 10 ^ 10)); [lra|].
        assert (rb_length_straight b <> 0).
        { intros Z. rewrite Z, Rabs_R0 in HL. assert (0 < / 10 ^ 10) by (apply Rinv_0_lt_compat, pow_lt; lra). lra. }
        unfold Rdiv. apply Rmult_integral_contrapositive_currified; [exact Hn|now apply Rinv_neq_0_compat]. }
      field. exact N. }
    rewrite E. reflexivity.
Qed.

Theorem curved_slices_whole b ws : sliceable b -> rb_straight_body b = false -> fold_right Rplus 0 ws = 1 ->
  end_of (rbend_slices b (map BThick ws)) = exit_of (whole_rbend b).
Proof.
  intros Hk Hs Hw. unfold rbend_slices. rewrite end_cons, end_app, end_one.
  assert (E1 : exit_of (EntryRB b) = pid) by (cbn [exit_of]; now rewrite Hs).
  assert (E2 : exit_of (ExitRB b) = pid) by (cbn [exit_of]; now rewrite Hs).
  rewrite E1, E2, pmul_id_l, pmul_id_r. unfold whole_rbend.
  rewrite <- (bend_slices_whole _ _ (rb_tilt b) ws Hw). unfold bend_slices. rewrite !map_map. cbn [rbend_slice].
  clear E1 E2 Hw. induction ws as [|w ws IH]; cbn [map]; [reflexivity|].
  rewrite !end_cons, IH. f_equal. now apply curved_slice.
Qed.

Lemma kink r a : pmul (turnout 0 r) (turnout 0 a) = turnout 0 (r + a).
Proof. apply turnout_add. Qed.

(** the straight body between the two turns *)
Lemma chord h ti to xi xo L : h <> 0 -> h * L = sin ti + sin to ->
  xo - xi = (cos to - cos ti) / h ->
  pmul (turnout 0 ti) (pmul (shifted (- xi) 0) (pmul (straight L) (pmul (shifted xo 0) (turnout 0 to))))
  = turnout (/ h) (ti + to).
Proof.
  intros Hh HL Hx. assert (xo = xi + (cos to - cos ti) / h) as -> by lra.
  assert (L = (sin ti + sin to) / h) as -> by (apply (Rmult_eq_reg_l h); [|exact Hh]; rewrite HL; field; exact Hh).
  unfold turnout. rewrite cos_plus, sin_plus. pose proof (cc1 ti) as E. pose proof (cc1 to) as E'.
  set (ci := cos ti) in *. set (si := sin ti) in *. set (co := cos to) in *. set (so := sin to) in *.
  clearbody ci si co so. unfold Rdiv. set (r := / h). clearbody r.
  peq; scbv; ring [E E'].
Qed.

Theorem straight_slices_whole b body : sliceable b -> rb_straight_body b = true ->
  fold_right (fun s a => body_weight s + a) 0 body = 1 ->
  end_of (rbend_slices b body) = exit_of (whole_rbend b).
Proof.
  intros Hk Hs Hw. unfold rbend_slices. rewrite end_cons, end_app, end_one, straight_body_end by exact Hs.
  unfold body_total. rewrite Hw, Rmult_1_r. cbn [whole_rbend exit_of]. rewrite Hs.
  assert (P10 : 0 < / 10 ^ 10) by (apply Rinv_0_lt_compat, pow_lt; lra).
  destruct Hk as [[Ha Hd]|(Ha & HL & Hn)].
  - assert (B : bends b = false).
    { unfold bends. rewrite Ha, Rabs_R0. destruct (Rlt_dec (/ 10 ^ 10) 0); [lra|reflexivity]. }
    assert (I : rb_angle_in b = 0) by (unfold rb_angle_in; rewrite Ha, Hd; field).
    assert (O : rb_angle_out b = 0) by (unfold rb_angle_out; rewrite Ha, Hd; field).
    assert (Hh : rb_h b = 0).
    { unfold rb_h. rewrite Ha, Rabs_R0. destruct (Rlt_dec 0 (/ 10 ^ 10)); [reflexivity|lra]. }
    assert (Hl : rb_length b = rb_length_straight b).
    { unfold rb_length. rewrite Ha, Rabs_R0. destruct (Rlt_dec 0 (/ 10 ^ 10)); [reflexivity|lra]. }
    rewrite B, I, O, !bend_end_none, !pmul_id_l, pmul_id_r, Hh, Hl, Rmult_0_l, plain_0. reflexivity.
  - assert (B : bends b = true).
    { unfold bends. destruct (Rlt_dec (/ 10 ^ 10) (Rabs (rb_angle b))); [reflexivity|contradiction]. }
    assert (LN : rb_length_straight b <> 0) by (intros Z; rewrite Z, Rabs_R0 in HL; lra).
    assert (Hh : rb_h b = (sin (rb_angle_in b) + sin (rb_angle_out b)) / rb_length_straight b).
    { unfold rb_h. destruct (Rlt_dec (Rabs (rb_angle b)) (/ 10 ^ 10)); [lra|].
      destruct (Rlt_dec (Rabs (rb_length_straight b)) (/ 10 ^ 10)); [lra|reflexivity]. }
    assert (Hl : rb_length b = rb_angle b / rb_h b).
    { unfold rb_length. destruct (Rlt_dec (Rabs (rb_angle b)) (/ 10 ^ 10)); [lra|].
      destruct (Rlt_dec (Rabs (rb_length_straight b)) (/ 10 ^ 10)); [lra|reflexivity]. }
    assert (HLh : rb_h b * rb_length_straight b = sin (rb_angle_in b) + sin (rb_angle_out b))
      by (rewrite Hh; field; exact LN).
    assert (N : rb_h b <> 0) by (intros Z; rewrite Z, Rmult_0_l in HLh; lra).
    assert (Ea : rb_angle_in b + rb_angle_out b = rb_angle b) by (unfold rb_angle_in, rb_angle_out; field).
    assert (AN : rb_angle b <> 0) by (intros Z; rewrite Z, Rabs_R0 in Ha; lra).
    assert (Eh : rb_h b * rb_length b = rb_angle b) by (rewrite Hl; field; exact N).
    rewrite B, Eh.
    assert (Z : is0 (rb_angle b) = false).
    { unfold is0. destruct (Req_EM_T (rb_angle b) 0); [contradiction|reflexivity]. }
    rewrite Z, !bend_turnout.
    rewrite <- !conj_shifted. rewrite <- (conj_straight (rb_tilt b) (rb_length_straight b)).
    rewrite !conj_mul. f_equal.
    replace (rb_length b / rb_angle b) with (/ rb_h b) by (rewrite Hl; field; auto).
    unfold Rdiv. rewrite !Rmult_0_l, <- Ea. rewrite <- !pmul_assoc.
    apply chord; [exact N|exact HLh|].
    unfold rb_x0_in, rb_x0_out. rewrite B. cbv zeta.
    replace (sin (rb_angle_out b) - rb_h b * rb_length_straight b / 2)
      with (- (sin (rb_angle_in b) - rb_h b * rb_length_straight b / 2)) by (rewrite HLh; field).
    set (m := sin (rb_angle_in b) - rb_h b * rb_length_straight b / 2).
    replace (1 - - m * - m) with (1 - m * m) by ring. set (q := sqrt (1 - m * m)). clearbody q m.
    field. exact N.
Qed.

(** replacing an element by pieces with the same end *)
Lemma run_nth_some els P k : (k <= length els)%nat ->
  nth_error (run false P els) k = Some (prod false P (firstn k els)).
Proof.
  intros H. destruct (nth_error (run false P els) k) eqn:E; [f_equal; now apply run_nth|].
  apply nth_error_None in E. rewrite run_length in E. lia.
Qed.
Theorem survey_replaced A e pieces B X0 Y0 Z0 th ph ps fs gs :
  end_of pieces = exit_of e ->
  get_survey (A ++ e :: B) X0 Y0 Z0 th ph ps 0 false = Some fs ->
  get_survey (A ++ pieces ++ B) X0 Y0 Z0 th ph ps 0 false = Some gs ->
  (forall k, (k <= length A)%nat -> nth_error gs k = nth_error fs k)
  /\ (forall k, nth_error gs (length A + length pieces + k) = nth_error fs (length A + 1 + k)).
Proof.
  intros He Hf Hg.
  destruct (get_survey_run (A ++ e :: B) X0 Y0 Z0 th ph ps 0) as (fs' & H' & Mf).
  rewrite Hf in H'. injection H' as <-.
  destruct (get_survey_run (A ++ pieces ++ B) X0 Y0 Z0 th ph ps 0) as (gs' & H' & Mg).
  rewrite Hg in H'. injection H' as <-.
  set (P := start _ 0 _) in Mf. set (P' := start _ 0 _) in Mg. change P' with P in Mg. clearbody P. clear P'.
  assert (Q : forall i j, nth_error (map place gs) i = nth_error (map place fs) j -> nth_error gs i = nth_error fs j).
  { intros i j H. destruct (nth_error gs i) as [g|] eqn:Eg, (nth_error fs j) as [f|] eqn:Ef; try reflexivity.
    - rewrite (map_nth_error place _ _ Eg), (map_nth_error place _ _ Ef) in H. f_equal. apply place_inj.
      exact (f_equal (fun o => match o with Some x => x | None => pid end) H).
    - rewrite (map_nth_error place _ _ Eg) in H. apply nth_error_None in Ef.
      assert (N : nth_error (map place fs) j = None) by (apply nth_error_None; now rewrite map_length).
      rewrite N in H. discriminate.
    - rewrite (map_nth_error place _ _ Ef) in H. apply nth_error_None in Eg.
      assert (N : nth_error (map place gs) i = None) by (apply nth_error_None; now rewrite map_length).
      rewrite N in H. discriminate. }
  split; intros k; [intros Hk|]; apply Q; rewrite Mf, Mg.
  - rewrite !run_nth_some by (rewrite !app_length; cbn [length]; lia).
    do 2 f_equal. rewrite !firstn_app. replace (k - length A)%nat with 0%nat by lia. reflexivity.
  - destruct (Nat.le_gt_cases k (length B)) as [Hk|Hk].
    + rewrite !run_nth_some by (rewrite ?app_length; cbn [length]; rewrite ?app_length; lia). f_equal.
      rewrite !firstn_app, (firstn_all2 A) by lia.
      rewrite (firstn_all2 pieces) by lia. rewrite (firstn_all2 A) by lia.
      replace (length A + length pieces + k - length A - length pieces)%nat with k by lia.
      replace (length A + 1 + k - length A)%nat with (S k) by lia. cbn [firstn].
      rewrite !prod_app. change (e :: firstn k B) with ([e] ++ firstn k B). rewrite prod_app.
      apply (f_equal (fun X => prod false X (firstn k B))).
      rewrite prod_mul. cbn [prod fold_left]. apply f_equal. exact He.
    + transitivity (@None pose); [|symmetry]; apply nth_error_None; rewrite run_length, ?app_length;
        cbn [length]; rewrite ?app_length; lia.
Qed.

(** * The reversed survey *)
Definition half : pose := Pose (M3 (V3 (-1) 0 0) (V3 0 1 0) (V3 0 0 (-1))) (V3 0 0 0).
Lemma half_half : pmul half half = pid.
Proof. peq; cbv [half]; pcbv; ring. Qed.
Lemma rigid_half : rigid half.
Proof.
  unfold rigid, half; cbn [rotn]. split; [split|]; [apply mat_eq; apply vec_eq; mcbv; ring..|].
  cbv [det]; mcbv. ring.
Qed.
Lemma reverse_place f : place (reverse_frame f) = pmul half (pmul (place f) half).
Proof.
  destruct f as [[x1 x2 x3] [y1 y2 y3 y4 y5 y6 y7 y8 y9]]. unfold reverse_frame, half. peq; scbv; ring.
Qed.
Lemma reverse_frame_twice f : reverse_frame (reverse_frame f) = f.
Proof.
  apply place_inj. rewrite !reverse_place.
  rewrite (pmul_assoc half (pmul half _)), (pmul_assoc half half), half_half, pmul_id_l, <- pmul_assoc, half_half, pmul_id_r.
  reflexivity.
Qed.
Lemma reverse_frames_rev fs : reverse_frames fs = map reverse_frame (rev fs).
Proof. destruct fs as [|f t]; reflexivity. Qed.
Theorem reverse_frames_twice fs : reverse_frames (reverse_frames fs) = fs.
Proof.
  rewrite !reverse_frames_rev, <- map_rev, rev_involutive, map_map.
  rewrite <- (map_id fs) at 2. apply map_ext. apply reverse_frame_twice.
Qed.
Lemma reverse_s_rev s : reverse_s s = map (fun a => last s 0 - a) (rev s ++ match s with [] => [0] | _ => [] end).
Proof. destruct s as [|a s]; cbn [reverse_s tl hd rev]; [reflexivity|]. now rewrite app_nil_r. Qed.
Theorem reverse_s_twice a s : reverse_s (reverse_s (a :: s)) = map (fun b => b - a) (a :: s).
Proof.
  rewrite (reverse_s_rev (a :: s)), app_nil_r. set (L := last (a :: s) 0).
  assert (E : map (fun b => L - b) (rev (a :: s)) <> []) by (cbn [rev]; rewrite map_app; destruct (map _ (rev s)); discriminate).
  rewrite reverse_s_rev. destruct (map (fun b => L - b) (rev (a :: s))) as [|c t] eqn:Ec; [congruence|].
  rewrite app_nil_r, <- Ec.
  assert (Hl : last (map (fun b => L - b) (rev (a :: s))) 0 = L - a).
  { cbn [rev]. rewrite map_app. cbn [map]. apply last_last. }
  rewrite Hl, <- map_rev, rev_involutive, map_map. apply map_ext. intros b. ring.
Qed.

(** the reversed elements *)
Lemma tilt_half f : pmul half (pmul (tilt f) half) = tilt (- f).
Proof. unfold tilt, half. rewrite sin_neg, cos_neg. peq; pcbv; ring. Qed.
Lemma half_conj A B : pmul half (pmul (pmul A B) half) = pmul (pmul half (pmul A half)) (pmul half (pmul B half)).
Proof. rewrite <- !pmul_assoc, (pmul_assoc half half), half_half, pmul_id_l. reflexivity. Qed.

Lemma reversed_bend l a f : pmul half (pmul (pinv (bend_end l a f)) half) = bend_end l (- a) (- f).
Proof.
  rewrite bend_end_inv. unfold bend_end. rewrite !tilt_neg, !half_conj, !tilt_half.
  apply f_equal. apply (f_equal (fun X => pmul X _)).
  rewrite cos_neg, sin_neg.
  assert (Hl : - l / - a = l / a).
  { destruct (Req_dec a 0) as [->|Ha]; [|field; exact Ha]. unfold Rdiv. rewrite Ropp_0, Rinv_0. ring. }
  assert (Hl' : l / - a = - (l / a)).
  { destruct (Req_dec a 0) as [->|Ha]; [|field; exact Ha]. unfold Rdiv. rewrite Ropp_0, Rinv_0. ring. }
  rewrite Hl, Hl'. generalize (l / a). intros r. unfold half. peq; pcbv; ring.
Qed.

Lemma half_turned M : pmul half (pmul (turned M) half) = turned (mmul (rotn half) (mmul M (rotn half))).
Proof. mdestr. unfold half. peq; scbv; ring. Qed.

Lemma turn_half rx ry rs a : mmul (rotn half) (mmul (transp (turn rx ry rs a)) (rotn half)) = turn rx (- ry) rs a.
Proof.
  destruct a; cbn [turn half rotn]; rewrite ?sin_neg, ?cos_neg; apply mat_eq; apply vec_eq; mcbv; ring.
Qed.
Lemma turns_half rx ry rs l : mmul (rotn half) (mmul (transp (turns rx ry rs l)) (rotn half))
  = turns rx (- ry) rs (rev l).
Proof.
  assert (HH : mmul (rotn half) (rotn half) = ident) by exact (f_equal rotn half_half).
  induction l as [|a l IH]; cbn [turns rev].
  - now rewrite transp_ident, mmul_id_l, HH.
  - rewrite transp_mmul, turns_app, <- IH. cbn [turns]. rewrite mmul_id_l, <- turn_half.
    rewrite <- !mmul_assoc, (mmul_assoc (rotn half) (rotn half)), HH, mmul_id_l. reflexivity.
Qed.

Lemma reversed_exit e : reversible e -> pmul half (pmul (pinv (exit_of e)) half) = exit_of (reversed e).
Proof.
  intros Hr. destruct e as [l a f|s c|s c|s c|rx ry rs a1 a2 a3|dx dy|rb w|rb w|rb|rb];
    cbn [reversible] in Hr; try contradiction; cbn [exit_of reversed].
  - rewrite is0_opp. destruct (is0 a); [|apply reversed_bend].
    unfold half. peq; scbv; ring.
  - rewrite pinv_turned, half_turned. f_equal. cbn [half rotn]. apply mat_eq; apply vec_eq; mcbv; ring.
  - destruct (atan2_unit s c Hr) as [-> ->]. destruct (atan2_unit (- s) c) as [-> ->]; [lra|].
    rewrite pinv_turned, half_turned. f_equal. cbn [half rotn]. apply mat_eq; apply vec_eq; mcbv; ring.
  - rewrite pinv_turned, half_turned. f_equal. cbn [half rotn]. apply mat_eq; apply vec_eq; mcbv; ring.
  - rewrite pinv_turned, half_turned, turns_half. reflexivity.
  - unfold half. peq; scbv; ring.
Qed.

Theorem survey_reverse els X0 Y0 Z0 th ph ps i fs X1 Y1 Z1 th1 ph1 ps1 fl :
  Forall reversible els ->
  get_survey els X0 Y0 Z0 th ph ps i false = Some fs ->
  nth_error fs (length els) = Some fl ->
  reverse_frame fl = Frame (A3 X1 Y1 Z1) (get_E_from_angles th1 ph1 ps1) ->
  get_survey (rev (map reversed els)) X1 Y1 Z1 th1 ph1 ps1 0 false = Some (reverse_frames fs).
Proof.
  intros Hr H Hl Hf. destruct (get_survey_run els X0 Y0 Z0 th ph ps i) as (fs' & H' & M).
  rewrite H in H'. injection H' as <-.
  destruct (get_survey_run (rev (map reversed els)) X1 Y1 Z1 th1 ph1 ps1 0) as (gs & Hg & Mg).
  rewrite Hg. f_equal. apply map_place_inj. rewrite Mg, reverse_frames_rev, map_map.
  rewrite (map_ext _ (fun f => pmul half (pmul (place f) half))) by apply reverse_place.
  rewrite <- (map_map place (fun P => pmul half (pmul P half))), map_rev, M.
  set (P := start els i _) in *. clearbody P.
  unfold start. cbn [firstn prod fold_left]. rewrite pinv_pid, pmul_id_r.
  fold (frame0 X1 Y1 Z1 th1 ph1 ps1) in Hf. rewrite <- Hf, reverse_place.
  pose proof (map_nth_error place _ _ Hl) as N. rewrite M in N. apply run_nth in N. rewrite N, firstn_all.
  change false with (negb true) at 2. clear - Hr.
  revert P. induction els as [|e els IH] using rev_ind; intros P.
  - reflexivity.
  - apply Forall_app in Hr. destruct Hr as [Hr He]. inversion He as [|? ? He' _]; subst.
    rewrite map_app, rev_app_distr, run_snoc, rev_app_distr, prod_app. cbn [map rev List.app run prod fold_left].
    f_equal. fold (prod false P els). rewrite <- (IH Hr). f_equal.
    change (moves (reversed e) false) with (exit_of (reversed e)). rewrite <- (reversed_exit e He').
    change (moves e false) with (exit_of e).
    rewrite <- !pmul_assoc, (pmul_assoc half half), half_half, pmul_id_l.
    rewrite (pmul_assoc (exit_of e)), pinv_r, pmul_id_l by apply rigid_exit. reflexivity.
Qed.
