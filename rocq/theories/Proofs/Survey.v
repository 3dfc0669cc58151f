From Coq Require Import Reals ZArith Lra Lia List Bool.
From Verif.Model Require Import Maps Curved Survey.
From Verif.Spec Require Import Frames Poses Survey.
From Verif.Proofs Require Import Frames FrameMaps Misalign Curved.
Import ListNotations.
Local Open Scope R_scope.

(** * Frames and poses *)
Ltac scbv := cbv [place arr_mat arr_vec dot_v dot_m add_v f_v f_w advance_bend advance_rotation
  advance_drift a0 a1 a2 w00 w01 w02 w10 w11 w12 w20 w21 w22 turned shifted straight tilt]; pcbv.
Ltac peq := apply pose_eq; [apply mat_eq|]; apply vec_eq.

Lemma place_inj f g : place f = place g -> f = g.
Proof.
  destruct f as [[x1 x2 x3] [y1 y2 y3 y4 y5 y6 y7 y8 y9]],
    g as [[z1 z2 z3] [t1 t2 t3 t4 t5 t6 t7 t8 t9]]. cbv [place arr_mat arr_vec a0 a1 a2 f_v f_w
    w00 w01 w02 w10 w11 w12 w20 w21 w22]. intros H. injection H. intros; subst. reflexivity.
Qed.

Lemma rigid_turned M : proper M -> rigid (turned M).
Proof. intros H. now apply proper_transp. Qed.
Lemma proper_ident : proper ident.
Proof. split; [apply orth_ident|]. cbv [det]; mcbv. ring. Qed.
Lemma rigid_pid : rigid pid.
Proof. exact proper_ident. Qed.
Lemma rigid_straight l : rigid (straight l).
Proof. exact proper_ident. Qed.
Lemma rigid_shifted a b : rigid (shifted a b).
Proof. exact proper_ident. Qed.

Lemma proper_turn rx ry rs a : proper (turn rx ry rs a).
Proof. destruct a; cbn; [apply proper_Rot_x|apply proper_Rot_y|apply proper_Rot_s]; apply sc1. Qed.
Lemma proper_turns rx ry rs l : proper (turns rx ry rs l).
Proof.
  induction l as [|a l IH]; cbn [turns]; [exact proper_ident|].
  apply proper_mmul; [exact IH|apply proper_turn].
Qed.

Lemma rigid_bend_end l a f : rigid (bend_end l a f).
Proof.
  unfold bend_end. apply rigid_mul; [apply rigid_tilt|]. apply rigid_mul; [|apply rigid_inv, rigid_tilt].
  unfold rigid; cbn [rotn]. change (proper (Rot_y (sin a) (cos a))). apply proper_Rot_y, sc1.
Qed.

Lemma bend_end_inv l a f : pinv (bend_end l a f) = bend_end (- l) (- a) f.
Proof.
  symmetry. apply pinv_unique; [apply rigid_bend_end|].
  unfold bend_end. rewrite cos_neg, sin_neg.
  set (A := Pose (M3 (V3 (cos a) 0 (- sin a)) _ _) _).
  set (B := Pose (M3 (V3 (cos a) 0 (- - sin a)) _ _) _).
  rewrite <- !pmul_assoc, (pmul_assoc (pinv (tilt f)) (tilt f)), pinv_l, pmul_id_l by apply rigid_tilt.
  rewrite (pmul_assoc A B).
  assert (H : pmul A B = pid).
  { pose proof (sc1 a) as E. unfold A, B.
    assert (Hl : - l / - a = l / a).
    { destruct (Req_dec a 0) as [->|Ha]; [|field; exact Ha].
      unfold Rdiv. rewrite Ropp_0, Rinv_0. ring. }
    rewrite Hl. set (h := l / a). clearbody h. set (c := cos a) in *. set (s := sin a) in *. clearbody c s.
    assert (E' : c * c = 1 - s * s) by lra. peq; pcbv; ring [E']. }
  rewrite H, pmul_id_l. apply pinv_r, rigid_tilt.
Qed.

Lemma bend_end_0 l a : bend_end l a 0
  = Pose (M3 (V3 (cos a) 0 (- sin a)) (V3 0 1 0) (V3 (sin a) 0 (cos a)))
         (V3 (l / a * (cos a - 1)) 0 (l / a * sin a)).
Proof. unfold bend_end, tilt. rewrite sin_0, cos_0. peq; pcbv; ring. Qed.

(** * Advancing *)
Lemma plain_0 : is0 0 = true.
Proof. unfold is0. destruct (Req_EM_T 0 0); [reflexivity|congruence]. Qed.

Lemma adv_shift f x y : exists g,
  advance_element f 0 0 0 x y 0 0 0 = Some g /\ place g = pmul (place f) (shifted x y).
Proof.
  unfold advance_element. rewrite plain_0. cbn [negb andb].
  destruct (negb (is0 x) || negb (is0 y)) eqn:E.
  - eexists. split; [reflexivity|]. destruct f as [v w]. peq; scbv; ring.
  - apply orb_false_iff in E. destruct E as [E1 E2].
    apply negb_false_iff, is0_true in E1. apply negb_false_iff, is0_true in E2. subst.
    eexists. split; [reflexivity|]. destruct f as [v w]. peq; scbv; ring.
Qed.

Lemma stay f : place f = pmul (place f) pid.
Proof. symmetry. apply pmul_id_r. Qed.

Lemma adv_none f : exists g, advance_element f 0 0 0 0 0 0 0 0 = Some g /\ place g = place f.
Proof.
  unfold advance_element. rewrite plain_0. cbn [negb andb orb].
  eexists. split; [reflexivity|]. destruct f as [v w]. peq; scbv; ring.
Qed.

Lemma turned_id M : M = ident -> turned M = pid.
Proof. intros ->. unfold turned. rewrite transp_ident. reflexivity. Qed.

Lemma adv_x f r : exists g, advance_element f 0 0 0 0 0 r 0 0 = Some g
  /\ place g = pmul (place f) (turned (Rot_x (sin r) (cos r))).
Proof.
  destruct (is0 r) eqn:E.
  - apply is0_true in E. subst r. destruct (adv_none f) as (g & H & P). exists g.
    split; [exact H|]. rewrite P, sin_0, cos_0, turned_id, pmul_id_r by (apply mat_eq; apply vec_eq; mcbv; ring).
    reflexivity.
  - unfold advance_element. rewrite plain_0, E. cbn [negb andb orb].
    eexists. split; [reflexivity|]. destruct f as [v w]. rewrite cos_neg, sin_neg. peq; scbv; ring.
Qed.
Lemma adv_y f r : exists g, advance_element f 0 0 0 0 0 0 r 0 = Some g
  /\ place g = pmul (place f) (turned (Rot_y (- sin r) (cos r))).
Proof.
  destruct (is0 r) eqn:E.
  - apply is0_true in E. subst r. destruct (adv_none f) as (g & H & P). exists g.
    split; [exact H|]. rewrite P, sin_0, cos_0, turned_id, pmul_id_r by (apply mat_eq; apply vec_eq; mcbv; ring).
    reflexivity.
  - unfold advance_element. rewrite plain_0, E. cbn [negb andb orb].
    eexists. split; [reflexivity|]. destruct f as [v w]. peq; scbv; ring.
Qed.
Lemma adv_s f r : exists g, advance_element f 0 0 0 0 0 0 0 r = Some g
  /\ place g = pmul (place f) (turned (Rot_s (sin r) (cos r))).
Proof.
  destruct (is0 r) eqn:E.
  - apply is0_true in E. subst r. destruct (adv_none f) as (g & H & P). exists g.
    split; [exact H|]. rewrite P, sin_0, cos_0, turned_id, pmul_id_r by (apply mat_eq; apply vec_eq; mcbv; ring).
    reflexivity.
  - unfold advance_element. rewrite plain_0, E. cbn [negb andb orb].
    eexists. split; [reflexivity|]. destruct f as [v w]. peq; scbv; ring.
Qed.

Lemma adv_len f l t : exists g, advance_element f l 0 t 0 0 0 0 0 = Some g
  /\ place g = pmul (place f) (straight l).
Proof.
  unfold advance_element. rewrite plain_0. cbn [negb andb orb].
  eexists. split; [reflexivity|]. destruct f as [v w]. peq; scbv; ring.
Qed.

Lemma adv_bend f l a t : is0 a = false -> exists g, advance_element f l a t 0 0 0 0 0 = Some g
  /\ place g = pmul (place f) (bend_end l a t).
Proof.
  intros E. unfold advance_element. rewrite plain_0, E. cbn [negb andb orb].
  destruct (is0 t) eqn:Et.
  - apply is0_true in Et. subst t. eexists. split; [reflexivity|]. rewrite bend_end_0.
    generalize (l / a). intros h. destruct f as [v w]. peq; scbv; ring.
  - eexists. split; [reflexivity|]. unfold bend_end.
    generalize (l / a). intros h. destruct f as [v w]. peq; scbv; ring.
Qed.

Lemma bend_end_none t : bend_end 0 0 t = pid.
Proof.
  unfold bend_end, tilt. rewrite sin_0, cos_0. unfold Rdiv. rewrite !Rmult_0_l.
  pose proof (sc1 t) as E. assert (E' : cos t * cos t = 1 - sin t * sin t) by lra.
  set (c := cos t) in *. set (s := sin t) in *. clearbody c s. peq; pcbv; ring [E'].
Qed.
Lemma adv_kink f a t : exists g, advance_element f 0 a t 0 0 0 0 0 = Some g
  /\ place g = pmul (place f) (bend_end 0 a t).
Proof.
  destruct (is0 a) eqn:E; [|now apply adv_bend].
  apply is0_true in E. subst a. destruct (adv_len f 0 t) as (g & H & P). exists g. split; [exact H|].
  rewrite P, bend_end_none. f_equal.
Qed.

(** * Elements *)
Lemma pmul_turned A B : pmul (turned A) (turned B) = turned (mmul B A).
Proof.
  unfold pmul, turned. cbn [rotn orig]. rewrite transp_mmul. f_equal.
  rewrite app_0. apply vadd_0_l.
Qed.
Lemma rotate_place fb rx ry rs f a : exists g, rotate_frame fb rx ry rs (Some f) a = Some g
  /\ place g = pmul (place f) (turned (turn (fb * rx) (fb * ry) (fb * rs) a)).
Proof.
  destruct a; cbn [rotate_frame turn]; rewrite ?Rmult_0_r, ?Ropp_0.
  - apply adv_x.
  - destruct (adv_y f (- fb * ry)) as (g & H & P). exists g. split; [exact H|].
    rewrite P. replace (- fb * ry) with (- (fb * ry)) by ring. rewrite sin_neg, cos_neg, Ropp_involutive.
    reflexivity.
  - apply adv_s.
Qed.
Lemma rotates_place fb rx ry rs l : forall f, exists g, fold_left (rotate_frame fb rx ry rs) l (Some f) = Some g
  /\ place g = pmul (place f) (turned (turns (fb * rx) (fb * ry) (fb * rs) l)).
Proof.
  induction l as [|a l IH]; intros f; cbn [fold_left turns].
  - exists f. split; [reflexivity|]. rewrite turned_id, pmul_id_r by reflexivity. reflexivity.
  - destruct (rotate_place fb rx ry rs f a) as (g & -> & P). destruct (IH g) as (g' & H & P').
    exists g'. split; [exact H|]. rewrite P', P, <- pmul_assoc, pmul_turned. reflexivity.
Qed.
Lemma turns_app rx ry rs l l' :
  turns rx ry rs (l ++ l') = mmul (turns rx ry rs l') (turns rx ry rs l).
Proof.
  induction l as [|a l IH]; cbn [turns List.app]; [now rewrite mmul_id_r|].
  rewrite IH, mmul_assoc. reflexivity.
Qed.
Lemma turn_neg rx ry rs a : turn (- rx) (- ry) (- rs) a = transp (turn rx ry rs a).
Proof. destruct a; cbn [turn]; rewrite sin_neg, cos_neg, ?transp_Rot_x, ?transp_Rot_y, ?transp_Rot_s; reflexivity. Qed.
Lemma turns_neg rx ry rs l : turns (- rx) (- ry) (- rs) (rev l) = transp (turns rx ry rs l).
Proof.
  induction l as [|a l IH]; cbn [rev turns]; [now rewrite transp_ident|].
  rewrite turns_app, IH. cbn [turns]. rewrite mmul_id_l, turn_neg, transp_mmul. reflexivity.
Qed.
Lemma pinv_turned M : pinv (turned M) = turned (transp M).
Proof. unfold pinv, turned. cbn [rotn orig]. f_equal. rewrite app_0. apply vec_eq; cbn; ring. Qed.
Lemma pinv_straight l : pinv (straight l) = straight (- l).
Proof. peq; scbv; ring. Qed.
Lemma pinv_shifted a b : pinv (shifted a b) = shifted (- a) (- b).
Proof. peq; scbv; ring. Qed.
Lemma pinv_pid : pinv pid = pid.
Proof. peq; scbv; ring. Qed.

Lemma rigid_exit e : rigid (exit_of e).
Proof.
  destruct e; cbn [exit_of];
    repeat match goal with |- rigid (if ?b then _ else _) => destruct b
    | |- rigid (pmul _ _) => apply rigid_mul end;
    auto using rigid_straight, rigid_bend_end, rigid_shifted, rigid_pid;
    apply rigid_turned; try apply proper_turns;
    (apply proper_Rot_x || apply proper_Rot_y || apply proper_Rot_s); apply sc1.
Qed.

(** the element moves the frame by [exit_of], and back *)
Definition moves (e : selem) (b : bool) : pose := if b then pinv (exit_of e) else exit_of e.

Lemma bind_some {A B} (o : option A) (k : A -> option B) a : o = Some a -> bind o k = k a.
Proof. now intros ->. Qed.

Lemma is0_opp a : is0 (- a) = is0 a.
Proof. unfold is0. destruct (Req_EM_T (- a) 0), (Req_EM_T a 0); try reflexivity; exfalso; lra. Qed.

Lemma adv_other f (b : bool) l a t : exists g,
  advance_element f (if b then - l else l) (if b then - a else a) t 0 0 0 0 0 = Some g
  /\ place g = pmul (place f) (if b then pinv (if is0 a then straight l else bend_end l a t)
                               else (if is0 a then straight l else bend_end l a t)).
Proof.
  destruct (is0 a) eqn:E.
  - apply is0_true in E. subst a. destruct b.
    + rewrite Ropp_0, pinv_straight. apply adv_len.
    + apply adv_len.
  - destruct b.
    + rewrite bend_end_inv. apply adv_bend. now rewrite is0_opp.
    + now apply adv_bend.
Qed.

Lemma Rot_neg_x r : Rot_x (sin (- r)) (cos (- r)) = transp (Rot_x (sin r) (cos r)).
Proof. now rewrite sin_neg, cos_neg, transp_Rot_x. Qed.
Lemma Rot_neg_s r : Rot_s (sin (- r)) (cos (- r)) = transp (Rot_s (sin r) (cos r)).
Proof. now rewrite sin_neg, cos_neg, transp_Rot_s. Qed.

Lemma propagate_place b e f : exists g,
  propagate b e f = Some g /\ place g = pmul (place f) (moves e b).
Proof.
  assert (Fb : forall r, (if b then -1 else 1) * r = (if b then - r else r)) by (intros; destruct b; ring).
  destruct e as [l a t|s c|s c|s c|rx ry rs a1 a2 a3|dx dy|rb w|rb w|rb|rb];
    cbn [propagate]; unfold moves; cbn [exit_of].
  - apply adv_other.
  - rewrite !Rmult_0_r, !Fb. destruct (adv_x f (if b then - atan2 s c else atan2 s c)) as (g & H & P).
    exists g. split; [exact H|]. rewrite P. destruct b; [|reflexivity]. now rewrite pinv_turned, Rot_neg_x.
  - rewrite !Rmult_0_r. replace (- (if b then -1 else 1) * atan2 s c) with (if b then atan2 s c else - atan2 s c)
      by (destruct b; ring).
    destruct (adv_y f (if b then atan2 s c else - atan2 s c)) as (g & H & P).
    exists g. split; [exact H|]. rewrite P. destruct b.
    + now rewrite pinv_turned, transp_Rot_y.
    + now rewrite sin_neg, cos_neg, Ropp_involutive.
  - rewrite !Rmult_0_r, !Fb. destruct (adv_s f (if b then - atan2 s c else atan2 s c)) as (g & H & P).
    exists g. split; [exact H|]. rewrite P. destruct b; [|reflexivity]. now rewrite pinv_turned, Rot_neg_s.
  - destruct b.
    + destruct (rotates_place (-1) rx ry rs [a3; a2; a1] f) as (g & H & P). exists g. split; [exact H|].
      rewrite P, pinv_turned, <- turns_neg. cbn [rev List.app].
      now replace (-1 * rx) with (- rx) by ring; replace (-1 * ry) with (- ry) by ring;
        replace (-1 * rs) with (- rs) by ring.
    + destruct (rotates_place 1 rx ry rs [a1; a2; a3] f) as (g & H & P). exists g. split; [exact H|].
      rewrite P, !Rmult_1_l. reflexivity.
  - rewrite !Fb. destruct b; [rewrite pinv_shifted|]; apply adv_shift.
  - destruct (rb_straight_body rb).
    + destruct (adv_other f b (rb_length_straight rb * w) 0 (rb_tilt rb)) as (g & H & P).
      exists g. split; [exact H|]. rewrite P, plain_0. reflexivity.
    + apply adv_other.
  - destruct (adv_other f b ((if rb_straight_body rb then rb_length_straight rb else rb_length rb) * w) 0 0)
      as (g & H & P).
    exists g. split; [rewrite <- H; f_equal; destruct b; ring|]. rewrite P, plain_0. reflexivity.
  - destruct (rb_straight_body rb).
    2:{ exists f. split; [reflexivity|]. destruct b; rewrite ?pinv_pid, pmul_id_r; reflexivity. }
    destruct b.
    + rewrite pinv_mul, bend_end_inv, Ropp_0 by (destruct (bends rb); auto using rigid_bend_end, rigid_shifted, rigid_pid).
      destruct (bends rb).
      * destruct (adv_shift f (rb_x0_in rb * cos (rb_tilt rb)) (rb_x0_in rb * sin (rb_tilt rb))) as (g & H & P).
        rewrite (bind_some _ _ _ H). destruct (adv_kink g (- rb_angle_in rb) (rb_tilt rb)) as (g' & H' & P').
        exists g'. split; [exact H'|]. rewrite P', P, pmul_assoc, pinv_shifted. do 3 f_equal; ring.
      * rewrite pinv_pid, pmul_id_l. apply adv_kink.
    + destruct (adv_kink f (rb_angle_in rb) (rb_tilt rb)) as (g & H & P).
      rewrite (bind_some _ _ _ H). destruct (bends rb).
      * destruct (adv_shift g (- rb_x0_in rb * cos (rb_tilt rb)) (- rb_x0_in rb * sin (rb_tilt rb))) as (g' & H' & P').
        exists g'. split; [exact H'|]. rewrite P', P, pmul_assoc. reflexivity.
      * exists g. split; [reflexivity|]. now rewrite pmul_id_r.
  - destruct (rb_straight_body rb).
    2:{ exists f. split; [reflexivity|]. destruct b; rewrite ?pinv_pid, pmul_id_r; reflexivity. }
    destruct b.
    + rewrite pinv_mul, bend_end_inv, Ropp_0 by (destruct (bends rb); auto using rigid_bend_end, rigid_shifted, rigid_pid).
      destruct (adv_kink f (- rb_angle_out rb) (rb_tilt rb)) as (g & H & P).
      rewrite (bind_some _ _ _ H). destruct (bends rb).
      * destruct (adv_shift g (- rb_x0_out rb * cos (rb_tilt rb)) (- rb_x0_out rb * sin (rb_tilt rb))) as (g' & H' & P').
        exists g'. split; [exact H'|]. rewrite P', P, pmul_assoc, pinv_shifted. do 2 f_equal; ring.
      * exists g. split; [reflexivity|]. now rewrite pinv_pid, pmul_id_r.
    + destruct (bends rb).
      * destruct (adv_shift f (rb_x0_out rb * cos (rb_tilt rb)) (rb_x0_out rb * sin (rb_tilt rb))) as (g & H & P).
        rewrite (bind_some _ _ _ H). destruct (adv_kink g (rb_angle_out rb) (rb_tilt rb)) as (g' & H' & P').
        exists g'. split; [exact H'|]. rewrite P', P, pmul_assoc. reflexivity.
      * rewrite pmul_id_l. apply adv_kink.
Qed.

(** * The survey *)
(** the poses met from [P] on *)
Fixpoint run (b : bool) (P : pose) (els : list selem) : list pose :=
  match els with [] => [P] | e :: els => P :: run b (pmul P (moves e b)) els end.
Definition prod (b : bool) (P : pose) (els : list selem) : pose :=
  fold_left (fun P e => pmul P (moves e b)) els P.

Lemma rigid_moves e b : rigid (moves e b).
Proof. destruct b; cbn [moves]; [apply rigid_inv|]; apply rigid_exit. Qed.

Lemma loop_run b els : forall f, exists fs,
  survey_loop b els f = Some fs /\ map place fs = run b (place f) els.
Proof.
  induction els as [|e els IH]; intros f; cbn [survey_loop run].
  - exists [f]. split; reflexivity.
  - destruct (propagate_place b e f) as (g & H & P). rewrite (bind_some _ _ _ H).
    destruct (IH g) as (fs & -> & M). exists (f :: fs). split; [reflexivity|].
    cbn [map]. now rewrite M, P.
Qed.

Lemma run_length b els P : length (run b P els) = S (length els).
Proof. revert P. induction els as [|e els IH]; intros P; cbn [run length]; [reflexivity|]. now rewrite IH. Qed.
Lemma run_app b A : forall B P, run b P (A ++ B) = removelast (run b P A) ++ run b (prod b P A) B.
Proof.
  induction A as [|e A IH]; intros B P; cbn [run prod fold_left List.app].
  - reflexivity.
  - rewrite IH. change (P :: run b (pmul P (moves e b)) A) with ([P] ++ run b (pmul P (moves e b)) A).
    rewrite removelast_app; [reflexivity|]. destruct A; discriminate.
Qed.
Lemma run_snoc b A e P : run b P (A ++ [e]) = run b P A ++ [pmul (prod b P A) (moves e b)].
Proof.
  revert P. induction A as [|e' A IH]; intros P; cbn [run prod fold_left List.app]; [reflexivity|].
  now rewrite IH.
Qed.
Lemma prod_app b A B P : prod b P (A ++ B) = prod b (prod b P A) B.
Proof. apply fold_left_app. Qed.
Lemma prod_mul b els : forall P, prod b P els = pmul P (prod b pid els).
Proof.
  unfold prod. induction els as [|e els IH]; intros P; cbn [fold_left].
  - symmetry. apply pmul_id_r.
  - rewrite IH, (IH (pmul pid _)), pmul_id_l, pmul_assoc. reflexivity.
Qed.
Lemma rigid_prod b els : rigid (prod b pid els).
Proof.
  unfold prod. assert (H : forall P, rigid P -> rigid (fold_left (fun P e => pmul P (moves e b)) els P)).
  { induction els as [|e els IH]; intros P HP; cbn [fold_left]; [exact HP|].
    apply IH, rigid_mul; [exact HP|apply rigid_moves]. }
  apply H, rigid_pid.
Qed.
Lemma moves_neg e b : moves e (negb b) = pinv (moves e b).
Proof. destruct b; cbn [moves negb]; [|reflexivity]. symmetry. apply pinv_pinv, rigid_exit. Qed.

(** surveying back the elements passed gives the same frames in the opposite order *)
Lemma run_back b A : forall P, run (negb b) (prod b P A) (rev A) = rev (run b P A).
Proof.
  induction A as [|e A IH] using rev_ind; intros P; [reflexivity|].
  rewrite rev_app_distr, prod_app. cbn [rev List.app prod fold_left run].
  rewrite run_snoc, rev_app_distr. cbn [rev List.app]. f_equal.
  fold (prod b P A). rewrite moves_neg, <- pmul_assoc, pinv_r, pmul_id_r by apply rigid_moves. apply IH.
Qed.

Lemma removelast_map {A B} (f : A -> B) l : removelast (map f l) = map f (removelast l).
Proof.
  induction l as [|a l IH]; [reflexivity|]. cbn [map removelast].
  destruct l as [|a' l]; [reflexivity|]. cbn [map] in *. now rewrite IH.
Qed.

(** the start of the line, from the frame at the element [i] *)
Definition start (els : list selem) (i : nat) (P : pose) : pose :=
  pmul P (pinv (prod false pid (firstn i els))).
Definition frame0 (X0 Y0 Z0 th ph ps : R) : frame := Frame (A3 X0 Y0 Z0) (get_E_from_angles th ph ps).

Lemma get_survey_run els X0 Y0 Z0 th ph ps i : exists fs,
  get_survey els X0 Y0 Z0 th ph ps i false = Some fs
  /\ map place fs = run false (start els i (place (frame0 X0 Y0 Z0 th ph ps))) els.
Proof.
  unfold get_survey. fold (frame0 X0 Y0 Z0 th ph ps). set (f0 := frame0 _ _ _ _ _ _).
  unfold start. destruct i as [|i].
  - destruct (loop_run false els f0) as (fs & H & M). exists fs. split; [exact H|].
    rewrite M. cbn [firstn prod fold_left]. now rewrite pinv_pid, pmul_id_r.
  - set (n := S i). destruct (loop_run false (skipn n els) f0) as (fw & -> & Mf). cbn [bind].
    cbn [negb]. destruct (loop_run true (rev (firstn n els)) f0) as (bw & -> & Mb). cbn [bind].
    eexists. split; [reflexivity|].
    rewrite map_app, Mf, <- removelast_map, map_rev, Mb.
    set (P := pmul (place f0) (pinv (prod false pid (firstn n els)))).
    assert (E : place f0 = prod false P (firstn n els)).
    { rewrite prod_mul. unfold P. rewrite <- pmul_assoc, pinv_l, pmul_id_r by apply rigid_prod. reflexivity. }
    rewrite E at 1 2. change true with (negb false). rewrite run_back, rev_involutive.
    rewrite <- run_app, firstn_skipn. reflexivity.
Qed.

Lemma E_attitude th ph ps : arr_mat (get_E_from_angles th ph ps) = transp (attitude th ph ps 0).
Proof.
  unfold attitude. rewrite sin_0, cos_0. apply mat_eq; apply vec_eq;
    cbv [arr_mat get_E_from_angles w00 w01 w02 w10 w11 w12 w20 w21 w22]; mcbv; ring.
Qed.
Lemma rigid_frame0 X0 Y0 Z0 th ph ps : rigid (place (frame0 X0 Y0 Z0 th ph ps)).
Proof. unfold rigid, place; cbn [rotn frame0 f_w]. rewrite E_attitude. apply proper_transp, proper_attitude. Qed.

Lemma run_rigid b els : forall P, rigid P -> Forall rigid (run b P els).
Proof.
  induction els as [|e els IH]; intros P HP; cbn [run]; constructor; auto.
  apply IH, rigid_mul; [exact HP|apply rigid_moves].
Qed.
Lemma orthonormal_place f : rigid (place f) <-> orthonormal f.
Proof.
  destruct f as [[v1 v2 v3] [a b c d e g h i j]]. unfold rigid, proper, orthogonal, orthonormal.
  cbv [place rotn arr_mat f_w f_v ex ey ez w00 w01 w02 w10 w11 w12 w20 w21 w22]. split.
  - intros H. pose proof (proper_adj _ H) as HA. destruct H as [[O1 _] _].
    pose proof (fun F : mat -> R => f_equal F O1) as Q. clear O1.
    pose proof (Q (fun m => v_x (m_x m))) as Q1. pose proof (Q (fun m => v_y (m_y m))) as Q2.
    pose proof (Q (fun m => v_z (m_z m))) as Q3. pose proof (Q (fun m => v_y (m_x m))) as Q4.
    pose proof (Q (fun m => v_z (m_y m))) as Q5. pose proof (Q (fun m => v_x (m_z m))) as Q6.
    pose proof (fun F : mat -> R => f_equal F HA) as K.
    pose proof (K (fun m => v_x (m_z m))) as K1. pose proof (K (fun m => v_y (m_z m))) as K2.
    pose proof (K (fun m => v_z (m_z m))) as K3. clear K HA Q.
    revert Q1 Q2 Q3 Q4 Q5 Q6 K1 K2 K3. cbv [adj cross dot]; mcbv. intros.
    repeat split; try lra. f_equal; lra.
  - intros (H1 & H2 & H3 & H4 & H5 & H6 & H7). injection H7 as K1 K2 K3.
    revert H1 H2 H3 H4 H5 H6 K1 K2 K3. mcbv. intros H1 H2 H3 H4 H5 H6 K1 K2 K3.
    assert (D : det (M3 (V3 a b c) (V3 d e g) (V3 h i j)) = 1).
    { cbv [det m_x m_y m_z v_x v_y v_z]. rewrite <- H3, <- K1, <- K2, <- K3. ring. }
    assert (O : mmul (transp (M3 (V3 a b c) (V3 d e g) (V3 h i j))) (M3 (V3 a b c) (V3 d e g) (V3 h i j)) = ident).
    { apply mat_eq; apply vec_eq; mcbv; lra. }
    split; [|exact D]. split; [exact O|].
    pose proof (adj_mmul _ D) as A.
    set (M := M3 (V3 a b c) (V3 d e g) (V3 h i j)) in *.
    (* a left inverse of a matrix of determinant one is its adjugate, which is a right inverse *)
    assert (AR : mmul M (adj M) = ident).
    { unfold M in *. cbv [det m_x m_y m_z v_x v_y v_z] in D.
      apply mat_eq; apply vec_eq; cbv [adj]; mcbv; lra. }
    assert (T : transp M = adj M).
    { rewrite <- (mmul_id_r (transp M)), <- AR, mmul_assoc, O, mmul_id_l. reflexivity. }
    change (mmul M (transp M) = ident). rewrite T. exact AR.
Qed.

Theorem survey_orthonormal els X0 Y0 Z0 th ph ps i fs :
  get_survey els X0 Y0 Z0 th ph ps i false = Some fs -> Forall orthonormal fs.
Proof.
  intros H. destruct (get_survey_run els X0 Y0 Z0 th ph ps i) as (fs' & H' & M).
  rewrite H in H'. injection H' as <-.
  assert (F : Forall rigid (map place fs)).
  { rewrite M. apply run_rigid, rigid_mul; [apply rigid_frame0|apply rigid_inv, rigid_prod]. }
  rewrite Forall_map in F. revert F. apply Forall_impl. intros f. apply orthonormal_place.
Qed.
Theorem survey_total els X0 Y0 Z0 th ph ps i : exists fs,
  get_survey els X0 Y0 Z0 th ph ps i false = Some fs /\ length fs = S (length els).
Proof.
  destruct (get_survey_run els X0 Y0 Z0 th ph ps i) as (fs & H & M). exists fs. split; [exact H|].
  rewrite <- (map_length place), M. apply run_length.
Qed.

(** consecutive frames *)
Lemma run_head b P els : nth_error (run b P els) 0 = Some P.
Proof. destruct els; reflexivity. Qed.
Lemma run_step b els : forall P k e A B, nth_error els k = Some e ->
  nth_error (run b P els) k = Some A -> nth_error (run b P els) (S k) = Some B ->
  B = pmul A (moves e b).
Proof.
  induction els as [|e' els IH]; intros P k e A B He HA HB; [destruct k; discriminate|].
  destruct k as [|k]; cbn [run] in *.
  - cbn [nth_error] in *. injection He as ->. injection HA as ->. 
    destruct els; cbn [run] in HB; now injection HB as <-.
  - cbn [nth_error] in He, HA, HB. exact (IH _ _ _ _ _ He HA HB).
Qed.
Lemma run_nth b els : forall P k A, nth_error (run b P els) k = Some A -> A = prod b P (firstn k els).
Proof.
  induction els as [|e els IH]; intros P k A H.
  - destruct k as [|[|k]]; cbn in H; try discriminate. now injection H as <-.
  - destruct k as [|k]; cbn [run nth_error] in H; [now injection H as <-|].
    cbn [firstn prod fold_left]. exact (IH _ _ _ H).
Qed.
Theorem survey_steps els X0 Y0 Z0 th ph ps i fs k e f g :
  get_survey els X0 Y0 Z0 th ph ps i false = Some fs -> nth_error els k = Some e ->
  nth_error fs k = Some f -> nth_error fs (S k) = Some g -> place g = pmul (place f) (exit_of e).
Proof.
  intros H He Hf Hg. destruct (get_survey_run els X0 Y0 Z0 th ph ps i) as (fs' & H' & M).
  rewrite H in H'. injection H' as <-.
  refine (run_step false els _ k e _ _ He _ _); rewrite <- M; apply map_nth_error; assumption.
Qed.

Lemma map_place_inj fs gs : map place fs = map place gs -> fs = gs.
Proof.
  revert gs. induction fs as [|f fs IH]; intros [|g gs] H; try discriminate; [reflexivity|].
  f_equal; [exact (place_inj f g (f_equal (hd pid) H))|exact (IH gs (f_equal (@tl pose) H))].
Qed.

Theorem survey_at els X0 Y0 Z0 th ph ps i fs : (i <= length els)%nat ->
  get_survey els X0 Y0 Z0 th ph ps i false = Some fs ->
  nth_error fs i = Some (Frame (A3 X0 Y0 Z0) (get_E_from_angles th ph ps)).
Proof.
  intros Hi H. destruct (get_survey_run els X0 Y0 Z0 th ph ps i) as (fs' & H' & M).
  rewrite H in H'. injection H' as <-.
  destruct (nth_error fs i) as [f|] eqn:E.
  - f_equal. apply place_inj. pose proof (map_nth_error place _ _ E) as N. rewrite M in N.
    apply run_nth in N. rewrite N, prod_mul. unfold start.
    rewrite <- pmul_assoc, pinv_l, pmul_id_r by apply rigid_prod. reflexivity.
  - exfalso. apply nth_error_None in E. rewrite <- (map_length place), M, run_length in E. lia.
Qed.

(** * Restarting *)
Lemma psi_get f : orthonormal f -> w11 (f_w f) <> 0 ->
  get_E_from_angles (get_theta (f_w f)) (get_phi (f_w f)) (get_psi (f_w f)) = f_w f.
Proof.
  intros Ho Hw. apply orthonormal_place in Ho. destruct f as [v [a b c d e g h i j]].
  unfold rigid, place in Ho; cbn [rotn f_w] in Ho. cbn [f_w w11] in *.
  unfold get_theta, get_phi, get_psi; cbn [w00 w01 w02 w10 w11 w12 w20 w21 w22].
  cbv [arr_mat w00 w01 w02 w10 w11 w12 w20 w21 w22] in Ho.
  assert (Hc : j <> 0 \/ c <> 0).
  { pose proof Ho as [[O1 O2] _].
    assert (A := f_equal (fun m => v_z (m_z m)) O1). assert (B := f_equal (fun m => v_y (m_y m)) O2).
    revert A B. mcbv. intros A B. destruct (Req_dec j 0) as [->|]; [|now left]. right. intros ->. nra. }
  destruct (extract_gen a b c d e g h i j Ho Hc) as (E & _).
  assert (P : e / cos (atan2 d e) = sqrt (d * d + e * e)).
  { destruct (atan2_spec d e (or_introl Hw)) as (Hr & -> & _).
    replace (d * d + e * e) with (e * e + d * d) by ring. field. split; [lra|exact Hw]. }
  rewrite P.
  assert (Q : forall x y, arr_mat x = arr_mat y -> x = y).
  { intros x y Hxy. assert (place (Frame v x) = place (Frame v y)) as HH by (unfold place; cbn [f_w f_v]; now rewrite Hxy).
    apply place_inj in HH. now injection HH. }
  apply Q. rewrite E_attitude, <- E, transp_transp. reflexivity.
Qed.
Lemma turn_period a b : unwrapped a b -> sin b = sin a /\ cos b = cos a.
Proof.
  intros (k & ->). destruct (Z_le_dec 0 k) as [Hk|Hk].
  - rewrite <- (Z2Nat.id k Hk), <- INR_IZR_INZ. split; [apply sin_period|apply cos_period].
  - assert (Hk' : (0 <= - k)%Z) by lia.
    assert (E : a = a + 2 * IZR k * PI + 2 * INR (Z.to_nat (- k)) * PI).
    { rewrite INR_IZR_INZ, Z2Nat.id, opp_IZR by exact Hk'. ring. }
    rewrite E at 2 4. rewrite sin_period, cos_period. split; reflexivity.
Qed.
Lemma E_unwrapped th ph ps th' ph' ps' : unwrapped th th' -> unwrapped ph ph' -> unwrapped ps ps' ->
  get_E_from_angles th' ph' ps' = get_E_from_angles th ph ps.
Proof.
  unfold get_E_from_angles. intros H1 H2 H3. apply turn_period in H1, H2, H3. destruct H1 as [-> ->], H2 as [-> ->], H3 as [-> ->].
  reflexivity.
Qed.

Theorem survey_restart els X0 Y0 Z0 th ph ps i fs j f th' ph' ps' :
  get_survey els X0 Y0 Z0 th ph ps i false = Some fs ->
  nth_error fs j = Some f -> w11 (f_w f) <> 0 ->
  unwrapped (get_theta (f_w f)) th' -> unwrapped (get_phi (f_w f)) ph' -> unwrapped (get_psi (f_w f)) ps' ->
  get_survey els (a0 (f_v f)) (a1 (f_v f)) (a2 (f_v f)) th' ph' ps' j false = Some fs.
Proof.
  intros H Hj Hw U1 U2 U3.
  destruct (get_survey_run els (a0 (f_v f)) (a1 (f_v f)) (a2 (f_v f)) th' ph' ps' j) as (gs & Hg & Mg).
  rewrite Hg. f_equal. apply map_place_inj. rewrite Mg.
  pose proof (survey_orthonormal _ _ _ _ _ _ _ _ _ H) as Ho.
  assert (Hof : orthonormal f) by (rewrite Forall_forall in Ho; apply Ho; eapply nth_error_In; eassumption).
  destruct (get_survey_run els X0 Y0 Z0 th ph ps i) as (fs' & H' & M).
  rewrite H in H'. injection H' as <-. rewrite M. f_equal.
  pose proof (map_nth_error place _ _ Hj) as N. rewrite M in N. apply run_nth in N.
  set (P := start els i _) in *. clearbody P.
  assert (E : frame0 (a0 (f_v f)) (a1 (f_v f)) (a2 (f_v f)) th' ph' ps' = f).
  { unfold frame0. rewrite (E_unwrapped _ _ _ _ _ _ U1 U2 U3), (psi_get f Hof Hw).
    destruct f as [[x y z] w]. reflexivity. }
  rewrite E, N, prod_mul. unfold start. rewrite <- pmul_assoc, pinv_r, pmul_id_r by apply rigid_prod.
  reflexivity.
Qed.

(** the survey from another first frame is moved as a whole *)
Lemma run_moved b els : forall Q P, run b (pmul Q P) els = map (pmul Q) (run b P els).
Proof.
  induction els as [|e els IH]; intros Q P; cbn [run map]; [reflexivity|].
  f_equal. rewrite <- pmul_assoc. apply IH.
Qed.
Lemma prod_end els : prod false pid els = end_of els.
Proof. reflexivity. Qed.
Theorem survey_end els X0 Y0 Z0 th ph ps fs k f :
  get_survey els X0 Y0 Z0 th ph ps 0 false = Some fs -> nth_error fs k = Some f ->
  place f = pmul (place (Frame (A3 X0 Y0 Z0) (get_E_from_angles th ph ps))) (end_of (firstn k els)).
Proof.
  intros H Hk. destruct (get_survey_run els X0 Y0 Z0 th ph ps 0) as (fs' & H' & M).
  rewrite H in H'. injection H' as <-. pose proof (map_nth_error place _ _ Hk) as N.
  rewrite M in N. apply run_nth in N. rewrite N, prod_mul. unfold start. cbn [firstn prod fold_left].
  now rewrite pinv_pid, pmul_id_r.
Qed.

(** relative transforms *)
Lemma relative_place f g : place (relative_transform f g) = pmul (pinv (place f)) (place g).
Proof.
  destruct f as [[x1 x2 x3] [y1 y2 y3 y4 y5 y6 y7 y8 y9]],
    g as [[z1 z2 z3] [t1 t2 t3 t4 t5 t6 t7 t8 t9]]. unfold relative_transform. peq; scbv; ring.
Qed.
Theorem relative_end els X0 Y0 Z0 th ph ps fs i k l f g :
  get_survey els X0 Y0 Z0 th ph ps i false = Some fs -> (k <= l)%nat ->
  nth_error fs k = Some f -> nth_error fs l = Some g ->
  place (relative_transform f g) = end_of (firstn (l - k) (skipn k els)).
Proof.
  intros H Hkl Hf Hg. destruct (get_survey_run els X0 Y0 Z0 th ph ps i) as (fs' & H' & M).
  rewrite H in H'. injection H' as <-.
  pose proof (map_nth_error place _ _ Hf) as Nf. pose proof (map_nth_error place _ _ Hg) as Ng.
  rewrite M in Nf, Ng. apply run_nth in Nf, Ng. rewrite relative_place, Nf, Ng.
  replace (firstn l els) with (firstn k els ++ firstn (l - k) (skipn k els)).
  2:{ rewrite <- (firstn_skipn k els) at 3. rewrite firstn_app.
      assert (k <= length els)%nat.
      { assert (k < length fs)%nat by (apply nth_error_Some; congruence).
        rewrite <- (map_length place), M, run_length in H0. lia. }
      rewrite firstn_length, Nat.min_l by assumption. f_equal.
      rewrite firstn_firstn, Nat.min_r by assumption. reflexivity. }
  rewrite prod_app, (prod_mul _ (firstn (l - k) _)).
  set (P := prod false (start _ _ _) (firstn k els)).
  rewrite pmul_cancel; [reflexivity|].
  unfold P. rewrite prod_mul. apply rigid_mul; [|apply rigid_prod].
  apply rigid_mul; [apply rigid_frame0|apply rigid_inv, rigid_prod].
Qed.
