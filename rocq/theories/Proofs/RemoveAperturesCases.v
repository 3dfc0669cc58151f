From Coq Require Import Reals ZArith List Bool String Lra Psatz.
From Verif.Model Require Import Maps Apertures RemoveApertures.
From Verif.Spec Require Import Frames Apertures RemoveApertures.
From Verif.Proofs Require Import Polygon PolygonTest Apertures ApertureCases FrameMaps.
Import ListNotations.
Local Open Scope R_scope.
Local Open Scope string_scope.

Definition centred : align := mkAlign 0 0 0 0 0 0 0 0.
Lemma centred_off : rot_shift_active centred = false.
Proof. unfold rot_shift_active, centred, is0. cbn. destruct (Req_EM_T 0 0) as [_|n]; [reflexivity|now destruct n]. Qed.
Lemma equal_refl l a : apertures_equal (KAperture l a) (KAperture l a) = true.
Proof.
  cbn. destruct (limit_eq_dec l l) as [_|n]; [|now destruct n]. destruct (align_eq_dec a a) as [_|n]; [|now destruct n]. reflexivity.
Qed.
(** a particle with the reference energy *)
Definition at_pos (x px y : R) : part := mkPart x px y 0 0 0 0 0 1 1 1 1 0 0 0 0 0.
Lemma at_physical x px y : - 1 < px < 1 -> physical (at_pos x px y).
Proof.
  intros H. unfold physical, kinematic, pz2, at_pos. cbn. repeat split; try lra; try field. nra.
Qed.
Lemma at_drift L x px y : exists p, drift_expanded L (at_pos x px y) = p /\ p_x p = x + px * L /\ p_px p = px /\ p_y p = y /\ p_py p = 0.
Proof. eexists. split; [reflexivity|]. rewrite drift_expanded_eq. cbn. repeat split; ring. Qed.
Lemma at_run ue L p : run_drift ue 1 L p = if ue then drift_exact L p else drift_expanded L p.
Proof. unfold run_drift. destruct ue; reflexivity. Qed.

(** * An aperture used twice *)
Definition box : kind := KAperture (LimitRect (- 1) 1 (- 1) 1) centred.
Definition twice (n : string) : kind :=
  if String.eqb n "q" then KActive else if String.eqb n "d" then KDrift 1 1 else box.
Definition focus (n : string) (p : part) : option part := Some (at_pos 0 0 0).
Definition twice_names := ["a"; "q"; "b"; "d"; "a"; "d"; "c"].
Lemma box_track sp cpu p : aperture_track sp cpu (LimitRect (- 1) 1 (- 1) 1) centred p
  = if rect_alive (- 1) 1 (- 1) 1 (p_x p) (p_y p) then Some p else None.
Proof. unfold aperture_track. rewrite centred_off. reflexivity. Qed.
Lemma box_convex cpu : convex (fun x y => alive cpu (LimitRect (- 1) 1 (- 1) 1) x y = true).
Proof. apply alive_convex; [exact I|discriminate]. Qed.
Lemma used_twice : exists cpu other elem names red p q, 
  (forall n p q, other n p = Some q -> physical p -> physical q)
  /\ (forall n, In n names -> match elem n with
       | KAperture l a => al_theta a = 0 /\ al_phi a = 0 /\ convex (fun x y => alive cpu l x y = true)
       | KDrift _ length => 0 <= length
       | _ => True end)
  /\ physical p
  /\ remove_redundant_apertures elem [] [] names = Some red
  /\ track true cpu false (fun _ => true) other elem names p = None
  /\ track true cpu false (fun _ => true) other elem red p = Some q.
Proof.
  exists true, focus, twice, twice_names, ["q"; "b"; "d"; "a"; "d"; "c"], (at_pos 5 0 0),
    (drift_expanded 1 (drift_expanded 1 (at_pos 0 0 0))).
  assert (B : forall m p, p_x p = 0 -> p_y p = 0 -> m <> "q" -> m <> "d" ->
    through true true false (fun _ => true) focus twice m p = Some p).
  { intros m p X Y Q D. unfold through, twice. rewrite (proj2 (String.eqb_neq _ _) Q), (proj2 (String.eqb_neq _ _) D). unfold box.
    rewrite box_track, X, Y. unfold rect_alive. rewrite !(proj2 (Rleb_iff _ _)) by lra. reflexivity. }
  assert (D : forall p, through true true false (fun _ => true) focus twice "d" p = Some (drift_expanded 1 p)) by reflexivity.
  split; [|split; [|split; [|split; [|split]]]].
  - intros n p q E _. injection E as <-. apply at_physical. lra.
  - intros n H. unfold twice. destruct (String.eqb n "q"); [exact I|]. destruct (String.eqb n "d"); [lra|].
    cbn. repeat split; auto. exact (box_convex true).
  - apply at_physical. lra.
  - unfold remove_redundant_apertures, redundant, twice_names, twice. cbn -[apertures_equal]. unfold drop_middle. cbn -[apertures_equal].
    unfold box. repeat (rewrite equal_refl; cbn -[apertures_equal]). reflexivity.
  - cbn [track twice_names]. unfold through at 1. cbn [twice String.eqb Ascii.eqb Bool.eqb]. unfold box. rewrite box_track. cbn [at_pos p_x p_y].
    unfold rect_alive. rewrite (proj2 (Rleb_no 5 1)) by lra. rewrite andb_false_r. reflexivity.
  - cbn [track]. change (through true true false (fun _ => true) focus twice "q" (at_pos 5 0 0)) with (Some (at_pos 0 0 0)). cbv iota.
    rewrite (B "b") by (try reflexivity; discriminate). rewrite D.
    rewrite (B "a"); try discriminate; try (rewrite drift_expanded_eq; cbn; ring). rewrite D.
    rewrite (B "c"); try discriminate; try (rewrite !drift_expanded_eq; cbn; ring). reflexivity.
Qed.

(** * An aperture which is not convex *)
Definition cup : list point := [(- 3, - 1); (3, - 1); (3, 2); (1, 2); (1, 1 / 2); (- 1, 1 / 2); (- 1, 2); (- 3, 2)].
Lemma cup_test x : polygon_test cup (x, 1) = xorb (Rltb x 3) (xorb (Rltb x 1) (xorb (Rltb x (- 1)) (Rltb x (- 3)))).
Proof.
  unfold polygon_test, cup. cbn [last toggle_loop toggles fst snd].
  rewrite !(proj2 (Rltb_iff 1 2)) by lra. rewrite !(proj2 (Rltb_no 1 (- 1))) by lra. rewrite !(proj2 (Rltb_no 1 (1 / 2))) by lra.
  cbn [Bool.eqb negb andb].
  replace ((- 3 - - 3) * (1 - - 1) / (2 - - 1) + - 3) with (- 3) by field.
  replace ((3 - 3) * (1 - 2) / (- 1 - 2) + 3) with 3 by field.
  replace ((1 - 1) * (1 - 1 / 2) / (2 - 1 / 2) + 1) with 1 by field.
  replace ((- 1 - - 1) * (1 - 2) / (1 / 2 - 2) + - 1) with (- 1) by field.
  destruct (Rltb x 3), (Rltb x 1), (Rltb x (- 1)), (Rltb x (- 3)); reflexivity.
Qed.
Lemma cup_side cpu x : polygon_test cup (x, 1) = true -> polygon_alive cpu cup (x, 1) = true.
Proof. intros H. unfold polygon_alive. rewrite H. destruct (Rltb _ _); reflexivity. Qed.
Lemma cup_middle cpu : polygon_alive cpu cup (0, 1) = false.
Proof.
  unfold polygon_alive. cbn [fst snd]. rewrite (proj2 (Rltb_iff _ _)).
  - rewrite cup_test. num. reflexivity.
  - destruct cpu; [|lra]. pose proof (inner_boundary cup (0, 1 / 2)) as H. unfold norm2 in H. cbn [fst snd] in H.
    assert (B : on_boundary cup (0, 1 / 2)); [|specialize (H B); lra].
    exists ((1, 1 / 2), (- 1, 1 / 2)). split; [cbn; intuition|]. exists (1 / 2). split; [lra|]. unfold along. cbn. f_equal; field.
Qed.
Definition concave (n : string) : kind :=
  if String.eqb n "d" then KDrift 1 4 else KAperture (LimitPolygon cup) centred.
Lemma not_convex cpu : exists elem names red p q, NoDup (filter (fun n => match elem n with KAperture _ _ => true | _ => false end) names)
  /\ (forall n, In n names -> match elem n with
       | KAperture l a => l = LimitPolygon cup /\ rot_shift_active a = false
       | KDrift _ length => 0 <= length
       | _ => False end)
  /\ physical p
  /\ remove_redundant_apertures elem [] [] names = Some red
  /\ (forall within, track true cpu false within (fun _ _ => None) elem names p = None)
  /\ track true cpu false (fun _ => true) (fun _ _ => None) elem red p = Some q.
Proof.
  exists concave, ["a"; "d"; "b"; "d"; "c"], ["a"; "d"; "d"; "c"], (at_pos (- 2) (1 / 2) 1),
    (drift_expanded 4 (drift_expanded 4 (at_pos (- 2) (1 / 2) 1))).
  assert (B : forall w m p, m <> "d" -> through true cpu false w (fun _ _ => None) concave m p
    = if polygon_alive cpu cup (p_x p, p_y p) then Some p else None).
  { intros w m p D. unfold through, concave. rewrite (proj2 (String.eqb_neq _ _) D). unfold aperture_track. rewrite centred_off. reflexivity. }
  assert (X1 : p_x (drift_expanded 4 (at_pos (- 2) (1 / 2) 1)) = 0) by (rewrite drift_expanded_eq; cbn; field).
  assert (Y1 : p_y (drift_expanded 4 (at_pos (- 2) (1 / 2) 1)) = 1) by (rewrite drift_expanded_eq; cbn; field).
  assert (X2 : p_x (drift_expanded 4 (drift_expanded 4 (at_pos (- 2) (1 / 2) 1))) = 2) by (rewrite !drift_expanded_eq; cbn; field).
  assert (Y2 : p_y (drift_expanded 4 (drift_expanded 4 (at_pos (- 2) (1 / 2) 1))) = 1) by (rewrite !drift_expanded_eq; cbn; field).
  assert (A0 : polygon_alive cpu cup (- 2, 1) = true) by (apply cup_side; rewrite cup_test; num; reflexivity).
  assert (A2 : polygon_alive cpu cup (2, 1) = true) by (apply cup_side; rewrite cup_test; num; reflexivity).
  split; [|split; [|split; [|split; [|split]]]].
  - cbn. repeat constructor; cbn; intuition discriminate.
  - intros n H. unfold concave. destruct (String.eqb n "d"); [lra|]. split; [reflexivity|apply centred_off].
  - apply at_physical. lra.
  - unfold remove_redundant_apertures, redundant, concave. cbn -[apertures_equal]. unfold drop_middle. cbn -[apertures_equal].
    unfold box. repeat (rewrite equal_refl; cbn -[apertures_equal]). reflexivity.
  - intros w.
    assert (D : forall p, through true cpu false w (fun _ _ => None) concave "d" p
      = if w (drift_expanded 4 p) then Some (drift_expanded 4 p) else None) by reflexivity.
    assert (A : polygon_alive cpu cup (p_x (at_pos (- 2) (1 / 2) 1), p_y (at_pos (- 2) (1 / 2) 1)) = true) by exact A0.
    revert A X1 Y1. clear X2 Y2. generalize (at_pos (- 2) (1 / 2) 1) as p. intros p A X1 Y1. cbn [track].
    rewrite (B w "a") by discriminate. rewrite A, D. destruct (w _); [|reflexivity].
    rewrite (B w "b") by discriminate. rewrite X1, Y1, cup_middle. reflexivity.
  - assert (D : forall p, through true cpu false (fun _ => true) (fun _ _ => None) concave "d" p = Some (drift_expanded 4 p)) by reflexivity.
    assert (A : polygon_alive cpu cup (p_x (at_pos (- 2) (1 / 2) 1), p_y (at_pos (- 2) (1 / 2) 1)) = true) by exact A0.
    revert A X2 Y2. clear X1 Y1. generalize (at_pos (- 2) (1 / 2) 1) as p. intros p A X2 Y2. cbn [track].
    rewrite (B _ "a") by discriminate. rewrite A, D, D. rewrite (B _ "c") by discriminate. rewrite X2, Y2, A2. reflexivity.
Qed.

(** * A case: five equal apertures, one kept, with a quadrupole and another aperture after *)
Definition plain (n : string) : kind :=
  if String.eqb n "q" then KActive else if String.eqb n "d" then KDrift 1 1 else if String.eqb n "m" then KMarker
  else if String.eqb n "e" then KAperture (LimitRect (- 2) 2 (- 1) 1) centred else box.
Lemma fold_cons {A B} (f : A -> B -> A) n ns a : fold_left f (n :: ns) a = fold_left f ns (f a n).
Proof. reflexivity. Qed.
Ltac step := rewrite fold_cons; cbv beta;
  match goal with |- context [drop_middle ?e ?k (seen ?e ?nd ?st ?n)] =>
    let X := fresh in
    eassert (X : drop_middle e k (seen e nd st n) = _);
      [unfold seen; cbn -[apertures_equal]; unfold drop_middle; cbn -[apertures_equal]; unfold box; rewrite ?equal_refl; cbn; reflexivity|];
    rewrite X; clear X
  end.
Definition plain_names := ["a1"; "d"; "a2"; "m"; "a3"; "d"; "a4"; "d"; "a5"; "q"; "e"].
Lemma plain_case cpu : simple_line cpu focus plain plain_names
  /\ remove_redundant_apertures plain ["a3"] [] plain_names = Some ["a1"; "d"; "m"; "a3"; "d"; "d"; "a5"; "q"; "e"].
Proof.
  split.
  - split; [|split].
    + cbn. repeat constructor; cbn; intuition discriminate.
    + intros n p q E _. injection E as <-. apply at_physical. lra.
    + intros n _. unfold plain. destruct (String.eqb n "q"); [exact I|]. destruct (String.eqb n "d"); [lra|].
      destruct (String.eqb n "m"); [exact I|]. destruct (String.eqb n "e"); cbn; repeat split; auto.
      * apply (alive_convex cpu (LimitRect (- 2) 2 (- 1) 1)); [exact I|discriminate].
      * exact (box_convex cpu).
  - unfold remove_redundant_apertures, redundant, plain_names. do 11 step. cbn [fold_left to_remove]. reflexivity.
Qed.
