From Coq Require Import Reals ZArith List Bool Lra Lia.
From Verif.Model Require Import Maps Curved Magnet Edges.
From Verif.Spec Require Import Frames Magnets Symplectic Edges.
From Verif.Proofs Require Import FrameMaps EdgeBack EdgeWedge SympEdge.
Import ListNotations.
Local Open Scope R_scope.

(** * A magnet which is switched off has no edges *)
Lemma strength_off k kl ko klo l mo ii inv : zeros k -> zeros kl -> fringe_strength k kl ko klo l mo ii inv = 0.
Proof.
  intros A B. unfold fringe_strength. rewrite A, B. destruct (Nat.leb mo ii); [|reflexivity].
  destruct (Z.leb _ ko); destruct (_ && _); unfold Rdiv; ring.
Qed.
Definition still (s : fringe) : Prop :=
  fr_fx s = 0 /\ fr_fxx s = 0 /\ fr_fxy s = 0 /\ fr_fy s = 0 /\ fr_fyx s = 0 /\ fr_fyy s = 0.
Lemma still_step d c x y kn ks ii s : (forall i v, kn i v = 0) -> (forall i v, ks i v = 0) -> still s ->
  still (fringe_step d c x y kn ks ii s).
Proof.
  intros N M (A & B & C & D & E & F). unfold still, fringe_step. cbv zeta.
  cbn [fr_fx fr_fxx fr_fxy fr_fy fr_fyx fr_fyy]. rewrite A, B, C, D, E, F, !N, !M.
  destruct (Nat.eqb ii 0); repeat split; ring.
Qed.
Lemma still_loop d c x y kn ks n : (forall i v, kn i v = 0) -> (forall i v, ks i v = 0) -> forall ii s, still s ->
  still (fringe_loop d c x y kn ks n ii s).
Proof. intros N M. induction n as [|n IH]; intros ii s H; [exact H|]. cbn [fringe_loop]. apply IH. now apply still_step. Qed.
Lemma mult_off kn ks ko knl ksl klo l ex mo p : zeros kn -> zeros ks -> zeros knl -> zeros ksl -> p_beta0 p <> 0 ->
  mult_fringe false kn ks ko knl ksl klo l ex mo p = Some p.
Proof.
  intros A B C D Hb. unfold mult_fringe. destruct (_ && _); [reflexivity|]. cbv zeta.
  match goal with |- context [fringe_loop ?d ?c ?x ?y ?a ?b ?n ?i ?s] =>
    assert (S : still (fringe_loop d c x y a b n i s)) by (apply still_loop; [intros; now apply strength_off|intros; now apply strength_off|repeat split; reflexivity]) end.
  destruct S as (-> & -> & -> & -> & -> & ->). f_equal.
  apply part_eq; pc; try reflexivity.
  - ring.
  - field.
  - ring.
  - field.
  - field. exact Hb.
Qed.
Lemma k0_off kn m rel ref l : zeros kn -> zeros (mu_knl m) -> match rel with Some r => nth 0 (mu_knl r) 0 = 0 | None => True end ->
  edge_k0 kn m rel ref l = 0.
Proof.
  intros A B C. unfold edge_k0. rewrite A, B. destruct (over l); [|ring]. destruct rel as [r|]; [rewrite C|]; unfold Rdiv; ring.
Qed.
Lemma small_0 : small 0 = true.
Proof. unfold small. rewrite Rabs_R0. destruct (Rlt_dec _ _); [reflexivity|lra]. Qed.
Lemma fringe_off fint hgap ptc p : use_fringe ptc fint hgap 0 p = p.
Proof. destruct ptc; cbn [use_fringe]; [unfold dipole_fringe_ptc|unfold dipole_fringe]; now rewrite small_0. Qed.
Lemma quad_off th p : quad_wedge th 0 p = p.
Proof. apply part_eq; unfold quad_wedge; pc; try reflexivity; unfold Rdiv; ring. Qed.
Lemma wedge_off sp th p : wedge sp (- th) 0 p = yrotation sp (sin th) (cos th) (tan th) p.
Proof.
  unfold wedge. rewrite Rmult_0_l, small_0. rewrite sin_neg, cos_neg, tan_neg. now rewrite !Ropp_involutive.
Qed.
Lemma turn_there sp f p : turns_forward (sin f) (cos f) p ->
  yrotation sp (sin f) (cos f) (tan f) (yrotation sp (- sin f) (cos f) (- tan f) p) = p.
Proof.
  intros H. pose proof (sin2_cos2 f) as SC. unfold Rsqr in SC.
  pose proof (turn_back sp (sin f) (cos f) p ltac:(lra) H) as T. rewrite Ropp_involutive in T.
  replace (- sin f / cos f) with (- tan f) in T by (unfold tan, Rdiv; ring). exact T.
Qed.
Lemma turn_here sp f p : turns_forward (- sin f) (cos f) p ->
  yrotation sp (- sin f) (cos f) (- tan f) (yrotation sp (sin f) (cos f) (tan f) p) = p.
Proof.
  intros H. pose proof (sin2_cos2 f) as SC. unfold Rsqr in SC.
  pose proof (turn_back sp (- sin f) (cos f) p ltac:(lra) H) as T. rewrite !Ropp_involutive in T.
  replace (- sin f / cos f) with (- tan f) in T by (unfold tan, Rdiv; ring).
  replace (sin f / cos f) with (tan f) in T by reflexivity. exact T.
Qed.
Lemma linear_off e fd hgap fint p : (let (a, b) := linear_coefficients 0 e fd hgap fint in edge_linear (a * 1) (b * 1) p) = p.
Proof. apply part_eq; unfold linear_coefficients, edge_linear; pc; try reflexivity; ring. Qed.

Lemma edge_off sp ptc e (ex : bool) kn ks m rel ref x0 y0 l p : off kn ks m rel -> no_potential p -> p_beta0 p <> 0 ->
  (/ 1000000000 < Rabs (ed_angle e) -> turns_forward (if ex then - sin (ed_angle e) else sin (ed_angle e)) (cos (ed_angle e)) p) ->
  magnet_edge sp ptc false e ex kn ks m rel ref 0 x0 y0 l p = Some p.
Proof.
  intros (A & B & C & D & E) N Hb T. unfold magnet_edge. cbv zeta.
  fold (store ex 0 x0 y0 p). rewrite (store_none ex x0 y0 p N). rewrite (k0_off kn m rel ref l A C E).
  destruct (Z.eqb (ed_model e) 0).
  { pose proof (linear_off (ed_angle e) (ed_fdown e) (ed_hgap e) (ed_fint e) p) as L.
    destruct (linear_coefficients _ _ _ _ _) as [a b]. now rewrite L. }
  destruct (Z.eqb (ed_model e) 1 || Z.eqb (ed_model e) 2); [|reflexivity].
  rewrite (A 0%nat), (A 1%nat).
  replace (if ex then - 0 else 0) with 0 by (destruct ex; lra).
  destruct (Rlt_dec _ _) as [L|L]; cbn [negb andb].
  - rewrite andb_true_r. specialize (T L). destruct ex.
    + rewrite wedge_off, quad_off. set (q := yrotation _ _ _ _ _).
      replace (if Z.eqb (ed_model e) 1 then q else q) with q by (destruct (Z.eqb _ _); reflexivity).
      destruct (Z.eqb (ed_model e) 1).
      * rewrite mult_off; auto; [|unfold q, yrotation; cbv zeta; destruct (sp && _); exact Hb].
        rewrite fringe_off. unfold q. now rewrite turn_here.
      * rewrite fringe_off. unfold q. now rewrite turn_here.
    + rewrite fringe_off. destruct (Z.eqb (ed_model e) 1).
      * rewrite mult_off; auto; [|unfold yrotation; cbv zeta; destruct (sp && _); exact Hb].
        rewrite quad_off, wedge_off. now rewrite turn_there.
      * rewrite wedge_off. now rewrite turn_there.
  - rewrite andb_false_r. destruct ex.
    + destruct (Z.eqb (ed_model e) 1); [rewrite mult_off; auto|]; now rewrite fringe_off.
    + rewrite fringe_off. destruct (Z.eqb (ed_model e) 1); [rewrite mult_off; auto|]; reflexivity.
Qed.

(** * Linear and nonlinear edges *)
Lemma turn_py sp s c t p : p_py (yrotation sp s c t p) = p_py p.
Proof. unfold yrotation. cbv zeta. destruct (sp && _); reflexivity. Qed.
Lemma wedge_py sp th k p : p_py (wedge sp th k p) = p_py p.
Proof. unfold wedge. destruct (small _); [apply turn_py|]. cbv zeta. destruct (sp && _); reflexivity. Qed.
(** The kick of the dipole fringe without vertical momentum *)
Lemma fringe_py hgap fint k p : small k = false -> p_py p = 0 -> 
  p_y (dipole_fringe fint hgap k p) = p_y p /\
  (hgap * fint <= / 1000000000 ->
   let pz := sqrt (pz2 p) in
   p_py (dipole_fringe fint hgap k p) = - (k * p_chi p * tan (atan (p_px p / pz) - k * p_chi p * (hgap * fint) * 2 * (1 + p_px p / pz * (p_px p / pz) * 2) * (1 / pz))) * p_y p).
Proof.
  intros S Y.
  assert (E : p_y (dipole_fringe fint hgap k p) = p_y p).
  { unfold dipole_fringe. rewrite S. cbv zeta. pc. rewrite Y.
    match goal with |- 2 * p_y p / (1 + sqrt (1 - 2 * ?ky * p_y p)) = _ => replace (1 - 2 * ky * p_y p) with 1 by (unfold Rdiv; ring) end.
    rewrite sqrt_1. field. }
  split; [exact E|]. intros F.
  unfold dipole_fringe in E |- *. rewrite S in *. cbv zeta in *. revert E. pc. intros E. rewrite E. rewrite Y.
  destruct (Rlt_dec _ _) as [L|_]; [lra|].
  replace ((1 + p_delta p) * (1 + p_delta p) - p_px p * p_px p - 0 * 0) with (pz2 p) by (unfold pz2; rewrite Y; ring).
  replace (1 / (1 + 0 / sqrt (pz2 p) * (0 / sqrt (pz2 p)))) with 1 by (unfold Rdiv; rewrite !Rmult_0_l, Rplus_0_r; lra).
  replace (1 + (1 + 0 / sqrt (pz2 p) * (0 / sqrt (pz2 p)))) with 2 by (unfold Rdiv; ring).
  rewrite Rmult_1_r. ring.
Qed.

Lemma atan_tan f : - PI / 2 < f < PI / 2 -> atan (tan f) = f.
Proof. intros H. apply atan_tan. lra. Qed.
Lemma fringe_kick hgap fint k f (s : R) p : small k = false -> p_py p = 0 -> - PI / 2 < f < PI / 2 -> hgap * fint = 0 ->
  p_px p / sqrt (pz2 p) = s * tan f -> (s = 1 \/ s = - 1) ->
  p_py (dipole_fringe fint hgap k p) = - (k * p_chi p * (s * tan f)) * p_y p.
Proof.
  intros S Y F H E Hs. destruct (fringe_py hgap fint k p S Y) as [_ K]. rewrite K by lra. cbv zeta. rewrite E, H.
  match goal with |- - (_ * tan ?a) * _ = _ => replace a with (atan (s * tan f)) by (unfold Rdiv; ring) end.
  f_equal. f_equal. f_equal. destruct Hs as [->| ->].
  - rewrite Rmult_1_l. now rewrite atan_tan.
  - replace (-1 * tan f) with (- tan f) by ring. rewrite atan_opp, atan_tan, tan_neg by exact F. reflexivity.
Qed.
Lemma turned_ratio s f P : 0 < P -> - PI / 2 < f < PI / 2 -> s = 1 \/ s = - 1 ->
  s * sin f * P / sqrt (P * P - s * sin f * P * (s * sin f * P)) = s * tan f.
Proof.
  intros HP F Hs. assert (Hc : 0 < cos f) by (apply cos_gt_0; lra).
  pose proof (sin2_cos2 f) as SC. unfold Rsqr in SC.
  replace (P * P - s * sin f * P * (s * sin f * P)) with (cos f * P * (cos f * P)).
  - rewrite sqrt_square by (apply Rlt_le, Rmult_lt_0_compat; lra). unfold tan. field. lra.
  - assert (cos f * cos f = 1 - sin f * sin f) by lra. destruct Hs as [->| ->]; ring [H].
Qed.

Lemma turn_axis sp s c t p : straight_on p ->
  let q := yrotation sp s c t p in
  p_px q = - s * (1 + p_delta p) /\ p_y q = p_y p /\ p_py q = 0 /\ p_delta q = p_delta p /\ p_chi q = p_chi p.
Proof.
  intros ((Hb & Hg & E & _) & X & PX & PY). cbv zeta.
  assert (Z : sqrt (1 + 2 * (get_pzeta p * p_beta0 p) / p_beta0 p + get_pzeta p * p_beta0 p * (get_pzeta p * p_beta0 p) - 0 * 0 - 0 * 0) = 1 + p_delta p).
  { replace (get_pzeta p * p_beta0 p) with (p_ptau p) by (unfold get_pzeta; field; lra).
    rewrite <- E. rewrite Rmult_0_l, !Rminus_0_r. apply sqrt_square. lra. }
  unfold yrotation. cbv zeta. rewrite X, PX, PY. rewrite Z. destruct (sp && _); pc; repeat split; try assumption; unfold Rdiv; ring.
Qed.
Lemma wedge_axis sp f k p : straight_on p ->
  let q := wedge sp (- f) k p in
  p_px q = - sin f * (1 + p_delta p) /\ p_y q = p_y p /\ p_py q = 0 /\ p_delta q = p_delta p /\ p_chi q = p_chi p.
Proof.
  intros S. cbv zeta. unfold wedge. destruct (small _).
  { destruct (turn_axis sp (- sin (- f)) (cos (- f)) (- tan (- f)) p S) as (A & B). rewrite sin_neg in A at 2. split; [rewrite A; ring|exact B]. }
  destruct S as ((Hb & Hg & E & _) & X & PX & PY). cbv zeta. rewrite X, PX, PY.
  replace ((p_delta p + 1) * (p_delta p + 1) - 0 * 0 - 0 * 0) with ((1 + p_delta p) * (1 + p_delta p)) by ring.
  rewrite sqrt_square by lra. rewrite sin_neg.
  destruct (sp && _); pc; repeat split; try assumption; unfold Rdiv; ring.
Qed.

Lemma edges_agree sp (ex : bool) (act : bool) a fint hgap kn ks m rel ref ksol x0 y0 l p :
  straight_on p -> - PI / 2 < a < PI / 2 -> (a = 0 \/ / 1000000000 < Rabs a) -> hgap * fint = 0 ->
  / 1000000000 <= Rabs (edge_k0 kn m rel ref l) ->
  exists q1 q2,
    magnet_edge sp false false (mkEdge act 0 a 0 fint hgap) ex kn ks m rel ref ksol x0 y0 l p = Some q1 /\
    magnet_edge sp false false (mkEdge act 2 a 0 fint hgap) ex kn ks m rel ref ksol x0 y0 l p = Some q2 /\
    p_py q1 = p_py q2 /\ p_py q1 = - (edge_k0 kn m rel ref l * p_chi p * tan a) * p_y p.
Proof.
  intros S F A H K. set (k := edge_k0 kn m rel ref l) in *.
  assert (Sk : small k = false) by (unfold small; destruct (Rlt_dec _ _); [lra|reflexivity]).
  assert (Sk' : small (- k) = false) by (unfold small; rewrite Rabs_Ropp; destruct (Rlt_dec _ _); [lra|reflexivity]).
  unfold magnet_edge. cbv zeta. fold k. fold (store ex ksol x0 y0 p). set (r := store ex ksol x0 y0 p).
  assert (R : straight_on r /\ p_y r = p_y p /\ p_chi r = p_chi p /\ p_delta r = p_delta p /\ p_py r = p_py p).
  { unfold r, store. destruct ex; (split; [exact S|repeat split]). }
  destruct R as (Sr & Ry & Rc & Rd & Rp). clearbody r.
  cbn [ed_model ed_angle ed_fdown ed_fint ed_hgap Z.eqb Pos.eqb orb andb linear_coefficients].
  assert (L : p_py (edge_linear (k * tan a * 1) (- k * tan (a + 0 - 2 * k * hgap * fint / cos (a + 0) * (1 + sin (a + 0) * sin (a + 0))) * 1) r) = - (k * p_chi p * tan a) * p_y p).
  { replace (a + 0 - 2 * k * hgap * fint / cos (a + 0) * (1 + sin (a + 0) * sin (a + 0))) with (a - 2 * k * (hgap * fint) / cos (a + 0) * (1 + sin (a + 0) * sin (a + 0))) by (unfold Rdiv; ring).
    rewrite H. replace (a - 2 * k * 0 / cos (a + 0) * (1 + sin (a + 0) * sin (a + 0))) with a by (unfold Rdiv; ring).
    unfold edge_linear. pc. rewrite Ry, Rc. destruct Sr as (_ & _ & _ & PY). rewrite PY. ring. }
  assert (Hg : 0 < 1 + p_delta r) by (destruct Sr as ((_ & G & _) & _); exact G).
  destruct ex; eexists; eexists; (split; [reflexivity|]); (split; [reflexivity|]);
  match goal with |- ?u = ?v /\ _ => assert (V : v = - (k * p_chi p * tan a) * p_y p); [clear L|split; [etransitivity; [exact L|symmetry; exact V]|exact L]] end;
  cbn [use_fringe]; (destruct (Rlt_dec (/ 1000000000) (Rabs a)) as [T|T]; cbn [negb]; [|destruct A as [A|A]; [|contradiction]]).
  - rewrite turn_py. destruct (wedge_axis sp a (nth 0 kn 0) r Sr) as (B1 & B2 & B3 & B4 & B5). set (q := wedge _ _ _ _) in *.
    rewrite (fringe_kick hgap fint (- k) a (- 1) q Sk' B3 F H); [rewrite B2, B5, Ry, Rc; ring| |right; reflexivity].
    rewrite <- (turned_ratio (- 1) a (1 + p_delta r) Hg F (or_intror eq_refl)). rewrite B1. f_equal; [ring|].
    f_equal. unfold pz2. rewrite B1, B3, B4. ring.
  - destruct Sr as (_ & X & PX & PY). rewrite A in *.
    assert (P0 : p_px r / sqrt (pz2 r) = 1 * tan 0) by (rewrite PX, tan_0; unfold Rdiv; ring).
    rewrite (fringe_kick hgap fint (- k) 0 1 r Sk' PY F H P0 (or_introl eq_refl)), tan_0. ring.
  - rewrite wedge_py. destruct (turn_axis sp (- sin a) (cos a) (- tan a) r Sr) as (B1 & B2 & B3 & B4 & B5). set (q := yrotation _ _ _ _ _) in *.
    rewrite (fringe_kick hgap fint k a 1 q Sk B3 F H); [rewrite B2, B5, Ry, Rc; ring| |left; reflexivity].
    rewrite <- (turned_ratio 1 a (1 + p_delta r) Hg F (or_introl eq_refl)). rewrite B1. f_equal; [ring|].
    f_equal. unfold pz2. rewrite B1, B3, B4. ring.
  - destruct Sr as (_ & X & PX & PY). rewrite A in *.
    assert (P0 : p_px r / sqrt (pz2 r) = 1 * tan 0) by (rewrite PX, tan_0; unfold Rdiv; ring).
    rewrite (fringe_kick hgap fint k 0 1 r Sk PY F H P0 (or_introl eq_refl)), tan_0. ring.
Qed.

(** * Elements *)
Lemma quad_back th k p : quad_wedge (- th) k (quad_wedge th k p) = p.
Proof. apply part_eq; unfold quad_wedge; pc; try reflexivity; unfold Rdiv; ring. Qed.
Lemma Wedge_back t k k1 p : / 1000000000 <= Rabs (k * p_chi p) ->
  wedge_ok t k p -> wedge_ok (- t) k (wedge false t k p) ->
  Wedge_track false (- t) k k1 1 (Wedge_track false t k k1 0 p) = p.
Proof. intros H A B. unfold Wedge_track. cbn [Z.eqb Pos.eqb]. rewrite quad_back. now apply wedge_inverse. Qed.
Lemma quad_chi t k p : p_chi (quad_wedge t k p) = p_chi p.
Proof. reflexivity. Qed.
Lemma Wedge_back' t k k1 p : / 1000000000 <= Rabs (k * p_chi p) ->
  wedge_ok t k (quad_wedge t k1 p) -> wedge_ok (- t) k (wedge false t k (quad_wedge t k1 p)) ->
  Wedge_track false (- t) k k1 0 (Wedge_track false t k k1 1 p) = p.
Proof. intros H A B. unfold Wedge_track. cbn [Z.eqb Pos.eqb]. rewrite wedge_inverse; auto. apply quad_back. Qed.

Lemma k0_strength kn m rel ref l : / 10000000000 < Rabs l ->
  edge_k0 kn m rel ref l * l = nth 0 kn 0 * l + nth 0 (mu_knl m) 0 + ref * match rel with Some r => nth 0 (mu_knl r) 0 | None => 0 end.
Proof.
  intros H. assert (Hl : l <> 0) by (intros ->; rewrite Rabs_R0 in H; lra).
  unfold edge_k0, over. destruct (Rlt_dec _ _); [|contradiction]. destruct rel; field; exact Hl.
Qed.

(** A DipoleEdge is the edge of a dipole. *)
Lemma dipole_edge sp ptc b (model : Z) (ex : bool) k e1 fd hgap fint l x0 y0 p : (model = 0 \/ model = 1)%Z ->
  Rabs e1 <> / 1000000000 -> no_potential p -> 
  DipoleEdge_track sp ptc b model (if ex then 1 else 0) k e1 fd hgap fint p
  = magnet_edge sp ptc b (mkEdge true (if Z.eqb model 1 then 2 else 0) e1 fd fint hgap) ex [k; 0; 0; 0] [0; 0; 0; 0] (mkMult 0 1 [0] [0]) None 0 0 x0 y0 l p.
Proof.
  intros Hm He N. unfold magnet_edge. cbv zeta. fold (store ex 0 x0 y0 p). rewrite (store_none ex x0 y0 p N).
  assert (K : edge_k0 [k; 0; 0; 0] (mkMult 0 1 [0] [0]) None 0 l = k).
  { unfold edge_k0. cbn [nth mu_knl]. destruct (over l); unfold Rdiv; ring. }
  rewrite K. cbn [ed_model ed_angle ed_fdown ed_fint ed_hgap nth].
  assert (T : small e1 = if Rlt_dec (/ 1000000000) (Rabs e1) then false else true).
  { unfold small. destruct (Rlt_dec (Rabs e1) _), (Rlt_dec _ (Rabs e1)); try reflexivity; lra. }
  unfold DipoleEdge_track. rewrite T. destruct Hm as [->| ->]; cbn [Z.eqb Pos.eqb orb].
  - destruct (linear_coefficients k e1 fd hgap fint) as [r21 r43]. destruct b; f_equal; f_equal; ring.
  - destruct b; [reflexivity|]. destruct ex; cbn [Z.eqb Pos.eqb]; destruct (Rlt_dec _ _); reflexivity.
Qed.

(** ** Kicks of a linear edge *)
Lemma linear_kicks sp ptc (b ex act : bool) a fd fint hgap kn ks m rel ref ksol x0 y0 l p :
  let k := edge_k0 kn m rel ref l in let f := if b then - 1 else 1 in
  let gap := 2 * k * hgap * fint * (1 + sin (a + fd) * sin (a + fd)) / cos (a + fd) in
  exists q, magnet_edge sp ptc b (mkEdge act 0 a fd fint hgap) ex kn ks m rel ref ksol x0 y0 l p = Some q /\
    p_px q = p_px p + f * p_chi p * k * tan a * p_x p /\
    p_py q = p_py p - f * p_chi p * k * tan (a + fd - gap) * p_y p /\
    p_x q = p_x p /\ p_y q = p_y p /\ p_zeta q = p_zeta p /\ p_delta q = p_delta p.
Proof.
  intros k f gap. unfold magnet_edge. cbv zeta. fold k.
  assert (G : 2 * k * hgap * fint / cos (a + fd) * (1 + sin (a + fd) * sin (a + fd)) = gap) by (unfold gap, Rdiv; ring).
  cbn [ed_model ed_angle ed_fdown ed_hgap ed_fint Z.eqb]. unfold linear_coefficients. cbv zeta. rewrite G.
  destruct ex; eexists; (split; [reflexivity|]);
    cbn [edge_linear add_py add_px set_py set_px set_ax set_ay p_x p_px p_y p_py p_zeta p_delta p_chi]; unfold f;
    (split; [ring|split; [ring|repeat split]]).
Qed.
