From Coq Require Import Reals ZArith Lra Lia List Bool.
From Verif.Model Require Import Maps Curved Magnet.
From Verif.Spec Require Import Frames Magnets.
From Verif.Proofs Require Import Frames FrameMaps Magnet MagnetKick MagnetDrift MagnetBack.
Import ListNotations.
Local Open Scope R_scope.

Fixpoint lengths (l : list op) : R :=
  match l with [] => 0 | D x :: t => x + lengths t | K _ :: t => lengths t end.
Fixpoint weights (l : list op) : R :=
  match l with [] => 0 | K x :: t => x + weights t | D _ :: t => weights t end.
Lemma lengths_app a b : lengths (a ++ b) = lengths a + lengths b.
Proof. induction a as [|[x|x] a IH]; cbn [List.app lengths]; rewrite ?IH; ring. Qed.
Lemma weights_app a b : weights (a ++ b) = weights a + weights b.
Proof. induction a as [|[x|x] a IH]; cbn [List.app weights]; rewrite ?IH; ring. Qed.
Lemma lengths_rep l n : lengths (concat (repeat l n)) = INR n * lengths l.
Proof.
  induction n as [|n IH]; [cbn; ring|]. cbn [repeat concat]. rewrite lengths_app, IH, S_INR. ring.
Qed.
Lemma weights_rep l n : weights (concat (repeat l n)) = INR n * weights l.
Proof.
  induction n as [|n IH]; [cbn; ring|]. cbn [repeat concat]. rewrite weights_app, IH, S_INR. ring.
Qed.

Lemma dsum : d0 + d1 + d2 + d3 = 1 / 2.
Proof. unfold d0, d1, d2, d3, dec. cbn [pow]. field. Qed.
Lemma csum : 2 * (c0 + c1 + c2) + c3 = 1.
Proof. unfold c0, c1, c2, c3, dec. cbn [pow]. field. Qed.

Lemma to_nat_INR z : (0 <= z)%Z -> INR (Z.to_nat z) = IZR z.
Proof. intros H. rewrite INR_IZR_INZ, Z2Nat.id by exact H. reflexivity. Qed.

Lemma slices_pos n : (1 <= n)%Z -> (1 <= yoshida_slices n)%Z.
Proof.
  intros H. unfold yoshida_slices. destruct (Z.eqb_spec (n mod 7) 0) as [E|E].
  - pose proof (Z.div_mod n 7 ltac:(lia)). assert (0 < n / 7)%Z by lia. lia.
  - pose proof (Z.div_pos n 7 ltac:(lia) ltac:(lia)). lia.
Qed.


Lemma totals i n L : known i -> (1 <= n)%Z ->
  lengths (body_ops false i n L) = L /\ weights (body_ops false i n L) = 1.
Proof.
  intros Hi Hn. unfold body_ops.
  assert (Hr : 1 <= IZR n) by (apply (IZR_le 1); exact Hn).
  destruct Hi as [->|[->| ->]]; cbn [Z.eqb Pos.eqb].
  - unfold teapot_ops. rewrite !lengths_app, !weights_app, lengths_rep, weights_rep. cbn [lengths weights].
    rewrite to_nat_INR by lia. rewrite minus_IZR.
    destruct (Z.ltb_spec 1 n) as [H|H].
    + assert (Hr2 : 1 < IZR n) by (apply (IZR_lt 1); exact H).
      rewrite !mult_IZR, plus_IZR. split; field; nra.
    + assert (n = 1)%Z by lia. subst n. cbn [Z.sub]. split; field.
  - unfold yoshida_ops. rewrite lengths_rep, weights_rep. cbn [lengths weights].
    pose proof (slices_pos n Hn) as Hm. rewrite to_nat_INR by lia.
    assert (Hm' : 1 <= IZR (yoshida_slices n)) by (apply (IZR_le 1); exact Hm).
    split.
    + transitivity (L * (2 * (d0 + d1 + d2 + d3))); [field; lra|rewrite dsum; field].
    + transitivity (2 * (c0 + c1 + c2) + c3); [field; lra|exact csum].
  - unfold uniform_ops. rewrite lengths_rep, weights_rep. cbn [lengths weights].
    rewrite to_nat_INR by lia. split; field; lra.
Qed.

(** Counting *)
Lemma count_run l a b :
  run (fun x (st : R * R) => (fst st + x, snd st)) (fun w st => (fst st, snd st + w)) l (a, b)
  = (a + lengths l, b + weights l).
Proof.
  revert a b. induction l as [|[x|x] t IH]; intros a b; cbn [run fold_left step lengths weights fst snd].
  - f_equal; ring.
  - unfold run in IH. rewrite IH. f_equal; ring.
  - unfold run in IH. rewrite IH. f_equal; ring.
Qed.
Lemma body_totals i n L : known i -> (1 <= n)%Z ->
  body (fun x (st : R * R) => (fst st + x, snd st)) (fun w st => (fst st, snd st + w)) false i n L (0, 0)
  = (L, 1).
Proof.
  intros Hi Hn. rewrite body_run, count_run. destruct (totals i n L Hi Hn) as [-> ->]. f_equal; ring.
Qed.

(** Kicks only *)
Lemma kicks_run k l p : run (fun _ a => a) (magnet_kick k) l p = magnet_kick k (weights l) p.
Proof.
  revert p. induction l as [|[x|x] t IH]; intros p; cbn [run fold_left step weights].
  - symmetry. apply kick_zero.
  - apply IH.
  - unfold run in IH. rewrite IH. apply kick_add.
Qed.
Lemma body_kicks k i n L p : known i -> (1 <= n)%Z ->
  body (fun _ a => a) (magnet_kick k) false i n L p = magnet_kick k 1 p.
Proof. intros Hi Hn. rewrite body_run, kicks_run. now destruct (totals i n L Hi Hn) as [_ ->]. Qed.

(** Drifts only *)
Lemma drifts_run {A} (drift : R -> A -> A) l a :
  (forall a b p, drift b (drift a p) = drift (a + b) p) -> (forall p, drift 0 p = p) ->
  run drift (fun _ a => a) l a = drift (lengths l) a.
Proof.
  intros Ha H0. revert a. induction l as [|[x|x] t IH]; intros a; cbn [run fold_left step lengths].
  - now rewrite H0.
  - unfold run in IH. rewrite IH. apply Ha.
  - apply IH.
Qed.
Lemma body_drifts {A} (drift : R -> A -> A) i n L a : known i -> (1 <= n)%Z ->
  (forall a b p, drift b (drift a p) = drift (a + b) p) -> (forall p, drift 0 p = p) ->
  body drift (fun _ a => a) false i n L a = drift L a.
Proof.
  intros Hi Hn Ha H0. rewrite body_run, drifts_run by assumption. now destruct (totals i n L Hi Hn) as [-> _].
Qed.

(** * Anything which a drift changes in proportion to its length and a kick to its weight *)
Lemma linear_run {A} (drift kick : R -> A -> A) (f : A -> R) (inv : A -> Prop) u v l a :
  (forall x a, inv a -> inv (drift x a) /\ f (drift x a) = f a + u * x) ->
  (forall w a, inv a -> inv (kick w a) /\ f (kick w a) = f a + v * w) ->
  inv a -> inv (run drift kick l a) /\ f (run drift kick l a) = f a + u * lengths l + v * weights l.
Proof.
  intros Hd Hk. revert a. induction l as [|[x|x] t IH]; intros a Ha; cbn [run fold_left step lengths weights].
  - split; [exact Ha|ring].
  - destruct (Hd x a Ha) as [H1 H2]. destruct (IH _ H1) as [H3 H4]. unfold run in *. split; [exact H3|].
    rewrite H4, H2. ring.
  - destruct (Hk x a Ha) as [H1 H2]. destruct (IH _ H1) as [H3 H4]. unfold run in *. split; [exact H3|].
    rewrite H4, H2. ring.
Qed.

Lemma nested_s L k0 h cs last p :
  p_s (nested L k0 h cs last p) = p_s p + (fold_right (fun c a => fst c + a) last cs) * L.
Proof.
  revert p. induction cs as [|[d k] t IH]; intros p.
  - cbn [nested fold_right]. change (p_s (polar_drift (last * L) h p)) with (p_s p + last * L). ring.
  - cbn [nested fold_right fst]. rewrite IH.
    change (p_s (px_kick k k0 L (polar_drift (d * L) h p))) with (p_s p + d * L). ring.
Qed.

Lemma nested4_sum : fold_right (fun c a => fst c + a) nested4_last nested4 = 1 + 2 / 10 ^ 17.
Proof. unfold nested4, nested4_last, dec. cbn [fold_right fst pow]. field. Qed.
Lemma nested6_sum : fold_right (fun c a => fst c + a) d0 nested6 = 1.
Proof. cbn [nested6 fold_right fst]. transitivity (2 * (d0 + d1 + d2 + d3)); [ring|rewrite dsum; field]. Qed.

(** How much the nested integrators bend *)
Lemma nested_px L k0 cs last : forall p,
  p_px (nested L k0 0 cs last p) = p_px p - fold_right (fun c a => snd c + a) 0 cs * (k0 * p_chi p * L).
Proof.
  assert (P : forall l p, p_px (polar_drift l 0 p) = p_px p).
  { intros l p. change (p_px (polar_drift l 0 p)) with (cos (0 * l) * p_px p
      + sin (0 * l) * sqrt ((p_delta p + 1) * (p_delta p + 1) - p_px p * p_px p - p_py p * p_py p)).
    rewrite Rmult_0_l, cos_0, sin_0. ring. }
  induction cs as [|[d k] t IH]; intros p; cbn [nested fold_right snd].
  - rewrite P. ring.
  - rewrite IH. change (p_chi (px_kick k k0 L (polar_drift (d * L) 0 p))) with (p_chi p).
    change (p_px (px_kick k k0 L (polar_drift (d * L) 0 p))) with (p_px (polar_drift (d * L) 0 p) - k * k0 * p_chi p * L).
    rewrite P. ring.
Qed.
Lemma nested_bends d l p : (dp_model d = 7 \/ dp_model d = 8)%Z -> dp_h d = 0 ->
  p_px (magnet_drift d l p) = p_px p - (if Z.eqb (dp_model d) 7 then 1 + 1 / 10 ^ 16 else 1) * (dp_k0 d * p_chi p * l).
Proof.
  intros Hm Hh. unfold magnet_drift. rewrite Hh.
  assert (Z7 : forall x, l = 0 -> p_px p = p_px p - x * (dp_k0 d * p_chi p * l)) by (intros x ->; ring).
  unfold is0. destruct Hm as [Hm|Hm]; rewrite Hm; cbn [Z.eqb Pos.eqb]; (destruct (Req_EM_T l 0); [now apply Z7|]); rewrite nested_px; f_equal; f_equal.
  - unfold nested4, dec. cbn [fold_right snd pow]. field.
  - cbn [nested6 fold_right snd]. transitivity (2 * (c0 + c1 + c2) + c3); [ring|exact csum].
Qed.

(** How much a drift advances s *)
Lemma drift_s d l p : (0 <= dp_model d <= 8)%Z -> dp_model d <> 6%Z ->
  p_s (magnet_drift d l p) = p_s p + stretch (dp_model d) * l.
Proof.
  destruct d as [m k0 k1 ks h x0 y0]. unfold magnet_drift. cbn [dp_model dp_k0 dp_k1 dp_ks dp_h dp_x0 dp_y0].
  intros Hm H6. destruct (Z.eqb_spec m (-1)); [lia|].
  destruct (is0 l) eqn:E0.
  { assert (l = 0) by (unfold is0 in E0; destruct (Req_EM_T l 0); congruence). subst l. ring. }
  clear E0. unfold stretch.
  destruct (Z.eqb_spec m 0) as [->|]. { change (p_s (drift_expanded l p)) with (p_s p + l). cbn [Z.eqb Pos.eqb]. ring. }
  destruct (Z.eqb_spec m 1) as [->|]. { change (p_s (drift_exact l p)) with (p_s p + l). cbn [Z.eqb Pos.eqb]. ring. }
  destruct (Z.eqb_spec m 2) as [->|]. { change (p_s (polar_drift l h p)) with (p_s p + l). cbn [Z.eqb Pos.eqb]. ring. }
  destruct (Z.eqb_spec m 3) as [->|].
  { pose proof (combined_eq l k0 k1 h p) as E. cbv zeta in E. rewrite E.
    unfold moved. pcbn. cbn [Z.eqb Pos.eqb]. ring. }
  destruct (Z.eqb_spec m 4) as [->|].
  { unfold curved_exact_bend. destruct (tiny _).
    - change (p_s (polar_drift l h p)) with (p_s p + l). cbn [Z.eqb Pos.eqb]. ring.
    - cbv zeta. rewrite set_moved3'. unfold moved. pcbn. cbn [Z.eqb Pos.eqb]. ring. }
  destruct (Z.eqb_spec m 5) as [->|].
  { unfold straight_exact_bend. destruct (tiny _).
    - change (p_s (drift_exact l p)) with (p_s p + l). cbn [Z.eqb Pos.eqb]. ring.
    - cbv zeta. rewrite set_moved3. unfold moved. pcbn. cbn [Z.eqb Pos.eqb]. ring. }
  destruct (Z.eqb_spec m 6) as [->|]. { tauto. }
  destruct (Z.eqb_spec m 7) as [->|]. { rewrite nested_s, nested4_sum. reflexivity. }
  destruct (Z.eqb_spec m 8) as [->|]. { rewrite nested_s, nested6_sum. reflexivity. }
  lia.
Qed.
Lemma kick_s k w p : p_s (magnet_kick k w p) = p_s p.
Proof. now rewrite kick_eq. Qed.

(** * The number of kicks *)
Lemma is0_true a : is0 a = true <-> a = 0.
Proof. unfold is0. destruct (Req_EM_T a 0); split; congruence. Qed.

Lemma ceil_pos x : 0 < x -> (1 <= ceil x)%Z.
Proof.
  intros P. unfold ceil. destruct (archimed (- x)) as [A B].
  assert (H : IZR (up (- x)) < 2) by lra. apply (lt_IZR _ 2) in H.
  destruct (Z.eq_dec (up (- x)) 1) as [E|]; [|lia]. rewrite E in A, B. lra.
Qed.
Lemma kicks_zero g w L : (0 <= mg_kicks g)%Z -> 0 < w ->
  (1 <= used_kicks g w L)%Z \/ (used_kicks g w L = 0%Z /\ kick_is_inactive g = true).
Proof.
  intros Hn Hw. unfold used_kicks.
  set (n0 := if Z.eqb (used_model g) (-1) then 1%Z else mg_kicks g).
  assert (H0 : (0 <= n0)%Z) by (unfold n0; destruct (Z.eqb _ _); lia).
  set (n1 := if negb _ && _ then _ else n0).
  assert (H1 : (0 <= n1)%Z).
  { unfold n1. destruct (negb _ && (0 <? n0)%Z) eqn:E; [|exact H0].
    apply andb_prop in E. destruct E as [_ E]. apply Z.ltb_lt in E.
    unfold ceil. destruct (archimed (- (IZR n0 * w))) as [_ B].
    assert (P : 0 < IZR n0 * w) by (apply Rmult_lt_0_compat; [apply (IZR_lt 0); exact E|exact Hw]).
    assert (IZR (up (- (IZR n0 * w))) < 2) by lra. apply (lt_IZR _ 2) in H. lia. }
  destruct (Z.eqb_spec n1 0) as [E|E]; [|left; lia].
  destruct (kick_is_inactive g); [right; split; reflexivity|left].
  destruct (tiny (mg_h g)); [lia|].
  destruct (Z.ltb_spec (trunc (Rabs L / (2 * (314159 / 100000) / Rabs (mg_h g)) / (5 / 10000))) 1); lia.
Qed.

Lemma inactive_only_drift g w : used_kicks g w (mg_length g * w) = 0%Z -> kick_is_inactive g = true ->
  fwd_only_drift w g = true.
Proof.
  intros Hn Hi. unfold fwd_only_drift, fwd_kick. rewrite Hn. cbn [Z.eqb].
  unfold kick_is_inactive in Hi. repeat (apply andb_prop in Hi; destruct Hi as [Hi ?]).
  repeat match goal with H : is0 _ = true |- _ => apply is0_true in H end.
  assert (I0 : is0 0 = true) by now apply is0_true.
  match goal with A : mg_k0 g = 0, B : mg_k1 g = 0, C : mg_h g = 0 |- _ => rewrite A, B, C end.
  unfold config.
  repeat match goal with |- context [if ?b then _ else _] => destruct b end;
    cbn [kp_k0 kp_k1 kp_h]; rewrite ?I0; reflexivity.
Qed.

Lemma magnet_ops w g : (0 <= mg_kicks g)%Z -> 0 < w -> known (used_integrator g) ->
  lengths (body_ops (fwd_only_drift w g) (used_integrator g) (used_kicks g w (mg_length g * w)) (mg_length g * w))
    = mg_length g * w /\
  (weights (body_ops (fwd_only_drift w g) (used_integrator g) (used_kicks g w (mg_length g * w)) (mg_length g * w)) = 1
   \/ fwd_only_drift w g = true).
Proof.
  intros Hn Hw Hi. destruct (fwd_only_drift w g) eqn:E.
  - split; [cbn; ring|now right].
  - destruct (kicks_zero g w (mg_length g * w) Hn Hw) as [H|[H1 H2]].
    + destruct (totals (used_integrator g) _ (mg_length g * w) Hi H) as [A B]. split; [exact A|now left].
    + rewrite (inactive_only_drift g w H1 H2) in E. discriminate.
Qed.

Lemma fwd_drift_model g : dp_model (fwd_drift g) = drift_model_of (used_model g) (mg_h g).
Proof. unfold fwd_drift. destruct (config _ _ _ _ _) as [[[[? ?] ?] ?] ?]. reflexivity. Qed.

Lemma magnet_s w g p : (0 <= mg_kicks g)%Z -> 0 < w -> known (used_integrator g) ->
  let m := drift_model_of (used_model g) (mg_h g) in
  (0 <= m <= 8)%Z -> m <> 6%Z ->
  p_s (track_magnet false w g p) = p_s p + stretch m * (mg_length g * w) /\
  p_s (track_magnet true w g p) = p_s p - stretch m * (mg_length g * w).
Proof.
  intros Hn Hw Hi. cbv zeta. rewrite <- (fwd_drift_model g). intros Hm H6.
  destruct (magnet_ops w g Hn Hw Hi) as [HL _].
  split.
  - rewrite track_fwd, body_run.
    destruct (linear_run (magnet_drift (fwd_drift g)) (magnet_kick (fwd_kick w g)) p_s (fun _ => True)
      (stretch (dp_model (fwd_drift g))) 0
      (body_ops (fwd_only_drift w g) (used_integrator g) (used_kicks g w (mg_length g * w)) (mg_length g * w)) p) as [_ E].
    + intros. split; [exact I|]. now apply drift_s.
    + intros. split; [exact I|]. rewrite kick_s. ring.
    + exact I.
    + rewrite E, HL. ring.
  - rewrite track_bwd, body_run, ops_neg.
    destruct (linear_run (magnet_drift (fwd_drift g)) (magnet_kick (scale (-1) (fwd_kick w g))) p_s (fun _ => True)
      (stretch (dp_model (fwd_drift g))) 0
      (map opneg (body_ops (fwd_only_drift w g) (used_integrator g) (used_kicks g w (mg_length g * w)) (mg_length g * w))) p) as [_ E].
    + intros. split; [exact I|]. now apply drift_s.
    + intros. split; [exact I|]. rewrite kick_s. ring.
    + exact I.
    + rewrite E.
      assert (En : forall l, lengths (map opneg l) = - lengths l).
      { induction l as [|[x|x] t IH]; cbn [map opneg lengths]; rewrite ?IH; ring. }
      rewrite En, HL. ring.
Qed.

(** * A straight dipole corrector *)

Lemma corrector_kick L k0 k0s kn ks n model integrator w p :
  (model = 5 \/ model = 6)%Z ->
  FX (fwd_kick w (corrector L k0 k0s kn ks n model integrator)) p = - p_chi p * (k0 * L + kn) * w /\
  FY (fwd_kick w (corrector L k0 k0s kn ks n model integrator)) p = p_chi p * (k0s * L + ks) * w.
Proof.
  intros Hm.
  assert (E : fwd_kick w (corrector L k0 k0s kn ks n model integrator) =
    mkKp (L * w) (mkMult 0 1 [kn] [ks]) None 0 (1 * w) k0 0 0 0 k0s 0 0 0 0 0 k0 0 true).
  { destruct Hm as [-> | ->]; reflexivity. }
  rewrite E. unfold FX, FY, relx, rely, kc, kick_coordinates, mainm, htot, k0m, k1m.
  cbn [kp_length kp_factor kp_hxl kp_mult kp_rel kp_ref kp_k0 kp_k1 kp_k2 kp_k3 kp_k0s kp_k1s kp_rot
      kp_k2s kp_k3s kp_h kp_k0h kp_k1h mu_order mu_inv mu_knl mu_ksl nth kick_loop fst snd Nat.leb INR].
  destruct (is0 (L * w)); unfold Rdiv; rewrite ?(Rmult_0_l (/ (L * w))); split; field.
Qed.

Lemma corrector_px L k0 k0s kn ks n model integrator w p :
  (model = 5 \/ model = 6)%Z -> (1 <= n)%Z -> (0 <= integrator <= 3)%Z -> 0 < w ->
  let q := track_magnet false w (corrector L k0 k0s kn ks n model integrator) p in
  p_px q = p_px p - p_chi p * (k0 * L + kn) * w /\ p_py q = p_py p + p_chi p * (k0s * L + ks) * w.
Proof.
  intros Hm Hn Hi Hw. cbv zeta.
  set (g := corrector L k0 k0s kn ks n model integrator).
  assert (Hu : known (used_integrator g)).
  { unfold used_integrator, g, known. destruct Hm as [-> | ->]; cbn;
      destruct (Z.eqb_spec integrator 0); lia. }
  assert (Hd : dp_model (fwd_drift g) = 1%Z \/ dp_model (fwd_drift g) = 0%Z).
  { rewrite fwd_drift_model. destruct Hm as [-> | ->]; [left|right]; reflexivity. }
  assert (Hk : (1 <= used_kicks g w (L * w))%Z).
  { unfold used_kicks. assert (E : (if (used_model g =? -1)%Z then 1%Z else mg_kicks g) = n).
    { destruct Hm as [-> | ->]; reflexivity. }
    rewrite E. set (m := if _ && _ then _ else n).
    assert (H : (1 <= m)%Z).
    { unfold m. destruct (negb _ && (0 <? n)%Z); [|exact Hn].
      apply ceil_pos. apply Rmult_lt_0_compat; [apply (IZR_lt 0); lia|exact Hw]. }
    destruct (Z.eqb_spec m 0); lia. }
  assert (Ho : fwd_only_drift w g = false).
  { unfold fwd_only_drift. change (mg_length g) with L. destruct (Z.eqb_spec (used_kicks g w (L * w)) 0); [lia|reflexivity]. }
  rewrite track_fwd, body_run, Ho. change (mg_length g) with L.
  destruct (totals (used_integrator g) _ (L * w) Hu Hk) as [_ HW].
  set (l := body_ops false _ _ _) in *.
  assert (Hdd : forall x a, p_chi (magnet_drift (fwd_drift g) x a) = p_chi a /\
     p_px (magnet_drift (fwd_drift g) x a) = p_px a /\ p_py (magnet_drift (fwd_drift g) x a) = p_py a).
  { intros x a. unfold magnet_drift. destruct Hd as [-> | ->]; cbn [Z.eqb Pos.eqb]; destruct (is0 x); repeat split. }
  split.
  - destruct (linear_run (magnet_drift (fwd_drift g)) (magnet_kick (fwd_kick w g)) p_px (fun a => p_chi a = p_chi p)
      0 (- p_chi p * (k0 * L + kn) * w) l p) as [_ E].
    + intros x a Ha. destruct (Hdd x a) as (A & B & _). rewrite A, B. split; [exact Ha|ring].
    + intros x a Ha. rewrite kick_eq. split; [exact Ha|].
      destruct (corrector_kick L k0 k0s kn ks n model integrator w a Hm) as [EF _]. unfold g. rewrite EF, Ha.
      unfold kicked. pcbn. ring.
    + reflexivity.
    + rewrite E, HW. ring.
  - destruct (linear_run (magnet_drift (fwd_drift g)) (magnet_kick (fwd_kick w g)) p_py (fun a => p_chi a = p_chi p)
      0 (p_chi p * (k0s * L + ks) * w) l p) as [_ E].
    + intros x a Ha. destruct (Hdd x a) as (A & _ & B). rewrite A, B. split; [exact Ha|ring].
    + intros x a Ha. rewrite kick_eq. split; [exact Ha|].
      destruct (corrector_kick L k0 k0s kn ks n model integrator w a Hm) as [_ EF]. unfold g. rewrite EF, Ha.
      unfold kicked. pcbn. ring.
    + reflexivity.
    + rewrite E, HW. ring.
Qed.


(** * The dipole corrector in the other models *)

Lemma tiny_zero : tiny 0 = true.
Proof.
  unfold tiny. rewrite Rabs_R0. destruct (Rlt_dec 0 (/ 100000000)) as [_|N]; [reflexivity|].
  exfalso. apply N. apply Rinv_0_lt_compat. prove_sup.
Qed.

Lemma corrector_drift_model L k0 k0s kn ks n model integrator :
  In model [1; 3; 5; 6; 7; 8]%Z ->
  let g := corrector L k0 k0s kn ks n model integrator in
  drift_model_of (used_model g) (mg_h g) = (if Z.eqb model 6 then 0 else 1)%Z.
Proof.
  intros Hm. cbv zeta. unfold used_model, drift_model_of, corrector.
  cbn [mg_model mg_h mg_default_model]. rewrite tiny_zero.
  cbn [In] in Hm. repeat (destruct Hm as [<- | Hm]; [reflexivity|]). contradiction.
Qed.

Lemma bend_drift_model L k0 k0s kn ks n integrator :
  let g := corrector L k0 k0s kn ks n 2 integrator in
  drift_model_of (used_model g) (mg_h g) = 5%Z.
Proof.
  cbv zeta. unfold used_model, drift_model_of, corrector.
  cbn [mg_model mg_h mg_default_model]. rewrite tiny_zero. reflexivity.
Qed.

Definition part_kick (model : Z) (k0 : R) : R := if Z.eqb model 2 then 0 else k0.
Definition part_drift (model : Z) (k0 : R) : R := if Z.eqb model 2 then k0 else 0.

Lemma corrector_any_kick L k0 k0s kn ks n model integrator w p :
  In model [1; 2; 3; 5; 6; 7; 8]%Z ->
  FX (fwd_kick w (corrector L k0 k0s kn ks n model integrator)) p
    = - p_chi p * (part_kick model k0 * L + kn) * w /\
  FY (fwd_kick w (corrector L k0 k0s kn ks n model integrator)) p = p_chi p * (k0s * L + ks) * w.
Proof.
  intros Hm.
  assert (E : exists rot a b, fwd_kick w (corrector L k0 k0s kn ks n model integrator) =
    mkKp (L * w) (mkMult 0 1 [kn] [ks]) None 0 (1 * w) (part_kick model k0) 0 0 0 k0s 0 0 0 0 0 a b rot).
  { destruct (Z.eq_dec model 2) as [->|N2].
    - exists false, 0, 0. unfold fwd_kick. rewrite bend_drift_model. reflexivity.
    - exists true, k0, 0. unfold fwd_kick. rewrite corrector_drift_model by (cbn [In] in *; lia).
      assert (part_kick model k0 = k0) as -> by (unfold part_kick; destruct (Z.eqb_spec model 2);
        [contradiction|reflexivity]).
      destruct (Z.eqb model 6); reflexivity. }
  destruct E as (rot & a & b & E). rewrite E.
  unfold FX, FY, relx, rely, kc, kick_coordinates, mainm, htot, k0m, k1m.
  cbn [kp_length kp_factor kp_hxl kp_mult kp_rel kp_ref kp_k0 kp_k1 kp_k2 kp_k3 kp_k0s kp_k1s kp_rot
      kp_k2s kp_k3s kp_h kp_k0h kp_k1h mu_order mu_inv mu_knl mu_ksl nth kick_loop fst snd Nat.leb INR].
  destruct rot; destruct (is0 (L * w)); unfold Rdiv; rewrite ?(Rmult_0_l (/ (L * w))); split; field.
Qed.

Lemma corrector_any_drift L k0 k0s kn ks n model integrator x a :
  In model [1; 2; 3; 5; 6; 7; 8]%Z -> (model = 2%Z -> / 100000000 <= Rabs (k0 * p_chi a)) ->
  let d := fwd_drift (corrector L k0 k0s kn ks n model integrator) in
  p_chi (magnet_drift d x a) = p_chi a /\
  p_px (magnet_drift d x a) = p_px a - p_chi a * part_drift model k0 * x /\
  p_py (magnet_drift d x a) = p_py a.
Proof.
  intros Hm Hk. cbv zeta. destruct (Z.eq_dec model 2) as [->|N2].
  - assert (E : fwd_drift (corrector L k0 k0s kn ks n 2 integrator) = mkDp 5 k0 0 0 0 0 0).
    { unfold fwd_drift. rewrite bend_drift_model. reflexivity. }
    rewrite E. unfold magnet_drift. cbn [dp_model dp_k0 Z.eqb Pos.eqb].
    unfold part_drift. cbn [Z.eqb Pos.eqb].
    unfold is0. destruct (Req_EM_T x 0) as [->|Nx].
    + split; [reflexivity|]. split; [ring|reflexivity].
    + unfold straight_exact_bend. cbv zeta.
      assert (T : tiny (k0 * p_chi a) = false).
      { unfold tiny. destruct (Rlt_dec (Rabs (k0 * p_chi a)) (/ 100000000)) as [H|H]; [|reflexivity].
        specialize (Hk eq_refl). exfalso. apply (Rlt_irrefl (/ 100000000)).
        eapply Rle_lt_trans; [exact Hk|exact H]. }
      rewrite T. split; [reflexivity|]. split; [|reflexivity].
      change (p_px a - k0 * p_chi a * x = p_px a - p_chi a * k0 * x). ring.
  - assert (part_drift model k0 = 0) as -> by (unfold part_drift; destruct (Z.eqb_spec model 2);
      [contradiction|reflexivity]).
    assert (Hd : dp_model (fwd_drift (corrector L k0 k0s kn ks n model integrator)) = 1%Z \/
                 dp_model (fwd_drift (corrector L k0 k0s kn ks n model integrator)) = 0%Z).
    { rewrite fwd_drift_model, corrector_drift_model by (cbn [In] in *; lia).
      destruct (Z.eqb model 6); [right|left]; reflexivity. }
    unfold magnet_drift. destruct Hd as [-> | ->]; cbn [Z.eqb Pos.eqb]; destruct (is0 x);
      (split; [reflexivity|]; split; [|reflexivity]);
      try (change (p_px a = p_px a - p_chi a * 0 * x)); ring.
Qed.

Lemma corrector_any L k0 k0s kn ks n model integrator w p :
  In model [1; 2; 3; 5; 6; 7; 8]%Z -> (model = 2%Z -> / 100000000 <= Rabs (k0 * p_chi p)) ->
  (1 <= n)%Z -> (0 <= integrator <= 3)%Z -> 0 < w ->
  let q := track_magnet false w (corrector L k0 k0s kn ks n model integrator) p in
  p_px q = p_px p - p_chi p * (k0 * L + kn) * w /\ p_py q = p_py p + p_chi p * (k0s * L + ks) * w.
Proof.
  intros Hm Hc Hn Hi Hw. cbv zeta.
  set (g := corrector L k0 k0s kn ks n model integrator).
  assert (Em : used_model g = model).
  { unfold used_model, g, corrector. cbn [mg_model]. destruct (Z.eqb_spec model 0) as [->|]; [|reflexivity].
    cbn [In] in Hm. lia. }
  assert (Hu : known (used_integrator g)).
  { unfold used_integrator. rewrite Em. destruct (Z.eqb_spec model (-1)) as [->|]; [cbn [In] in Hm; lia|].
    unfold g, known. cbn. destruct (Z.eqb_spec integrator 0); lia. }
  assert (Hk : (1 <= used_kicks g w (L * w))%Z).
  { unfold used_kicks. rewrite Em.
    assert (E : (if (model =? -1)%Z then 1%Z else mg_kicks g) = n).
    { destruct (Z.eqb_spec model (-1)) as [->|]; [cbn [In] in Hm; lia|reflexivity]. }
    rewrite E. set (m := if _ && _ then _ else n).
    assert (H : (1 <= m)%Z).
    { unfold m. destruct (negb _ && (0 <? n)%Z); [|exact Hn].
      apply ceil_pos. apply Rmult_lt_0_compat; [apply (IZR_lt 0); lia|exact Hw]. }
    destruct (Z.eqb_spec m 0); lia. }
  assert (Ho : fwd_only_drift w g = false).
  { unfold fwd_only_drift. change (mg_length g) with L.
    destruct (fwd_kick w g). destruct (Z.eqb_spec (used_kicks g w (L * w)) 0); [lia|].
    reflexivity. }
  rewrite track_fwd, body_run, Ho. change (mg_length g) with L.
  destruct (totals (used_integrator g) _ (L * w) Hu Hk) as [HL HW].
  set (l := body_ops false _ _ _) in *.
  split.
  - destruct (linear_run (magnet_drift (fwd_drift g)) (magnet_kick (fwd_kick w g)) p_px (fun a => p_chi a = p_chi p)
      (- p_chi p * part_drift model k0) (- p_chi p * (part_kick model k0 * L + kn) * w) l p) as [_ E].
    + intros x a Ha.
      destruct (corrector_any_drift L k0 k0s kn ks n model integrator x a Hm) as (A & B & _);
        [rewrite Ha; exact Hc|].
      fold g in A, B. rewrite A, B, Ha. split; [reflexivity|ring].
    + intros x a Ha. rewrite kick_eq. split; [exact Ha|].
      destruct (corrector_any_kick L k0 k0s kn ks n model integrator w a Hm) as [EF _]. unfold g. rewrite EF, Ha.
      unfold kicked. pcbn. ring.
    + reflexivity.
    + rewrite E, HW, HL. unfold part_drift, part_kick. destruct (Z.eqb model 2); ring.
  - destruct (linear_run (magnet_drift (fwd_drift g)) (magnet_kick (fwd_kick w g)) p_py (fun a => p_chi a = p_chi p)
      0 (p_chi p * (k0s * L + ks) * w) l p) as [_ E].
    + intros x a Ha.
      destruct (corrector_any_drift L k0 k0s kn ks n model integrator x a Hm) as (A & _ & B);
        [rewrite Ha; exact Hc|].
      fold g in A, B. rewrite A, B. split; [exact Ha|ring].
    + intros x a Ha. rewrite kick_eq. split; [exact Ha|].
      destruct (corrector_any_kick L k0 k0s kn ks n model integrator w a Hm) as [_ EF]. unfold g. rewrite EF, Ha.
      unfold kicked. pcbn. ring.
    + reflexivity.
    + rewrite E, HW. ring.
Qed.

(** A dipole weaker than 1e-8 is not applied at all in the bend-kick-bend model. *)
Lemma weak_dipole_lost L k0 n integrator p :
  Rabs (k0 * p_chi p) < / 100000000 -> (1 <= n)%Z -> (0 <= integrator <= 3)%Z ->
  p_px (track_magnet false 1 (corrector L k0 0 0 0 n 2 integrator) p) = p_px p.
Proof.
  intros Hc Hn Hi. set (g := corrector L k0 0 0 0 n 2 integrator).
  rewrite track_fwd, body_run.
  destruct (linear_run (magnet_drift (fwd_drift g)) (magnet_kick (fwd_kick 1 g)) p_px
    (fun a => p_chi a = p_chi p) 0 0
    (body_ops (fwd_only_drift 1 g) (used_integrator g) (used_kicks g 1 (mg_length g * 1)) (mg_length g * 1)) p)
    as [_ E].
  - intros x a Ha.
    assert (E : fwd_drift g = mkDp 5 k0 0 0 0 0 0).
    { unfold fwd_drift, g. rewrite bend_drift_model. reflexivity. }
    rewrite E. unfold magnet_drift. cbn [dp_model dp_k0 Z.eqb Pos.eqb].
    unfold is0. destruct (Req_EM_T x 0) as [->|Nx]; [split; [exact Ha|ring]|].
    unfold straight_exact_bend. cbv zeta. rewrite Ha.
    assert (T : tiny (k0 * p_chi p) = true).
    { unfold tiny. destruct (Rlt_dec (Rabs (k0 * p_chi p)) (/ 100000000)) as [H|H]; [reflexivity|contradiction]. }
    rewrite T. split; [exact Ha|]. change (p_px a = p_px a + 0 * x). ring.
  - intros x a Ha. rewrite kick_eq. split; [exact Ha|].
    destruct (corrector_any_kick L k0 0 0 0 n 2 integrator 1 a) as [EF _]; [cbn [In]; lia|].
    unfold g. rewrite EF, Ha. unfold kicked, part_kick. pcbn. cbn [Z.eqb Pos.eqb]. ring.
  - reflexivity.
  - rewrite E. ring.
Qed.
