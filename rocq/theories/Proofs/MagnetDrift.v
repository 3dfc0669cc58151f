From Coq Require Import Reals ZArith Lra Lia List Bool.
From Verif.Model Require Import Maps Curved Magnet.
From Verif.Spec Require Import Frames Magnets.
From Verif.Proofs Require Import Frames FrameMaps Curved Bends Magnet.
Import ListNotations.
Local Open Scope R_scope.

Definition moved (x px y py dz ds : R) (p : part) : part :=
  mkPart x px y py (p_zeta p + dz) (p_s p + ds) (p_delta p) (p_ptau p) (p_rpp p)
    (p_rvv p) (p_chi p) (p_beta0 p) (p_ax p) (p_ay p) (p_spin_x p) (p_spin_y p) (p_spin_z p).

Lemma moved_back p x px y py dz ds x' px' y' py' dz' ds' :
  x' = p_x p -> px' = p_px p -> y' = p_y p -> py' = p_py p -> dz + dz' = 0 -> ds + ds' = 0 ->
  moved x' px' y' py' dz' ds' (moved x px y py dz ds p) = p.
Proof.
  intros -> -> -> -> H1 H2. destruct p. unfold moved. pcbn. cbn in *. f_equal; lra.
Qed.

(** * Polar drift *)
Definition pol_x (L h : R) (p : part) : R :=
  (p_x p + 1 / h * (2 * sin (1 / 2 * h * L) * sin (1 / 2 * h * L) + sin (h * L) * (p_px p * (1 / sqrt (pz2 p)))))
  * (1 / (cos (h * L) - sin (h * L) * (p_px p * (1 / sqrt (pz2 p))))).

Lemma pz2_eq p : (p_delta p + 1) * (p_delta p + 1) - p_px p * p_px p - p_py p * p_py p = pz2 p.
Proof. unfold pz2. ring. Qed.

Lemma half a : 2 * sin (1 / 2 * a) * sin (1 / 2 * a) = 1 - cos a.
Proof. replace (cos a) with (cos (2 * (1 / 2 * a))) by (f_equal; lra). rewrite cos_2a_sin. ring. Qed.
Lemma half' a : 2 * (sin (a / 2) * sin (a / 2)) = 1 - cos a.
Proof. rewrite <- half. replace (a / 2) with (1 / 2 * a) by lra. ring. Qed.

Lemma polar_nice L h p : arc_ok h L p ->
  polar_drift L h p =
  let c := cos (h * L) in let s := sin (h * L) in let pz := sqrt (pz2 p) in
  let q := c * pz - s * p_px p in
  moved ((p_x p + 1 / h) * pz / q - 1 / h) (c * p_px p + s * pz)
    (p_y p + (p_x p + 1 / h) * s / q * p_py p) (p_py p)
    (L - (p_delta p + 1) * (p_x p + 1 / h) * s / q / p_rvv p) L p.
Proof.
  intros (Hh & Hz & Hc & Hq). rewrite polar_drift_eq. cbv zeta. rewrite pz2_eq.
  assert (Hs : 0 < sqrt (pz2 p)) by now apply sqrt_lt_R0.
  replace (1 / 2 * h * L) with (1 / 2 * (h * L)) by ring. rewrite half.
  unfold moved. set (pz := sqrt (pz2 p)) in *. set (c := cos (h * L)) in *. set (s := sin (h * L)) in *.
  assert (E : forall a, 1 / (c - s * (a * (1 / pz))) = pz / (c * pz - s * a)).
  { intros a. replace (c - s * (a * (1 / pz))) with ((c * pz - s * a) / pz) by (field; lra).
    unfold Rdiv. rewrite Rinv_mult, Rinv_inv. ring. }
  rewrite E.
  assert (E2 : (1 - p_px p * s / c / pz) = (c * pz - s * p_px p) / (c * pz)) by (field; lra).
  rewrite E2. f_equal.
  - field. lra.
  - field. lra.
  - unfold Rdiv. f_equal. f_equal. f_equal. rewrite Rinv_mult, Rinv_inv. field. lra.
Qed.

Lemma polar_back L h p : arc_ok h L p -> polar_drift (- L) h (polar_drift L h p) = p.
Proof.
  intros Hok. pose proof Hok as (Hh & Hz & Hc & Hq). rewrite (polar_nice L h p Hok). cbv zeta.
  assert (Hs : 0 < sqrt (pz2 p)) by now apply sqrt_lt_R0.
  assert (Hpz : sqrt (pz2 p) * sqrt (pz2 p) = pz2 p) by (apply sqrt_sqrt; lra).
  pose proof (sc1 (h * L)) as SC.
  set (pz := sqrt (pz2 p)) in *. set (c := cos (h * L)) in *. set (s := sin (h * L)) in *.
  set (q := c * pz - s * p_px p) in *. set (m := moved _ _ _ _ _ _ _).
  assert (Ez : pz2 m = q * q).
  { unfold pz2 in Hpz |- *. unfold m, moved. pcbn. unfold q.
    transitivity (pz * pz + p_px p * p_px p - (c * p_px p + s * pz) * (c * p_px p + s * pz)); [lra|].
    transitivity ((s * s + c * c) * (pz * pz + p_px p * p_px p) - (c * p_px p + s * pz) * (c * p_px p + s * pz)).
    - rewrite SC. ring.
    - ring. }
  assert (Eq : sqrt (pz2 m) = q) by (rewrite Ez; apply sqrt_square; lra).
  assert (Ec : cos (h * - L) = c) by (rewrite Ropp_mult_distr_r_reverse; apply cos_neg).
  assert (Es : sin (h * - L) = - s) by (rewrite Ropp_mult_distr_r_reverse; apply sin_neg).
  assert (Em : p_px m = c * p_px p + s * pz) by reflexivity.
  assert (Eb : c * q - - s * p_px m = pz).
  { rewrite Em. unfold q. transitivity ((s * s + c * c) * pz); [ring|rewrite SC; ring]. }
  assert (Hok' : arc_ok h (- L) m).
  { split; [exact Hh|]. rewrite Eq, Ec, Es, Eb, Ez. repeat split; [|exact Hc|exact Hs]. nra. }
  rewrite (polar_nice (- L) h m Hok'). cbv zeta. rewrite Eq, Ec, Es, Eb.
  assert (Ex : p_x m + 1 / h = (p_x p + 1 / h) * pz / q) by (unfold m, moved; pcbn; ring).
  rewrite Ex, Em.
  change (p_y m) with (p_y p + (p_x p + 1 / h) * s / q * p_py p). change (p_py m) with (p_py p).
  change (p_delta m) with (p_delta p). change (p_rvv m) with (p_rvv p). unfold m.
  apply moved_back.
  - field. repeat split; lra.
  - unfold q. transitivity ((s * s + c * c) * p_px p); [ring|rewrite SC; ring].
  - field. repeat split; lra.
  - reflexivity.
  - unfold Rdiv. generalize (/ p_rvv p). intros iv. field. repeat split; lra.
  - ring.
Qed.

(** * Nested integrators *)
Fixpoint nested_ops (length : R) (coeffs : list (R * R)) (last : R) : list op :=
  match coeffs with
  | [] => [D (last * length)]
  | (d, k) :: t => D (d * length) :: K k :: nested_ops length t last
  end.
Lemma nested_run length k0 h coeffs last p :
  nested length k0 h coeffs last p
  = run (fun l p => polar_drift l h p) (fun k p => px_kick k k0 length p) (nested_ops length coeffs last) p.
Proof.
  revert p. induction coeffs as [|[d k] t IH]; intros p; [reflexivity|].
  cbn [nested nested_ops]. rewrite IH. reflexivity.
Qed.
Lemma nested_all_ok length k0 h coeffs last p : nested_ok length k0 h coeffs last p ->
  all_ok (fun l p => polar_drift l h p) (fun k p => px_kick k k0 length p) (fun l p => arc_ok h l p)
    (nested_ops length coeffs last) p.
Proof.
  revert p. induction coeffs as [|[d k] t IH]; intros p; cbn [nested_ok nested_ops all_ok].
  - tauto.
  - intros [H1 H2]. split; [exact H1|]. split; [exact I|]. apply IH. exact H2.
Qed.
Lemma nested_ops_neg length coeffs last :
  nested_ops (- length) coeffs last = map opneg (nested_ops length coeffs last).
Proof.
  induction coeffs as [|[d k] t IH]; cbn [nested_ops map opneg]; rewrite ?IH, ?Ropp_mult_distr_r_reverse; reflexivity.
Qed.
Lemma px_kick_back k k0 length p : px_kick k k0 (- length) (px_kick k k0 length p) = p.
Proof. destruct p. unfold px_kick, set_px. pcbn. f_equal. ring. Qed.
Lemma nested_back length k0 h coeffs last p :
  (forall L, rev (nested_ops L coeffs last) = nested_ops L coeffs last) ->
  nested_ok length k0 h coeffs last p ->
  nested (- length) k0 h coeffs last (nested length k0 h coeffs last p) = p.
Proof.
  intros Hr Hok. rewrite !nested_run, nested_ops_neg, <- (Hr length) at 1.
  apply (run_back _ _ _ (fun l p => arc_ok h l p)).
  - intros. now apply polar_back.
  - intros. apply px_kick_back.
  - now apply nested_all_ok.
Qed.

(** * Expanded combined bend and quadrupole *)
Lemma cfun_neg K L : cfun K (- L) = cfun K L.
Proof.
  unfold cfun. destruct (Rlt_dec 0 K); [|destruct (Rlt_dec K 0); [|reflexivity]];
  rewrite Ropp_mult_distr_r_reverse; [apply cos_neg|]. unfold cosh. rewrite Ropp_involutive. f_equal. ring.
Qed.
Lemma sfun_neg K L : sfun K (- L) = - sfun K L.
Proof.
  unfold sfun. destruct (Rlt_dec 0 K); [|destruct (Rlt_dec K 0); [|reflexivity]];
  rewrite Ropp_mult_distr_r_reverse.
  - rewrite sin_neg. unfold Rdiv. ring.
  - unfold sinh, Rdiv. rewrite Ropp_involutive. ring.
Qed.
Lemma cs_fun K L : cfun K L * cfun K L + K * (sfun K L * sfun K L) = 1.
Proof.
  unfold cfun, sfun. destruct (Rlt_dec 0 K).
  - assert (0 < sqrt K) by now apply sqrt_lt_R0.
    assert (E : sqrt K * sqrt K = K) by (apply sqrt_sqrt; lra).
    rewrite <- E at 3. rewrite <- (sc1 (sqrt K * L)). field. lra.
  - destruct (Rlt_dec K 0).
    + assert (0 < sqrt (- K)) by (apply sqrt_lt_R0; lra).
      assert (E : sqrt (- K) * sqrt (- K) = - K) by (apply sqrt_sqrt; lra).
      replace K with (- (sqrt (- K) * sqrt (- K))) at 3 by lra.
      unfold cosh, sinh. set (u := sqrt (- K) * L).
      assert (F : exp u * exp (- u) = 1) by (rewrite <- exp_plus, Rplus_opp_r; apply exp_0).
      transitivity (exp u * exp (- u)); [|exact F]. field. lra.
    + assert (K = 0) by lra. subst K. ring.
Qed.

Section Combined.
(** One plane: x'' = - K x - d, from x and slope a; the end is written with C, S. *)
Variables K d h x a L : R.
Notation C := (cfun K L).
Notation S := (sfun K L).
Let A := - K * x - d.
Definition end_x := x * C + a * S + (if is0 K then - d * (1 / 2) * (L * L) else d * (C - 1) / K).
Definition end_a := A * S + a * C.
End Combined.

Lemma back_x K d x a L :
  end_x K d (end_x K d x a L) (end_a K d x a L) (- L) = x.
Proof.
  unfold end_x, end_a. rewrite cfun_neg, sfun_neg. pose proof (cs_fun K L) as E.
  unfold is0. destruct (Req_EM_T K 0) as [->|N].
  - assert (EC : cfun 0 L = 1) by (unfold cfun; destruct (Rlt_dec 0 0); [lra|reflexivity]).
    assert (ES : sfun 0 L = L) by (unfold sfun; destruct (Rlt_dec 0 0); [lra|reflexivity]).
    rewrite EC, ES. field.
  - set (c := cfun K L) in *. set (s := sfun K L) in *.
    transitivity ((c * c + K * (s * s)) * x + d * ((c * c + K * (s * s)) - 1) / K); [field; exact N|].
    rewrite E. field. exact N.
Qed.
Lemma back_a K d x a L :
  end_a K d (end_x K d x a L) (end_a K d x a L) (- L) = a.
Proof.
  unfold end_x, end_a. rewrite cfun_neg, sfun_neg. pose proof (cs_fun K L) as E.
  unfold is0. destruct (Req_EM_T K 0) as [->|N].
  - assert (EC : cfun 0 L = 1) by (unfold cfun; destruct (Rlt_dec 0 0); [lra|reflexivity]).
    assert (ES : sfun 0 L = L) by (unfold sfun; destruct (Rlt_dec 0 0); [lra|reflexivity]).
    rewrite EC, ES. field.
  - set (c := cfun K L) in *. set (s := sfun K L) in *.
    transitivity ((c * c + K * (s * s)) * a); [field; exact N|].
    rewrite E. ring.
Qed.

(** The length of the path, minus L *)
Definition path (K d h x a L : R) : R :=
  let A := - K * x - d in
  let C := cfun K L in let S := sfun K L in
  if is0 K then h * L * (3 * L * a + 6 * x - d * (L * L)) / 6 + 1 / 2 * (a * a) * L
  else
    - (h * ((C - 1) * a + S * A + L * d)) / K
    + 1 / 2 * (- (A * A * C * S) / (2 * K) + a * a * C * S / 2 + A * A * L / (2 * K)
               + a * a * L / 2 - A * a * (C * C) / K + A * a / K).

Lemma path_split K d h x a L : K <> 0 ->
  path K d h x a L =
  let A := - K * x - d in
  let C := cfun K L in let S := sfun K L in
  - (h * ((C - 1) * a + S * A + L * d)) / K
  + 1 / 2 * ((A * A / K + a * a) * L / 2 + ((a * a - A * A / K) * C * S / 2 + A * a * (S * S))).
Proof.
  intros N. unfold path. pose proof (cs_fun K L) as E. unfold is0. destruct (Req_EM_T K 0) as [Q|_]; [tauto|].
  cbv zeta. set (c := cfun K L) in *. set (s := sfun K L) in *. set (A := - K * x - d).
  assert (E' : s * s = (1 - c * c) / K) by (field_simplify_eq; [lra|exact N]).
  rewrite E'. field. exact N.
Qed.

Lemma path_back K d h x a L : K <> 0 \/ d = 0 ->
  path K d h (end_x K d x a L) (end_a K d x a L) (- L) = - path K d h x a L.
Proof.
  intros H. destruct (Req_EM_T K 0) as [Z|N].
  - destruct H as [H|H]; [tauto|]. subst K d. unfold path, end_x, end_a, is0.
    destruct (Req_EM_T 0 0) as [_|Q]; [|tauto].
    assert (EC : cfun 0 L = 1) by (unfold cfun; destruct (Rlt_dec 0 0); [lra|reflexivity]).
    assert (ES : sfun 0 L = L) by (unfold sfun; destruct (Rlt_dec 0 0); [lra|reflexivity]).
    cbv zeta. rewrite EC, ES. field.
  - rewrite !path_split by exact N. cbv zeta. rewrite cfun_neg, sfun_neg.
    pose proof (cs_fun K L) as E. set (A1 := - K * end_x K d x a L - d).
    set (A := - K * x - d).
    assert (EA : A1 = A * cfun K L - K * a * sfun K L).
    { unfold A1, A, end_x, is0. destruct (Req_EM_T K 0) as [Q|_]; [tauto|]. field. exact N. }
    assert (Ea : end_a K d x a L = A * sfun K L + a * cfun K L) by reflexivity.
    rewrite Ea. set (c := cfun K L) in *. set (s := sfun K L) in *. clearbody A1. rewrite EA. clear EA Ea A1.
    transitivity (- (h * (- (c - c * c - K * (s * s)) * a + a * (c * c + K * (s * s) - 1) - s * A
                            - a * (c * c + K * (s * s) - 1) - L * d)) / K
      + 1 / 2 * (- ((c * c + K * (s * s)) * (A * A / K + a * a)) * L / 2
                 - (c * c + K * (s * s)) * ((a * a - A * A / K) * c * s / 2 + A * a * (s * s)))).
    + field. exact N.
    + rewrite E. assert (E2 : c - c * c - K * (s * s) = c - 1) by lra. rewrite E2. field. exact N.
Qed.

Lemma set_moved4 x px y py dz l p :
  add_s l (add_zeta dz (set_py py (set_y y (set_px px (set_x x p))))) = moved x px y py dz l p.
Proof. reflexivity. Qed.
Lemma moved_ext x px y py dz l x' px' y' py' dz' p : x = x' -> px = px' -> y = y' -> py = py' -> dz = dz' ->
  moved x px y py dz l p = moved x' px' y' py' dz' l p.
Proof. now intros -> -> -> -> ->. Qed.

Lemma combined_eq length k0_ k1_ h p :
  let dp := p_delta p + 1 in
  let k0 := p_chi p * k0_ / dp in let k1 := p_chi p * k1_ / dp in
  let K := k0 * h + k1 in let d := k0 - h in
  combined_dipole_quad length k0_ k1_ h p =
  moved (end_x K d (p_x p) (p_px p / dp) length) (end_a K d (p_x p) (p_px p / dp) length * dp)
    (end_x (- k1) 0 (p_y p) (p_py p / dp) length) (end_a (- k1) 0 (p_y p) (p_py p / dp) length * dp)
    (length - (length + path K d h (p_x p) (p_px p / dp) length
               + path (- k1) 0 0 (p_y p) (p_py p / dp) length) / p_rvv p) length p.
Proof.
  cbv zeta. set (dp := p_delta p + 1). set (k0 := p_chi p * k0_ / dp). set (k1 := p_chi p * k1_ / dp).
  unfold combined_dipole_quad. fold dp. fold k0 k1. cbv zeta. rewrite set_moved4.
  apply moved_ext.
  - unfold end_x, is0. destruct (Req_EM_T (k0 * h + k1) 0); ring.
  - unfold end_a. ring.
  - unfold end_x, is0. destruct (Req_EM_T (- k1) 0); unfold Rdiv; ring.
  - unfold end_a. ring.
  - f_equal. f_equal. unfold path, is0. cbv zeta.
    generalize (p_px p / dp) (p_py p / dp). clearbody k0 k1. intros.
    destruct (Req_EM_T (k0 * h + k1) 0); destruct (Req_EM_T (- k1) 0) as [|N];
      try (assert (N1 : k1 <> 0) by (intros Q; apply N; rewrite Q; ring));
      field; repeat split; assumption.
Qed.

Lemma combined_back length k0_ k1_ h p : combined_ok k0_ k1_ h p ->
  combined_dipole_quad (- length) k0_ k1_ h (combined_dipole_quad length k0_ k1_ h p) = p.
Proof.
  intros [Hd HK].
  pose proof (combined_eq length k0_ k1_ h p) as E1. cbv zeta in E1.
  set (dp := p_delta p + 1) in *. set (k0 := p_chi p * k0_ / dp) in *. set (k1 := p_chi p * k1_ / dp) in *.
  assert (Hdp : dp <> 0) by (unfold dp; intros Q; apply Hd; lra).
  set (q := combined_dipole_quad length k0_ k1_ h p) in *.
  pose proof (combined_eq (- length) k0_ k1_ h q) as E2. cbv zeta in E2.
  assert (Ed : p_delta q = p_delta p) by (rewrite E1; reflexivity).
  assert (Ec : p_chi q = p_chi p) by (rewrite E1; reflexivity).
  assert (Er : p_rvv q = p_rvv p) by (rewrite E1; reflexivity).
  rewrite Ed, Ec, Er in E2. fold dp in E2. fold k0 k1 in E2.
  set (K := k0 * h + k1) in *. set (d := k0 - h) in *.
  assert (Ex : p_x q = end_x K d (p_x p) (p_px p / dp) length) by (rewrite E1; reflexivity).
  assert (Ea : p_px q / dp = end_a K d (p_x p) (p_px p / dp) length).
  { rewrite E1. unfold moved. pcbn. field. exact Hdp. }
  assert (Ey : p_y q = end_x (- k1) 0 (p_y p) (p_py p / dp) length) by (rewrite E1; reflexivity).
  assert (Eb : p_py q / dp = end_a (- k1) 0 (p_y p) (p_py p / dp) length).
  { rewrite E1. unfold moved. pcbn. field. exact Hdp. }
  rewrite Ex, Ea, Ey, Eb in E2.
  assert (HK' : K <> 0 \/ d = 0).
  { destruct HK as [H|H]; [left|right].
    - intros Q. apply H. replace (p_chi p * (k0_ * h + k1_)) with (K * dp); [rewrite Q; ring|].
      unfold K, k0, k1. field. exact Hdp.
    - unfold d, k0. rewrite H. unfold dp. field. exact Hdp. }
  rewrite path_back in E2 by exact HK'. rewrite path_back in E2 by (right; reflexivity).
  rewrite !back_x, !back_a in E2. rewrite E2, E1.
  apply moved_back; try reflexivity; try (field; exact Hdp); try ring.
  unfold Rdiv. ring.
Qed.

(** * Exact bends *)
Lemma set_moved3 x px y dz l p :
  add_s l (add_zeta dz (set_y y (set_px px (set_x x p)))) = moved x px y (p_py p) dz l p.
Proof. reflexivity. Qed.
Lemma set_moved3' dx px y dz l p :
  add_s l (add_zeta dz (set_y y (set_px px (add_x dx p)))) = moved (p_x p + dx) px y (p_py p) dz l p.
Proof. reflexivity. Qed.

Lemma tiny_false a : tiny a = false <-> / 100000000 <= Rabs a.
Proof. unfold tiny. destruct (Rlt_dec (Rabs a) (/ 100000000)); split; intros; try discriminate; try lra; auto. Qed.
Lemma tiny_true a : tiny a = true <-> Rabs a < / 100000000.
Proof. unfold tiny. destruct (Rlt_dec (Rabs a) (/ 100000000)); split; intros; try discriminate; try lra; auto. Qed.
Lemma not_tiny_0 a : / 100000000 <= Rabs a -> a <> 0.
Proof. intros H E. rewrite E, Rabs_R0 in H. lra. Qed.

Lemma straight_bend_back length k0 p :
  straight_exact_bend (- length) k0 (straight_exact_bend length k0 p) = p.
Proof.
  unfold straight_exact_bend at 2. destruct (tiny (k0 * p_chi p)) eqn:T.
  - unfold straight_exact_bend. change (p_chi (drift_exact length p)) with (p_chi p). rewrite T.
    rewrite drift_exact_add, Rplus_opp_r. apply drift_exact_0.
  - apply tiny_false in T as T'. apply not_tiny_0 in T'. cbv zeta. rewrite set_moved3.
    set (b := k0 * p_chi p) in *. unfold straight_exact_bend.
    match goal with |- (if tiny (k0 * p_chi ?m) then _ else _) = _ => set (q := m) end.
    change (p_chi q) with (p_chi p). fold b. rewrite T. cbv zeta. rewrite set_moved3.
    change (p_delta q) with (p_delta p). change (p_py q) with (p_py p). change (p_rvv q) with (p_rvv p).
    change (p_px q) with (p_px p - b * length).
    replace (p_px p - b * length - b * - length) with (p_px p) by ring.
    unfold q. apply moved_back; try reflexivity; unfold moved; pcbn; unfold Rdiv; ring.
Qed.

Lemma atan2_neg y x : 0 < x -> atan2 (- y) x = - atan2 y x.
Proof.
  intros H. unfold atan2. destruct (Rlt_dec 0 x); [|lra].
  unfold Rdiv. rewrite Ropp_mult_distr_l_reverse. apply atan_opp.
Qed.

Lemma curved_nice length k0 h p : tiny (k0 * p_chi p) = false -> bend_ok (k0 * p_chi p) h length p ->
  let b := k0 * p_chi p in
  let c := cos (h * length) in let s := sin (h * length) in
  let pz := sqrt (pz2 p) in let C := pz - b * (1 / h + p_x p) in
  let pxs := bend_px b h length p in let pzs := sqrt (bend_pz2 b h length p) in
  let I := (h * length + atan2 (p_px p * pzs - pz * pxs) (pz * pzs + p_px p * pxs)) / b in
  curved_exact_bend length k0 h p =
  moved (p_x p + (pzs - pz - (C * c - p_px p * s - C)) / b) pxs (p_y p + p_py p * I) (p_py p)
    (length - (p_delta p + 1) * I / p_rvv p) length p.
Proof.
  intros T (Hh & Hz & Hz' & HD). cbv zeta. apply tiny_false in T as Hb. apply not_tiny_0 in Hb.
  unfold curved_exact_bend. rewrite T. cbv zeta. rewrite set_moved3', !pz2_eq.
  assert (Hp : 0 < sqrt (pz2 p)) by now apply sqrt_lt_R0.
  assert (Hq : 0 < sqrt (bend_pz2 (k0 * p_chi p) h length p)) by now apply sqrt_lt_R0.
  assert (E1 : sqrt (pz2 p) * sqrt (pz2 p) = pz2 p) by (apply sqrt_sqrt; lra).
  assert (E2 : sqrt (bend_pz2 (k0 * p_chi p) h length p) * sqrt (bend_pz2 (k0 * p_chi p) h length p)
               = bend_pz2 (k0 * p_chi p) h length p) by (apply sqrt_sqrt; lra).
  unfold bend_pz2, bend_px in *.
  set (b := k0 * p_chi p) in *. set (c := cos (h * length)) in *. set (s := sin (h * length)) in *.
  pose proof (half' (h * length)) as HH. fold c in HH. set (s2 := sin (h * length / 2)) in *.
  set (C := sqrt (pz2 p) - b * (1 / h + p_x p)) in *.
  set (pxs := p_px p * c + C * s) in *.
  replace ((p_delta p + 1) * (p_delta p + 1) - pxs * pxs - p_py p * p_py p)
    with ((1 + p_delta p) * (1 + p_delta p) - pxs * pxs - p_py p * p_py p) by ring.
  set (pzs := sqrt ((1 + p_delta p) * (1 + p_delta p) - pxs * pxs - p_py p * p_py p)) in *.
  set (pz := sqrt (pz2 p)) in *.
  assert (E3 : (p_px p - pxs) * (p_px p + pxs) / (pz + pzs) = pzs - pz).
  { replace ((p_px p - pxs) * (p_px p + pxs)) with ((pzs - pz) * (pz + pzs)); [field; lra|].
    transitivity (pzs * pzs - pz * pz); [ring|]. rewrite E1, E2. unfold pz2. ring. }
  rewrite E3.
  assert (E4 : -2 * C * (s2 * s2) = C * c - C).
  { transitivity (- (2 * (s2 * s2)) * C); [ring|]. rewrite HH. ring. }
  assert (E5 : -2 * p_px p * (s2 * s2) = p_px p * c - p_px p).
  { transitivity (- (2 * (s2 * s2)) * p_px p); [ring|]. rewrite HH. ring. }
  rewrite E4, E5.
  replace (p_px p * (pzs - pz) - pz * (p_px p * c - p_px p + C * s)) with (p_px p * pzs - pz * pxs)
    by (unfold pxs; ring).
  apply moved_ext; try reflexivity. f_equal. f_equal. ring.
Qed.

Lemma turn_back a C c s : s * s + c * c = 1 -> (a * c + C * s) * c + (C * c - a * s) * - s = a.
Proof. intros SC. transitivity ((s * s + c * c) * a); [ring|rewrite SC; ring]. Qed.

Lemma curved_tiny length k0 h p : tiny (k0 * p_chi p) = true ->
  curved_exact_bend length k0 h p = polar_drift length h p.
Proof. intros T. unfold curved_exact_bend. rewrite T. reflexivity. Qed.
Lemma polar_chi length h p : p_chi (polar_drift length h p) = p_chi p.
Proof. reflexivity. Qed.

Lemma curved_back length k0 h p :
  (Rabs (k0 * p_chi p) < / 100000000 /\ arc_ok h length p) \/
  (/ 100000000 <= Rabs (k0 * p_chi p) /\ bend_ok (k0 * p_chi p) h length p) ->
  curved_exact_bend (- length) k0 h (curved_exact_bend length k0 h p) = p.
Proof.
  intros [[T Hok]|[T Hok]].
  - apply tiny_true in T. rewrite (curved_tiny length k0 h p T).
    rewrite curved_tiny; [now apply polar_back|]. rewrite polar_chi. exact T.
  - pose proof (not_tiny_0 _ T) as Hb. apply tiny_false in T.
    pose proof (curved_nice length k0 h p T Hok) as E1. cbv zeta in E1.
    destruct Hok as (Hh & Hz & Hz' & HD).
    set (q := curved_exact_bend length k0 h p) in *. clearbody q.
    assert (Hp : 0 < sqrt (pz2 p)) by now apply sqrt_lt_R0.
    assert (Hq : 0 < sqrt (bend_pz2 (k0 * p_chi p) h length p)) by now apply sqrt_lt_R0.
    assert (Ec : p_chi q = p_chi p) by (rewrite E1; reflexivity).
    assert (Ed : p_delta q = p_delta p) by (rewrite E1; reflexivity).
    assert (Er : p_rvv q = p_rvv p) by (rewrite E1; reflexivity).
    assert (Ey : p_py q = p_py p) by (rewrite E1; reflexivity).
    assert (Ex : p_x q = p_x p + (sqrt (bend_pz2 (k0 * p_chi p) h length p) - sqrt (pz2 p)
      - ((sqrt (pz2 p) - k0 * p_chi p * (1 / h + p_x p)) * cos (h * length) - p_px p * sin (h * length)
         - (sqrt (pz2 p) - k0 * p_chi p * (1 / h + p_x p)))) / (k0 * p_chi p)) by (rewrite E1; reflexivity).
    assert (Epx : p_px q = bend_px (k0 * p_chi p) h length p) by (rewrite E1; reflexivity).
    assert (Ez : pz2 q = bend_pz2 (k0 * p_chi p) h length p).
    { unfold pz2, bend_pz2. now rewrite Ed, Epx, Ey. }
    assert (cn : cos (h * - length) = cos (h * length)) by (rewrite Ropp_mult_distr_r_reverse; apply cos_neg).
    assert (sn : sin (h * - length) = - sin (h * length)) by (rewrite Ropp_mult_distr_r_reverse; apply sin_neg).
    assert (EC : sqrt (pz2 q) - k0 * p_chi p * (1 / h + p_x q) =
      (sqrt (pz2 p) - k0 * p_chi p * (1 / h + p_x p)) * cos (h * length) - p_px p * sin (h * length)).
    { rewrite Ez, Ex. field. repeat split; try assumption; intros Q; apply Hb; rewrite Q; ring. }
    assert (Ep : bend_px (k0 * p_chi p) h (- length) q = p_px p).
    { unfold bend_px at 1. rewrite cn, sn, EC, Epx. unfold bend_px.
      apply turn_back. apply sc1. }
    assert (Eb : bend_pz2 (k0 * p_chi p) h (- length) q = pz2 p).
    { unfold bend_pz2 at 1. rewrite Ep, Ed, Ey. reflexivity. }
    assert (T' : tiny (k0 * p_chi q) = false) by now rewrite Ec.
    assert (Hok' : bend_ok (k0 * p_chi q) h (- length) q).
    { rewrite Ec. split; [exact Hh|]. rewrite Ez, Eb, Ep, Epx.
      split; [exact Hz'|]. split; [exact Hz|]. lra. }
    pose proof (curved_nice (- length) k0 h q T' Hok') as E2. cbv zeta in E2.
    rewrite Ec, Ep, Eb, EC, Ez, Ed, Er, Ey, Epx, cn, sn in E2.
    assert (Eyy : p_y q = p_y p + p_py p * ((h * length + atan2 (p_px p * sqrt (bend_pz2 (k0 * p_chi p) h length p)
      - sqrt (pz2 p) * bend_px (k0 * p_chi p) h length p) (sqrt (pz2 p) * sqrt (bend_pz2 (k0 * p_chi p) h length p)
      + p_px p * bend_px (k0 * p_chi p) h length p)) / (k0 * p_chi p))) by (rewrite E1; reflexivity).
    rewrite Ex, Eyy in E2. rewrite E2, E1. clear E1 E2 Ex Eyy Epx Ec Ed Er Ey Ez EC Ep Eb T' Hok' cn sn q.
    assert (Epp : bend_px (k0 * p_chi p) h length p =
       p_px p * cos (h * length) + (sqrt (pz2 p) - k0 * p_chi p * (1 / h + p_x p)) * sin (h * length)) by reflexivity.
    pose proof (sc1 (h * length)) as SC.
    replace (bend_px (k0 * p_chi p) h length p * sqrt (pz2 p) - sqrt (bend_pz2 (k0 * p_chi p) h length p) * p_px p)
      with (- (p_px p * sqrt (bend_pz2 (k0 * p_chi p) h length p)
               - sqrt (pz2 p) * bend_px (k0 * p_chi p) h length p)) by ring.
    replace (sqrt (bend_pz2 (k0 * p_chi p) h length p) * sqrt (pz2 p) + bend_px (k0 * p_chi p) h length p * p_px p)
      with (sqrt (pz2 p) * sqrt (bend_pz2 (k0 * p_chi p) h length p)
            + p_px p * bend_px (k0 * p_chi p) h length p) by ring.
    rewrite (atan2_neg _ _ HD). revert Epp SC Hb.
    generalize (atan2 (p_px p * sqrt (bend_pz2 (k0 * p_chi p) h length p)
      - sqrt (pz2 p) * bend_px (k0 * p_chi p) h length p) (sqrt (pz2 p) * sqrt (bend_pz2 (k0 * p_chi p) h length p)
      + p_px p * bend_px (k0 * p_chi p) h length p)).
    generalize (sqrt (bend_pz2 (k0 * p_chi p) h length p)) (bend_px (k0 * p_chi p) h length p) (sqrt (pz2 p)).
    generalize (cos (h * length)) (sin (h * length)) (k0 * p_chi p).
    intros c s b pzs pxs pz al Epp SC Hb.
    apply moved_back; try reflexivity; try ring.
    + rewrite Epp. generalize (pz - b * (1 / h + p_x p)). intros C.
      assert (G : (C * c - p_px p * s) * c - (p_px p * c + C * s) * - s - (C * c - p_px p * s)
                 = C - (C * c - p_px p * s)).
      { transitivity ((s * s + c * c) * C - (C * c - p_px p * s)); [ring|rewrite SC; ring]. }
      rewrite G. field. exact Hb.
    + field. exact Hb.
    + unfold Rdiv. ring.
Qed.

(** * Solenoid *)
Definition movedA (x px y py dz ds ax ay : R) (p : part) : part :=
  mkPart x px y py (p_zeta p + dz) (p_s p + ds) (p_delta p) (p_ptau p) (p_rpp p)
    (p_rvv p) (p_chi p) (p_beta0 p) ax ay (p_spin_x p) (p_spin_y p) (p_spin_z p).
Lemma movedA_back p x px y py dz ds ax ay x' px' y' py' dz' ds' ax' ay' :
  x' = p_x p -> px' = p_px p -> y' = p_y p -> py' = p_py p -> dz + dz' = 0 -> ds + ds' = 0 ->
  ax' = p_ax p -> ay' = p_ay p ->
  movedA x' px' y' py' dz' ds' ax' ay' (movedA x px y py dz ds ax ay p) = p.
Proof.
  intros -> -> -> -> H1 H2 -> ->. destruct p. unfold movedA. pcbn. cbn in *. f_equal; lra.
Qed.
Lemma set_movedA x px y py dz l ax ay p :
  set_ay ay (set_ax ax (add_s l (add_zeta dz (set_py py (set_y y (set_px px (set_x x p)))))))
  = movedA x px y py dz l ax ay p.
Proof. reflexivity. Qed.

Definition sol_pt2 (sk x px y py : R) : R :=
  (px + sk * y) * (px + sk * y) + (py - sk * x) * (py - sk * x).
Definition sol_x (sk c s x px y py : R) : R := c * (c * x + s * y) + s / sk * (c * px + s * py).
Definition sol_px (sk c s x px y py : R) : R := c * (c * px + s * py) - sk * s * (c * x + s * y).
Definition sol_y (sk c s x px y py : R) : R := c * (c * y - s * x) + s / sk * (c * py - s * px).
Definition sol_py (sk c s x px y py : R) : R := c * (c * py - s * px) - sk * s * (c * y - s * x).

Section Sol.
Variables sk c s x px y py : R.
Hypothesis SC : s * s + c * c = 1.
Hypothesis Hk : sk <> 0.
Let X := sol_x sk c s x px y py.
Let PX := sol_px sk c s x px y py.
Let Y := sol_y sk c s x px y py.
Let PY := sol_py sk c s x px y py.
Lemma sol_pt2_same : sol_pt2 sk X PX Y PY = sol_pt2 sk x px y py.
Proof.
  unfold X, PX, Y, PY, sol_pt2, sol_x, sol_px, sol_y, sol_py.
  transitivity ((s * s + c * c) * (s * s + c * c) * ((px + sk * y) * (px + sk * y) + (py - sk * x) * (py - sk * x))).
  - field. exact Hk.
  - rewrite SC. ring.
Qed.
Lemma sol_x_back : sol_x sk c (- s) X PX Y PY = x.
Proof.
  unfold X, PX, Y, PY, sol_x, sol_px, sol_y, sol_py.
  transitivity ((s * s + c * c) * (s * s + c * c) * x); [field; exact Hk|rewrite SC; ring].
Qed.
Lemma sol_px_back : sol_px sk c (- s) X PX Y PY = px.
Proof.
  unfold X, PX, Y, PY, sol_x, sol_px, sol_y, sol_py.
  transitivity ((s * s + c * c) * (s * s + c * c) * px); [field; exact Hk|rewrite SC; ring].
Qed.
Lemma sol_y_back : sol_y sk c (- s) X PX Y PY = y.
Proof.
  unfold X, PX, Y, PY, sol_x, sol_px, sol_y, sol_py.
  transitivity ((s * s + c * c) * (s * s + c * c) * y); [field; exact Hk|rewrite SC; ring].
Qed.
Lemma sol_py_back : sol_py sk c (- s) X PX Y PY = py.
Proof.
  unfold X, PX, Y, PY, sol_x, sol_px, sol_y, sol_py.
  transitivity ((s * s + c * c) * (s * s + c * c) * py); [field; exact Hk|rewrite SC; ring].
Qed.
End Sol.

Lemma solenoid_nice length ks x0 y0 p : IS_ZERO (ks / 2) = false -> IS_ZERO length = false ->
  let sk := ks / 2 in
  let pz := sqrt ((1 + p_delta p) * (1 + p_delta p) - sol_pt2 sk (p_x p - x0) (p_px p) (p_y p - y0) (p_py p)) in
  let c := cos (sk * length / pz) in let s := sin (sk * length / pz) in
  let X := sol_x sk c s (p_x p - x0) (p_px p) (p_y p - y0) (p_py p) in
  let Y := sol_y sk c s (p_x p - x0) (p_px p) (p_y p - y0) (p_py p) in
  solenoid length ks x0 y0 p =
  movedA (X + x0) (sol_px sk c s (p_x p - x0) (p_px p) (p_y p - y0) (p_py p))
    (Y + y0) (sol_py sk c s (p_x p - x0) (p_px p) (p_y p - y0) (p_py p))
    (length * (1 - (1 + p_delta p) / (pz * p_rvv p))) length (- (1 / 2) * ks * Y) (1 / 2 * ks * X) p.
Proof.
  intros T1 T2. cbv zeta. unfold solenoid. cbv zeta. rewrite T1, T2, set_movedA. reflexivity.
Qed.

Lemma IS_ZERO_neg a : IS_ZERO (- a) = IS_ZERO a.
Proof. unfold IS_ZERO. now rewrite Rabs_Ropp. Qed.
Lemma solenoid_short length ks x0 y0 p : IS_ZERO (ks / 2) = false -> IS_ZERO length = true ->
  solenoid length ks x0 y0 p = p.
Proof. intros T1 T2. unfold solenoid. cbv zeta. now rewrite T1, T2. Qed.
Lemma solenoid_off length ks x0 y0 p : IS_ZERO (ks / 2) = true ->
  solenoid length ks x0 y0 p = set_ay 0 (set_ax 0 (drift_exact length p)).
Proof. intros T1. unfold solenoid. cbv zeta. now rewrite T1. Qed.
Lemma drift_exact_a length a b p :
  drift_exact length (set_ay a (set_ax b p)) = set_ay a (set_ax b (drift_exact length p)).
Proof. reflexivity. Qed.

Lemma solenoid_back length ks x0 y0 p : solenoid_ok ks x0 y0 length p ->
  solenoid (- length) ks x0 y0 (solenoid length ks x0 y0 p) = p.
Proof.
  intros [(T & H1 & H2)|(T & H1 & H2)].
  - assert (T' : IS_ZERO (ks / 2) = true) by (unfold IS_ZERO; destruct (Rlt_dec (Rabs (ks / 2)) (/ 1000000000)); [reflexivity|lra]).
    rewrite !(solenoid_off _ _ _ _ _ T'), drift_exact_a, drift_exact_add, Rplus_opp_r, drift_exact_0.
    destruct p. unfold set_ay, set_ax. cbn in *. congruence.
  - assert (T' : IS_ZERO (ks / 2) = false) by (unfold IS_ZERO; destruct (Rlt_dec (Rabs (ks / 2)) (/ 1000000000)); [lra|reflexivity]).
    assert (Hk : ks / 2 <> 0) by (intros Q; rewrite Q, Rabs_R0 in T; lra).
    destruct (IS_ZERO length) eqn:TL.
    + rewrite !solenoid_short; auto. now rewrite IS_ZERO_neg.
    + pose proof (solenoid_nice length ks x0 y0 p T' TL) as E1. cbv zeta in E1.
      revert E1. generalize (solenoid length ks x0 y0 p). intros q E1.
      assert (TL' : IS_ZERO (- length) = false) by now rewrite IS_ZERO_neg.
      pose proof (solenoid_nice (- length) ks x0 y0 q T' TL') as E2. cbv zeta in E2.
      assert (Ed : p_delta q = p_delta p) by (rewrite E1; reflexivity).
      assert (Er : p_rvv q = p_rvv p) by (rewrite E1; reflexivity).
      rewrite Ed, Er in E2. rewrite E2. clear E2 Ed Er. revert E1.
      set (sk := ks / 2) in *. clearbody sk.
      set (pz := sqrt _) at 1 2 3 4 5 6 7 8 9 10 11 12 13. intros E1.
      pose proof (sc1 (sk * length / pz)) as SC.
      remember (cos (sk * length / pz)) as c eqn:Ec. remember (sin (sk * length / pz)) as s eqn:Es.
      assert (Ex : p_x q - x0 = sol_x sk c s (p_x p - x0) (p_px p) (p_y p - y0) (p_py p)) by (rewrite E1; unfold movedA; pcbn; ring).
      assert (Ey : p_y q - y0 = sol_y sk c s (p_x p - x0) (p_px p) (p_y p - y0) (p_py p)) by (rewrite E1; unfold movedA; pcbn; ring).
      assert (Epx : p_px q = sol_px sk c s (p_x p - x0) (p_px p) (p_y p - y0) (p_py p)) by (rewrite E1; reflexivity).
      assert (Epy : p_py q = sol_py sk c s (p_x p - x0) (p_px p) (p_y p - y0) (p_py p)) by (rewrite E1; reflexivity).
      rewrite Ex, Ey, Epx, Epy.
      rewrite (sol_pt2_same sk c s (p_x p - x0) (p_px p) (p_y p - y0) (p_py p) SC Hk). fold pz.
      replace (sk * - length / pz) with (- (sk * length / pz)) by (unfold Rdiv; ring).
      rewrite cos_neg, sin_neg, <- Ec, <- Es.
      rewrite sol_x_back, sol_y_back, sol_px_back, sol_py_back by assumption.
      rewrite E1. apply movedA_back; try ring; try reflexivity; now rewrite ?H1, ?H2.
Qed.
