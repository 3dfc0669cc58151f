From Coq Require Import Reals ZArith Lra Lia List Bool Factorial.
From Verif.Model Require Import Maps Curved Magnet Rf.
From Verif.Model Require Energy.
From Verif.Spec Require Import Frames Magnets Rf.
From Verif.Proofs Require Import Frames FrameMaps Magnet MagnetDrift MagnetBack MagnetSum.
Import ListNotations.
Local Open Scope R_scope.

(** * The kick in closed form *)
Definition irpp (b t : R) : R := sqrt (t * t + 2 * t / b + 1).
Definition kicked (u v : R) (p : part) : part := add_py v (add_px u p).
Definition retimed (t : R) (p : part) : part :=
  mkPart (p_x p) (p_px p) (p_y p) (p_py p) (p_zeta p) (p_s p)
    (irpp (p_beta0 p) t - 1) t (1 / irpp (p_beta0 p) t) (irpp (p_beta0 p) t / (1 + p_beta0 p * t))
    (p_chi p) (p_beta0 p) (p_ax p) (p_ay p) (p_spin_x p) (p_spin_y p) (p_spin_z p).
Definition scaled (f : R) (p : part) : part := set_py (p_py p * f) (set_px (p_px p * f) p).

Definition dphase (k : rfkick) (a : rp) : R :=
  2 * PI / C_LIGHT * used_frequency k a * (p_zeta (r_part a) / p_beta0 (r_part a)).
Definition mult_sum (k : rfkick) (a : rp) : R * R * R :=
  match rm_order (rk_mult k) with
  | None => (0, 0, 0)
  | Some order => rf_loop (rk_mult k) (rk_factor k) (phase0 k a) (dphase k a)
                    (p_x (r_part a)) (p_y (r_part a)) (S order) 0 1 1 0 0 0 0
  end.
Definition tr_phase (k : rfkick) (a : rp) : R :=
  phase0 k a + DEG2RAD * (rk_tlag k + 90) + rk_tphase k - dphase k a.
Definition kx (k : rfkick) (a : rp) : R :=
  - p_chi (r_part a) * (fst (fst (mult_sum k a)) + cos (tr_phase k a) * (rk_tvoltage k / r_p0c a)).
Definition ky (k : rfkick) (a : rp) : R := p_chi (r_part a) * snd (fst (mult_sum k a)).
Definition kE (k : rfkick) (a : rp) : R :=
  charge a * rk_voltage k * sin (phase0 k a + DEG2RAD * rk_lag k + rk_phase k - dphase k a)
  - charge a * (used_frequency k a * (2 * PI / C_LIGHT) * r_p0c a
      * (snd (mult_sum k a) + sin (tr_phase k a) * (rk_tvoltage k / r_p0c a * p_x (r_part a)))).
Definition kt (k : rfkick) (a : rp) : R := kE k a / r_p0c a / (r_cr a / p_chi (r_part a)).

Definition kick_result (preserve : bool) (k : rfkick) (a : rp) (p : part) : part :=
  let p1 := kicked (kx k a) (ky k a) p in
  if rk_kill k then p1
  else
    let p2 := retimed (p_ptau p + kt k a) p1 in
    if preserve then scaled (p_rpp p / p_rpp p2) p2 else p2.

Lemma add_energy_eq dE b a : add_to_energy dE b a =
  on_part (fun p => let p2 := retimed (p_ptau p + dE / r_p0c a / (r_cr a / p_chi p)) p in
                    if b then p2 else scaled (p_rpp p / p_rpp p2) p2) a.
Proof. destruct a as [p p0c q0 cr ts tu li]. destruct p. destruct b; reflexivity. Qed.

Lemma part_ext p q : p_x p = p_x q -> p_px p = p_px q -> p_y p = p_y q -> p_py p = p_py q ->
  p_zeta p = p_zeta q -> p_s p = p_s q -> p_delta p = p_delta q -> p_ptau p = p_ptau q ->
  p_rpp p = p_rpp q -> p_rvv p = p_rvv q -> p_chi p = p_chi q -> p_beta0 p = p_beta0 q ->
  p_ax p = p_ax q -> p_ay p = p_ay q -> p_spin_x p = p_spin_x q -> p_spin_y p = p_spin_y q ->
  p_spin_z p = p_spin_z q -> p = q.
Proof. destruct p, q; cbn; intros; subst; reflexivity. Qed.

Lemma kicked_kicked u v u' v' p : kicked u' v' (kicked u v p) = kicked (u + u') (v + v') p.
Proof. destruct p. unfold kicked, add_px, add_py, set_px, set_py. cbn. f_equal; ring. Qed.
Lemma kicked_0 p : kicked 0 0 p = p.
Proof. destruct p. unfold kicked, add_px, add_py, set_px, set_py. cbn. f_equal; ring. Qed.

Lemma on_part_on f g a : on_part f (on_part g a) = on_part (fun p => f (g p)) a.
Proof. reflexivity. Qed.
Lemma on_part_ext f g a : f (r_part a) = g (r_part a) -> on_part f a = on_part g a.
Proof. intros H. unfold on_part. now rewrite H. Qed.

Lemma is0_true a : is0 a = true <-> a = 0.
Proof. unfold is0. destruct (Req_EM_T a 0); split; intros; congruence. Qed.
Lemma is0_false a : is0 a = false <-> a <> 0.
Proof. unfold is0. destruct (Req_EM_T a 0); split; intros; congruence. Qed.

Lemma rf_kick_eq pr k a : rf_kick pr k a = on_part (kick_result pr k a) a.
Proof.
  unfold rf_kick. cbv zeta.
  fold (dphase k a). fold (charge a).
  set (E := sin (phase0 k a + DEG2RAD * rk_lag k + rk_phase k - dphase k a)).
  assert (H1 : (match rm_order (rk_mult k) with
    | None => (0, a)
    | Some order =>
        let '(dpx, dpy, dptr) :=
          rf_loop (rk_mult k) (rk_factor k) (phase0 k a) (dphase k a) (p_x (r_part a)) (p_y (r_part a))
            (S order) 0 1 1 0 0 0 0 in
        (- charge a * (used_frequency k a * (2 * PI / C_LIGHT) * r_p0c a * dptr),
         on_part (fun p => add_py (p_chi p * dpy) (add_px (- p_chi p * dpx) p)) a)
    end) = (- charge a * (used_frequency k a * (2 * PI / C_LIGHT) * r_p0c a * snd (mult_sum k a)),
            on_part (kicked (- p_chi (r_part a) * fst (fst (mult_sum k a)))
                       (p_chi (r_part a) * snd (fst (mult_sum k a)))) a)).
  { unfold mult_sum. destruct (rm_order (rk_mult k)) as [n|].
    - destruct (rf_loop _ _ _ _ _ _ _ _ _ _ _ _ _ _) as [[dx dy] dt]. reflexivity.
    - cbn [fst snd]. f_equal; [ring|]. destruct a as [p ? ? ? ? ? ?]. unfold on_part. cbn [r_part].
      rewrite !Rmult_0_r, kicked_0. reflexivity. }
  rewrite H1. clear H1.
  set (b := on_part (kicked (- p_chi (r_part a) * fst (fst (mult_sum k a))) _) a).
  set (f := used_frequency k a * (2 * PI / C_LIGHT)).
  assert (H2 : (if is0 (rk_tvoltage k) then (- charge a * (f * r_p0c a * snd (mult_sum k a)), b)
    else
      (- charge a * (f * r_p0c a * snd (mult_sum k a)) +
       - charge a * (f * r_p0c b *
           (0 + sin (phase0 k a + DEG2RAD * (rk_tlag k + 90) + rk_tphase k - dphase k a) *
                 (rk_tvoltage k / r_p0c b * (1 * p_x (r_part b) - 0 * p_y (r_part b))))),
       on_part (fun p => add_py (p_chi p *
           (0 + cos (phase0 k a + DEG2RAD * (rk_tlag k + 90) + rk_tphase k - dphase k a) *
            (rk_tvoltage k / r_p0c b * 0)))
         (add_px (- p_chi p *
           (0 + cos (phase0 k a + DEG2RAD * (rk_tlag k + 90) + rk_tphase k - dphase k a) *
            (rk_tvoltage k / r_p0c b * 1))) p)) b))
    = (kE k a - charge a * rk_voltage k * E, on_part (kicked (kx k a) (ky k a)) a)).
  { fold (tr_phase k a).
    assert (Ep : r_p0c b = r_p0c a) by reflexivity.
    assert (Ex : p_x (r_part b) = p_x (r_part a)) by reflexivity.
    assert (Ec : p_chi (r_part b) = p_chi (r_part a)) by reflexivity.
    destruct (is0 (rk_tvoltage k)) eqn:Ez.
    - apply is0_true in Ez. f_equal.
      + unfold kE. fold f. fold E. rewrite Ez. unfold Rdiv. ring.
      + unfold b, kx, ky. rewrite Ez. f_equal. unfold Rdiv. rewrite Rmult_0_l, Rmult_0_r, Rplus_0_r.
        reflexivity.
    - rewrite Ep, Ex. f_equal.
      + unfold kE. fold f. fold E. ring.
      + unfold b. rewrite on_part_on. apply on_part_ext.
        set (u := - p_chi (r_part a) * fst (fst (mult_sum k a))).
        set (v := p_chi (r_part a) * snd (fst (mult_sum k a))).
        set (q := kicked u v (r_part a)).
        change (kicked (- p_chi q * (0 + cos (tr_phase k a) * (rk_tvoltage k / r_p0c a * 1)))
          (p_chi q * (0 + cos (tr_phase k a) * (rk_tvoltage k / r_p0c a * 0))) q
          = kicked (kx k a) (ky k a) (r_part a)).
        change (p_chi q) with (p_chi (r_part a)). unfold q. rewrite kicked_kicked. unfold kx, ky, u, v.
        f_equal; ring. }
  rewrite H2. clear H2. unfold kick_result. cbv zeta.
  destruct (rk_kill k); [reflexivity|].
  rewrite add_energy_eq, on_part_on. apply on_part_ext. cbv zeta.
  replace (charge a * rk_voltage k * E + (kE k a - charge a * rk_voltage k * E)) with (kE k a) by ring.
  change (p_ptau (kicked (kx k a) (ky k a) (r_part a))) with (p_ptau (r_part a)).
  change (p_chi (kicked (kx k a) (ky k a) (r_part a))) with (p_chi (r_part a)).
  change (p_rpp (kicked (kx k a) (ky k a) (r_part a))) with (p_rpp (r_part a)).
  change (r_p0c (on_part (kicked (kx k a) (ky k a)) a)) with (r_p0c a).
  change (r_cr (on_part (kicked (kx k a) (ky k a)) a)) with (r_cr a).
  fold (kt k a). destruct pr; reflexivity.
Qed.

(** * The loop over the multipoles *)
Section Loop.
Variables (m : rfmult) (f ph d x y : R).
Definition cN (j : nat) : R := cos (ph + DEG2RAD * nth j (rm_pn m) 0 + nth j (rm_phase_n m) 0 - d).
Definition sN (j : nat) : R := sin (ph + DEG2RAD * nth j (rm_pn m) 0 + nth j (rm_phase_n m) 0 - d).
Definition cS (j : nat) : R := cos (ph + DEG2RAD * nth j (rm_ps m) 0 + nth j (rm_phase_s m) 0 - d).
Definition sS (j : nat) : R := sin (ph + DEG2RAD * nth j (rm_ps m) 0 + nth j (rm_phase_s m) 0 - d).
Definition tx (j : nat) : R :=
  (cN j * nth j (rm_knl m) 0 * re j x y - cS j * nth j (rm_ksl m) 0 * im j x y) / INR (fact j).
Definition ty (j : nat) : R :=
  (cS j * nth j (rm_ksl m) 0 * re j x y + cN j * nth j (rm_knl m) 0 * im j x y) / INR (fact j).
Definition tt (j : nat) : R :=
  (sN j * nth j (rm_knl m) 0 * re (S j) x y - sS j * nth j (rm_ksl m) 0 * im (S j) x y) / INR (fact j).

Lemma re_S j : re (S j) x y = re j x y * x - im j x y * y.
Proof. unfold re, im. cbn [re_im]. destruct (re_im j x y). reflexivity. Qed.
Lemma im_S j : im (S j) x y = re j x y * y + im j x y * x.
Proof. unfold re, im. cbn [re_im]. destruct (re_im j x y). reflexivity. Qed.

Lemma fact_step kk : (if Nat.ltb 0 kk then INR (fact (pred kk)) * INR kk else INR (fact (pred kk)))
  = INR (fact kk).
Proof.
  destruct kk as [|kk]; [reflexivity|]. cbn [Nat.ltb Nat.leb pred]. change (fact (S kk)) with (S kk * fact kk)%nat.
  rewrite mult_INR. apply Rmult_comm.
Qed.

Lemma rf_loop_sum n kk dx dy dt :
  rf_loop m f ph d x y n kk (INR (fact (pred kk))) (re kk x y) (im kk x y) dx dy dt
  = (dx + f * sum (map tx (seq kk n)), dy + f * sum (map ty (seq kk n)), dt + f * sum (map tt (seq kk n))).
Proof.
  revert kk dx dy dt. induction n as [|n IH]; intros kk dx dy dt.
  - cbn. f_equal; [f_equal|]; ring.
  - cbn [rf_loop seq map sum fold_right]. cbv zeta. rewrite fact_step.
    replace (re kk x y * x - im kk x y * y) with (re (S kk) x y) by apply re_S.
    replace (im kk x y * x + re kk x y * y) with (im (S kk) x y) by (rewrite im_S; ring).
    fold (cN kk) (sN kk) (cS kk) (sS kk).
    match goal with |- rf_loop _ _ _ _ _ _ _ _ _ _ _ ?a ?b ?c = _ => pose proof (IH (S kk) a b c) as E end.
    cbn [pred] in E. rewrite E. clear E IH.
    fold (sum (map tx (seq (S kk) n))) (sum (map ty (seq (S kk) n))) (sum (map tt (seq (S kk) n))).
    set (X := sum _). set (Y := sum _). set (T := sum _). unfold tx, ty, tt, Rdiv.
    f_equal; [f_equal|]; ring.
Qed.
Lemma rf_loop_0 n :
  rf_loop m f ph d x y n 0 1 1 0 0 0 0
  = (f * sum (map tx (seq 0 n)), f * sum (map ty (seq 0 n)), f * sum (map tt (seq 0 n))).
Proof.
  change 1 with (INR (fact (pred 0))) at 1. change 1 with (re 0 x y) at 1.
  change (rf_loop m f ph d x y n 0 (INR (fact (pred 0))) (re 0 x y) (im 0 x y) 0 0 0 =
    (f * sum (map tx (seq 0 n)), f * sum (map ty (seq 0 n)), f * sum (map tt (seq 0 n)))).
  rewrite rf_loop_sum. now rewrite !Rplus_0_l.
Qed.
End Loop.

(** * Weights *)
Lemma mult_sum_eq k a : mult_sum k a =
  match rm_order (rk_mult k) with
  | None => (0, 0, 0)
  | Some order =>
      let s g := rk_factor k * sum (map (g (rk_mult k) (phase0 k a) (dphase k a)
                                           (p_x (r_part a)) (p_y (r_part a))) (seq 0 (S order))) in
      (s tx, s ty, s tt)
  end.
Proof. unfold mult_sum. destruct (rm_order (rk_mult k)); [|reflexivity]. apply rf_loop_0. Qed.

Lemma mult_sum_w w k a : mult_sum (weighted w k) a =
  (fst (fst (mult_sum k a)) * w, snd (fst (mult_sum k a)) * w, snd (mult_sum k a) * w).
Proof.
  rewrite !mult_sum_eq. change (rm_order (rk_mult (weighted w k))) with (rm_order (rk_mult k)).
  destruct (rm_order (rk_mult k)); cbn [fst snd].
  - change (phase0 (weighted w k) a) with (phase0 k a). change (dphase (weighted w k) a) with (dphase k a).
    cbn [weighted rk_factor rk_mult]. f_equal; [f_equal|]; ring.
  - f_equal; [f_equal|]; ring.
Qed.
Lemma kx_w w k a : kx (weighted w k) a = kx k a * w.
Proof.
  unfold kx. rewrite mult_sum_w. cbn [fst snd]. change (tr_phase (weighted w k) a) with (tr_phase k a).
  cbn [weighted rk_tvoltage]. unfold Rdiv. ring.
Qed.
Lemma ky_w w k a : ky (weighted w k) a = ky k a * w.
Proof. unfold ky. rewrite mult_sum_w. cbn [fst snd]. ring. Qed.
Lemma kE_w w k a : kE (weighted w k) a = kE k a * w.
Proof.
  unfold kE. rewrite mult_sum_w. cbn [fst snd]. change (tr_phase (weighted w k) a) with (tr_phase k a).
  change (phase0 (weighted w k) a) with (phase0 k a). change (dphase (weighted w k) a) with (dphase k a).
  change (used_frequency (weighted w k) a) with (used_frequency k a).
  cbn [weighted rk_tvoltage rk_voltage rk_lag rk_phase]. unfold Rdiv. ring.
Qed.
Lemma kt_w w k a : kt (weighted w k) a = kt k a * w.
Proof. unfold kt. rewrite kE_w. unfold Rdiv. ring. Qed.
Lemma weighted_weighted w v k : weighted v (weighted w k) = weighted (w * v) k.
Proof. unfold weighted. cbn. f_equal; ring. Qed.

(** What a kick leaves unchanged *)
Definition same_place (a b : rp) : Prop :=
  p_x (r_part b) = p_x (r_part a) /\ p_y (r_part b) = p_y (r_part a) /\
  p_zeta (r_part b) = p_zeta (r_part a) /\ p_beta0 (r_part b) = p_beta0 (r_part a) /\
  p_chi (r_part b) = p_chi (r_part a) /\ r_p0c b = r_p0c a /\ r_q0 b = r_q0 a /\ r_cr b = r_cr a /\
  r_tsim b = r_tsim a /\ r_turn b = r_turn a /\ r_line b = r_line a.
Lemma kick_place pr k a : same_place a (rf_kick pr k a).
Proof.
  rewrite rf_kick_eq. unfold kick_result, same_place. cbv zeta.
  destruct (rk_kill k); [repeat split|]. destruct pr; repeat split.
Qed.
Lemma place_freq k a b : same_place a b -> used_frequency k b = used_frequency k a.
Proof. intros (E1&E2&E3&E4&E5&E6&E7&E8&E9&E10&E11). unfold used_frequency. now rewrite E4, E11. Qed.
Lemma place_phase0 k a b : same_place a b -> phase0 k b = phase0 k a.
Proof.
  intros H. unfold phase0. rewrite (place_freq k a b H).
  destruct H as (E1&E2&E3&E4&E5&E6&E7&E8&E9&E10&E11). now rewrite E9, E10.
Qed.
Lemma place_dphase k a b : same_place a b -> dphase k b = dphase k a.
Proof.
  intros H. unfold dphase. rewrite (place_freq k a b H).
  destruct H as (E1&E2&E3&E4&E5&E6&E7&E8&E9&E10&E11). now rewrite E3, E4.
Qed.
Lemma place_sum k a b : same_place a b -> mult_sum k b = mult_sum k a.
Proof.
  intros H. unfold mult_sum. rewrite (place_phase0 k a b H), (place_dphase k a b H).
  destruct H as (E1&E2&E3&E4&E5&E6&E7&E8&E9&E10&E11). now rewrite E1, E2.
Qed.
Lemma place_kicks k a b : same_place a b -> kx k b = kx k a /\ ky k b = ky k a /\ kE k b = kE k a /\ kt k b = kt k a.
Proof.
  intros H. assert (HE : kE k b = kE k a).
  { unfold kE, tr_phase, charge.
    rewrite (place_sum k a b H), (place_phase0 k a b H), (place_dphase k a b H), (place_freq k a b H).
    destruct H as (E1&E2&E3&E4&E5&E6&E7&E8&E9&E10&E11). now rewrite E1, E6, E7, E8. }
  unfold kt. rewrite HE. unfold kx, ky, tr_phase.
  rewrite (place_sum k a b H), (place_phase0 k a b H), (place_dphase k a b H).
  destruct H as (E1&E2&E3&E4&E5&E6&E7&E8&E9&E10&E11). now rewrite E5, E6, E8.
Qed.

(** Two kicks at the same place add up. *)
Lemma retimed_retimed t u p : retimed u (retimed t p) = retimed u p.
Proof. reflexivity. Qed.
Lemma kicked_retimed u v t p : kicked u v (retimed t p) = retimed t (kicked u v p).
Proof. reflexivity. Qed.

Lemma two_kicks w v k a :
  rf_kick false (weighted v k) (rf_kick false (weighted w k) a) = rf_kick false (weighted (w + v) k) a.
Proof.
  pose proof (kick_place false (weighted w k) a) as HP.
  rewrite (rf_kick_eq false (weighted v k)).
  destruct (place_kicks (weighted v k) _ _ HP) as (X & Y & _ & T).
  rewrite !rf_kick_eq in *. rewrite on_part_on. apply on_part_ext.
  unfold kick_result at 1. cbv zeta. rewrite X, Y, T. clear X Y T HP.
  unfold kick_result. cbv zeta.
  change (rk_kill (weighted v k)) with (rk_kill k). change (rk_kill (weighted w k)) with (rk_kill k).
  change (rk_kill (weighted (w + v) k)) with (rk_kill k).
  rewrite !kx_w, !ky_w, !kt_w. destruct (rk_kill k).
  - rewrite kicked_kicked. f_equal; ring.
  - rewrite kicked_retimed, kicked_kicked, retimed_retimed.
    cbn [retimed p_ptau]. change (p_ptau (kicked (kx k a * w) (ky k a * w) (r_part a))) with (p_ptau (r_part a)).
    f_equal; [ring|]. f_equal; ring.
Qed.

(** A kick of no strength *)
Lemma ok_irpp p : energy_ok p -> irpp (p_beta0 p) (p_ptau p) = 1 + p_delta p.
Proof.
  intros ((Hb & Hg & Hi) & Hd & E & _ & _). unfold irpp. rewrite <- E. apply sqrt_square. lra.
Qed.
Lemma ok_retimed p : energy_ok p -> retimed (p_ptau p) p = p.
Proof.
  intros H. pose proof (ok_irpp p H) as E. destruct H as (_ & _ & _ & Er & Ev).
  unfold retimed. rewrite E, <- Er, <- Ev. destruct p; cbn. f_equal. ring.
Qed.
Lemma retimed_ok t p : moving (retimed t p) -> energy_ok (retimed t p).
Proof.
  intros H. split; [exact H|]. destruct H as (Hb & Hg & Hi). cbn [retimed p_beta0 p_ptau p_delta p_rpp p_rvv] in *.
  assert (Hs : 0 < irpp (p_beta0 p) t) by (apply sqrt_lt_R0; exact Hi).
  replace (1 + (irpp (p_beta0 p) t - 1)) with (irpp (p_beta0 p) t) by ring.
  refine (conj Hs (conj _ (conj eq_refl eq_refl))).
  unfold irpp. apply sqrt_sqrt. lra.
Qed.
Lemma ok_ext p q : energy_ok p -> p_delta q = p_delta p -> p_ptau q = p_ptau p -> p_rpp q = p_rpp p ->
  p_rvv q = p_rvv p -> p_beta0 q = p_beta0 p -> energy_ok q.
Proof. intros H E1 E2 E3 E4 E5. unfold energy_ok, moving in *. now rewrite E1, E2, E3, E4, E5. Qed.

Lemma no_kick k a : energy_ok (r_part a) -> rf_kick false (weighted 0 k) a = a.
Proof.
  intros H. rewrite rf_kick_eq. destruct a as [p p0c q0 cr ts tu li]. unfold on_part. cbn [r_part r_p0c r_q0 r_cr r_tsim r_turn r_line].
  f_equal. unfold kick_result. cbv zeta. rewrite kx_w, ky_w, kt_w, !Rmult_0_r, kicked_0, Rplus_0_r.
  rewrite (ok_retimed p H). now destruct (rk_kill _).
Qed.

Lemma kick_ok pr k a : energy_ok (r_part a) -> moving (r_part (rf_kick pr k a)) ->
  energy_ok (r_part (rf_kick pr k a)).
Proof.
  rewrite rf_kick_eq. cbn [on_part r_part]. unfold kick_result. cbv zeta. intros H.
  destruct (rk_kill k); [intros _; apply (ok_ext _ _ H); reflexivity|].
  set (p2 := retimed _ _). intros Hm.
  assert (Hm' : moving p2) by (destruct pr; exact Hm).
  destruct pr; [|now apply retimed_ok].
  assert (H2 : energy_ok p2) by now apply retimed_ok.
  apply (ok_ext p2); try reflexivity. exact H2.
Qed.

(** Kicks which preserve the angles and do not deflect *)
Definition straight (k : rfkick) : Prop := rm_order (rk_mult k) = None /\ rk_tvoltage k = 0.
Lemma straight_k k a : straight k -> kx k a = 0 /\ ky k a = 0.
Proof.
  intros [H1 H2]. unfold kx, ky, mult_sum. rewrite H1, H2. cbn [fst snd]. unfold Rdiv. split; ring.
Qed.
Lemma straight_w w k : straight k -> straight (weighted w k).
Proof. intros [H1 H2]. split; [exact H1|]. cbn [weighted rk_tvoltage]. rewrite H2. ring. Qed.

Lemma undo_kick pr w k a : energy_ok (r_part a) -> moving (r_part (rf_kick pr (weighted w k) a)) ->
  pr = false \/ straight k ->
  rf_kick pr (weighted (- w) k) (rf_kick pr (weighted w k) a) = a.
Proof.
  intros H Hm Hs. destruct pr.
  2:{ rewrite two_kicks. replace (w + - w) with 0 by ring. now apply no_kick. }
  destruct Hs as [Hs|Hs]; [discriminate|].
  pose proof (kick_ok true (weighted w k) a H Hm) as Hok.
  pose proof (kick_place true (weighted w k) a) as HP.
  rewrite (rf_kick_eq true (weighted (- w) k)).
  destruct (place_kicks (weighted (- w) k) _ _ HP) as (X & Y & _ & T).
  rewrite !rf_kick_eq in *. rewrite on_part_on.
  transitivity (on_part (fun p => p) a); [|destruct a; reflexivity].
  apply on_part_ext. unfold kick_result at 1. cbv zeta. rewrite X, Y, T. clear X Y T HP.
  destruct (straight_k (weighted (- w) k) a (straight_w _ _ Hs)) as [-> ->]. rewrite kicked_0.
  cbn [on_part r_part] in Hok, Hm. unfold kick_result in Hok, Hm |- *. cbv zeta in Hok, Hm |- *.
  destruct (straight_k (weighted w k) a (straight_w _ _ Hs)) as [E1 E2]. rewrite E1, E2, kicked_0 in *.
  change (rk_kill (weighted (- w) k)) with (rk_kill k). change (rk_kill (weighted w k)) with (rk_kill k) in *.
  destruct (rk_kill k); [reflexivity|].
  set (p := r_part a) in *. set (p2 := retimed (p_ptau p + kt (weighted w k) a) p) in *.
  assert (Hp2 : energy_ok p2) by (apply (ok_ext _ _ Hok); reflexivity).
  set (f := p_rpp p / p_rpp p2) in *.
  change (p_ptau (scaled f p2)) with (p_ptau p + kt (weighted w k) a).
  change (retimed (p_ptau p + kt (weighted w k) a + kt (weighted (- w) k) a) (scaled f p2))
    with (scaled f (retimed (p_ptau p + kt (weighted w k) a + kt (weighted (- w) k) a) p)).
  rewrite !kt_w. replace (p_ptau p + kt k a * w + kt k a * - w) with (p_ptau p) by ring.
  rewrite (ok_retimed p H).
  change (p_rpp (scaled f p2)) with (p_rpp p2). change (p_rpp (scaled f p)) with (p_rpp p).
  assert (N1 : p_rpp p <> 0).
  { destruct H as (_ & Hd & _ & -> & _). apply Rgt_not_eq. apply Rdiv_lt_0_compat; lra. }
  assert (N2 : p_rpp p2 <> 0).
  { destruct Hp2 as (_ & Hd & _ & -> & _). apply Rgt_not_eq. apply Rdiv_lt_0_compat; lra. }
  unfold f. clearbody p2. set (r2 := p_rpp p2) in *. clearbody r2. clear - N1 N2. clearbody p.
  destruct p. unfold scaled, set_px, set_py. cbn in N1, N2 |- *. f_equal; field; split; assumption.
Qed.

(** * Backtracking *)
Section Back2.
Context {A : Type}.
Variables drift kick bkick : R -> A -> A.
Variables (good : op -> A -> Prop).
Hypothesis H : forall o a, good o a -> step drift bkick (step drift kick a o) (opneg o) = a.
Fixpoint all_good (l : list op) (a : A) : Prop :=
  match l with [] => True | o :: t => good o a /\ all_good t (step drift kick a o) end.
Lemma run_back2 l a : all_good l a -> run drift bkick (map opneg (rev l)) (run drift kick l a) = a.
Proof.
  revert a. induction l as [|o t IH]; intros a G; [reflexivity|].
  destruct G as [H1 H2]. cbn [rev]. rewrite map_app, run_app.
  change (run drift kick (o :: t) a) with (run drift kick t (step drift kick a o)).
  rewrite (IH _ H2). cbn [map run fold_left]. now apply H.
Qed.
Lemma body_back2 i n L a : all_good (body_ops false i n L) a ->
  body drift bkick false i n (- L) (body drift kick false i n L a) = a.
Proof.
  intros G. rewrite !body_run, ops_neg, <- (ops_palindrome false i n L) at 1. now apply run_back2.
Qed.
End Back2.

Definition rf_dm (dm : Z) : Prop := (dm = -1 \/ dm = 0 \/ dm = 1)%Z.
Lemma known_dm m : rf_model_known m -> rf_dm (drift_model_of m 0).
Proof.
  unfold rf_model_known, rf_dm. intros [->|[->|[->|[->| ->]]]]; unfold drift_model_of; cbn [Z.eqb Pos.eqb];
    rewrite ?tiny_zero; auto.
Qed.
Lemma rf_drift_back dm l a : rf_dm dm -> rf_drift dm (- l) (rf_drift dm l a) = a.
Proof.
  intros H. unfold rf_drift. rewrite on_part_on. transitivity (on_part (fun p => p) a); [|now destruct a].
  apply on_part_ext. apply drift_back. intros _. destruct H as [->|[->| ->]]; exact I.
Qed.

(** Drifts keep the energy and everything but the position. *)
Lemma is0_zero : is0 0 = true.
Proof. now apply is0_true. Qed.
Definition same_energy (p q : part) : Prop :=
  p_delta q = p_delta p /\ p_ptau q = p_ptau p /\ p_rpp q = p_rpp p /\ p_rvv q = p_rvv p /\
  p_beta0 q = p_beta0 p /\ p_chi q = p_chi p.
Lemma drift_energy dm l a : rf_dm dm -> same_energy (r_part a) (r_part (rf_drift dm l a)).
Proof.
  intros H. unfold rf_drift, magnet_drift. cbn [on_part r_part dp_model].
  destruct H as [->|[->| ->]]; cbn [Z.eqb Pos.eqb Z.opp]; try (destruct (is0 l)); repeat split.
Qed.
Lemma drift_ok_energy dm l a : rf_dm dm -> energy_ok (r_part a) -> energy_ok (r_part (rf_drift dm l a)).
Proof.
  intros Hd H. destruct (drift_energy dm l a Hd) as (E1 & E2 & E3 & E4 & E5 & _). now apply (ok_ext _ _ H).
Qed.

Lemma watched_rf dm pr k l a P :
  snd (run (watch_rf_drift dm) (watch_rf_kick pr k) l (a, P)) ->
  P /\ (rf_dm dm -> energy_ok (r_part a) ->
    all_good (rf_drift dm) (fun w => rf_kick pr (weighted w k))
      (fun o b => energy_ok (r_part b) /\
         match o with D _ => True | K w => moving (r_part (rf_kick pr (weighted w k) b)) end) l a).
Proof.
  revert a P. induction l as [|o l IH]; intros a P H.
  - split; [exact H|]. intros; exact I.
  - change (snd (run (watch_rf_drift dm) (watch_rf_kick pr k) l
      (step (watch_rf_drift dm) (watch_rf_kick pr k) (a, P) o))) in H.
    destruct o as [x|w]; cbn [step watch_rf_drift watch_rf_kick fst snd] in H; apply IH in H.
    + destruct H as [HP H]. split; [exact HP|]. intros Hd Hok. cbn [all_good step].
      split; [split; [exact Hok|exact I]|]. apply H; [exact Hd|]. now apply drift_ok_energy.
    + destruct H as [[HP Hm] H]. split; [exact HP|]. intros Hd Hok. cbn [all_good step].
      split; [split; [exact Hok|exact Hm]|]. apply H; [exact Hd|]. now apply kick_ok.
Qed.

Lemma bwd_params o w e :
  mkRk (- rf_voltage e * w) (rf_frequency e) (rf_harmonic e)
    (if o_no_synrad o then rf_lag e else rf_lag e + rf_lag_taper e)
    (if o_no_synrad o then rf_phase e else rf_phase e + rf_phase_taper e)
    (- rf_tvoltage e * w) (rf_tlag e) (rf_tphase e) (rf_absolute_time e) (- (1) * w) (rf_mult e) (o_kill o)
  = weighted (- (1)) (fwd_rf o w e).
Proof. unfold weighted, fwd_rf. cbn. f_equal; ring. Qed.

Lemma rf_backtrack o w e a :
  rf_model_known (rf_used_model e) -> energy_ok (r_part a) -> passes_rf o w e a ->
  o_preserve o = false \/ (rm_order (rf_mult e) = None /\ rf_tvoltage e = 0) ->
  track_rf o true w e (track_rf o false w e a) = a.
Proof.
  intros Hmod Hok Hp Hs. unfold track_rf, rf_body. cbv zeta. rewrite bwd_params.
  fold (fwd_rf o w e). set (k := fwd_rf o w e).
  replace (- rf_length e * w) with (- (rf_length e * w)) by ring.
  pose proof (known_dm _ Hmod) as Hdm. set (dm := drift_model_of _ _) in *.
  unfold passes_rf in Hp. rewrite body_run in Hp. apply watched_rf in Hp. destruct Hp as [_ Hp].
  specialize (Hp Hdm Hok). fold k in Hp.
  refine (body_back2 (rf_drift dm) (fun w => rf_kick (o_preserve o) (weighted w k)) _ _ _ _ _ _ _ Hp).
  intros [x|v] b [Hb Hv]; cbn [step opneg].
  - now apply rf_drift_back.
  - rewrite weighted_weighted. replace (- (1) * v) with (- v) by ring.
    apply undo_kick; [exact Hb|exact Hv|]. destruct Hs as [Hs|[Hs1 Hs2]]; [now left|right].
    split; [exact Hs1|]. cbn [k fwd_rf rk_tvoltage]. rewrite Hs2. ring.
Qed.

(** * The energy gained in a cavity *)
Definition fixed (a b : rp) : Prop :=
  p_beta0 (r_part b) = p_beta0 (r_part a) /\ p_chi (r_part b) = p_chi (r_part a) /\ r_p0c b = r_p0c a /\
  r_q0 b = r_q0 a /\ r_cr b = r_cr a /\ r_tsim b = r_tsim a /\ r_turn b = r_turn a /\ r_line b = r_line a.
Lemma fixed_refl a : fixed a a.
Proof. repeat split. Qed.
Lemma fixed_trans a b c : fixed a b -> fixed b c -> fixed a c.
Proof.
  intros (A1&A2&A3&A4&A5&A6&A7&A8) (B1&B2&B3&B4&B5&B6&B7&B8).
  unfold fixed. now rewrite B1, B2, B3, B4, B5, B6, B7, B8.
Qed.
Lemma kick_fixed pr k a : fixed a (rf_kick pr k a).
Proof. destruct (kick_place pr k a) as (E1&E2&E3&E4&E5&E6&E7&E8&E9&E10&E11). repeat split; assumption. Qed.
Lemma drift_fixed dm l a : rf_dm dm -> fixed a (rf_drift dm l a).
Proof.
  intros H. destruct (drift_energy dm l a H) as (E1&E2&E3&E4&E5&E6). repeat split; assumption.
Qed.
Lemma freq_eq k a : used_frequency k a = freq (rk_frequency k) (rk_harmonic k) a.
Proof.
  unfold used_frequency, freq, is0, C_LIGHT. destruct (Req_EM_T (rk_harmonic k) 0); [reflexivity|]. cbv zeta.
  f_equal. unfold Rdiv. rewrite Rinv_mult, Rinv_inv. ring.
Qed.
Lemma seen_eq k phi a :
  phase0 k a + phi - dphase k a
  = seen (freq (rk_frequency k) (rk_harmonic k) a) (rk_absolute_time k) phi (p_zeta (r_part a)) a.
Proof.
  unfold seen, phase0, dphase. rewrite freq_eq. unfold C_LIGHT. f_equal; [f_equal|].
  - destruct (Z.eqb _ _); ring.
  - unfold Rdiv. ring.
Qed.
Lemma seen_fixed f ab phi z a b : fixed a b -> seen f ab phi z b = seen f ab phi z a.
Proof. intros (E1&E2&E3&E4&E5&E6&E7&E8). unfold seen. now rewrite E1, E6, E7. Qed.
Lemma freq_fixed f h a b : fixed a b -> freq f h b = freq f h a.
Proof. intros (E1&E2&E3&E4&E5&E6&E7&E8). unfold freq. now rewrite E1, E8. Qed.

Lemma straight_kE k a : straight k -> kE k a = charge a * rk_voltage k *
  sin (seen (freq (rk_frequency k) (rk_harmonic k) a) (rk_absolute_time k)
         (DEG2RAD * rk_lag k + rk_phase k) (p_zeta (r_part a)) a).
Proof.
  intros [H1 H2]. unfold kE, mult_sum. rewrite H1, H2. cbn [snd].
  rewrite <- seen_eq.
  replace (phase0 k a + DEG2RAD * rk_lag k + rk_phase k - dphase k a)
    with (phase0 k a + (DEG2RAD * rk_lag k + rk_phase k) - dphase k a) by ring.
  unfold Rdiv. ring.
Qed.
Lemma kick_ptau pr k a : rk_kill k = false ->
  p_ptau (r_part (rf_kick pr k a)) = p_ptau (r_part a) + kt k a.
Proof.
  intros H. rewrite rf_kick_eq. cbn [on_part r_part]. unfold kick_result. cbv zeta. rewrite H.
  destruct pr; reflexivity.
Qed.
Lemma kick_energy pr k a : rk_kill k = false -> r_p0c a <> 0 -> p_chi (r_part a) <> 0 -> r_cr a <> 0 ->
  energy (rf_kick pr k a) = energy a + kE k a.
Proof.
  intros H Hp Hc Hr. destruct (kick_fixed pr k a) as (E1&E2&E3&E4&E5&E6&E7&E8).
  unfold energy. rewrite E1, E2, E3, E5, (kick_ptau pr k a H). unfold kt.
  generalize (r_p0c a / p_beta0 (r_part a)). intros A. field. repeat split; assumption.
Qed.
Lemma drift_same_energy dm l a : rf_dm dm -> energy (rf_drift dm l a) = energy a.
Proof.
  intros H. destruct (drift_energy dm l a H) as (E1&E2&E3&E4&E5&E6). unfold energy.
  change (r_cr (rf_drift dm l a)) with (r_cr a). change (r_p0c (rf_drift dm l a)) with (r_p0c a).
  now rewrite E2, E5, E6.
Qed.

Definition gain (k : rfkick) (a : rp) (st : R * R) : R :=
  fst st * sin (seen (freq (rk_frequency k) (rk_harmonic k) a) (rk_absolute_time k)
                  (DEG2RAD * rk_lag k + rk_phase k) (snd st) a).

Lemma log_run dm pr k l a b acc : rf_dm dm -> straight k -> rk_kill k = false ->
  r_p0c a <> 0 -> p_chi (r_part a) <> 0 -> r_cr a <> 0 -> fixed a b ->
  exists new,
    snd (run (log_drift dm) (log_kick pr k) l (b, acc)) = acc ++ new /\
    map fst new = concat (map (fun o => match o with K w => [w] | D _ => [] end) l) /\
    fixed a (run (rf_drift dm) (fun w => rf_kick pr (weighted w k)) l b) /\
    energy (run (rf_drift dm) (fun w => rf_kick pr (weighted w k)) l b)
    = energy b + charge a * rk_voltage k * sum (map (gain k a) new).
Proof.
  intros Hd Hs Hk H1 H2 H3. revert b acc. induction l as [|o l IH]; intros b acc Hf.
  - exists []. cbn. rewrite app_nil_r. refine (conj eq_refl (conj eq_refl (conj Hf _))). ring.
  - change (run (log_drift dm) (log_kick pr k) (o :: l) (b, acc))
      with (run (log_drift dm) (log_kick pr k) l (step (log_drift dm) (log_kick pr k) (b, acc) o)).
    change (run (rf_drift dm) (fun w => rf_kick pr (weighted w k)) (o :: l) b)
      with (run (rf_drift dm) (fun w => rf_kick pr (weighted w k)) l
             (step (rf_drift dm) (fun w => rf_kick pr (weighted w k)) b o)).
    destruct o as [x|w]; cbn [step log_drift log_kick fst snd map concat].
    + destruct (IH (rf_drift dm x b) acc) as (new & E1 & E2 & E3 & E4).
      { eapply fixed_trans; [exact Hf|now apply drift_fixed]. }
      exists new. cbn [List.app]. refine (conj E1 (conj E2 (conj E3 _))). rewrite E4, drift_same_energy; auto.
    + destruct (IH (rf_kick pr (weighted w k) b) (acc ++ [(w, p_zeta (r_part b))])) as (new & E1 & E2 & E3 & E4).
      { eapply fixed_trans; [exact Hf|apply kick_fixed]. }
      exists ((w, p_zeta (r_part b)) :: new). cbn [List.app map].
      refine (conj _ (conj _ (conj E3 _))).
      * etransitivity; [exact E1|]. rewrite <- app_assoc. reflexivity.
      * cbn [fst]. now rewrite E2.
      * etransitivity; [exact E4|]. destruct (Hf) as (F1&F2&F3&F4&F5&F6&F7&F8).
        rewrite kick_energy; [|exact Hk|congruence|congruence|congruence].
        rewrite straight_kE by now apply straight_w.
        cbn [weighted rk_voltage rk_frequency rk_harmonic rk_absolute_time rk_lag rk_phase sum fold_right].
        rewrite (seen_fixed _ _ _ _ a b Hf), (freq_fixed _ _ a b Hf).
        replace (charge b) with (charge a) by (unfold charge; now rewrite F4, F5).
        fold (sum (map (gain k a) new)). unfold gain at 2. cbn [fst snd]. ring.
Qed.

Lemma weights_sum l : sum (concat (map (fun o => match o with K w => [w] | D _ => [] end) l)) = weights l.
Proof.
  induction l as [|[x|w] l IH]; cbn [map concat List.app weights]; [reflexivity|exact IH|].
  change (w + sum (concat (map (fun o => match o with K w => [w] | D _ => [] end) l)) = w + weights l).
  f_equal. exact IH.
Qed.

Lemma ceil_1 x : 0 < x -> (1 <= ceil x)%Z.
Proof. apply ceil_pos. Qed.
Lemma rf_kicks_pos e w : (0 <= rf_kicks e)%Z -> 0 < w -> (1 <= rf_used_kicks e w)%Z.
Proof.
  intros Hn Hw. unfold rf_used_kicks. cbv zeta.
  set (n := if (rf_used_model e =? -1)%Z then 1%Z else rf_kicks e).
  assert (Hn' : (0 <= n)%Z) by (unfold n; destruct (_ =? _)%Z; lia).
  destruct (Z.ltb_spec 0 n) as [Hp|Hp].
  - destruct (negb _); cbn [andb].
    + assert (1 <= ceil (IZR n * w))%Z.
      { apply ceil_1. apply Rmult_lt_0_compat; [|exact Hw]. now apply (IZR_lt 0). }
      destruct (Z.eqb_spec (ceil (IZR n * w)) 0); lia.
    + destruct (Z.eqb_spec n 0); lia.
  - rewrite andb_false_r. assert (n = 0)%Z by lia. rewrite H. cbn. lia.
Qed.

Lemma setting_eq o lag phase lt pt :
  DEG2RAD * (if o_no_synrad o then lag else lag + lt) + (if o_no_synrad o then phase else phase + pt)
  = setting o lag phase lt pt.
Proof. unfold setting, DEG2RAD, Rdiv. destruct (o_no_synrad o); ring. Qed.

Lemma rf_energy_gain o w e a :
  rf_model_known (rf_used_model e) -> rf_integrator_known (rf_used_integrator e) ->
  (0 <= rf_kicks e)%Z -> 0 < w -> o_kill o = false ->
  rm_order (rf_mult e) = None -> rf_tvoltage e = 0 ->
  r_p0c a <> 0 -> p_chi (r_part a) <> 0 -> r_cr a <> 0 ->
  sum (map fst (crossed o w e a)) = 1 /\
  energy (track_rf o false w e a) = energy a
    + charge a * rf_voltage e * w * sum (map (fun wz => fst wz *
        sin (seen (freq (rf_frequency e) (rf_harmonic e) a) (rf_absolute_time e)
               (setting o (rf_lag e) (rf_phase e) (rf_lag_taper e) (rf_phase_taper e)) (snd wz) a))
        (crossed o w e a)).
Proof.
  intros Hm Hi Hn Hw Hk Hs1 Hs2 H1 H2 H3.
  pose proof (known_dm _ Hm) as Hd. pose proof (rf_kicks_pos e w Hn Hw) as Hn1.
  unfold crossed, kicks_of, track_rf, rf_body. cbv zeta. fold (fwd_rf o w e).
  set (k := fwd_rf o w e). set (dm := drift_model_of _ _) in *.
  rewrite !body_run. set (ops := body_ops _ _ _ _).
  assert (Hst : straight k).
  { split; [exact Hs1|]. cbn [k fwd_rf rk_tvoltage]. rewrite Hs2. ring. }
  destruct (log_run dm (o_preserve o) k ops a a [] Hd Hst Hk H1 H2 H3 (fixed_refl a))
    as (new & E1 & E2 & _ & E4).
  rewrite E1. cbn [List.app]. split.
  - rewrite E2, weights_sum. unfold ops.
    destruct (totals (rf_used_integrator e) (rf_used_kicks e w) (rf_length e * w) Hi Hn1) as [_ T]. exact T.
  - rewrite E4. f_equal. change (rk_voltage k) with (rf_voltage e * w). rewrite <- Rmult_assoc. f_equal. f_equal.
    apply map_ext. intros [v z]. unfold gain. cbn [fst snd k fwd_rf rk_frequency rk_harmonic rk_absolute_time rk_lag rk_phase].
    now rewrite setting_eq.
Qed.

(** * Elements of no length *)
Definition null_drift (o : op) : Prop := match o with D x => x = 0 | K _ => True end.
Lemma null_repeat l n : Forall null_drift l -> Forall null_drift (concat (repeat l n)).
Proof. intros H. induction n as [|n IH]; [constructor|]. cbn [repeat concat]. apply Forall_app. now split. Qed.
Lemma null_ops i n : Forall null_drift (body_ops false i n 0).
Proof.
  unfold body_ops. destruct (Z.eqb i 1); [|destruct (Z.eqb i 3); [|destruct (Z.eqb i 2); [|constructor]]].
  - unfold teapot_ops. apply Forall_app. split; [|apply Forall_app; split; [apply null_repeat|]];
      repeat constructor; cbn; ring.
  - apply null_repeat. repeat constructor; cbn; ring.
  - apply null_repeat. repeat constructor; cbn; unfold Rdiv; ring.
Qed.
Lemma rf_drift_0 dm a : rf_drift dm 0 a = a.
Proof.
  unfold rf_drift. transitivity (on_part (fun p => p) a); [|now destruct a]. apply on_part_ext.
  unfold magnet_drift. rewrite is0_zero. destruct (Z.eqb _ _); reflexivity.
Qed.
Lemma null_run dm k l w a :
  (dm = -1)%Z \/ Forall null_drift l ->
  run (rf_drift dm) (fun w => rf_kick false (weighted w k)) l (rf_kick false (weighted w k) a)
  = rf_kick false (weighted (w + weights l) k) a.
Proof.
  intros H. revert w. induction l as [|[x|v] l IH]; intros w.
  - cbn [run fold_left weights]. now rewrite Rplus_0_r.
  - assert (E : rf_drift dm x (rf_kick false (weighted w k) a) = rf_kick false (weighted w k) a).
    { destruct H as [->|H]; [unfold rf_drift; now destruct (rf_kick _ _ _)|]. inversion H; subst.
      match goal with H : null_drift (D x) |- _ => cbn in H; rewrite H end. apply rf_drift_0. }
    cbn [run fold_left step weights]. rewrite E. apply IH.
    destruct H as [H|H]; [now left|right]. now inversion H.
  - cbn [run fold_left step weights]. rewrite two_kicks. unfold run in IH. rewrite IH; [f_equal; f_equal; ring|].
    destruct H as [H|H]; [now left|right]. now inversion H.
Qed.
Lemma weighted_1 k : weighted 1 k = k.
Proof. unfold weighted. destruct k; cbn. f_equal; ring. Qed.

Lemma rf_thin o w e a : o_preserve o = false -> energy_ok (r_part a) ->
  rf_model_known (rf_used_model e) -> rf_integrator_known (rf_used_integrator e) ->
  (0 <= rf_kicks e)%Z -> 0 < w ->
  rf_length e = 0 \/ (rf_used_model e = -1)%Z ->
  track_rf o false w e a = rf_kick false (fwd_rf o w e) a.
Proof.
  intros Ho Hok Hm Hi Hn Hw HL. pose proof (rf_kicks_pos e w Hn Hw) as Hn1.
  unfold track_rf, rf_body. cbv zeta. rewrite Ho, body_run. fold (fwd_rf o w e). set (k := fwd_rf o w e).
  rewrite <- (no_kick k a Hok) at 1. rewrite null_run.
  - rewrite Rplus_0_l. destruct (totals (rf_used_integrator e) (rf_used_kicks e w) (rf_length e * w) Hi Hn1) as [_ ->].
    now rewrite weighted_1.
  - destruct HL as [HL|HL]; [right|left].
    + rewrite HL, Rmult_0_l. apply null_ops.
    + rewrite HL. reflexivity.
Qed.

(** * Elements of no voltage *)
Lemma voltage0_kick pr w k a : energy_ok (r_part a) -> straight k -> rk_voltage k = 0 ->
  rf_kick pr (weighted w k) a = a.
Proof.
  intros H Hs Hv. assert (E : kt (weighted w k) a = 0).
  { rewrite kt_w. unfold kt. rewrite (straight_kE k a Hs), Hv. unfold Rdiv. ring. }
  rewrite rf_kick_eq. transitivity (on_part (fun p => p) a); [|now destruct a]. apply on_part_ext.
  unfold kick_result. cbv zeta. destruct (straight_k (weighted w k) a (straight_w _ _ Hs)) as [-> ->].
  rewrite kicked_0, E, Rplus_0_r, (ok_retimed _ H). destruct (rk_kill _); [reflexivity|].
  destruct pr; [|reflexivity].
  assert (N : p_rpp (r_part a) <> 0).
  { destruct H as (_ & Hd & _ & -> & _). apply Rgt_not_eq. apply Rdiv_lt_0_compat; lra. }
  replace (p_rpp (r_part a) / p_rpp (r_part a)) with 1 by (field; exact N).
  destruct (r_part a). unfold scaled, set_px, set_py. cbn. f_equal; ring.
Qed.
Lemma run_drift_dm m : rf_model_known m -> m <> (-1)%Z -> forall L a,
  rf_drift (drift_model_of m 0) L a = on_part (run_drift (exact_drift m) 0 L) a.
Proof.
  intros H Hm L a. apply on_part_ext. unfold magnet_drift. cbn [dp_model].
  destruct H as [->|[->|[->|[->| ->]]]]; [congruence| | | | ]; unfold drift_model_of; cbn [Z.eqb Pos.eqb];
    rewrite ?tiny_zero; cbn [Z.eqb Pos.eqb];
    unfold run_drift, exact_drift; cbn [Z.eqb Pos.eqb orb];
    destruct (is0 L) eqn:E; try reflexivity; apply is0_true in E; subst L;
    symmetry; try apply drift_exact_0; apply drift_expanded_0.
Qed.
Lemma rf_no_voltage o w e a :
  energy_ok (r_part a) -> rf_model_known (rf_used_model e) -> (rf_used_model e <> -1)%Z ->
  rf_integrator_known (rf_used_integrator e) -> (0 <= rf_kicks e)%Z -> 0 < w ->
  rf_voltage e = 0 -> rm_order (rf_mult e) = None -> rf_tvoltage e = 0 ->
  track_rf o false w e a = on_part (run_drift (exact_drift (rf_used_model e)) 0 (rf_length e * w)) a.
Proof.
  intros Hok Hm Hm1 Hi Hn Hw HV Hs1 Hs2. pose proof (rf_kicks_pos e w Hn Hw) as Hn1.
  pose proof (known_dm _ Hm) as Hd.
  unfold track_rf, rf_body. cbv zeta. rewrite body_run. fold (fwd_rf o w e). set (k := fwd_rf o w e).
  assert (Hst : straight k).
  { split; [exact Hs1|]. cbn [k fwd_rf rk_tvoltage]. rewrite Hs2. ring. }
  assert (Hv : rk_voltage k = 0) by (cbn [k fwd_rf rk_voltage]; rewrite HV; ring).
  set (ops := body_ops _ _ _ _).
  assert (E : forall l a, energy_ok (r_part a) ->
    run (rf_drift (drift_model_of (rf_used_model e) 0)) (fun w => rf_kick (o_preserve o) (weighted w k)) l a
    = run (rf_drift (drift_model_of (rf_used_model e) 0)) (fun _ a => a) l a).
  { clear - Hd Hst Hv. induction l as [|[x|v] l IH]; intros a Ha; [reflexivity| |];
      cbn [run fold_left step]; unfold run in IH.
    - apply IH. now apply drift_ok_energy.
    - rewrite voltage0_kick by assumption. now apply IH. }
  rewrite E by exact Hok. rewrite drifts_run.
  - unfold ops. destruct (totals (rf_used_integrator e) (rf_used_kicks e w) (rf_length e * w) Hi Hn1) as [-> _].
    now apply run_drift_dm.
  - intros x y b. rewrite !run_drift_dm by assumption. rewrite on_part_on. apply on_part_ext. apply run_drift_add.
  - intros b. apply rf_drift_0.
Qed.

(** * Absolute time *)
Lemma sin_turns x n : sin (x + 2 * PI * IZR n) = sin x.
Proof.
  destruct n as [|p|p].
  - f_equal. ring.
  - rewrite <- (sin_period x (Pos.to_nat p)). f_equal. rewrite INR_IZR_INZ, positive_nat_Z. ring.
  - rewrite <- (sin_period (x + 2 * PI * IZR (Z.neg p)) (Pos.to_nat p)). f_equal.
    rewrite INR_IZR_INZ, positive_nat_Z. change (IZR (Z.neg p)) with (- IZR (Z.pos p)). ring.
Qed.
Lemma cos_turns x n : cos (x + 2 * PI * IZR n) = cos x.
Proof.
  destruct n as [|p|p].
  - f_equal. ring.
  - rewrite <- (cos_period x (Pos.to_nat p)). f_equal. rewrite INR_IZR_INZ, positive_nat_Z. ring.
  - rewrite <- (cos_period (x + 2 * PI * IZR (Z.neg p)) (Pos.to_nat p)). f_equal.
    rewrite INR_IZR_INZ, positive_nat_Z. change (IZR (Z.neg p)) with (- IZR (Z.pos p)). ring.
Qed.
Definition at_time (n : Z) (k : rfkick) : rfkick :=
  mkRk (rk_voltage k) (rk_frequency k) (rk_harmonic k) (rk_lag k) (rk_phase k) (rk_tvoltage k) (rk_tlag k)
    (rk_tphase k) n (rk_factor k) (rk_mult k) (rk_kill k).
Lemma sync_kick pr k n a : rm_order (rk_mult k) = None ->
  used_frequency k a * r_tsim a = IZR n ->
  rf_kick pr (at_time 1 k) a = rf_kick pr (at_time 0 k) a.
Proof.
  intros Hm Hn.
  assert (P1 : phase0 (at_time 1 k) a = 2 * PI * IZR (r_turn a * n)).
  { unfold phase0. cbn [at_time rk_absolute_time Z.eqb Pos.eqb].
    change (used_frequency (at_time 1 k) a) with (used_frequency k a). rewrite mult_IZR, <- Hn. ring. }
  assert (P0 : phase0 (at_time 0 k) a = 0) by reflexivity.
  assert (D : dphase (at_time 1 k) a = dphase (at_time 0 k) a) by reflexivity.
  assert (M1 : mult_sum (at_time 1 k) a = (0, 0, 0)) by (unfold mult_sum; cbn [at_time rk_mult]; now rewrite Hm).
  assert (M0 : mult_sum (at_time 0 k) a = (0, 0, 0)) by (unfold mult_sum; cbn [at_time rk_mult]; now rewrite Hm).
  set (N := IZR (r_turn a * n)) in *.
  assert (S : forall u, sin (2 * PI * N + u) = sin (0 + u)).
  { intros u. replace (2 * PI * N + u) with (0 + u + 2 * PI * N) by ring. apply sin_turns. }
  assert (C : forall u, cos (2 * PI * N + u) = cos (0 + u)).
  { intros u. replace (2 * PI * N + u) with (0 + u + 2 * PI * N) by ring. apply cos_turns. }
  assert (T1 : cos (tr_phase (at_time 1 k) a) = cos (tr_phase (at_time 0 k) a)).
  { unfold tr_phase. rewrite P1, P0, D. cbn [at_time rk_tlag rk_tphase].
    rewrite !Rplus_assoc. unfold Rminus. rewrite !Rplus_assoc. apply C. }
  assert (T2 : sin (tr_phase (at_time 1 k) a) = sin (tr_phase (at_time 0 k) a)).
  { unfold tr_phase. rewrite P1, P0, D. cbn [at_time rk_tlag rk_tphase].
    rewrite !Rplus_assoc. unfold Rminus. rewrite !Rplus_assoc. apply S. }
  assert (X : kx (at_time 1 k) a = kx (at_time 0 k) a).
  { unfold kx. rewrite M1, M0, T1. reflexivity. }
  assert (Y : ky (at_time 1 k) a = ky (at_time 0 k) a) by (unfold ky; now rewrite M1, M0).
  assert (E : kE (at_time 1 k) a = kE (at_time 0 k) a).
  { unfold kE. rewrite M1, M0, T2, P1, P0, D. cbn [at_time rk_lag rk_phase rk_voltage rk_tvoltage].
    change (used_frequency (at_time 1 k) a) with (used_frequency (at_time 0 k) a).
    f_equal. f_equal. unfold Rminus. rewrite !Rplus_assoc. apply S. }
  rewrite !rf_kick_eq. apply on_part_ext. unfold kick_result. cbv zeta. unfold kt. rewrite X, Y, E. reflexivity.
Qed.

Lemma rf_sync o b w e n a :
  rf_model_known (rf_used_model e) -> rm_order (rf_mult e) = None ->
  freq (rf_frequency e) (rf_harmonic e) a * r_tsim a = IZR n ->
  track_rf o b w (el_at 1 e) a = track_rf o b w (el_at 0 e) a.
Proof.
  intros Hm Hs Hn. pose proof (known_dm _ Hm) as Hd. unfold track_rf, rf_body. cbv zeta.
  change (rf_used_model (el_at 1 e)) with (rf_used_model e). change (rf_used_model (el_at 0 e)) with (rf_used_model e).
  change (rf_used_integrator (el_at 1 e)) with (rf_used_integrator e).
  change (rf_used_integrator (el_at 0 e)) with (rf_used_integrator e).
  change (rf_used_kicks (el_at 1 e) w) with (rf_used_kicks e w).
  change (rf_used_kicks (el_at 0 e) w) with (rf_used_kicks e w).
  cbn [el_at rf_length rf_voltage rf_frequency rf_harmonic rf_lag rf_phase rf_tvoltage rf_tlag rf_tphase
       rf_absolute_time rf_mult rf_lag_taper rf_phase_taper].
  match goal with |- body _ (fun w => rf_kick _ (weighted w ?k1)) _ _ _ _ _ = _ => set (K1 := k1) end.
  match goal with |- _ = body _ (fun w => rf_kick _ (weighted w ?k0)) _ _ _ _ _ => set (K0 := k0) end.
  assert (E : forall v a', fixed a a' ->
    rf_kick (o_preserve o) (weighted v K1) a' = rf_kick (o_preserve o) (weighted v K0) a').
  { intros v a' Hf. change (weighted v K1) with (at_time 1 (weighted v K1)).
    change (weighted v K0) with (at_time 0 (weighted v K1)).
    apply (sync_kick _ _ n); [exact Hs|]. rewrite freq_eq.
    change (rk_frequency (weighted v K1)) with (rf_frequency e).
    change (rk_harmonic (weighted v K1)) with (rf_harmonic e).
    rewrite (freq_fixed _ _ a a' Hf). destruct Hf as (_&_&_&_&_&->&_). exact Hn. }
  rewrite !body_run. set (ops := body_ops _ _ _ _). generalize ops. intros l.
  assert (F : forall a', fixed a a' ->
    run (rf_drift (drift_model_of (rf_used_model e) 0)) (fun w => rf_kick (o_preserve o) (weighted w K1)) l a'
    = run (rf_drift (drift_model_of (rf_used_model e) 0)) (fun w => rf_kick (o_preserve o) (weighted w K0)) l a').
  { clearbody K0 K1. induction l as [|[x|v] l IH]; intros a' Hf; [reflexivity| |];
      cbn [run fold_left step]; unfold run in IH.
    - apply IH. eapply fixed_trans; [exact Hf|now apply drift_fixed].
    - rewrite E by exact Hf. apply IH. eapply fixed_trans; [exact Hf|apply kick_fixed]. }
  apply F, fixed_refl.
Qed.

(** * Thin elements, for the user *)
Lemma kick_px k a : p_px (r_part (rf_kick false k a)) = p_px (r_part a) + kx k a.
Proof.
  rewrite rf_kick_eq. cbn [on_part r_part]. unfold kick_result. cbv zeta.
  destruct (rk_kill k); reflexivity.
Qed.
Lemma kick_py k a : p_py (r_part (rf_kick false k a)) = p_py (r_part a) + ky k a.
Proof.
  rewrite rf_kick_eq. cbn [on_part r_part]. unfold kick_result. cbv zeta.
  destruct (rk_kill k); reflexivity.
Qed.
Lemma kick_at k a : let p := r_part a in let q := r_part (rf_kick false k a) in
  p_x q = p_x p /\ p_y q = p_y p /\ p_zeta q = p_zeta p /\ p_s q = p_s p.
Proof.
  rewrite rf_kick_eq. cbn [on_part r_part]. unfold kick_result. cbv zeta.
  destruct (rk_kill k); repeat split.
Qed.
Lemma cavity_model c : rf_used_model (cavity_el c) = (if Z.eqb (cv_model c) 0 then 6%Z else cv_model c).
Proof. reflexivity. Qed.

Lemma cos_90 u : cos (u + DEG2RAD * 90) = - sin u.
Proof.
  unfold DEG2RAD. replace (PI / 180 * 90) with (PI / 2) by field. rewrite cos_plus, cos_PI2, sin_PI2. ring.
Qed.
Lemma sin_90 u : sin (u + DEG2RAD * 90) = cos u.
Proof.
  unfold DEG2RAD. replace (PI / 180 * 90) with (PI / 2) by field. rewrite sin_plus, cos_PI2, sin_PI2. ring.
Qed.
Lemma tr_phase_eq k a : tr_phase k a =
  seen (freq (rk_frequency k) (rk_harmonic k) a) (rk_absolute_time k)
    (rk_tlag k * PI / 180 + rk_tphase k) (p_zeta (r_part a)) a + DEG2RAD * 90.
Proof.
  rewrite <- seen_eq. unfold tr_phase, DEG2RAD. field.
Qed.

Lemma thin_crab o c a :
  o_preserve o = false -> o_kill o = false -> energy_ok (r_part a) -> cb_length c = 0 ->
  (cb_model c = 0 \/ rf_model_known (cb_model c))%Z ->
  (cb_integrator c = 0 \/ rf_integrator_known (cb_integrator c))%Z -> (0 <= cb_kicks c)%Z ->
  r_p0c a <> 0 -> p_chi (r_part a) <> 0 -> r_cr a <> 0 ->
  let b := CrabCavity_track o false c a in
  let phi := seen (cb_frequency c) (cb_absolute_time c) (cb_lag c * PI / 180 + cb_phase c)
               (p_zeta (r_part a)) a in
  p_x (r_part b) = p_x (r_part a) /\ p_y (r_part b) = p_y (r_part a) /\
  p_zeta (r_part b) = p_zeta (r_part a) /\ p_py (r_part b) = p_py (r_part a) /\
  p_px (r_part b) = p_px (r_part a) + p_chi (r_part a) * cb_voltage c / r_p0c a * sin phi /\
  energy b = energy a - charge a * cb_voltage c * (2 * PI * cb_frequency c / 299792458)
                        * p_x (r_part a) * cos phi.
Proof.
  intros Ho Hk Hok HL Hm Hi Hn H1 H2 H3. cbv zeta.
  unfold CrabCavity_track.
  set (e := mkRf _ _ _ _ _ _ _ _ _ _ _ _ _ _ _ _ _ _).
  assert (Hm' : rf_model_known (rf_used_model e)).
  { unfold rf_used_model. cbn [e rf_model rf_default_model]. unfold rf_model_known in *.
    destruct (Z.eqb_spec (cb_model c) 0); [auto|]. destruct Hm as [Hm|Hm]; [congruence|exact Hm]. }
  assert (Hi' : rf_integrator_known (rf_used_integrator e)).
  { unfold rf_used_integrator. cbn [e rf_integrator rf_default_integrator]. unfold rf_integrator_known in *.
    destruct (Z.eqb_spec (rf_used_model e) (-1)); [auto|].
    destruct (Z.eqb_spec (cb_integrator c) 0); [auto|]. destruct Hi as [Hi|Hi]; [congruence|exact Hi]. }
  rewrite (rf_thin o 1 e a Ho Hok Hm' Hi' Hn Rlt_0_1 (or_introl HL)).
  set (k := fwd_rf o 1 e).
  destruct (kick_at k a) as (E1 & E2 & E3 & E4).
  assert (F : freq (rk_frequency k) (rk_harmonic k) a = cb_frequency c).
  { cbn [k fwd_rf rk_frequency rk_harmonic e rf_frequency rf_harmonic]. unfold freq.
    destruct (Req_EM_T 0 0); [reflexivity|congruence]. }
  assert (T : tr_phase k a = seen (cb_frequency c) (cb_absolute_time c) (cb_lag c * PI / 180 + cb_phase c)
               (p_zeta (r_part a)) a + DEG2RAD * 90).
  { rewrite tr_phase_eq, F. reflexivity. }
  assert (V : rk_tvoltage k = cb_voltage c) by (cbn [k fwd_rf rk_tvoltage e rf_tvoltage]; ring).
  assert (V0 : rk_voltage k = 0) by (cbn [k fwd_rf rk_voltage e rf_voltage]; ring).
  refine (conj E1 (conj E2 (conj E3 (conj _ (conj _ _))))).
  - rewrite kick_py. unfold ky, mult_sum. cbn [k fwd_rf rk_mult e rf_mult no_mult rm_order fst snd]. ring.
  - rewrite kick_px. unfold kx, mult_sum. cbn [k fwd_rf rk_mult e rf_mult no_mult rm_order fst snd].
    fold e. fold k. rewrite T, cos_90, V. field. exact H1.
  - rewrite kick_energy by assumption. unfold kE, mult_sum.
    cbn [k fwd_rf rk_mult e rf_mult no_mult rm_order fst snd].
    fold e. fold k. rewrite T, sin_90, V, V0, freq_eq, F. unfold C_LIGHT. field. exact H1.
Qed.

Lemma thin_cavity o w c a :
  o_kill o = false -> 0 < w ->
  r_p0c a <> 0 -> p_chi (r_part a) <> 0 -> r_cr a <> 0 ->
  o_preserve o = false -> energy_ok (r_part a) ->
  let b := ThinSliceCavity_track o false w c a in
  p_x (r_part b) = p_x (r_part a) /\ p_y (r_part b) = p_y (r_part a) /\
  p_zeta (r_part b) = p_zeta (r_part a) /\ p_px (r_part b) = p_px (r_part a) /\
  p_py (r_part b) = p_py (r_part a) /\ p_s (r_part b) = p_s (r_part a) /\
  energy b = energy a + charge a * (w * cv_voltage c) * sin (cavity_phase o c (p_zeta (r_part a)) a).
Proof.
  intros Hk Hw H1 H2 H3 Ho Hok. cbv zeta. unfold ThinSliceCavity_track.
  set (e := mkRf _ _ _ _ _ _ _ _ _ _ _ _ _ _ _ _ _ _).
  assert (Hm : rf_model_known (rf_used_model e)) by (left; reflexivity).
  assert (Hi : rf_integrator_known (rf_used_integrator e)) by (right; right; reflexivity).
  assert (Hn : (0 <= rf_kicks e)%Z) by (cbn; lia).
  rewrite (rf_thin o w e a Ho Hok Hm Hi Hn Hw (or_intror eq_refl)).
  set (k := fwd_rf o w e).
  assert (Hs : straight k) by (split; [reflexivity|cbn [k fwd_rf rk_tvoltage e rf_tvoltage]; ring]).
  destruct (kick_at k a) as (E1 & E2 & E3 & E4). destruct (straight_k k a Hs) as [X Y].
  refine (conj E1 (conj E2 (conj E3 (conj _ (conj _ (conj E4 _)))))).
  - rewrite kick_px, X. ring.
  - rewrite kick_py, Y. ring.
  - rewrite kick_energy by assumption. rewrite (straight_kE k a Hs).
    cbn [k fwd_rf rk_voltage rk_frequency rk_harmonic rk_absolute_time rk_lag rk_phase e rf_voltage rf_frequency
         rf_harmonic rf_absolute_time rf_lag rf_phase rf_lag_taper rf_phase_taper].
    rewrite setting_eq. unfold cavity_phase. ring.
Qed.

(** The rf multipole *)
Lemma rfm_phase_eq k c a deg rad n :
  rk_frequency k = rfm_frequency c -> rk_harmonic k = 0 -> rk_absolute_time k = 0%Z ->
  phase0 k a + DEG2RAD * nth n deg 0 + nth n rad 0 - dphase k a
  = phase_of deg rad (rfm_frequency c) (p_zeta (r_part a)) n a.
Proof.
  intros F H A. unfold phase_of.
  assert (G : freq (rk_frequency k) (rk_harmonic k) a = rfm_frequency c).
  { rewrite F, H. unfold freq. destruct (Req_EM_T 0 0); [reflexivity|congruence]. }
  rewrite <- G, <- A, <- seen_eq. unfold DEG2RAD. field.
Qed.

Lemma thin_rfm o c a :
  o_preserve o = false -> o_kill o = false -> energy_ok (r_part a) ->
  r_p0c a <> 0 -> p_chi (r_part a) <> 0 -> r_cr a <> 0 ->
  let p := r_part a in
  let q := r_part (RFMultipole_track o false c a) in
  let x := p_x p in let y := p_y p in
  let N := seq 0 (S (rfm_order c)) in
  p_x q = x /\ p_y q = y /\ p_zeta q = p_zeta p /\ p_s q = p_s p /\
  p_px q = p_px p - p_chi p * sum (map (fun n =>
     (cos (comp_n c n a) * nth n (rfm_knl c) 0 * re n x y - cos (comp_s c n a) * nth n (rfm_ksl c) 0 * im n x y)
     / INR (fact n)) N) /\
  p_py q = p_py p + p_chi p * sum (map (fun n =>
     (cos (comp_s c n a) * nth n (rfm_ksl c) 0 * re n x y + cos (comp_n c n a) * nth n (rfm_knl c) 0 * im n x y)
     / INR (fact n)) N) /\
  energy (RFMultipole_track o false c a) = energy a
    + charge a * rfm_voltage c * sin (seen (rfm_frequency c) 0 (rfm_lag c * PI / 180 + rfm_phase c) (p_zeta p) a)
    - charge a * r_p0c a * (2 * PI * rfm_frequency c / 299792458) * sum (map (fun n =>
     (sin (comp_n c n a) * nth n (rfm_knl c) 0 * re (S n) x y
      - sin (comp_s c n a) * nth n (rfm_ksl c) 0 * im (S n) x y) / INR (fact n)) N).
Proof.
  intros Ho Hk Hok H1 H2 H3. cbv zeta. unfold RFMultipole_track.
  set (e := mkRf _ _ _ _ _ _ _ _ _ _ _ _ _ _ _ _ _ _).
  assert (Hm : rf_model_known (rf_used_model e)) by (left; reflexivity).
  assert (Hi : rf_integrator_known (rf_used_integrator e)) by (right; right; reflexivity).
  assert (Hn : (0 <= rf_kicks e)%Z) by (cbn; lia).
  rewrite (rf_thin o 1 e a Ho Hok Hm Hi Hn Rlt_0_1 (or_introl eq_refl)).
  set (k := fwd_rf o 1 e).
  destruct (kick_at k a) as (E1 & E2 & E3 & E4).
  assert (F : rk_frequency k = rfm_frequency c) by reflexivity.
  assert (HH : rk_harmonic k = 0) by reflexivity.
  assert (A : rk_absolute_time k = 0%Z) by reflexivity.
  assert (M : mult_sum k a =
    let s g := sum (map (g (rk_mult k) (phase0 k a) (dphase k a) (p_x (r_part a)) (p_y (r_part a)))
                      (seq 0 (S (rfm_order c)))) in (s tx, s ty, s tt)).
  { rewrite mult_sum_eq. cbn [k fwd_rf rk_mult e rf_mult rm_order rk_factor]. cbv zeta.
    rewrite Rmult_1_r, !Rmult_1_l. reflexivity. }
  assert (V : rk_tvoltage k = 0) by (cbn [k fwd_rf rk_tvoltage e rf_tvoltage]; ring).
  assert (V1 : rk_voltage k = rfm_voltage c) by (cbn [k fwd_rf rk_voltage e rf_voltage]; ring).
  refine (conj E1 (conj E2 (conj E3 (conj E4 (conj _ (conj _ _)))))).
  - rewrite kick_px. unfold kx. rewrite M, V. cbv zeta. cbn [fst snd]. unfold Rminus. f_equal.
    unfold Rdiv at 1. rewrite Rmult_0_l, Rmult_0_r, Rplus_0_r, Ropp_mult_distr_l. f_equal. f_equal. apply map_ext. intros n.
    unfold tx, cN, cS, comp_n, comp_s. rewrite !(rfm_phase_eq k c a) by assumption. reflexivity.
  - rewrite kick_py. unfold ky. rewrite M. cbv zeta. cbn [fst snd]. f_equal. f_equal. f_equal.
    apply map_ext. intros n.
    unfold ty, cN, cS, comp_n, comp_s. rewrite !(rfm_phase_eq k c a) by assumption. reflexivity.
  - rewrite kick_energy by assumption. unfold kE. rewrite M, V, V1. cbv zeta. cbn [fst snd].
    assert (G : freq (rk_frequency k) (rk_harmonic k) a = rfm_frequency c).
    { rewrite F, HH. unfold freq. destruct (Req_EM_T 0 0); [reflexivity|congruence]. }
    assert (P : phase0 k a + DEG2RAD * rk_lag k + rk_phase k - dphase k a
      = seen (rfm_frequency c) 0 (rfm_lag c * PI / 180 + rfm_phase c) (p_zeta (r_part a)) a).
    { rewrite <- G at 1. rewrite <- A, <- seen_eq.
      cbn [k fwd_rf rk_lag rk_phase e rf_lag rf_phase rf_lag_taper rf_phase_taper]. fold e. fold k.
      unfold DEG2RAD. destruct (o_no_synrad o); field. }
    rewrite P, freq_eq, G.
    match goal with |- context [sum (map (tt ?m ?b ?d ?x ?y) ?l)] =>
      replace (sum (map (tt m b d x y) l)) with (sum (map (fun n =>
        (sin (comp_n c n a) * nth n (rfm_knl c) 0 * re (S n) x y
         - sin (comp_s c n a) * nth n (rfm_ksl c) 0 * im (S n) x y) / INR (fact n)) l)) end.
    2:{ f_equal. apply map_ext. intros n. unfold tt, sN, sS, comp_n, comp_s.
        rewrite !(rfm_phase_eq k c a) by assumption. reflexivity. }
    unfold C_LIGHT, Rdiv. ring.
Qed.

(** * Cavities, for the user *)
Lemma cavity_model_known c : (cv_model c = 0 \/ rf_model_known (cv_model c))%Z ->
  rf_model_known (rf_used_model (cavity_el c)).
Proof.
  intros H. unfold rf_used_model, rf_model_known in *. cbn [cavity_el rf_model rf_default_model].
  destruct (Z.eqb_spec (cv_model c) 0); [auto|]. destruct H as [H|H]; [congruence|exact H].
Qed.
Lemma cavity_integrator_known c : (cv_integrator c = 0 \/ rf_integrator_known (cv_integrator c))%Z ->
  rf_integrator_known (rf_used_integrator (cavity_el c)).
Proof.
  intros H. unfold rf_used_integrator, rf_integrator_known in *. cbn [cavity_el rf_integrator rf_default_integrator].
  destruct (Z.eqb_spec (rf_used_model (cavity_el c)) (-1)); [auto|].
  destruct (Z.eqb_spec (cv_integrator c) 0); [auto|]. destruct H as [H|H]; [congruence|exact H].
Qed.
Lemma cavity_energy o w c a :
  (cv_model c = 0 \/ rf_model_known (cv_model c))%Z ->
  (cv_integrator c = 0 \/ rf_integrator_known (cv_integrator c))%Z -> (0 <= cv_kicks c)%Z -> 0 < w ->
  o_kill o = false -> r_p0c a <> 0 -> p_chi (r_part a) <> 0 -> r_cr a <> 0 ->
  sum (map fst (crossed o w (cavity_el c) a)) = 1 /\
  energy (ThickSliceCavity_track o false w c a) = energy a + charge a * cv_voltage c * w *
    sum (map (fun wz => fst wz * sin (cavity_phase o c (snd wz) a)) (crossed o w (cavity_el c) a)).
Proof.
  intros Hm Hi Hn Hw Hk H1 H2 H3.
  exact (rf_energy_gain o w (cavity_el c) a (cavity_model_known c Hm) (cavity_integrator_known c Hi) Hn Hw Hk
           eq_refl eq_refl H1 H2 H3).
Qed.
Lemma cavity_no_voltage o w c a :
  energy_ok (r_part a) -> (cv_model c = 0 \/ rf_model_known (cv_model c))%Z -> (cv_model c <> -1)%Z ->
  (cv_integrator c = 0 \/ rf_integrator_known (cv_integrator c))%Z -> (0 <= cv_kicks c)%Z -> 0 < w ->
  cv_voltage c = 0 ->
  ThickSliceCavity_track o false w c a
  = on_part (run_drift (exact_drift (cv_model c)) 0 (cv_length c * w)) a.
Proof.
  intros Hok Hm Hm1 Hi Hn Hw HV. unfold ThickSliceCavity_track.
  rewrite (rf_no_voltage o w (cavity_el c) a Hok (cavity_model_known c Hm)); try assumption; try reflexivity.
  - apply on_part_ext. f_equal. rewrite cavity_model. destruct (Z.eqb_spec (cv_model c) 0) as [->|]; reflexivity.
  - rewrite cavity_model. destruct (Z.eqb_spec (cv_model c) 0); [discriminate|assumption].
  - now apply cavity_integrator_known.
Qed.
Lemma cavity_harmonic o b c h a :
  (cv_model c = 0 \/ rf_model_known (cv_model c))%Z ->
  cv_frequency c = 0 -> cv_harmonic c = IZR h -> r_line a <> 0 -> p_beta0 (r_part a) <> 0 ->
  r_tsim a = r_line a / (p_beta0 (r_part a) * 299792458) ->
  Cavity_track o b (cavity_at 1 c) a = Cavity_track o b (cavity_at 0 c) a.
Proof.
  intros Hm Hf Hh Hl Hb Ht.
  refine (rf_sync o b 1 (cavity_el c) h a (cavity_model_known c Hm) eq_refl _).
  cbn [cavity_el rf_frequency rf_harmonic]. rewrite Ht, Hf, Hh. unfold freq.
  destruct (Req_EM_T (IZR h) 0) as [E|E].
  - rewrite E. ring.
  - field. split; assumption.
Qed.
