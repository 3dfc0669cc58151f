(** What RF elements are meant to do. *)
From Coq Require Import Reals ZArith List Bool Factorial.
From Verif.Model Require Import Maps Magnet Rf.
Import ListNotations.
Local Open Scope R_scope.

(** The energy variables of a moving particle agree with each other. *)
Definition moving (p : part) : Prop :=
  0 < p_beta0 p /\ 0 < 1 + p_beta0 p * p_ptau p /\
  0 < p_ptau p * p_ptau p + 2 * p_ptau p / p_beta0 p + 1.
Definition energy_ok (p : part) : Prop :=
  moving p /\ 0 < 1 + p_delta p /\
  (1 + p_delta p) * (1 + p_delta p) = p_ptau p * p_ptau p + 2 * p_ptau p / p_beta0 p + 1 /\
  p_rpp p = 1 / (1 + p_delta p) /\ p_rvv p = (1 + p_delta p) / (1 + p_beta0 p * p_ptau p).

(** The charge, in units of the elementary charge, and the energy of a particle *)
Definition charge (a : rp) : R := Rabs (r_q0 a) * r_cr a.
Definition energy (a : rp) : R :=
  r_cr a / p_chi (r_part a) * (r_p0c a / p_beta0 (r_part a) + r_p0c a * p_ptau (r_part a)).

(** The frequency of an element given by its frequency or its harmonic number *)
Definition freq (f h : R) (a : rp) : R :=
  if Req_EM_T h 0 then f else f + h * (p_beta0 (r_part a) * 299792458) / r_line a.

(** The phase which a particle with longitudinal coordinate [zeta] sees: [phi] is the phase seen by the
    reference particle *)
Definition seen (f : R) (absolute : Z) (phi zeta : R) (a : rp) : R :=
  (if Z.eqb absolute 1 then 2 * PI * IZR (r_turn a) * f * r_tsim a else 0) + phi
  - 2 * PI * f * (zeta / p_beta0 (r_part a)) / 299792458.

(** The phase setting of a cavity *)
Definition setting (o : rfopt) (lag phase lag_taper phase_taper : R) : R :=
  if o_no_synrad o then lag * PI / 180 + phase
  else (lag + lag_taper) * PI / 180 + phase + phase_taper.
Definition cavity_phase (o : rfopt) (c : cavity) (zeta : R) (a : rp) : R :=
  seen (freq (cv_frequency c) (cv_harmonic c) a) (cv_absolute_time c)
    (setting o (cv_lag c) (cv_phase c) (cv_lag_taper c) (cv_phase_taper c)) zeta a.

(** The kicks which a particle gets on its way: the fraction of the strength and the longitudinal
    coordinate of the particle, in order *)
Definition log_drift (dm : Z) (l : R) (st : rp * list (R * R)) : rp * list (R * R) :=
  (rf_drift dm l (fst st), snd st).
Definition log_kick (preserve : bool) (k : rfkick) (w : R) (st : rp * list (R * R)) :=
  (rf_kick preserve (weighted w k) (fst st), snd st ++ [(w, p_zeta (r_part (fst st)))]).
Definition kicks_of (preserve : bool) (dm i n : Z) (L : R) (k : rfkick) (a : rp) : list (R * R) :=
  snd (body (log_drift dm) (log_kick preserve k) false i n L (a, [])).

Definition sum (l : list R) : R := fold_right Rplus 0 l.

(** The parameters which an element uses forwards *)
Definition fwd_rf (o : rfopt) (w : R) (e : rfel) : rfkick :=
  mkRk (rf_voltage e * w) (rf_frequency e) (rf_harmonic e)
    (if o_no_synrad o then rf_lag e else rf_lag e + rf_lag_taper e)
    (if o_no_synrad o then rf_phase e else rf_phase e + rf_phase_taper e)
    (rf_tvoltage e * w) (rf_tlag e) (rf_tphase e) (rf_absolute_time e) (1 * w) (rf_mult e) (o_kill o).
Definition crossed (o : rfopt) (w : R) (e : rfel) (a : rp) : list (R * R) :=
  kicks_of (o_preserve o) (drift_model_of (rf_used_model e) 0) (rf_used_integrator e)
    (rf_used_kicks e w) (rf_length e * w) (fwd_rf o w e) a.

(** The particle is never stopped by a kick. *)
Definition watch_rf_drift (dm : Z) (l : R) (st : rp * Prop) : rp * Prop :=
  (rf_drift dm l (fst st), snd st).
Definition watch_rf_kick (preserve : bool) (k : rfkick) (w : R) (st : rp * Prop) : rp * Prop :=
  let a := rf_kick preserve (weighted w k) (fst st) in (a, snd st /\ moving (r_part a)).
Definition passes_rf (o : rfopt) (w : R) (e : rfel) (a : rp) : Prop :=
  snd (body (watch_rf_drift (drift_model_of (rf_used_model e) 0))
         (watch_rf_kick (o_preserve o) (fwd_rf o w e)) false (rf_used_integrator e)
         (rf_used_kicks e w) (rf_length e * w) (a, True)).

(** The models of RF elements ('adaptive', 'drift-kick-drift-exact', 'drift-kick-drift-expanded' and
    the two variants of the exact one) and the internal kick-only model *)
Definition rf_model_known (m : Z) : Prop := (m = -1 \/ m = 5 \/ m = 6 \/ m = 7 \/ m = 8)%Z.
Definition exact_drift (m : Z) : bool := Z.eqb m 5 || Z.eqb m 7 || Z.eqb m 8.
Definition rf_integrator_known (i : Z) : Prop := (i = 1 \/ i = 2 \/ i = 3)%Z.

(** Real and imaginary part of (x + i y)^n *)
Fixpoint re_im (n : nat) (x y : R) : R * R :=
  match n with
  | O => (1, 0)
  | S k => let (a, b) := re_im k x y in (a * x - b * y, a * y + b * x)
  end.
Definition re n x y := fst (re_im n x y).
Definition im n x y := snd (re_im n x y).

(** The phases of the components of an rf multipole *)
Definition phase_of (deg rad : list R) (f zeta : R) (n : nat) (a : rp) : R :=
  seen f 0 (nth n deg 0 * PI / 180 + nth n rad 0) zeta a.
Definition comp_n (c : rfm) (n : nat) (a : rp) : R :=
  phase_of (rfm_pn c) (rfm_phase_n c) (rfm_frequency c) (p_zeta (r_part a)) n a.
Definition comp_s (c : rfm) (n : nat) (a : rp) : R :=
  phase_of (rfm_ps c) (rfm_phase_s c) (rfm_frequency c) (p_zeta (r_part a)) n a.

(** Elements with another setting of absolute_time *)
Definition el_at (n : Z) (e : rfel) : rfel :=
  mkRf (rf_length e) (rf_voltage e) (rf_frequency e) (rf_harmonic e) (rf_lag e) (rf_phase e)
    (rf_tvoltage e) (rf_tlag e) (rf_tphase e) n (rf_mult e) (rf_kicks e) (rf_model e) (rf_default_model e)
    (rf_integrator e) (rf_default_integrator e) (rf_lag_taper e) (rf_phase_taper e).
Definition cavity_at (n : Z) (c : cavity) : cavity :=
  mkCav (cv_length c) (cv_voltage c) (cv_frequency c) (cv_harmonic c) (cv_lag c) (cv_phase c)
    (cv_lag_taper c) (cv_phase_taper c) n (cv_kicks c) (cv_model c) (cv_integrator c).
