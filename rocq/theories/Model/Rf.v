(** RF elements: elements_src/track_rf.h and the elements which use it (Cavity, CrabCavity,
    RFMultipole and the slices of cavities).

    Floating point numbers are real numbers. No variable is frozen. *)
From Coq Require Import Reals ZArith List Bool.
From Verif.Model Require Import Maps Curved Magnet.
From Verif.Model Require Energy.
Import ListNotations.
Local Open Scope R_scope.

(** The variables of a particle read by the RF code: those of [Maps.part], the variables of its
    reference ([r_p0c], [r_q0], charge_ratio), the simulated time t_sim and the turn
    (particles.py:38-63), and line_length (tracker.py:603). *)
Record rp := mkRp {
  r_part : part; r_p0c : R; r_q0 : R; r_cr : R; r_tsim : R; r_turn : Z; r_line : R }.
Definition on_part (f : part -> part) (a : rp) : rp :=
  mkRp (f (r_part a)) (r_p0c a) (r_q0 a) (r_cr a) (r_tsim a) (r_turn a) (r_line a).

(** The variables used by the energy functions ([Model/Energy.v]) and back. The rest mass and the
    reference gamma are not read nor written by add_to_energy. *)
Definition ep_of (a : rp) : Energy.ep :=
  let p := r_part a in
  Energy.mkEp 0 (r_q0 a) (r_p0c a) 0 (p_beta0 p) (p_delta p) (p_ptau p) (p_rvv p) (p_rpp p)
    (p_chi p) (r_cr a) (p_x p) (p_px p) (p_y p) (p_py p) (p_zeta p).
Definition put_ep (e : Energy.ep) (p : part) : part :=
  mkPart (Energy.e_x e) (Energy.e_px e) (Energy.e_y e) (Energy.e_py e) (Energy.e_zeta e) (p_s p)
    (Energy.e_delta e) (Energy.e_ptau e) (Energy.e_rpp e) (Energy.e_rvv e)
    (p_chi p) (p_beta0 p) (p_ax p) (p_ay p) (p_spin_x p) (p_spin_y p) (p_spin_z p).

(** local_particle_custom_api.h:195-216 *)
Definition add_to_energy (dE : R) (pz_only : bool) (a : rp) : rp :=
  on_part (put_ep (Energy.add_to_energy Energy.fz_none dE pz_only (ep_of a))) a.

(** headers/constants.h: C_LIGHT, DEG2RAD *)
Definition C_LIGHT : R := 299792458.
Definition DEG2RAD : R := PI / 180.

(** The arrays of an rf multipole. [rm_order = None] for order -1. *)
Record rfmult := mkRm {
  rm_order : option nat; rm_knl : list R; rm_ksl : list R; rm_pn : list R; rm_ps : list R;
  rm_phase_n : list R; rm_phase_s : list R }.

(** The parameters of an RF kick *)
Record rfkick := mkRk {
  rk_voltage : R; rk_frequency : R; rk_harmonic : R; rk_lag : R; rk_phase : R;
  rk_tvoltage : R; rk_tlag : R; rk_tphase : R;
  rk_absolute_time : Z; rk_factor : R; rk_mult : rfmult; rk_kill : bool }.

(** track_rf.h:40-51: the frequency and the phase at the arrival of the reference particle *)
Definition used_frequency (k : rfkick) (a : rp) : R :=
  if is0 (rk_harmonic k) then rk_frequency k
  else
    let t_rev0 := r_line a / (p_beta0 (r_part a) * C_LIGHT) in
    rk_frequency k + rk_harmonic k / t_rev0.
Definition phase0 (k : rfkick) (a : rp) : R :=
  if Z.eqb (rk_absolute_time k) 1
  then 0 + 2 * PI * IZR (r_turn a) * used_frequency k a * r_tsim a else 0.

(** track_rf.h:77-104: the loop over the multipoles from order [kk] on, [n] of them left.
    State: factorial, zre, zim, dpx, dpy, dptr. *)
Section Loop.
Variables (m : rfmult) (factor phase0 dphase x y : R).
Fixpoint rf_loop (n kk : nat) (factorial zre zim dpx dpy dptr : R) : R * R * R :=
  match n with
  | O => (dpx, dpy, dptr)
  | S n' =>
      let factorial := if Nat.ltb 0 kk then factorial * INR kk else factorial in
      let pn_kk := phase0 + DEG2RAD * nth kk (rm_pn m) 0 + nth kk (rm_phase_n m) 0 - dphase in
      let ps_kk := phase0 + DEG2RAD * nth kk (rm_ps m) 0 + nth kk (rm_phase_s m) 0 - dphase in
      let bal_n_kk := factor * nth kk (rm_knl m) 0 / factorial in
      let bal_s_kk := factor * nth kk (rm_ksl m) 0 / factorial in
      let cn := cos pn_kk in
      let cs := cos ps_kk in
      let sn := sin pn_kk in
      let ss := sin ps_kk in
      let dpx := dpx + (cn * (bal_n_kk * zre) - cs * (bal_s_kk * zim)) in
      let dpy := dpy + (cs * (bal_s_kk * zre) + cn * (bal_n_kk * zim)) in
      let zret := zre * x - zim * y in
      let zim := zim * x + zre * y in
      let zre := zret in
      let dptr := dptr + (sn * (bal_n_kk * zre) - ss * (bal_s_kk * zim)) in
      rf_loop n' (S kk) factorial zre zim dpx dpy dptr
  end.
End Loop.

(** track_rf.h:track_rf_kick_single_particle. [preserve]: XTRACK_CAVITY_PRESERVE_ANGLE is defined. *)
Definition rf_kick (preserve : bool) (k : rfkick) (a : rp) : rp :=
  let p := r_part a in
  let ph0 := phase0 k a in
  let frequency := used_frequency k a in
  let q := Rabs (r_q0 a) * r_cr a in
  let tau := p_zeta p / p_beta0 p in
  let dphase := 2 * PI / C_LIGHT * frequency * tau in
  let energy_kick := q * rk_voltage k * sin (ph0 + DEG2RAD * rk_lag k + rk_phase k - dphase) in
  let (e1, a1) :=
    match rm_order (rk_mult k) with
    | None => (0, a)
    | Some order =>
        let '(dpx, dpy, dptr) :=
          rf_loop (rk_mult k) (rk_factor k) ph0 dphase (p_x p) (p_y p) (S order) 0 1 1 0 0 0 0 in
        (- q * (frequency * (2 * PI / C_LIGHT) * r_p0c a * dptr),
         on_part (fun p => add_py (p_chi p * dpy) (add_px (- p_chi p * dpx) p)) a)
    end in
  let (e2, a2) :=
    if is0 (rk_tvoltage k) then (e1, a1)
    else
      let p := r_part a1 in
      let pn_kk := ph0 + DEG2RAD * (rk_tlag k + 90) + rk_tphase k - dphase in
      let bal_n_kk := rk_tvoltage k / r_p0c a1 in
      let zre := 1 in
      let zim := 0 in
      let dpx := 0 + cos pn_kk * (bal_n_kk * zre) in
      let dpy := 0 + cos pn_kk * (bal_n_kk * zim) in
      let zre := zre * p_x p - zim * p_y p in
      let dptr := 0 + sin pn_kk * (bal_n_kk * zre) in
      (e1 + - q * (frequency * (2 * PI / C_LIGHT) * r_p0c a1 * dptr),
       on_part (fun p => add_py (p_chi p * dpy) (add_px (- p_chi p * dpx) p)) a1) in
  if rk_kill k then a2 else add_to_energy (energy_kick + e2) (negb preserve) a2.

(** track_rf.h:193-206: the macros RF_KICK and RF_DRIFT *)
Definition weighted (w : R) (k : rfkick) : rfkick :=
  mkRk (rk_voltage k * w) (rk_frequency k) (rk_harmonic k) (rk_lag k) (rk_phase k)
    (rk_tvoltage k * w) (rk_tlag k) (rk_tphase k) (rk_absolute_time k) (rk_factor k * w)
    (rk_mult k) (rk_kill k).
Definition rf_drift (drift_model : Z) (dlength : R) (a : rp) : rp :=
  on_part (magnet_drift (mkDp drift_model 0 0 0 0 0 0) dlength) a.

(** track_rf.h:track_rf_body_single_particle: the generated integration code is the one of the magnets
    (track_magnet.h:180-275) *)
Definition rf_body (preserve : bool) (drift_model integrator num_kicks : Z) (length : R) (k : rfkick)
    (a : rp) : rp :=
  body (rf_drift drift_model) (fun w => rf_kick preserve (weighted w k)) false integrator num_kicks
    length a.

(** An RF element as track_rf_particles sees it *)
Record rfel := mkRf {
  rf_length : R; rf_voltage : R; rf_frequency : R; rf_harmonic : R; rf_lag : R; rf_phase : R;
  rf_tvoltage : R; rf_tlag : R; rf_tphase : R; rf_absolute_time : Z; rf_mult : rfmult;
  rf_kicks : Z; rf_model : Z; rf_default_model : Z; rf_integrator : Z; rf_default_integrator : Z;
  rf_lag_taper : R; rf_phase_taper : R }.

(** track_rf.h:368-399: model, integrator and number of kicks *)
Definition rf_used_model (e : rfel) : Z :=
  if Z.eqb (rf_model e) 0 then rf_default_model e else rf_model e.
Definition rf_used_integrator (e : rfel) : Z :=
  if Z.eqb (rf_used_model e) (-1) then 3%Z
  else if Z.eqb (rf_integrator e) 0 then rf_default_integrator e else rf_integrator e.
Definition rf_used_kicks (e : rfel) (weight : R) : Z :=
  let n := if Z.eqb (rf_used_model e) (-1) then 1%Z else rf_kicks e in
  let n := if negb (if Req_EM_T weight 1 then true else false) && Z.ltb 0 n
           then ceil (IZR n * weight) else n in
  if Z.eqb n 0 then 1%Z else n.

(** The compile-time options and flags: XTRACK_CAVITY_PRESERVE_ANGLE, XTRACK_MULTIPOLE_NO_SYNRAD,
    XS_FLAG_KILL_CAVITY_KICK. *)
Record rfopt := mkOpt { o_preserve : bool; o_no_synrad : bool; o_kill : bool }.

(** track_rf.h:track_rf_particles, for one particle *)
Definition track_rf (o : rfopt) (backtrack : bool) (weight : R) (e : rfel) (a : rp) : rp :=
  let lag := if o_no_synrad o then rf_lag e else rf_lag e + rf_lag_taper e in
  let phase := if o_no_synrad o then rf_phase e else rf_phase e + rf_phase_taper e in
  let body_length := if backtrack then - rf_length e else rf_length e in
  let factor := if backtrack then - (1) else 1 in
  let voltage := if backtrack then - rf_voltage e else rf_voltage e in
  let tvoltage := if backtrack then - rf_tvoltage e else rf_tvoltage e in
  rf_body (o_preserve o) (drift_model_of (rf_used_model e) 0) (rf_used_integrator e)
    (rf_used_kicks e weight) (body_length * weight)
    (mkRk (voltage * weight) (rf_frequency e) (rf_harmonic e) lag phase
       (tvoltage * weight) (rf_tlag e) (rf_tphase e) (rf_absolute_time e) (factor * weight)
       (rf_mult e) (o_kill o)) a.

Definition no_mult : rfmult := mkRm None [] [] [] [] [] [].

(** cavity.py:40-78, elements_src/cavity.h *)
Record cavity := mkCav {
  cv_length : R; cv_voltage : R; cv_frequency : R; cv_harmonic : R; cv_lag : R; cv_phase : R;
  cv_lag_taper : R; cv_phase_taper : R; cv_absolute_time : Z;
  cv_kicks : Z; cv_model : Z; cv_integrator : Z }.
Definition cavity_el (c : cavity) : rfel :=
  mkRf (cv_length c) (cv_voltage c) (cv_frequency c) (cv_harmonic c) (cv_lag c) (cv_phase c)
    0 0 0 (cv_absolute_time c) no_mult (cv_kicks c) (cv_model c) 6 (cv_integrator c) 3
    (cv_lag_taper c) (cv_phase_taper c).
Definition Cavity_track (o : rfopt) (backtrack : bool) (c : cavity) : rp -> rp :=
  track_rf o backtrack 1 (cavity_el c).

(** elements_src/thick_slice_cavity.h, thin_slice_cavity.h *)
Definition ThickSliceCavity_track (o : rfopt) (backtrack : bool) (weight : R) (c : cavity) : rp -> rp :=
  track_rf o backtrack weight (cavity_el c).
Definition ThinSliceCavity_track (o : rfopt) (backtrack : bool) (weight : R) (c : cavity) : rp -> rp :=
  track_rf o backtrack weight
    (mkRf (cv_length c) (cv_voltage c) (cv_frequency c) (cv_harmonic c) (cv_lag c) (cv_phase c)
       0 0 0 (cv_absolute_time c) no_mult 1 (-1) 6 3 3 (cv_lag_taper c) (cv_phase_taper c)).

(** crab_cavity.py, elements_src/crab_cavity.h *)
Record crab := mkCrab {
  cb_length : R; cb_voltage : R; cb_frequency : R; cb_lag : R; cb_phase : R;
  cb_lag_taper : R; cb_phase_taper : R; cb_absolute_time : Z;
  cb_kicks : Z; cb_model : Z; cb_integrator : Z }.
Definition CrabCavity_track (o : rfopt) (backtrack : bool) (c : crab) : rp -> rp :=
  track_rf o backtrack 1
    (mkRf (cb_length c) 0 (cb_frequency c) 0 0 0 (cb_voltage c) (cb_lag c) (cb_phase c)
       (cb_absolute_time c) no_mult (cb_kicks c) (cb_model c) 6 (cb_integrator c) 3
       (cb_lag_taper c) (cb_phase_taper c)).

(** rf_multipole.py, elements_src/rfmultipole.h *)
Record rfm := mkRfm {
  rfm_voltage : R; rfm_frequency : R; rfm_lag : R; rfm_phase : R; rfm_order : nat;
  rfm_knl : list R; rfm_ksl : list R; rfm_pn : list R; rfm_ps : list R;
  rfm_phase_n : list R; rfm_phase_s : list R; rfm_absolute_time : Z }.
Definition RFMultipole_track (o : rfopt) (backtrack : bool) (c : rfm) : rp -> rp :=
  track_rf o backtrack 1
    (mkRf 0 (rfm_voltage c) (rfm_frequency c) 0 (rfm_lag c) (rfm_phase c) 0 0 0 0
       (mkRm (Some (rfm_order c)) (rfm_knl c) (rfm_ksl c) (rfm_pn c) (rfm_ps c)
          (rfm_phase_n c) (rfm_phase_s c)) 1 (-1) 0 0 0 0 0).
