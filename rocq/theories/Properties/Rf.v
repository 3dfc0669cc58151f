(** C71: RF elements give the energy and the deflection which their voltages and phases say. *)
From Coq Require Import Reals ZArith List Bool Factorial.
From Verif.Model Require Import Maps Magnet Rf.
From Verif.Spec Require Import Rf.
From Verif.Proofs Require Rf RfCases.
Import ListNotations.
Local Open Scope R_scope.

(** A cavity, or a thick slice of weight [w] of it, gives a particle the voltage once, whatever the
    integrator and the number of kicks: the energy gained is the mean of charge times voltage times the
    sine of the phase seen where the kicks are given, and the weights of this mean add up to one. *)
Theorem C71_energy : forall o w c a,
  (cv_model c = 0 \/ rf_model_known (cv_model c))%Z ->
  (cv_integrator c = 0 \/ rf_integrator_known (cv_integrator c))%Z -> (0 <= cv_kicks c)%Z -> 0 < w ->
  o_kill o = false -> r_p0c a <> 0 -> p_chi (r_part a) <> 0 -> r_cr a <> 0 ->
  sum (map fst (crossed o w (cavity_el c) a)) = 1 /\
  energy (ThickSliceCavity_track o false w c a) = energy a + charge a * cv_voltage c * w *
    sum (map (fun wz => fst wz * sin (cavity_phase o c (snd wz) a)) (crossed o w (cavity_el c) a)).
Proof. exact Rf.cavity_energy. Qed.
Print Assumptions C71_energy.

(** A thin slice gives it where the particle is and changes nothing else. *)
Theorem C71_thin_slice : forall o w c a,
  o_kill o = false -> 0 < w -> r_p0c a <> 0 -> p_chi (r_part a) <> 0 -> r_cr a <> 0 ->
  o_preserve o = false -> energy_ok (r_part a) ->
  let b := ThinSliceCavity_track o false w c a in
  p_x (r_part b) = p_x (r_part a) /\ p_y (r_part b) = p_y (r_part a) /\
  p_zeta (r_part b) = p_zeta (r_part a) /\ p_px (r_part b) = p_px (r_part a) /\
  p_py (r_part b) = p_py (r_part a) /\ p_s (r_part b) = p_s (r_part a) /\
  energy b = energy a + charge a * (w * cv_voltage c) * sin (cavity_phase o c (p_zeta (r_part a)) a).
Proof. exact Rf.thin_cavity. Qed.
Print Assumptions C71_thin_slice.

(** Without voltage a cavity is a drift. *)
Theorem C71_no_voltage : forall o w c a,
  energy_ok (r_part a) -> (cv_model c = 0 \/ rf_model_known (cv_model c))%Z -> (cv_model c <> -1)%Z ->
  (cv_integrator c = 0 \/ rf_integrator_known (cv_integrator c))%Z -> (0 <= cv_kicks c)%Z -> 0 < w ->
  cv_voltage c = 0 ->
  ThickSliceCavity_track o false w c a
  = on_part (run_drift (exact_drift (cv_model c)) 0 (cv_length c * w)) a.
Proof. exact Rf.cavity_no_voltage. Qed.
Print Assumptions C71_no_voltage.

(** Tracking backwards undoes any RF element which the particle passes. *)
Theorem C71_backtrack : forall o w e a,
  rf_model_known (rf_used_model e) -> energy_ok (r_part a) -> passes_rf o w e a ->
  o_preserve o = false \/ (rm_order (rf_mult e) = None /\ rf_tvoltage e = 0) ->
  track_rf o true w e (track_rf o false w e a) = a.
Proof. exact Rf.rf_backtrack. Qed.
Print Assumptions C71_backtrack.

(** When a whole number of RF periods fits in the simulated time of a turn, a cavity or crab cavity which
    follows the absolute time does the same as one which follows the reference particle. *)
Theorem C71_synchronous : forall o b w e n a,
  rf_model_known (rf_used_model e) -> rm_order (rf_mult e) = None ->
  freq (rf_frequency e) (rf_harmonic e) a * r_tsim a = IZR n ->
  track_rf o b w (el_at 1 e) a = track_rf o b w (el_at 0 e) a.
Proof. exact Rf.rf_sync. Qed.
Print Assumptions C71_synchronous.

(** In particular with a whole harmonic number and the revolution time as simulated time. *)
Theorem C71_harmonic : forall o b c h a,
  (cv_model c = 0 \/ rf_model_known (cv_model c))%Z ->
  cv_frequency c = 0 -> cv_harmonic c = IZR h -> r_line a <> 0 -> p_beta0 (r_part a) <> 0 ->
  r_tsim a = r_line a / (p_beta0 (r_part a) * 299792458) ->
  Cavity_track o b (cavity_at 1 c) a = Cavity_track o b (cavity_at 0 c) a.
Proof. exact Rf.cavity_harmonic. Qed.
Print Assumptions C71_harmonic.

(** A thin crab cavity deflects by the sine of the phase and gives the energy of its field off axis,
    whatever the integrator and the number of kicks. *)
Theorem C71_crab : forall o c a,
  o_preserve o = false -> o_kill o = false -> energy_ok (r_part a) -> cb_length c = 0 ->
  (cb_model c = 0 \/ rf_model_known (cb_model c))%Z ->
  (cb_integrator c = 0 \/ rf_integrator_known (cb_integrator c))%Z -> (0 <= cb_kicks c)%Z ->
  r_p0c a <> 0 -> p_chi (r_part a) <> 0 -> r_cr a <> 0 ->
  let b := CrabCavity_track o false c a in
  let phi := seen (cb_frequency c) (cb_absolute_time c) (cb_lag c * PI / 180 + cb_phase c)
               (p_zeta (r_part a)) a in
  p_x (r_part b) = p_x (r_part a) /\ p_y (r_part b) = p_y (r_part a) /\
  p_zeta (r_part b) = p_zeta (r_part a) /\ p_py (r_part b) = p_py (r_part a) /\
  p_px (r_part b) = p_px (r_part a) + p_chi (r_part a) * cb_voltage c / r_p0c a * sin phi /\
  energy b = energy a - charge a * cb_voltage c * (2 * PI * cb_frequency c / 299792458)
                        * p_x (r_part a) * cos phi.
Proof. exact Rf.thin_crab. Qed.
Print Assumptions C71_crab.

(** An RF multipole of any order *)
Theorem C71_multipole : forall o c a,
  o_preserve o = false -> o_kill o = false -> energy_ok (r_part a) ->
  r_p0c a <> 0 -> p_chi (r_part a) <> 0 -> r_cr a <> 0 ->
  let p := r_part a in
  let q := r_part (RFMultipole_track o false c a) in
  let x := p_x p in let y := p_y p in
  let N := seq 0 (S (rfm_order c)) in
  p_x q = x /\ p_y q = y /\ p_zeta q = p_zeta p /\ p_s q = p_s p /\
  p_px q = p_px p - p_chi p * sum (map (fun n =>
     (cos (comp_n c n a) * nth n (rfm_knl c) 0 * re n x y - cos (comp_s c n a) * nth n (rfm_ksl c) 0 * im n x y)
     / INR (fact n)) N) /\
  p_py q = p_py p + p_chi p * sum (map (fun n =>
     (cos (comp_s c n a) * nth n (rfm_ksl c) 0 * re n x y + cos (comp_n c n a) * nth n (rfm_knl c) 0 * im n x y)
     / INR (fact n)) N) /\
  energy (RFMultipole_track o false c a) = energy a
    + charge a * rfm_voltage c * sin (seen (rfm_frequency c) 0 (rfm_lag c * PI / 180 + rfm_phase c) (p_zeta p) a)
    - charge a * r_p0c a * (2 * PI * rfm_frequency c / 299792458) * sum (map (fun n =>
     (sin (comp_n c n a) * nth n (rfm_knl c) 0 * re (S n) x y
      - sin (comp_s c n a) * nth n (rfm_ksl c) 0 * im (S n) x y) / INR (fact n)) N).
Proof. exact Rf.thin_rfm. Qed.
Print Assumptions C71_multipole.

(** The attribute absolute_time of an RFMultipole has no effect. *)
Theorem C71_multipole_time_refuted : exists o c a,
  o_preserve o = false /\ o_kill o = false /\ energy_ok (r_part a) /\ rfm_absolute_time c = 1%Z /\ rfm_order c = 0%nat /\
  p_px (r_part (RFMultipole_track o false c a)) <>
  p_px (r_part a) - p_chi (r_part a) * nth 0 (rfm_knl c) 0 *
    cos (seen (rfm_frequency c) (rfm_absolute_time c) (nth 0 (rfm_phase_n c) 0) (p_zeta (r_part a)) a).
Proof. exact RfCases.timed_wrong. Qed.
Print Assumptions C71_multipole_time_refuted.

(** The tapering of a CrabCavity has no effect. *)
Theorem C71_crab_taper_refuted : exists o c a,
  o_preserve o = false /\ o_kill o = false /\ o_no_synrad o = false /\ energy_ok (r_part a) /\ cb_length c = 0 /\
  p_px (r_part (CrabCavity_track o false c a)) <>
  p_px (r_part a) + p_chi (r_part a) * cb_voltage c / r_p0c a *
    sin (seen (cb_frequency c) (cb_absolute_time c)
           (setting o (cb_lag c) (cb_phase c) (cb_lag_taper c) (cb_phase_taper c)) (p_zeta (r_part a)) a).
Proof. exact RfCases.crab_taper_wrong. Qed.
Print Assumptions C71_crab_taper_refuted.

(** The deflection of a CrabCavity is not charge times voltage over momentum when the reference charge is
    not one. *)
Theorem C71_crab_charge_refuted : exists o c a,
  o_preserve o = false /\ o_kill o = false /\ energy_ok (r_part a) /\ cb_length c = 0 /\
  p_px (r_part (CrabCavity_track o false c a)) <>
  p_px (r_part a) + charge a * cb_voltage c / (r_p0c a * (r_cr a / p_chi (r_part a))) *
    sin (seen (cb_frequency c) (cb_absolute_time c) (cb_lag c * PI / 180 + cb_phase c) (p_zeta (r_part a)) a).
Proof. exact RfCases.crab_charge_wrong. Qed.
Print Assumptions C71_crab_charge_refuted.

(** With the option to preserve angles, deflecting elements are not undone by tracking backwards. *)
Theorem C71_preserve_refuted : exists o e a,
  o_preserve o = true /\ rf_model_known (rf_used_model e) /\ energy_ok (r_part a) /\ passes_rf o 1 e a /\
  track_rf o true 1 e (track_rf o false 1 e a) <> a.
Proof. exact RfCases.preserve_wrong. Qed.
Print Assumptions C71_preserve_refuted.

Import Verif.Proofs.RfCases.
(** A static gap of two metres tracked with three kicks *)
Example C71_case :
  energy_ok (r_part (of_charge 1)) /\ rf_model_known (rf_used_model (cavity_el (gap 2 3))) /\
  passes_rf plain 1 (cavity_el (gap 2 3)) (of_charge 1) /\
  energy (Cavity_track plain false (gap 2 3) (of_charge 1)) = energy (of_charge 1) + 1.
Proof. exact gap_case. Qed.
