(** C12-C14, C54: energy variables. *)
From Coq Require Import Reals List Lra.
From Verif.Model Require Import Energy.
From Verif.Spec Require Import Energy.
From Verif.Proofs Require Energy EnergyPython EnergyCases.
Local Open Scope R_scope.

(** * C12. After any sequence of energy operations (from the elements or from python), the
    variables of the particle describe one physical particle. *)
Theorem C12_consistent : forall p q, runs fz_none p q -> consistent p -> consistent q.
Proof. exact Energy.runs_consistent. Qed.
Print Assumptions C12_consistent.

(** Physical operations never raise. *)
Theorem C12_no_error :
  forall o p, consistent p -> admissible o p -> exists q, run1 fz_none o p = Some q.
Proof. exact Energy.run1_total. Qed.
Print Assumptions C12_no_error.

(** The variables determine the particle. *)
Theorem C12_unique :
  forall r P E r' P' E' p, describes r P E p -> describes r' P' E' p -> r = r' /\ P = P' /\ E = E'.
Proof. exact Energy.describes_unique. Qed.
Print Assumptions C12_unique.

(** Assigning p0c alone keeps the reference consistent but not the deviations. *)
Theorem C12_p0c_setter_refuted : exists p q v,
  consistent p /\ 0 < v /\ py_set_p0c v p = Some q /\ refs_ok q /\ ~ consistent q.
Proof. exact EnergyCases.p0c_setter. Qed.
Print Assumptions C12_p0c_setter_refuted.

Example C12_case : consistent EnergyCases.pa.
Proof. exact EnergyCases.pa_consistent. Qed.

(** * C13. A change of the reference keeps the physical momenta, the energy and the time. *)
Theorem C13_update_p0c : forall r P E p v,
  describes r P E p -> 0 < v ->
  let q := update_p0c fz_none v p in
  describes r P E q /\ e_p0c q = v
  /\ Px r q = Px r p /\ Py r q = Py r p /\ tau q = tau p /\ keeps p q.
Proof. exact Energy.update_p0c_ok. Qed.
Print Assumptions C13_update_p0c.

(** The python version (energy program) is the same function. *)
Theorem C13_python_update_p0c : forall r P E p v b,
  describes r P E p -> 0 < v ->
  py_update_p0c_and_energy_deviations v b p
  = Some (if b then update_p0c fz_none v p
          else upd Vpx (e_px p) (upd Vpy (e_py p) (update_p0c fz_none v p))).
Proof. exact Energy.py_p0c_and_dev_same. Qed.
Print Assumptions C13_python_update_p0c.

(** Backtracking through a ReferenceEnergyIncrease restores every variable. *)
Theorem C13_increase_backtrack : forall p d,
  consistent p -> 0 < e_p0c p + d ->
  reference_energy_increase fz_none true d (reference_energy_increase fz_none false d p) = p.
Proof. exact Energy.incr_backtrack. Qed.
Print Assumptions C13_increase_backtrack.

(** add_to_energy adds this energy; with pz_only the transverse momenta are kept, without
    it the direction is kept. *)
Theorem C13_add_to_energy : forall r P E p dE b,
  describes r P E p -> r * e_mass0 p < E + dE ->
  exists P', describes r P' (E + dE) (add_to_energy fz_none dE b p)
  /\ keeps p (add_to_energy fz_none dE b p) /\ keeps_refs p (add_to_energy fz_none dE b p)
  /\ e_zeta (add_to_energy fz_none dE b p) = e_zeta p
  /\ (b = true -> Px r (add_to_energy fz_none dE b p) = Px r p
               /\ Py r (add_to_energy fz_none dE b p) = Py r p)
  /\ (b = false -> Px r (add_to_energy fz_none dE b p) / P' = Px r p / P
                /\ Py r (add_to_energy fz_none dE b p) / P' = Py r p / P).
Proof. exact Energy.add_to_energy_ok. Qed.
Print Assumptions C13_add_to_energy.

(** Increments of LineSegmentMap: the energies change as requested and the products x Px, y Py
    (emittances) are kept. *)
Theorem C13_increments : forall r P E p dE dE0 E0,
  describes r P E p -> refs_at E0 p -> r * e_mass0 p < E + dE -> e_mass0 p < E0 + dE0 ->
  let q := energy_and_reference_increments fz_none dE dE0 p in
  exists P', describes r P' (E + dE) q /\ refs_at (E0 + dE0) q
  /\ e_x q * Px r q = e_x p * Px r p /\ e_y q * Py r q = e_y p * Py r p.
Proof. exact Energy.increments_ok. Qed.
Print Assumptions C13_increments.

(** With frozen energy variables adding energy does nothing at all, but a change of
    reference changes the physical momentum. *)
Theorem C13_frozen_add : forall fz dE b p,
  fz Vptau = true -> fz Vdelta = true -> fz Vrpp = true -> fz Vrvv = true ->
  consistent p -> add_to_energy fz dE b p = p.
Proof. exact EnergyPython.frozen_add_to_energy. Qed.
Print Assumptions C13_frozen_add.

Theorem C13_frozen_p0c_refuted : exists p v, consistent p /\ 0 < v /\
  (1 + e_delta (update_p0c fz_energy v p)) * e_p0c (update_p0c fz_energy v p)
  <> (1 + e_delta p) * e_p0c p.
Proof. exact EnergyCases.frozen_p0c. Qed.
Print Assumptions C13_frozen_p0c_refuted.

Example C13_case : describes 1 (9 / 4) (15 / 4) EnergyCases.pa.
Proof. exact EnergyCases.pa_describes. Qed.

(** * C14. Python setters and constructor. *)
Theorem C14_set_delta : forall p d,
  consistent p -> -1 < d ->
  exists q, py_set_delta d p = Some q /\ consistent q /\ e_delta q = d
  /\ keeps p q /\ keeps_refs p q
  /\ e_px q = e_px p /\ e_py q = e_py p /\ e_zeta q = e_zeta p.
Proof. exact EnergyPython.set_delta_read. Qed.
Print Assumptions C14_set_delta.

Theorem C14_set_ptau : forall p t E0,
  consistent p -> refs_at E0 p -> e_mass0 p < E0 + t * e_p0c p ->
  exists q, py_set_ptau t p = Some q /\ consistent q /\ e_ptau q = t
  /\ keeps p q /\ keeps_refs p q
  /\ e_px q = e_px p /\ e_py q = e_py p /\ e_zeta q = e_zeta p.
Proof. exact EnergyPython.set_ptau_read. Qed.
Print Assumptions C14_set_ptau.

Theorem C14_update_pzeta : forall p z E0,
  consistent p -> refs_at E0 p -> e_mass0 p < E0 + z * e_beta0 p * e_p0c p ->
  consistent (update_pzeta fz_none z p) /\ get_pzeta (update_pzeta fz_none z p) = z.
Proof. exact EnergyPython.update_pzeta_read. Qed.
Print Assumptions C14_update_pzeta.

Theorem C14_set_reference : forall p m v,
  e_mass0 p = m -> 0 < m ->
  (0 < v -> exists q, py_set_p0c v p = Some q /\ refs_ok q /\ e_p0c q = v)
  /\ (1 < v -> exists q, py_set_gamma0 v p = Some q /\ refs_ok q /\ e_gamma0 q = v)
  /\ (0 < v < 1 -> exists q, py_set_beta0 v p = Some q /\ refs_ok q /\ e_beta0 q = v)
  /\ (m < v -> exists q, py_set_energy0 v p = Some q /\ refs_ok q /\ py_get_energy0 q = v)
  /\ (0 < v -> exists q, py_set_kinetic_energy0 v p = Some q /\ refs_ok q /\ py_get_kinetic_energy0 q = v)
  /\ (0 < v * e_q0 p -> exists q, py_set_rigidity0 v p = Some q /\ refs_ok q /\ py_get_rigidity0 q = v).
Proof. exact EnergyPython.setters_refs. Qed.
Print Assumptions C14_set_reference.

(** The constructor with one value per group of dependent variables. *)
Theorem C14_constructor : forall a r,
  single a -> good_refs a -> 0 < r -> ratio a r ->
  (a_delta a = None -> a_ptau a = None -> a_pzeta a = None -> r = 1) ->
  (forall P0, 0 < P0 -> ref_momentum a P0 -> good_deviation a P0) ->
  exists p, construct a = Some p /\ consistent p /\ py_get_mass_ratio p = r
  /\ e_mass0 p = a_mass0 a /\ e_q0 p = a_q0 a
  /\ e_x p = a_x a /\ e_px p = a_px a /\ e_y p = a_y a /\ e_py p = a_py a
  /\ ref_momentum a (e_p0c p)
  /\ (0 < a_q0 a -> refs_read a p)
  /\ when (a_delta a) (fun v => e_delta p = v)
  /\ when (a_ptau a) (fun v => e_ptau p = v)
  /\ when (a_pzeta a) (fun v => py_get_pzeta p = v)
  /\ when (a_zeta a) (fun v => e_zeta p = v)
  /\ when (a_tau a) (fun v => tau p = v).
Proof. exact EnergyPython.construct_single. Qed.
Print Assumptions C14_constructor.

(** With several values, what is stored agrees with the first within the tolerance. *)
Theorem C14_several_references : forall v e0 g b k r p q,
  update_refs (Some v) e0 g b k r p = Some q ->
  let E := sqrt (v ^ 2 + e_mass0 p ^ 2) in
  e_p0c q = v
  /\ when e0 (fun x => close x (e_mass0 p * (E / e_mass0 p)))
  /\ when g (fun x => e_gamma0 q = x) /\ close (e_gamma0 q) (E / e_mass0 p)
  /\ when b (fun x => e_beta0 q = x) /\ close (e_beta0 q) (v / E).
Proof. exact EnergyPython.update_refs_p0c_checked. Qed.
Print Assumptions C14_several_references.

Theorem C14_several_deviations : forall d t z rp rv p q,
  update_energy_deviations (Some d) t z rp rv p = Some q ->
  let T := sqrt (d ^ 2 + 2 * d + 1 / e_beta0 p ^ 2) - 1 / e_beta0 p in
  e_delta q = d
  /\ when t (fun x => e_ptau q = x) /\ close (e_ptau q) T
  /\ when z (fun x => close x (T / e_beta0 p))
  /\ when rp (fun x => e_rpp q = x) /\ close (e_rpp q) (1 / (1 + d))
  /\ when rv (fun x => e_rvv q = x)
  /\ close (e_rvv q) ((1 + d) / sqrt ((d * e_beta0 p) ^ 2 + 2 * (d * e_beta0 p) * e_beta0 p + 1)).
Proof. exact EnergyPython.update_dev_checked. Qed.
Print Assumptions C14_several_deviations.

(** Not checked by the constructor: kinetic_energy0 given with p0c; mass_ratio given with
    chi and charge_ratio. *)
Theorem C14_kinetic_energy_refuted : exists a p,
  a_p0c a = Some 4 /\ a_kinetic_energy0 a = Some 100
  /\ construct a = Some p /\ e_p0c p = 4 /\ py_get_kinetic_energy0 p = 2.
Proof. exact EnergyCases.kinetic_ignored. Qed.
Print Assumptions C14_kinetic_energy_refuted.

Theorem C14_mass_ratio_refuted : exists chi cr,
  update_chi_charge_ratio (Some 1) (Some 1) (Some 7) = Some (chi, cr) /\ cr / chi = 1.
Proof. exact EnergyCases.mass_ratio_ignored. Qed.
Print Assumptions C14_mass_ratio_refuted.

(** rigidity0 given to the constructor with a negative reference charge is read back with
    the other sign. *)
Theorem C14_rigidity_refuted : forall p v, e_mass0 p = 3 -> e_q0 p = -1 -> 0 < v ->
  exists q, update_refs None None None None None (Some v) p = Some q /\ refs_ok q
  /\ py_get_rigidity0 q = - v.
Proof. exact EnergyCases.rigidity_sign. Qed.
Print Assumptions C14_rigidity_refuted.

Example C14_case :
  single EnergyCases.no_args /\ good_refs EnergyCases.no_args /\ ratio EnergyCases.no_args 1
  /\ forall P0, 0 < P0 -> ref_momentum EnergyCases.no_args P0 -> good_deviation EnergyCases.no_args P0.
Proof.
  unfold single, good_refs, ratio, ref_momentum, good_deviation. cbn.
  repeat split; auto; Lra.lra.
Qed.

(** * C54. Angles: what is set, added or scaled is what is read. *)
Theorem C54_set_xp_yp : forall p xp yp, consistent p ->
  get_xp (set_xp_yp fz_none xp yp p) = xp /\ get_yp (set_xp_yp fz_none xp yp p) = yp.
Proof. exact EnergyPython.set_xp_yp_read. Qed.
Print Assumptions C54_set_xp_yp.

Theorem C54_set_exact_xp_yp : forall p xp yp, consistent p ->
  let q := set_exact_xp_yp fz_none xp yp p in
  get_exact_xp q = xp /\ get_exact_yp q = yp
  /\ e_delta q = e_delta p /\ e_px q * e_px q + e_py q * e_py q < (1 + e_delta p) * (1 + e_delta p).
Proof. exact EnergyPython.set_exact_read. Qed.
Print Assumptions C54_set_exact_xp_yp.

Theorem C54_add_to_exact_xp_yp : forall p xp yp, consistent p ->
  let q := add_to_exact_xp_yp fz_none xp yp p in
  get_exact_xp q = get_exact_xp p + xp /\ get_exact_yp q = get_exact_yp p + yp.
Proof. exact EnergyPython.add_exact_read. Qed.
Print Assumptions C54_add_to_exact_xp_yp.

Theorem C54_scale_exact_xp_yp : forall p a b, consistent p ->
  let q := scale_exact_xp_yp fz_none a b p in
  get_exact_xp q = get_exact_xp p * a /\ get_exact_yp q = get_exact_yp p * b.
Proof. exact EnergyPython.scale_exact_read. Qed.
Print Assumptions C54_scale_exact_xp_yp.

(** The setter of a single exact angle does not set this angle. *)
Theorem C54_set_exact_yp_refuted : exists p, consistent p
  /\ e_px p * e_px p + e_py p * e_py p < (1 + e_delta p) * (1 + e_delta p)
  /\ get_exact_yp (set_exact_yp fz_none 1 p) <> 1.
Proof. exact EnergyCases.exact_yp. Qed.
Print Assumptions C54_set_exact_yp_refuted.

Example C54_case : consistent EnergyCases.pb.
Proof. exact EnergyCases.pb_consistent. Qed.
