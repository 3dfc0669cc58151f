(** Physical meaning of the energy variables, as documented in the docstring of
    [xt.Particles] (particles.py:461-545). *)
From Coq Require Import Reals.
From Verif.Model Require Import Energy.
Local Open Scope R_scope.

(** The reference particle: momentum, velocity and Lorentz factor belong to one
    energy [E0] for the rest mass. *)
Definition refs_at (E0 : R) (p : ep) : Prop :=
  0 < e_mass0 p /\ 0 < e_p0c p /\ 0 < E0
  /\ E0 * E0 = e_p0c p * e_p0c p + e_mass0 p * e_mass0 p
  /\ e_beta0 p = e_p0c p / E0 /\ e_gamma0 p = E0 / e_mass0 p.
Definition refs_ok (p : ep) : Prop := exists E0, refs_at E0 p.

(** [m_over_m0], [P] and [E] are the mass ratio, momentum and energy of the particle. *)
Definition describes (m_over_m0 P E : R) (p : ep) : Prop :=
  exists E0, refs_at E0 p
  /\ 0 < m_over_m0 /\ e_chi p <> 0 /\ e_cr p = m_over_m0 * e_chi p
  /\ 0 < P /\ 0 < E
  /\ E * E = P * P + (m_over_m0 * e_mass0 p) * (m_over_m0 * e_mass0 p)
  /\ e_delta p = (P / m_over_m0 - e_p0c p) / e_p0c p
  /\ e_ptau p = (E / m_over_m0 - E0) / e_p0c p
  /\ e_rpp p = m_over_m0 * e_p0c p / P
  /\ e_rvv p = (P / E) / e_beta0 p.

Definition consistent (p : ep) : Prop := exists r P E, describes r P E p.

(** transverse momenta *)
Definition Px (r : R) (p : ep) : R := e_px p * e_p0c p * r.
Definition Py (r : R) (p : ep) : R := e_py p * e_p0c p * r.

(** [zeta = s - beta0 c t]: [- c t] at [s = 0] *)
Definition tau (p : ep) : R := e_zeta p / e_beta0 p.

(** Variables which are unchanged. *)
Definition keeps (p q : ep) : Prop :=
  e_mass0 q = e_mass0 p /\ e_q0 q = e_q0 p /\ e_chi q = e_chi p /\ e_cr q = e_cr p
  /\ e_x q = e_x p /\ e_y q = e_y p.
Definition keeps_refs (p q : ep) : Prop :=
  e_p0c q = e_p0c p /\ e_gamma0 q = e_gamma0 p /\ e_beta0 q = e_beta0 p.

(** Operations for which the particle stays physical: positive momentum, energy above the
    rest energy. *)
Definition above_rest (r : R) (E : R) (p : ep) : Prop := r * e_mass0 p < E.

Definition admissible (o : op) (p : ep) : Prop :=
  forall r P E, describes r P E p -> forall E0, refs_at E0 p ->
  match o with
  | Odelta d | OPdelta d => -1 < d
  | Optau t | OPptau t => above_rest r ((E0 + t * e_p0c p) * r) p
  | Opzeta z => above_rest r ((E0 + z * e_beta0 p * e_p0c p) * r) p
  | Oadd dE _ | OPadd dE => above_rest r (E + dE) p
  | Op0c v | OPp0c v _ => 0 < v
  | Oincr b d => 0 < e_p0c p + (if b then - d else d)
  | Oincrements dE dE0 => above_rest r (E + dE) p /\ e_mass0 p < E0 + dE0
  end.

(** Executions in which every operation is admissible in the state it finds. *)
Inductive runs (fz : var -> bool) : ep -> ep -> Prop :=
| runs_nil p : runs fz p p
| runs_step p o p1 p2 :
    admissible o p -> run1 fz o p = Some p1 -> runs fz p1 p2 -> runs fz p p2.

(** * Constructor *)
(** At most one way of giving the reference, the deviation, the longitudinal position. *)
Definition given {A} (o : option A) : nat := match o with Some _ => 1 | None => 0 end.
Definition single (a : args) : Prop :=
  (given (a_p0c a) + given (a_energy0 a) + given (a_gamma0 a) + given (a_beta0 a)
   + given (a_kinetic_energy0 a) + given (a_rigidity0 a) <= 1)%nat
  /\ (given (a_delta a) + given (a_ptau a) + given (a_pzeta a) <= 1)%nat
  /\ a_rpp a = None /\ a_rvv a = None
  /\ (given (a_zeta a) + given (a_tau a) <= 1)%nat.

Definition when {A} (o : option A) (P : A -> Prop) : Prop :=
  match o with Some v => P v | None => True end.

(** Values of the reference which make sense. *)
Definition good_refs (a : args) : Prop :=
  0 < a_mass0 a
  /\ when (a_p0c a) (fun v => 0 < v)
  /\ when (a_energy0 a) (fun v => a_mass0 a < v)
  /\ when (a_gamma0 a) (fun v => 1 < v)
  /\ when (a_beta0 a) (fun v => 0 < v < 1)
  /\ when (a_kinetic_energy0 a) (fun v => 0 < v)
  /\ when (a_rigidity0 a) (fun v => 0 < v /\ a_q0 a <> 0).

(** The reference values read back are the given ones. *)
Definition refs_read (a : args) (p : ep) : Prop :=
  when (a_p0c a) (fun v => e_p0c p = v)
  /\ when (a_energy0 a) (fun v => py_get_energy0 p = v)
  /\ when (a_gamma0 a) (fun v => e_gamma0 p = v)
  /\ when (a_beta0 a) (fun v => e_beta0 p = v)
  /\ when (a_kinetic_energy0 a) (fun v => py_get_kinetic_energy0 p = v)
  /\ when (a_rigidity0 a) (fun v => py_get_rigidity0 p = v).

(** [P0] is the reference momentum meant by the arguments (1 GeV if nothing is given). *)
Definition ref_momentum (a : args) (P0 : R) : Prop :=
  let E0 := sqrt (P0 * P0 + a_mass0 a * a_mass0 a) in
  when (a_p0c a) (fun v => P0 = v)
  /\ when (a_energy0 a) (fun v => E0 = v)
  /\ when (a_gamma0 a) (fun v => E0 = v * a_mass0 a)
  /\ when (a_beta0 a) (fun v => P0 = v * E0)
  /\ when (a_kinetic_energy0 a) (fun v => E0 = v + a_mass0 a)
  /\ when (a_rigidity0 a) (fun v => P0 = v * Rabs (a_q0 a) * 299792458)
  /\ (a_p0c a = None -> a_energy0 a = None -> a_gamma0 a = None -> a_beta0 a = None ->
      a_kinetic_energy0 a = None -> a_rigidity0 a = None -> P0 = 1000000000).

(** The deviation given by the arguments is physical. *)
Definition good_deviation (a : args) (P0 : R) : Prop :=
  let E0 := sqrt (P0 * P0 + a_mass0 a * a_mass0 a) in
  when (a_delta a) (fun d => -1 < d)
  /\ when (a_ptau a) (fun t => a_mass0 a < E0 + t * P0)
  /\ when (a_pzeta a) (fun z => a_mass0 a < E0 + z * (P0 / E0) * P0).

(** Mass ratio of the particle given by the arguments. *)
Definition ratio (a : args) (r : R) : Prop :=
  match a_chi a, a_charge_ratio a, a_mass_ratio a with
  | None, None, None => r = 1
  | Some x, Some c, None => x <> 0 /\ c = r * x
  | Some x, None, Some m => x <> 0 /\ r = m
  | None, Some c, Some m => c <> 0 /\ r = m
  | Some x, Some c, Some m => x <> 0 /\ c = m * x /\ r = m
  | _, _, _ => False
  end.

(** Values within the tolerance of the consistency check. *)
Definition close (x y : R) : Prop := Rabs (x - y) <= / 100000000 + / 100000 * Rabs y.
