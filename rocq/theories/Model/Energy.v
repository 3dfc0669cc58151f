(** Energy variables of one particle: the C api used by the elements and the python
    setters of [xtrack/particles/particles.py].

    Floating point numbers are real numbers. Values equal to NaN are not modelled (the setters use
    them to mark the slots that are not assigned). Everything is written for one particle: the
    python functions act on every particle selected by the mask in the same way, and the
    constructor raises if the consistency check fails for one of the particles. *)
From Coq Require Import Reals List Bool.
Import ListNotations.
Local Open Scope R_scope.

(** particles.py:38-63 (the variables used here; [e_mass0], [e_q0] are common to all particles) *)
Record ep := mkEp {
  e_mass0 : R; e_q0 : R;
  e_p0c : R; e_gamma0 : R; e_beta0 : R;
  e_delta : R; e_ptau : R; e_rvv : R; e_rpp : R;
  e_chi : R; e_cr : R;
  e_x : R; e_px : R; e_y : R; e_py : R; e_zeta : R }.

(** * C api *)

Inductive var := Vp0c | Vgamma0 | Vbeta0 | Vdelta | Vptau | Vrvv | Vrpp
               | Vx | Vpx | Vy | Vpy | Vzeta.

Definition upd (v : var) (a : R) (p : ep) : ep :=
  let (m, q, p0c, g, b, d, t, rv, rp, chi, cr, x, px, y, py, z) := p in
  match v with
  | Vp0c    => mkEp m q a g b d t rv rp chi cr x px y py z
  | Vgamma0 => mkEp m q p0c a b d t rv rp chi cr x px y py z
  | Vbeta0  => mkEp m q p0c g a d t rv rp chi cr x px y py z
  | Vdelta  => mkEp m q p0c g b a t rv rp chi cr x px y py z
  | Vptau   => mkEp m q p0c g b d a rv rp chi cr x px y py z
  | Vrvv    => mkEp m q p0c g b d t a rp chi cr x px y py z
  | Vrpp    => mkEp m q p0c g b d t rv a chi cr x px y py z
  | Vx      => mkEp m q p0c g b d t rv rp chi cr a px y py z
  | Vpx     => mkEp m q p0c g b d t rv rp chi cr x a y py z
  | Vy      => mkEp m q p0c g b d t rv rp chi cr x px a py z
  | Vpy     => mkEp m q p0c g b d t rv rp chi cr x px y a z
  | Vzeta   => mkEp m q p0c g b d t rv rp chi cr x px y py a
  end.

Definition get (v : var) (p : ep) : R :=
  match v with
  | Vp0c => e_p0c p | Vgamma0 => e_gamma0 p | Vbeta0 => e_beta0 p
  | Vdelta => e_delta p | Vptau => e_ptau p | Vrvv => e_rvv p | Vrpp => e_rpp p
  | Vx => e_x p | Vpx => e_px p | Vy => e_y p | Vpy => e_py p | Vzeta => e_zeta p
  end.

(** The generated setters and scalers do nothing when the variable is frozen
    (particles.py:199-228; line.py:4415-4468). [fz v = true]: FREEZE_VAR_v is defined. *)
Section Frozen.
Variable fz : var -> bool.

Definition set (v : var) (a : R) (p : ep) : ep := if fz v then p else upd v a p.
Definition scale (v : var) (a : R) (p : ep) : ep := if fz v then p else upd v (get v p * a) p.

(** local_particle_custom_api.h:13-17 *)
Definition get_energy0 (p : ep) : R := sqrt (e_p0c p * e_p0c p + e_mass0 p * e_mass0 p).

(** local_particle_custom_api.h:20-32 *)
Definition update_ptau (t : R) (p : ep) : ep :=
  let beta0 := e_beta0 p in
  let irpp := sqrt (t * t + 2 * t / beta0 + 1) in
  let new_rpp := 1 / irpp in
  let new_rvv := irpp / (1 + beta0 * t) in
  set Vrpp new_rpp (set Vptau t (set Vrvv new_rvv (set Vdelta (irpp - 1) p))).

(** local_particle_custom_api.h:35-49 *)
Definition update_delta (d : R) (p : ep) : ep :=
  let beta0 := e_beta0 p in
  let delta_beta0 := d * beta0 in
  let ptau_beta0 := sqrt (delta_beta0 * delta_beta0 + 2 * delta_beta0 * beta0 + 1) - 1 in
  let one_plus_delta := 1 + d in
  let rvv := one_plus_delta / (1 + ptau_beta0) in
  let rpp := 1 / one_plus_delta in
  let ptau := ptau_beta0 / beta0 in
  set Vptau ptau (set Vrpp rpp (set Vrvv rvv (set Vdelta d p))).

(** local_particle_custom_api.h:52-57 *)
Definition get_pzeta (p : ep) : R := e_ptau p / e_beta0 p.

(** local_particle_custom_api.h:60-64 *)
Definition update_pzeta (z : R) (p : ep) : ep := update_ptau (e_beta0 p * z) p.

(** local_particle_custom_api.h:195-216 *)
Definition add_to_energy (dE : R) (pz_only : bool) (p : ep) : ep :=
  let mass_ratio := e_cr p / e_chi p in
  let ptau := e_ptau p + dE / e_p0c p / mass_ratio in
  let old_rpp := e_rpp p in
  let p1 := update_ptau ptau p in
  if pz_only then p1 else
  let f := old_rpp / e_rpp p1 in
  scale Vpy f (scale Vpx f p1).

(** local_particle_custom_api.h:219-246 *)
Definition update_p0c (new_p0c : R) (p : ep) : ep :=
  let mass0 := e_mass0 p in
  let old_p0c := e_p0c p in
  let old_delta := e_delta p in
  let old_beta0 := e_beta0 p in
  let ppc := old_p0c * old_delta + old_p0c in
  let new_delta := (ppc - new_p0c) / new_p0c in
  let new_energy0 := sqrt (new_p0c * new_p0c + mass0 * mass0) in
  let new_beta0 := new_p0c / new_energy0 in
  let new_gamma0 := new_energy0 / mass0 in
  let p1 := set Vbeta0 new_beta0 (set Vgamma0 new_gamma0 (set Vp0c new_p0c p)) in
  let p2 := update_delta new_delta p1 in
  let p3 := scale Vpy (old_p0c / new_p0c) (scale Vpx (old_p0c / new_p0c) p2) in
  scale Vzeta (new_beta0 / old_beta0) p3.

(** elements_src/referenceenergyincrease.h:13-27 *)
Definition reference_energy_increase (backtrack : bool) (dp0c : R) (p : ep) : ep :=
  let d := if backtrack then - dp0c else dp0c in
  update_p0c (e_p0c p + d) p.

(** elements_src/referenceenergychange.h:13-23 (the backtrack flag is not used) *)
Definition reference_energy_change (p0c : R) (p : ep) : ep := update_p0c p0c p.

(** elements_src/linesegmentmap.h:361-394 *)
Definition energy_and_reference_increments (dE dE0 : R) (p : ep) : ep :=
  let p := if Req_EM_T dE 0 then p else add_to_energy dE true p in
  if Req_EM_T dE0 0 then p else
  let old_px := e_px p in
  let old_py := e_py p in
  let new_energy0 := e_mass0 p * e_gamma0 p + dE0 in
  let new_p0c := sqrt (new_energy0 * new_energy0 - e_mass0 p * e_mass0 p) in
  let new_beta0 := new_p0c / new_energy0 in
  let new_gamma0 := new_energy0 / e_mass0 p in
  let geo := sqrt (e_beta0 p * e_gamma0 p / new_beta0 / new_gamma0) in
  let p := update_p0c new_p0c p in
  scale Vy geo (scale Vx geo (set Vpy (old_py * geo) (set Vpx (old_px * geo) p))).

(** * Angles. particles.py:243-378 (generated code) *)
(** small angle getters/setters (243-327) *)
Definition get_xp (p : ep) : R := e_px p * e_rpp p.
Definition get_yp (p : ep) : R := e_py p * e_rpp p.
Definition set_xp (xp : R) (p : ep) : ep := set Vpx (xp / e_rpp p) p.
Definition set_yp (yp : R) (p : ep) : ep := set Vpy (yp / e_rpp p) p.
Definition exact_rpp (p : ep) : R :=
  let one_plus_delta := 1 + e_delta p in
  1 / sqrt (one_plus_delta * one_plus_delta - e_px p * e_px p - e_py p * e_py p).
Definition get_exact_xp (p : ep) : R := e_px p * exact_rpp p.
Definition get_exact_yp (p : ep) : R := e_py p * exact_rpp p.
Definition set_exact_xp (xp : R) (p : ep) : ep :=
  let yp := get_exact_yp p in
  let rpp := e_rpp p * sqrt (1 + xp * xp + yp * yp) in
  set Vpx (xp / rpp) p.
Definition set_exact_yp (yp : R) (p : ep) : ep :=
  let xp := get_exact_xp p in
  let rpp := e_rpp p * sqrt (1 + xp * xp + yp * yp) in
  set Vpy (yp / rpp) p.
(** double setters, adders, scalers (343-377) *)
Definition set_xp_yp (xp yp : R) (p : ep) : ep :=
  let rpp := e_rpp p in set Vpy (yp / rpp) (set Vpx (xp / rpp) p).
Definition set_exact_xp_yp (xp yp : R) (p : ep) : ep :=
  let rpp := e_rpp p * sqrt (1 + xp * xp + yp * yp) in
  set Vpy (yp / rpp) (set Vpx (xp / rpp) p).
Definition add_to_exact_xp_yp (xp yp : R) (p : ep) : ep :=
  set_exact_xp_yp (get_exact_xp p + xp) (get_exact_yp p + yp) p.
Definition scale_exact_xp_yp (a b : R) (p : ep) : ep :=
  set_exact_xp_yp (get_exact_xp p * a) (get_exact_yp p * b) p.

End Frozen.

(** Nothing frozen; energy frozen (line.py:4415-4436, particles.py:42-47);
    longitudinal frozen (4446-4468). *)
Definition fz_none (v : var) : bool := false.
Definition fz_energy (v : var) : bool :=
  match v with Vptau | Vdelta | Vrpp | Vrvv => true | _ => false end.
Definition fz_longitudinal (v : var) : bool :=
  match v with Vptau | Vdelta | Vrpp | Vrvv | Vzeta => true | _ => false end.

(** * Python *)

(** particles.py:1846-1866 with the default tolerances *)
Definition rtol : R := / 100000.
Definition atol : R := / 100000000.
Definition allclose (a b : R) : bool :=
  if Rle_dec (Rabs (a - b)) (atol + rtol * Rabs b) then true else false.

(** particles.py:1868-1877: [None] when it raises *)
Definition assert_consistent (given : option R) (computed : R) : option unit :=
  match given with
  | None => Some tt
  | Some g => if allclose g computed then Some tt else None
  end.

(** particles.py:1879-1898 *)
Definition set_if_consistent (v : var) (given : option R) (computed : R) (p : ep) : option ep :=
  match assert_consistent given computed with
  | None => None
  | Some _ => Some (upd v (match given with Some g => g | None => computed end) p)
  end.

Definition bind {A B} (o : option A) (f : A -> option B) : option B :=
  match o with Some a => f a | None => None end.
Notation "'do' x <- a ; b" := (bind a (fun x => b)) (at level 200, x name, a at level 100, b at level 200).
Definition is_none {A} (o : option A) : bool := match o with None => true | Some _ => false end.

(** speed of light, scipy.constants *)
Definition clight : R := 299792458.

(** particles.py:1900-1954. Keyword arguments in the order of the signature.
    Result of the chain of [if]: (_p0c, _beta0, _gamma0). *)
Definition compute_refs (mass0 q0 : R)
    (p0c energy0 gamma0 beta0 kinetic_energy0 rigidity0 : option R) : option (R * R * R) :=
  match p0c with
  | Some p0c => let e := sqrt (p0c ^ 2 + mass0 ^ 2) in Some (p0c, p0c / e, e / mass0)
  | None =>
  match energy0 with
  | Some e => let p := sqrt (e ^ 2 - mass0 ^ 2) in Some (p, p / e, e / mass0)
  | None =>
  match gamma0 with
  | Some g => let b := sqrt (1 - 1 / g ^ 2) in let e := mass0 * g in Some (e * b, b, g)
  | None =>
  match beta0 with
  | Some b => let g := 1 / sqrt (1 - b ^ 2) in let e := mass0 * g in Some (e * b, b, g)
  | None =>
  match kinetic_energy0 with
  | Some k => let e := k + mass0 in
              let p := sqrt (e ^ 2 - mass0 ^ 2) in Some (p, p / e, e / mass0)
  | None =>
  match rigidity0 with
  | Some r => let p := r * Rabs q0 * clight in
              let e := sqrt (p ^ 2 + mass0 ^ 2) in Some (p, p / e, e / mass0)
  | None => None (* unreachable *)
  end end end end end end.

Definition update_refs (p0c energy0 gamma0 beta0 kinetic_energy0 rigidity0 : option R)
    (p : ep) : option ep :=
  let given_none := is_none p0c && is_none energy0 && is_none gamma0 && is_none beta0
                    && is_none kinetic_energy0 && is_none rigidity0 in
  let p := if given_none then upd Vp0c 1000000000 p else p in
  let p0c := if given_none then Some 1000000000 else p0c in
  do t <- compute_refs (e_mass0 p) (e_q0 p) p0c energy0 gamma0 beta0 kinetic_energy0 rigidity0;
  let '(_p0c, _beta0, _gamma0) := t in
  do u <- assert_consistent energy0 (e_mass0 p * _gamma0);
  do p <- set_if_consistent Vp0c p0c _p0c p;
  do p <- set_if_consistent Vgamma0 gamma0 _gamma0 p;
  set_if_consistent Vbeta0 beta0 _beta0 p.

(** particles.py:1956-2008 ([any(mass_ratio != 1)] restricted to this particle) *)
Definition update_energy_deviations (delta ptau pzeta rpp rvv : option R) (p : ep) : option ep :=
  let given_none := is_none delta && is_none ptau && is_none pzeta in
  if given_none && negb (is_none rpp && is_none rvv) then None else
  if given_none && (if Req_EM_T (e_cr p / e_chi p) 1 then false else true) then None else
  let p := if given_none then upd Vdelta 0 p else p in
  let delta := if given_none then Some 0 else delta in
  let beta0 := e_beta0 p in
  do t <- match delta with
          | Some d => let t := sqrt (d ^ 2 + 2 * d + 1 / beta0 ^ 2) - 1 / beta0 in
                      Some (d, t, t / beta0)
          | None => match ptau with
          | Some t => Some (sqrt (t ^ 2 + 2 * t / beta0 + 1) - 1, t, t / beta0)
          | None => match pzeta with
          | Some z => let t := z * beta0 in
                      Some (sqrt (t ^ 2 + 2 * t / beta0 + 1) - 1, t, z)
          | None => None (* unreachable *)
          end end end;
  let '(_delta, _ptau, _pzeta) := t in
  do u <- assert_consistent pzeta _pzeta;
  do p <- set_if_consistent Vdelta delta _delta p;
  do p <- set_if_consistent Vptau ptau _ptau p;
  let d := e_delta p in
  let delta_beta0 := d * beta0 in
  let ptau_beta0 := sqrt (delta_beta0 ^ 2 + 2 * delta_beta0 * beta0 + 1) - 1 in
  let new_rvv := (1 + d) / (1 + ptau_beta0) in
  let new_rpp := 1 / (1 + d) in
  do p <- set_if_consistent Vrpp rpp new_rpp p;
  set_if_consistent Vrvv rvv new_rvv p.

(** particles.py:2010-2030 *)
Definition update_zeta (zeta tau : option R) (p : ep) : option ep :=
  let given_none := is_none zeta && is_none tau in
  let p := if given_none then upd Vzeta 0 p else p in
  let zeta := if given_none then Some 0 else zeta in
  let beta0 := e_beta0 p in
  do t <- match zeta with
          | Some z => Some (z, z / beta0)
          | None => match tau with
          | Some t => Some (beta0 * t, t)
          | None => None (* unreachable *)
          end end;
  let '(_zeta, _tau) := t in
  do u <- assert_consistent tau _tau;
  set_if_consistent Vzeta zeta _zeta p.

(** particles.py:2032-2069. Result: (chi, charge_ratio). *)
Definition update_chi_charge_ratio (chi charge_ratio mass_ratio : option R) : option (R * R) :=
  match chi, charge_ratio, mass_ratio with
  | None, None, None => Some (1, 1)
  | None, Some c, Some m => Some (c / m, c)
  | Some x, None, Some m => Some (x, x * m)
  | Some x, Some c, None => Some (x, c)
  (* num_args == 3: the given values are compared with themselves *)
  | Some x, Some c, Some m => Some (x, c)
  | _, _, _ => None
  end.

(** Arguments of [xt.Particles(...)] related to the energy, for one particle. *)
Record args := mkArgs {
  a_mass0 : R; a_q0 : R; a_x : R; a_px : R; a_y : R; a_py : R;
  a_chi : option R; a_charge_ratio : option R; a_mass_ratio : option R;
  a_p0c : option R; a_energy0 : option R; a_gamma0 : option R; a_beta0 : option R;
  a_kinetic_energy0 : option R; a_rigidity0 : option R;
  a_delta : option R; a_ptau : option R; a_pzeta : option R; a_rpp : option R; a_rvv : option R;
  a_zeta : option R; a_tau : option R }.

Definition INVALID : R := -999999999.

(** particles.py:688-726 (constructor, from [init_independent_per_part_vars] on) *)
Definition construct (a : args) : option ep :=
  let I := INVALID in
  do cc <- update_chi_charge_ratio (a_chi a) (a_charge_ratio a) (a_mass_ratio a);
  let p := mkEp (a_mass0 a) (a_q0 a) I I I I I I I (fst cc) (snd cc)
                (a_x a) (a_px a) (a_y a) (a_py a) I in
  do p <- update_refs (a_p0c a) (a_energy0 a) (a_gamma0 a) (a_beta0 a)
                      (a_kinetic_energy0 a) (a_rigidity0 a) p;
  do p <- update_energy_deviations (a_delta a) (a_ptau a) (a_pzeta a) (a_rpp a) (a_rvv a) p;
  update_zeta (a_zeta a) (a_tau a) p.

(** Setters, for a slot which is assigned and whose particle is alive. *)
(** particles.py:1450-1482 *)
Definition py_set_delta (d : R) : ep -> option ep :=
  update_energy_deviations (Some d) None None None None.
(** particles.py:1484-1519 *)
Definition py_set_ptau (t : R) : ep -> option ep :=
  update_energy_deviations None (Some t) None None None.
(** particles.py:1521-1556 *)
Definition py_set_p0c (v : R) : ep -> option ep :=
  update_refs (Some v) None None None None None.
(** particles.py:1558-1576 *)
Definition py_set_rigidity0 (v : R) (p : ep) : option ep := py_set_p0c (v * clight * e_q0 p) p.
Definition py_get_rigidity0 (p : ep) : R := e_p0c p / clight / e_q0 p.
(** particles.py:1578-1609 *)
Definition py_set_gamma0 (v : R) : ep -> option ep :=
  update_refs None None (Some v) None None None.
(** particles.py:1611-1642 *)
Definition py_set_beta0 (v : R) : ep -> option ep :=
  update_refs None None None (Some v) None None.
(** particles.py:1656-1677 *)
Definition py_set_energy0 (v : R) (p : ep) : option ep := py_set_gamma0 (v / e_mass0 p) p.
Definition py_get_energy0 (p : ep) : R := sqrt (e_p0c p * e_p0c p + e_mass0 p * e_mass0 p).
(** particles.py:1680-1700 *)
Definition py_set_kinetic_energy0 (v : R) (p : ep) : option ep :=
  py_set_gamma0 (v / e_mass0 p + 1) p.
Definition py_get_kinetic_energy0 (p : ep) : R := py_get_energy0 p - e_mass0 p.
(** particles.py:1702-1739 *)
Definition py_get_mass_ratio (p : ep) : R := e_cr p / e_chi p.
Definition py_get_energy (p : ep) : R :=
  (py_get_energy0 p + e_ptau p * e_p0c p) * py_get_mass_ratio p.
Definition py_get_mass (p : ep) : R := py_get_mass_ratio p * e_mass0 p.
Definition py_get_charge (p : ep) : R := e_cr p * e_q0 p.
Definition py_get_pzeta (p : ep) : R := e_ptau p / e_beta0 p.
(** particles.py:1791-1796 *)
Definition py_add_to_energy (dE : R) (p : ep) : option ep :=
  py_set_ptau (e_ptau p + dE / e_p0c p / py_get_mass_ratio p) p.

(** particles.py:2071-2102 *)
Definition py_update_p0c_and_energy_deviations (p0c : R) (update_pxpy : bool) (p : ep) : option ep :=
  let old_p0c := e_p0c p in
  let old_beta0 := e_beta0 p in
  let old_delta := e_delta p in
  let PC := (old_delta + 1) * old_p0c in
  let new_delta := PC / p0c - 1 in
  let new_p0c := p0c + 0 * old_p0c in
  do p <- update_refs (Some new_p0c) None None None None None p;
  do p <- update_energy_deviations (Some new_delta) None None None None p;
  do p <- update_zeta (Some (e_zeta p * e_beta0 p / old_beta0)) None p;
  if update_pxpy then
    let f := old_p0c / new_p0c in
    Some (upd Vpy (e_py p * f) (upd Vpx (e_px p * f) p))
  else Some p.

(** Operations on one particle *)
Inductive op :=
| Odelta (d : R) | Optau (t : R) | Opzeta (z : R) | Oadd (dE : R) (pz_only : bool) | Op0c (v : R)
| Oincr (backtrack : bool) (dp0c : R) | Oincrements (dE dE0 : R)
| OPdelta (d : R) | OPptau (t : R) | OPadd (dE : R) | OPp0c (v : R) (update_pxpy : bool).

Definition run1 (fz : var -> bool) (o : op) (p : ep) : option ep :=
  match o with
  | Odelta d => Some (update_delta fz d p)
  | Optau t => Some (update_ptau fz t p)
  | Opzeta z => Some (update_pzeta fz z p)
  | Oadd dE b => Some (add_to_energy fz dE b p)
  | Op0c v => Some (update_p0c fz v p)
  | Oincr b d => Some (reference_energy_increase fz b d p)
  | Oincrements dE dE0 => Some (energy_and_reference_increments fz dE dE0 p)
  | OPdelta d => py_set_delta d p
  | OPptau t => py_set_ptau t p
  | OPadd dE => py_add_to_energy dE p
  | OPp0c v b => py_update_p0c_and_energy_deviations v b p
  end.
