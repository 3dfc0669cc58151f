(** What is expected of the precession of the spin. *)
From Coq Require Import Reals.
From Verif.Model Require Import Maps Spin.
Local Open Scope R_scope.

Definition dot (a b : v3) : R := let '(a1, a2, a3) := a in let '(b1, b2, b3) := b in a1 * b1 + a2 * b2 + a3 * b3.
Definition cross (a b : v3) : v3 :=
  let '(a1, a2, a3) := a in let '(b1, b2, b3) := b in (a2 * b3 - a3 * b2, a3 * b1 - a1 * b3, a1 * b2 - a2 * b1).
Definition scale (k : R) (a : v3) : v3 := let '(a1, a2, a3) := a in (k * a1, k * a2, k * a3).
Definition plus (a b : v3) : v3 := let '(a1, a2, a3) := a in let '(b1, b2, b3) := b in (a1 + b1, a2 + b2, a3 + b3).
Definition norm (a : v3) : R := sqrt (dot a a).
Definition px_ (a : v3) : R := fst (fst a).
Definition py_ (a : v3) : R := snd (fst a).
Definition pz_ (a : v3) : R := snd a.
(** [f] has the derivative [d] at [l]. *)
Definition derivative (f : R -> v3) (l : R) (d : v3) : Prop :=
  derivable_pt_lim (fun l => px_ (f l)) l (px_ d) /\ derivable_pt_lim (fun l => py_ (f l)) l (py_ d) /\
  derivable_pt_lim (fun l => pz_ (f l)) l (pz_ d).
(** Direction of the kinetic momentum *)
Definition motion (p : part) : v3 :=
  let kx := p_px p - p_ax p in let ky := p_py p - p_ay p in let d := 1 + p_delta p in
  (kx / d, ky / d, sqrt (d * d - kx * kx - ky * ky) / d).
(** The equation of Thomas, Bargmann, Michel and Telegdi: ds/dl = Omega x s *)
Definition bmt (G gamma brho : R) (u B : v3) : v3 :=
  let par := scale (dot B u) u in let perp := plus B (scale (- 1) par) in
  scale (- / brho) (plus (scale (1 + G * gamma) perp) (scale (1 + G) par)).
(** Rotation by [a] around the vertical *)
Definition turn (a : R) (s : v3) : v3 := let '(x, y, z) := s in (x * cos a + z * sin a, y, z * cos a - x * sin a).
(** A particle on the reference orbit, with any momentum *)
Definition on_orbit (p : part) : Prop :=
  p_x p = 0 /\ p_px p = 0 /\ p_y p = 0 /\ p_py p = 0 /\ p_ax p = 0 /\ p_ay p = 0 /\ 0 < 1 + p_delta p.
(** The slope dx/ds of a particle of kinetic momenta kx, ky *)
Definition slope (kx ky delta : R) : R := kx / sqrt ((1 + delta) * (1 + delta) - kx * kx - ky * ky).
(** Curvature of a curve of slope [u] with derivative [v] of the slope *)
Definition curvature (u v : R) : R := v / ((u * u + 1) * sqrt (u * u + 1)).
(** Energies: mass0 gamma0 is the reference energy, ptau the deviation in units of p0c; the momentum is p0c (1 + delta) and the
    velocity is momentum over energy. *)
Definition consistent (b : beam) (p0c : R) (p : part) : Prop :=
  let E := b_mass0 b * b_gamma0 b + p_ptau p * p0c in
  b_mass0 b <> 0 /\ b_q0 b <> 0 /\ b_qelem b <> 0 /\ b_clight b <> 0 /\
  p0c = b_mass0 b * b_gamma0 b * p_beta0 p /\ p_beta0 p * p_rvv p * E = p0c * (1 + p_delta p).
