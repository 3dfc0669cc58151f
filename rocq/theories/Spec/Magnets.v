(** Where the maps of magnets are meaningful: conditions on the particle under which the square roots
    and quotients of a drift are defined and the particle is not turned back. *)
From Coq Require Import Reals ZArith List Bool.
From Verif.Model Require Import Maps Curved Magnet.
From Verif.Spec Require Import Frames.
Import ListNotations.
Local Open Scope R_scope.

(** Free motion along an arc of length [l] and curvature [h] *)
Definition arc_ok (h l : R) (p : part) : Prop :=
  h <> 0 /\ 0 < pz2 p /\ cos (h * l) <> 0 /\
  0 < cos (h * l) * sqrt (pz2 p) - sin (h * l) * p_px p.

(** Motion in a uniform field along an arc: [b] is the field strength seen by the particle, the
    momentum stays forward and turns by less than a right angle in the moving frame. *)
Definition bend_px (b h l : R) (p : part) : R :=
  p_px p * cos (h * l) + (sqrt (pz2 p) - b * (1 / h + p_x p)) * sin (h * l).
Definition bend_pz2 (b h l : R) (p : part) : R :=
  (1 + p_delta p) * (1 + p_delta p) - bend_px b h l p * bend_px b h l p - p_py p * p_py p.
Definition bend_ok (b h l : R) (p : part) : Prop :=
  h <> 0 /\ 0 < pz2 p /\ 0 < bend_pz2 b h l p /\
  0 < sqrt (pz2 p) * sqrt (bend_pz2 b h l p) + p_px p * bend_px b h l p.

(** The linear map of a bend with a quadrupole: the path length of a particle which the magnet bends
    without focusing is only right when the bending matches the curvature. *)
Definition combined_ok (k0 k1 h : R) (p : part) : Prop :=
  1 + p_delta p <> 0 /\
  (p_chi p * (k0 * h + k1) <> 0 \/ p_chi p * k0 = h * (1 + p_delta p)).

(** In a solenoid the particle carries the vector potential of the field at its position. *)
Definition solenoid_ok (ks x0 y0 l : R) (p : part) : Prop :=
  (Rabs (ks / 2) < / 1000000000 /\ p_ax p = 0 /\ p_ay p = 0) \/
  (/ 1000000000 <= Rabs (ks / 2) /\
   p_ax p = - (1 / 2) * ks * (p_y p - y0) /\ p_ay p = 1 / 2 * ks * (p_x p - x0)).

Fixpoint nested_ok (length k0 h : R) (coeffs : list (R * R)) (last : R) (p : part) : Prop :=
  match coeffs with
  | [] => arc_ok h (last * length) p
  | (d, k) :: t => arc_ok h (d * length) p /\
      nested_ok length k0 h t last
        (let q := polar_drift (d * length) h p in set_px (p_px q - k * k0 * p_chi q * length) q)
  end.

Definition drift_ok (d : driftpar) (l : R) (p : part) : Prop :=
  l <> 0 ->
  match dp_model d with
  | 2%Z => arc_ok (dp_h d) l p
  | 3%Z => combined_ok (dp_k0 d) (dp_k1 d) (dp_h d) p
  | 4%Z => (Rabs (dp_k0 d * p_chi p) < / 100000000 /\ arc_ok (dp_h d) l p) \/
           (/ 100000000 <= Rabs (dp_k0 d * p_chi p) /\ bend_ok (dp_k0 d * p_chi p) (dp_h d) l p)
  | 6%Z => solenoid_ok (dp_ks d) (dp_x0 d) (dp_y0 d) l p
  | 7%Z => nested_ok l (dp_k0 d) (dp_h d) nested4 nested4_last p
  | 8%Z => nested_ok l (dp_k0 d) (dp_h d) nested6 d0 p
  | _ => True
  end.

(** The particle passes through the whole body: every drift on the way is meaningful where it starts. *)
Definition watch_drift (d : driftpar) (l : R) (st : part * Prop) : part * Prop :=
  (magnet_drift d l (fst st), snd st /\ drift_ok d l (fst st)).
Definition watch_kick (k : kickpar) (w : R) (st : part * Prop) : part * Prop :=
  (magnet_kick k w (fst st), snd st).
Definition passes_body (d : driftpar) (k : kickpar) (only_drift : bool) (integrator n : Z) (len : R)
  (p : part) : Prop :=
  snd (body (watch_drift d) (watch_kick k) only_drift integrator n len (p, True)).

(** What a magnet does forwards, as parameters of a body *)
Definition fwd_drift (g : magnet) : driftpar :=
  let dm := drift_model_of (used_model g) (mg_h g) in
  match config dm (mg_k0 g) (mg_k1 g) (mg_h g) (mg_ks g) with
  | ((k0, k1, h, ks), _) => mkDp dm k0 k1 ks h (mg_x0 g) (mg_y0 g)
  end.
Definition fwd_kick (w : R) (g : magnet) : kickpar :=
  let dm := drift_model_of (used_model g) (mg_h g) in
  match config dm (mg_k0 g) (mg_k1 g) (mg_h g) (mg_ks g) with
  | (_, (k0, k1, h, k0h, k1h, rot)) =>
      mkKp (mg_length g * w) (mg_mult g) (mg_rel g) (mg_ref g) (1 * w)
        k0 k1 (mg_k2 g) (mg_k3 g) (mg_k0s g) (mg_k1s g) (mg_k2s g) (mg_k3s g) h (mg_hxl g) k0h k1h rot
  end.
Definition fwd_only_drift (w : R) (g : magnet) : bool :=
  Z.eqb (used_kicks g w (mg_length g * w)) 0
  && is0 (kp_k0 (fwd_kick w g)) && is0 (kp_k1 (fwd_kick w g)) && is0 (kp_h (fwd_kick w g)).
Definition passes (w : R) (g : magnet) (p : part) : Prop :=
  passes_body (fwd_drift g) (fwd_kick w g) (fwd_only_drift w g) (used_integrator g)
    (used_kicks g w (mg_length g * w)) (mg_length g * w) p.

(** The integrators which exist: teapot, yoshida4, uniform *)
Definition known (i : Z) : Prop := (i = 1 \/ i = 2 \/ i = 3)%Z.

(** The path length of drift model 7 is the nominal one up to the rounding of its coefficients *)
Definition stretch (m : Z) : R := if Z.eqb m 7 then 1 + 2 / 10 ^ 17 else 1.

(** A straight dipole corrector: strengths per length [k0], [k0s] and integrated strengths [kn], [ks] *)
Definition corrector (L k0 k0s kn ks : R) (n model integrator : Z) : magnet :=
  mkMag L (mkMult 0 1 [kn] [ks]) None 0 n model 6 integrator 3 0 0 k0 0 0 0 k0s 0 0 0 0 0 0.

(** A vector turned by an angle *)
Definition turned (psi : R) (a : R * R) : R * R :=
  (cos psi * fst a - sin psi * snd a, sin psi * fst a + cos psi * snd a).

(** A thin Multipole (multipole.h) of the given strengths *)
Definition thin_multipole (order : nat) (knl ksl : list R) : magnet :=
  mkMag 0 (mkMult order (/ INR (fact order)) knl ksl) None 0 1 (-1) 6 0 3 0 0 0 0 0 0 0 0 0 0 0 0 0.
