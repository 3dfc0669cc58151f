(** Symplectic maps of particles.

    A displacement of a particle is the velocity with which a family of particles goes through it. The
    canonical pairs are (x, px), (y, py) and (zeta, pzeta) with pzeta = ptau / beta0. *)
From Coq Require Import Reals ZArith List.
From Verif.Model Require Import Maps Curved Magnet Rf.
From Verif.Spec Require Import Frames Magnets Rf.
Import ListNotations.
Local Open Scope R_scope.

Record vel := mkVel { v_x : R; v_px : R; v_y : R; v_py : R; v_zeta : R; v_ptau : R }.

Definition form (beta0 : R) (u v : vel) : R :=
  (v_x u * v_px v - v_px u * v_x v) + (v_y u * v_py v - v_py u * v_y v)
  + (v_zeta u * (v_ptau v / beta0) - v_ptau u / beta0 * v_zeta v).

(** Particles [c t] with consistent energy variables and one reference, going through [p] at [t = 0] *)
Definition family (c : R -> part) (p : part) : Prop :=
  c 0 = p /\ exists d, 0 < d /\ forall t, Rabs t < d ->
    kinematic (c t) /\ p_beta0 (c t) = p_beta0 p /\ p_chi (c t) = p_chi p.
Definition moves (c : R -> part) (u : vel) : Prop :=
  derivable_pt_lim (fun t => p_x (c t)) 0 (v_x u) /\ derivable_pt_lim (fun t => p_px (c t)) 0 (v_px u) /\
  derivable_pt_lim (fun t => p_y (c t)) 0 (v_y u) /\ derivable_pt_lim (fun t => p_py (c t)) 0 (v_py u) /\
  derivable_pt_lim (fun t => p_zeta (c t)) 0 (v_zeta u) /\
  derivable_pt_lim (fun t => p_ptau (c t)) 0 (v_ptau u).

(** [f] is differentiable at [p] and its derivative [J] leaves the form as it is. (A map which leaves the
    form as it is is linear.) *)
Definition symplectic (f : part -> part) (p : part) : Prop :=
  p_beta0 (f p) = p_beta0 p /\
  exists J : vel -> vel,
    (forall c u, family c p -> moves c u ->
       family (fun t => f (c t)) (f p) /\ moves (fun t => f (c t)) (J u)) /\
    (forall u v, form (p_beta0 p) (J u) (J v) = form (p_beta0 p) u v).

(** The maps of a line, one after the other, and a condition which each of them has on the particle *)
Fixpoint through (l : list ((part -> part) * (part -> Prop))) (p : part) : part :=
  match l with [] => p | (f, _) :: r => through r (f p) end.
Fixpoint fits (l : list ((part -> part) * (part -> Prop))) (p : part) : Prop :=
  match l with [] => True | (f, ok) :: r => ok p /\ fits r (f p) end.

(** Another particle with the reference and time of [a] *)
Definition beside (a : rp) (p : part) : rp :=
  mkRp p (r_p0c a) (r_q0 a) (r_cr a) (r_tsim a) (r_turn a) (r_line a).

(** The longitudinal momentum in a solenoid (squared), where the transverse momenta are not the canonical
    ones *)
Definition sol_pz2 (ks x0 y0 : R) (p : part) : R :=
  let sk := ks / 2 in
  let pk1 := p_px p + sk * (p_y p - y0) in let pk2 := p_py p - sk * (p_x p - x0) in
  (1 + p_delta p) * (1 + p_delta p) - (pk1 * pk1 + pk2 * pk2).

(** The particle goes forward through a drift of a magnet: the square roots and quotients are defined. *)
Definition can_drift (d : driftpar) (l : R) (p : part) : Prop :=
  l <> 0 ->
  match dp_model d with
  | 1%Z => 0 < pz2 p
  | 2%Z => arc_ok (dp_h d) l p
  | 3%Z => combined_ok (dp_k0 d) (dp_k1 d) (dp_h d) p
  | 4%Z => (Rabs (dp_k0 d * p_chi p) < / 100000000 /\ arc_ok (dp_h d) l p) \/
           (/ 100000000 <= Rabs (dp_k0 d * p_chi p) /\ bend_ok (dp_k0 d * p_chi p) (dp_h d) l p)
  | 5%Z => 0 < pz2 p /\ 0 < (1 + p_delta p) * (1 + p_delta p)
             - (p_px p - dp_k0 d * p_chi p * l) * (p_px p - dp_k0 d * p_chi p * l) - p_py p * p_py p
  | 6%Z => (Rabs (dp_ks d / 2) < / 1000000000 /\ 0 < pz2 p) \/
           (/ 1000000000 <= Rabs (dp_ks d / 2) /\ 0 < sol_pz2 (dp_ks d) (dp_x0 d) (dp_y0 d) p)
  | 7%Z => nested_ok l (dp_k0 d) (dp_h d) nested4 nested4_last p
  | 8%Z => nested_ok l (dp_k0 d) (dp_h d) nested6 d0 p
  | _ => True
  end.
Definition see_drift (d : driftpar) (l : R) (st : part * Prop) : part * Prop :=
  (magnet_drift d l (fst st), snd st /\ can_drift d l (fst st)).
(** The kicks of a magnet tracked backwards *)
Definition turned (k : kickpar) : kickpar :=
  mkKp (- kp_length k) (kp_mult k) (kp_rel k) (kp_ref k) (- kp_factor k) (kp_k0 k) (kp_k1 k) (kp_k2 k) (kp_k3 k)
    (kp_k0s k) (kp_k1s k) (kp_k2s k) (kp_k3s k) (kp_h k) (- kp_hxl k) (kp_k0h k) (kp_k1h k) (kp_rot k).
Definition goes_through (back : bool) (w : R) (g : magnet) (p : part) : Prop :=
  snd (body (see_drift (fwd_drift g)) (watch_kick (if back then turned (fwd_kick w g) else fwd_kick w g))
         (fwd_only_drift w g) (used_integrator g) (used_kicks g w (mg_length g * w))
         (if back then - (mg_length g * w) else mg_length g * w) (p, True)).

(** The same for an RF element *)
Definition see_rf_drift (dm : Z) (l : R) (st : rp * Prop) : rp * Prop :=
  (rf_drift dm l (fst st),
   snd st /\ can_drift (mkDp dm 0 0 0 0 0 0) l (r_part (fst st))).
Definition goes_through_rf (o : rfopt) (back : bool) (w : R) (e : rfel) (a : rp) : Prop :=
  snd (body (see_rf_drift (drift_model_of (rf_used_model e) 0))
         (watch_rf_kick (o_preserve o) (if back then weighted (- (1)) (fwd_rf o w e) else fwd_rf o w e))
         false (rf_used_integrator e) (rf_used_kicks e w)
         (if back then - (rf_length e * w) else rf_length e * w) (a, True)).
