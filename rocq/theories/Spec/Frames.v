(** Particles as straight rays, seen from different reference frames. *)
From Coq Require Import Reals.
From Verif.Model Require Import Maps.
Local Open Scope R_scope.

Record vec := V3 { v_x : R; v_y : R; v_z : R }.
(** a matrix is given by its rows *)
Record mat := M3 { m_x : vec; m_y : vec; m_z : vec }.

Definition dot (a b : vec) : R := v_x a * v_x b + v_y a * v_y b + v_z a * v_z b.
Definition vadd (a b : vec) : vec := V3 (v_x a + v_x b) (v_y a + v_y b) (v_z a + v_z b).
Definition vsub (a b : vec) : vec := V3 (v_x a - v_x b) (v_y a - v_y b) (v_z a - v_z b).
Definition vscale (k : R) (a : vec) : vec := V3 (k * v_x a) (k * v_y a) (k * v_z a).
Definition app (M : mat) (a : vec) : vec := V3 (dot (m_x M) a) (dot (m_y M) a) (dot (m_z M) a).
Definition transp (M : mat) : mat :=
  M3 (V3 (v_x (m_x M)) (v_x (m_y M)) (v_x (m_z M)))
     (V3 (v_y (m_x M)) (v_y (m_y M)) (v_y (m_z M)))
     (V3 (v_z (m_x M)) (v_z (m_y M)) (v_z (m_z M))).
(** matrix product: [app (mmul A B) v = app A (app B v)] *)
Definition mmul (A B : mat) : mat :=
  let B' := transp B in
  M3 (app B' (m_x A)) (app B' (m_y A)) (app B' (m_z A)).
Definition ident : mat := M3 (V3 1 0 0) (V3 0 1 0) (V3 0 0 1).

(** The longitudinal momentum and the momentum vector of a particle, in units of the
    reference momentum. *)
Definition pz2 (p : part) : R :=
  (1 + p_delta p) * (1 + p_delta p) - p_px p * p_px p - p_py p * p_py p.
Definition momentum (p : part) : vec := V3 (p_px p) (p_py p) (sqrt (pz2 p)).
Definition position (p : part) : vec := V3 (p_x p) (p_y p) 0.
Definition spin (p : part) : vec := V3 (p_spin_x p) (p_spin_y p) (p_spin_z p).

(** The energy variables belong to one particle (see [Spec.Energy]: this holds for the variables
    maintained by [xt.Particles]). *)
Definition kinematic (p : part) : Prop :=
  0 < p_beta0 p /\ 0 < 1 + p_delta p
  /\ (1 + p_delta p) * (1 + p_delta p) = 1 + 2 * p_ptau p / p_beta0 p + p_ptau p * p_ptau p
  /\ 0 < 1 + p_beta0 p * p_ptau p
  /\ p_rvv p = (1 + p_delta p) / (1 + p_beta0 p * p_ptau p)
  /\ p_rpp p = 1 / (1 + p_delta p).

(** The transverse momenta are smaller than the total momentum. *)
Definition physical (p : part) : Prop := kinematic p /\ 0 < pz2 p.

(** Everything but the position, momentum, arrival time and spin is the same. *)
Definition same_rest (p q : part) : Prop :=
  p_s q = p_s p /\ p_delta q = p_delta p /\ p_ptau q = p_ptau p /\ p_rpp q = p_rpp p
  /\ p_rvv q = p_rvv p /\ p_chi q = p_chi p /\ p_beta0 q = p_beta0 p
  /\ p_ax q = p_ax p /\ p_ay q = p_ay p.

(** [sees sp M e p q]: the particle [p], moving freely, crosses the plane [z = 0] of another
    reference frame as [q]. A point [r] has the coordinates [M r - e] in that frame. The particle
    moves by [lam] times its momentum; [zeta] changes by [- beta0 c] times the time this takes
    (the path has the length [lam (1 + delta)], and [rvv] is the velocity in units of the
    reference velocity). [sp]: the spin turns too. *)
Definition sees (sp : bool) (M : mat) (e : vec) (p q : part) : Prop :=
  exists lam,
    momentum q = app M (momentum p)
    /\ position q = vadd (vsub (app M (position p)) e) (vscale lam (app M (momentum p)))
    /\ p_zeta q = p_zeta p - lam * (1 + p_delta p) / p_rvv p
    /\ spin q = (if sp then app M (spin p) else spin p)
    /\ same_rest p q.

(** Rotations of the frame about the three axes, by an angle with the given sine and cosine. *)
Definition Rot_x (s c : R) : mat := M3 (V3 1 0 0) (V3 0 c s) (V3 0 (- s) c).
Definition Rot_y (s c : R) : mat := M3 (V3 c 0 (- s)) (V3 0 1 0) (V3 s 0 c).
Definition Rot_s (s c : R) : mat := M3 (V3 c s 0) (V3 (- s) c 0) (V3 0 0 1).

(** The particle moves forward in the frame turned by [M]. *)
Definition forward (M : mat) (p : part) : Prop := 0 < v_z (app M (momentum p)).

(** A sequence of rotations about the axes (rotation.py:47-49). *)
Definition turn (rx ry rs : R) (a : axis) : mat :=
  match a with
  | Ax => Rot_x (sin rx) (cos rx)
  | Ay => Rot_y (sin ry) (cos ry)
  | As => Rot_s (sin rs) (cos rs)
  end.
Fixpoint turns (rx ry rs : R) (l : list axis) : mat :=
  match l with
  | nil => ident
  | cons a l => mmul (turns rx ry rs l) (turn rx ry rs a)
  end.
(** The particle moves forward in each of the frames met on the way. *)
Fixpoint forward_all (rx ry rs : R) (l : list axis) (M : mat) (p : part) : Prop :=
  match l with
  | nil => True
  | cons a l => forward (mmul (turn rx ry rs a) M) p
                /\ forward_all rx ry rs l (mmul (turn rx ry rs a) M) p
  end.

(** The frame of an element turned by [theta] about y, [phi] about x (with the opposite sign, as in
    the survey) and [psi] about s. *)
Definition attitude (theta phi psi psi_f : R) : mat :=
  mmul (Rot_s (sin psi_f) (cos psi_f)) (mmul (Rot_s (sin psi) (cos psi))
    (mmul (Rot_x (- sin phi) (cos phi)) (Rot_y (sin theta) (cos theta)))).
(** The angles are not right angles and the particle moves forward in the frames turned by [theta],
    and by [theta] and [phi]. *)
Definition can_enter (theta phi : R) (p : part) : Prop :=
  cos theta <> 0 /\ cos phi <> 0
  /\ forward (Rot_y (sin theta) (cos theta)) p
  /\ forward (mmul (Rot_x (- sin phi) (cos phi)) (Rot_y (sin theta) (cos theta))) p.
(** The same for a particle given in the frame of the element. *)
Definition can_leave (theta phi psi psi_f : R) (p : part) : Prop :=
  cos theta <> 0 /\ cos phi <> 0
  /\ forward (mmul (Rot_x (sin phi) (cos phi))
      (mmul (Rot_s (- sin psi) (cos psi)) (Rot_s (- sin psi_f) (cos psi_f)))) p
  /\ forward (transp (attitude theta phi psi psi_f)) p.
