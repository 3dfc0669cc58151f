(** What is expected of time dependent kicks. *)
From Coq Require Import Reals List ZArith.
From Verif.Model Require Import Excite.
Import ListNotations.
Local Open Scope R_scope.

(** (x + i y)^n *)
Fixpoint cpow (x y : R) (n : nat) : R * R :=
  match n with O => (1, 0) | S n => let (a, b) := cpow x y n in (a * x - b * y, b * x + a * y) end.
(** Sum over n of (knl_n + i ksl_n) (x + i y)^n / n!, from order [n] *)
Fixpoint field (x y : R) (n : nat) (l : list (R * R)) : R * R :=
  match l with
  | [] => (0, 0)
  | (kn, ks) :: l =>
    let (a, b) := cpow x y n in let (f, g) := field x y (S n) l in
    ((kn * a - ks * b) / INR (fact n) + f, (kn * b + ks * a) / INR (fact n) + g)
  end.
(** The particle after the kick of the multipole scaled by [s]: px falls by the real part, py grows by the imaginary one. *)
Definition kicked (e : exciter) (s : R) (p p' : part) : Prop :=
  p_px p' = p_px p - p_chi p * s * fst (field (p_x p) (p_y p) 0 (x_knl e)) /\
  p_py p' = p_py p + p_chi p * s * snd (field (p_x p) (p_y p) 0 (x_knl e)) /\
  p_x p' = p_x p /\ p_y p' = p_y p /\ p_zeta p' = p_zeta p /\ p_turn p' = p_turn p.
(** Time since the reference particle passed in the turn of the start, in samples: the particle passes in turn number at_turn,
    behind the reference particle by - zeta / (beta0 c). *)
Definition samples_since_start (c : R) (e : exciter) (p : part) : R :=
  (IZR (p_turn p) - IZR (x_start e)) / x_frev e * x_fs e - p_zeta p / (p_beta0 p * c) * x_fs e.

(** The envelope of an AC dipole: 0 until r1, 1 between r2 and r3, 0 from r4, lines in between *)
Definition envelope (r1 r2 r3 r4 t : Z) (v : R) : Prop :=
  ((t <= r1)%Z -> v = 0) /\ ((r1 <= t <= r2)%Z -> v * IZR (r2 - r1) = IZR (t - r1)) /\ ((r2 <= t <= r3)%Z -> v = 1) /\
  ((r3 <= t <= r4)%Z -> v * IZR (r4 - r3) = IZR (r4 - t)) /\ ((r4 <= t)%Z -> v = 0) /\ 0 <= v <= 1.

(** The polynomial with the given coefficients, that of the highest power first *)
Definition horner (l : list R) (r : R) : R := fold_left (fun v k => v * r + k) l 0.
