(** What a linear map of a segment is expected to do. *)
From Coq Require Import Reals List Arith.
From Verif.Model Require Import LineSegment.
Import ListNotations.
Local Open Scope R_scope.

Definition positive (o : optics) : Prop := 0 < o_betx o /\ 0 < o_bety o.

(** Courant-Snyder coordinates of a particle at a place, from its distance to the orbit and the dispersion *)
Definition normal (bet alf x px : R) : R * R := (x / sqrt bet, (alf * x + bet * px) / sqrt bet).
Definition normal_x (o : optics) (d : R) (p : particle) : R * R :=
  normal (o_betx o) (o_alfx o) (x p - o_x o - o_dx o * d) (px p - o_px o - o_dpx o * d).
Definition normal_y (o : optics) (d : R) (p : particle) : R * R :=
  normal (o_bety o) (o_alfy o) (y p - o_y o - o_dy o * d) (py p - o_py o - o_dpy o * d).
Definition turn (phase : R) (q : R * R) : R * R :=
  (cos phase * fst q + sin phase * snd q, cos phase * snd q - sin phase * fst q).
Definition half_square (q : R * R) : R := (fst q * fst q + snd q * snd q) / 2.

(** The tune at a momentum deviation: the sum of derivative over factorial times power *)
Fixpoint taylor (i : nat) (l : list R) (d : R) : R :=
  match l with [] => 0 | a :: r => a / INR (fact i) * d ^ i + taylor (S i) r d end.

(** The derivatives the user gave, as a list *)
Definition given (dnq : option (list R)) (q dq ddq : R) : list R :=
  match dnq with Some l => l | None => [q; dq; ddq] end.

(** The same for the values stored in the element *)
Fixpoint poly (i : nat) (l : list R) (d : R) : R :=
  match l with [] => 0 | a :: r => a * d ^ i + poly (S i) r d end.
Definition angle_x (g : segment) (Jx Jy d : R) : R :=
  2 * PI * (g_qx g + g_det_xx g * Jx + g_det_xy g * Jy + poly 1 (tl (g_coeffs_dqx g)) d).
Definition angle_y (g : segment) (Jx Jy d : R) : R :=
  2 * PI * (g_qy g + g_det_yx g * Jx + g_det_yy g * Jy + poly 1 (tl (g_coeffs_dqy g)) d).

(** Segments without chromaticity, or with a tune or a detuning that is not zero *)
Definition achromatic (g : segment) : Prop :=
  Forall (fun a => a = 0) (tl (g_coeffs_dqx g)) /\ Forall (fun a => a = 0) (tl (g_coeffs_dqy g)).
Definition detuned (g : segment) : Prop :=
  hd 0 (g_coeffs_dqx g) <> 0 \/ hd 0 (g_coeffs_dqy g) <> 0 \/
  g_det_xx g <> 0 \/ g_det_xy g <> 0 \/ g_det_yx g <> 0 \/ g_det_yy g <> 0.
Definition regular (g : segment) : Prop := detuned g \/ achromatic g.

(** The segment that stands for one followed by another *)
Fixpoint add_lists (l m : list R) : list R :=
  match l, m with
  | [], _ => m
  | _, [] => l
  | a :: l', b :: m' => a + b :: add_lists l' m'
  end.
Definition joined_mode (a b : mode) : mode :=
  match a, b with
  | fixed_qs qs bets len, fixed_qs qs' _ _ => fixed_qs (qs + qs') bets len
  | _, _ => frozen
  end.
Definition joined (a b : segment) : segment :=
  mkSegment (g_length a + g_length b) (g_qx a + g_qx b) (g_qy a + g_qy b)
    (add_lists (g_coeffs_dqx a) (g_coeffs_dqx b)) (add_lists (g_coeffs_dqy a) (g_coeffs_dqy b))
    (g_det_xx a + g_det_xx b) (g_det_xy a + g_det_xy b) (g_det_yx a + g_det_yx b) (g_det_yy a + g_det_yy b)
    (g_start a) (g_end b) (joined_mode (g_mode a) (g_mode b)).
(** No longitudinal motion, or the same linear motion without buckets and no chromaticity *)
Definition joinable (a b : segment) : Prop :=
  (g_mode a = frozen /\ g_mode b = frozen) \/
  exists qs qs' bets len, g_mode a = fixed_qs qs bets len /\ g_mode b = fixed_qs qs' bets len /\
    bets <> 0 /\ len <= 0 /\ achromatic a /\ achromatic b.

(** The segment that stands for a number of turns *)
Definition times_mode (n : nat) (m : mode) : mode :=
  match m with frozen => frozen | fixed_qs qs bets len => fixed_qs (INR n * qs) bets len end.
Definition times (n : nat) (g : segment) : segment :=
  let k := INR n in
  mkSegment (k * g_length g) (k * g_qx g) (k * g_qy g) (map (Rmult k) (g_coeffs_dqx g)) (map (Rmult k) (g_coeffs_dqy g))
    (k * g_det_xx g) (k * g_det_xy g) (k * g_det_yx g) (k * g_det_yy g) (g_start g) (g_end g) (times_mode n (g_mode g)).

(** Coordinates relative to the orbit and the dispersion, and the area two of them span *)
Definition offset_x (o : optics) (d : R) (p : particle) : R * R := (x p - o_x o - o_dx o * d, px p - o_px o - o_dpx o * d).
Definition offset_y (o : optics) (d : R) (p : particle) : R * R := (y p - o_y o - o_dy o * d, py p - o_py o - o_dpy o * d).
Definition wedge (a b : R * R) : R := fst a * snd b - snd a * fst b.
(** The element always stores the tune as first coefficient *)
Definition filled (g : segment) : Prop := g_coeffs_dqx g <> [] /\ g_coeffs_dqy g <> [].
