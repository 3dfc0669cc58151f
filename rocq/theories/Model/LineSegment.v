(** Linear maps between two places of a ring: xtrack/beam_elements/line_segment_map.py and elements_src/linesegmentmap.h *)
From Coq Require Import Reals List Bool Arith ZArith.
Import ListNotations.
Local Open Scope list_scope.
Local Open Scope R_scope.

(** What the arrays of two values hold for one of the two ends: twiss functions, dispersion, reference orbit
    (line_segment_map.py lines 30-43) *)
Record optics := mkOptics {
  o_betx : R; o_alfx : R; o_bety : R; o_alfy : R;
  o_dx : R; o_dpx : R; o_dy : R; o_dpy : R;
  o_x : R; o_px : R; o_y : R; o_py : R }.
(** longitudinal_mode_flag 0 and 1 *)
Inductive mode := frozen | fixed_qs (qs bets bucket_length : R).
Record segment := mkSegment {
  g_length : R; g_qx : R; g_qy : R; g_coeffs_dqx : list R; g_coeffs_dqy : list R;
  g_det_xx : R; g_det_xy : R; g_det_yx : R; g_det_yy : R;
  g_start : optics; g_end : optics; g_mode : mode }.

Record particle := mkParticle { x : R; px : R; y : R; py : R; zeta : R; pzeta : R; s : R }.

(** LineSegmentMap.__init__ (lines 263-285): tunes and coefficients for each plane; [None]: AssertionError *)
Definition is0 (a : R) : bool := if Req_EM_T a 0 then true else false.
Definition derivatives (dnq : option (list R)) (q dq ddq : R) : option (R * list R) :=
  match dnq with
  | Some l => if is0 q && is0 dq && is0 ddq then match l with q :: _ => Some (q, l) | [] => None end else None
  | None => Some (q, q :: (if is0 dq then [] else [dq]) ++ (if is0 ddq then [] else [ddq]))
  end.
Fixpoint coefficients_from (i : nat) (l : list R) : list R :=
  match l with [] => [] | a :: r => a / INR (fact i) :: coefficients_from (S i) r end.
Definition coefficients (l : list R) : list R := coefficients_from 0 l.

Definition make (length : R) (dnqx : option (list R)) (qx dqx ddqx : R) (dnqy : option (list R)) (qy dqy ddqy : R)
  (det_xx det_xy det_yx det_yy : R) (o0 o1 : optics) (m : mode) : option segment :=
  match derivatives dnqx qx dqx ddqx, derivatives dnqy qy dqy ddqy with
  | Some (qx, lx), Some (qy, ly) => Some (mkSegment length qx qy (coefficients lx) (coefficients ly) det_xx det_xy det_yx det_yy o0 o1 m)
  | _, _ => None
  end.

Section Track.
(** delta, which update_pzeta computes from pzeta *)
Variable delta_of : R -> R.
Definition delta (p : particle) : R := delta_of (pzeta p).

(** remove_closed_orbit and add_closed_orbit (linesegmentmap.h lines 12-38) *)
Definition add_orbit (k : R) (o : optics) (p : particle) : particle :=
  mkParticle (x p + k * o_x o) (px p + k * o_px o) (y p + k * o_y o) (py p + k * o_py o) (zeta p) (pzeta p) (s p).
(** remove_dispersion and add_dispersion (lines 40-82) *)
Definition add_dispersion (k : R) (o : optics) (p : particle) : particle :=
  mkParticle (x p + k * o_dx o * delta p) (px p + k * o_dpx o * delta p) (y p + k * o_dy o * delta p) (py p + k * o_dpy o * delta p)
    (zeta p) (pzeta p) (s p).

(** transverse_motion (lines 84-193): action, phase and matrix of one plane *)
Definition action (bet alf x px : R) : R := 1 / 2 * ((1 + alf * alf) / bet * x * x + 2 * alf * x * px + bet * px * px).
Fixpoint powers (i : nat) (l : list R) (d : R) : R :=
  match l with [] => 0 | c :: r => 2 * PI * (c * d ^ i) + powers (S i) r d end.
(** lines 110-118: the loop reads the coefficient 0 each time *)
Definition any_chroma (l : list R) : bool := match l with [] => false | c :: _ => negb (is0 c) end.
Definition detuning (g : segment) : bool :=
  any_chroma (g_coeffs_dqx g) || any_chroma (g_coeffs_dqy g) ||
  negb (is0 (g_det_xx g)) || negb (is0 (g_det_xy g)) || negb (is0 (g_det_yx g)) || negb (is0 (g_det_yy g)).
Definition phase_x (g : segment) (Jx Jy d : R) : R :=
  if detuning g then 2 * PI * (g_qx g + g_det_xx g * Jx + g_det_xy g * Jy) + powers 1 (tl (g_coeffs_dqx g)) d else 2 * PI * g_qx g.
Definition phase_y (g : segment) (Jx Jy d : R) : R :=
  if detuning g then 2 * PI * (g_qy g + g_det_yx g * Jx + g_det_yy g * Jy) + powers 1 (tl (g_coeffs_dqy g)) d else 2 * PI * g_qy g.
Definition plane (b0 a0 b1 a1 phase : R) (q : R * R) : R * R :=
  let c := cos phase in
  let s := sin phase in
  let prod := sqrt (b1 * b0) in
  let ratio := sqrt (b1 / b0) in
  (ratio * (c + a0 * s) * fst q + prod * s * snd q,
   ((a0 - a1) * c - (1 + a0 * a1) * s) / prod * fst q + (c - a1 * s) / ratio * snd q).
Definition transverse (g : segment) (p : particle) : particle :=
  let o0 := g_start g in
  let o1 := g_end g in
  let Jx := action (o_betx o0) (o_alfx o0) (x p) (px p) in
  let Jy := action (o_bety o0) (o_alfy o0) (y p) (py p) in
  let h := plane (o_betx o0) (o_alfx o0) (o_betx o1) (o_alfx o1) (phase_x g Jx Jy (delta p)) (x p, px p) in
  let v := plane (o_bety o0) (o_alfy o0) (o_bety o1) (o_alfy o1) (phase_y g Jx Jy (delta p)) (y p, py p) in
  mkParticle (fst h) (snd h) (fst v) (snd v) (zeta p) (pzeta p) (s p).

(** longitudinal_motion (lines 195-225) for the two modes; bucket_length is the length in metres, that is the field times
    beta0 and the speed of light; without the flag that leaves the energy as it is *)
Definition floor (r : R) : R := IZR (up r - 1).
Definition longitudinal (m : mode) (p : particle) : particle :=
  match m with
  | frozen => p
  | fixed_qs qs bets bucket_length =>
      let shift := if Rlt_dec 0 bucket_length then bucket_length * floor (zeta p / bucket_length + 1 / 2) else 0 in
      let z := zeta p - shift in
      let c := cos (2 * PI * qs) in
      let n := sin (2 * PI * qs) in
      mkParticle (x p) (px p) (y p) (py p) (c * z - bets * n * pzeta p + shift) (n * z / bets + c * pzeta p) (s p)
  end.

(** LineSegmentMap_track_local_particle (lines 447-499), without energy increments, damping and noise *)
Definition track (g : segment) (p : particle) : particle :=
  let p := add_dispersion (-1) (g_start g) (add_orbit (-1) (g_start g) p) in
  let p := longitudinal (g_mode g) (transverse g p) in
  let p := add_orbit 1 (g_end g) (add_dispersion 1 (g_end g) p) in
  mkParticle (x p) (px p) (y p) (py p) (zeta p) (pzeta p) (s p + g_length g).
End Track.
