(** Exciter, AC dipole and electron lens: elements_src/exciter.h, acdipole.h, track_acdipole.h, elens.h; exciter.py.
    Real arithmetic; at_turn is an integer and the physical constants are arguments. *)
From Coq Require Import Reals List ZArith.
Import ListNotations.
Local Open Scope R_scope.

Record part := mkP { p_x : R; p_px : R; p_y : R; p_py : R; p_zeta : R; p_beta0 : R; p_chi : R; p_p0c : R; p_q0 : R; p_rvv : R; p_rpp : R;
                     p_turn : Z }.
(** LocalParticle_add_to_px, LocalParticle_add_to_py *)
Definition add_kick (dpx dpy : R) (p : part) : part :=
  mkP (p_x p) (p_px p + dpx) (p_y p) (p_py p + dpy) (p_zeta p) (p_beta0 p) (p_chi p) (p_p0c p) (p_q0 p) (p_rvv p) (p_rpp p) (p_turn p).

(** exciter.py:85-95; order + 1 is the length of [x_knl] *)
Record exciter := mkX { x_knl : list (R * R) (** knl[kk], ksl[kk] *); x_samples : list R; x_fs : R; x_frev : R; x_start : Z; x_nduration : Z }.
Definition nsamples (e : exciter) : Z := Z.of_nat (length (x_samples e)).
(** Conversion of a double to int64_t: toward zero *)
Definition to_int (r : R) : Z := if Rle_dec 0 r then Int_part r else (- Int_part (- r))%Z.
(** exciter.h:45, before the conversion *)
Definition sample_time (c : R) (e : exciter) (p : part) : R :=
  x_fs e * (IZR (p_turn p - x_start e) / x_frev e - p_zeta p / p_beta0 p / c).
(** exciter.h:61-73; [kk] is the index, [fact] the factorial of kk - 1, (zre, zim) the power *)
Fixpoint excite (sign x y : R) (kk : nat) (fact zre zim : R) (l : list (R * R)) (acc : R * R) : R * R :=
  match l with
  | [] => acc
  | (kn, ks) :: l =>
    let fact := match kk with O => fact | S _ => fact * INR kk end in
    let acc := (fst acc + sign * (kn * zre - ks * zim) / fact, snd acc + sign * (kn * zim + ks * zre) / fact) in
    excite sign x y (S kk) fact (zre * x - zim * y) (zim * x + zre * y) l acc
  end.
(** exciter.h:15-87 *)
Definition track_exciter (c : R) (backtrack : bool) (e : exciter) (p : part) : part :=
  let sign := if backtrack then -1 else 1 in
  let i := to_int (sample_time c e p) in
  if ((0 <=? i) && (i <? x_nduration e))%Z%bool then
    let i := (if nsamples e <=? i then Z.rem i (nsamples e) else i)%Z in
    let d := excite sign (p_x p) (p_y p) 0 1 1 0 (x_knl e) (0, 0) in
    let s := nth (Z.to_nat i) (x_samples e) 0 in
    add_kick (- p_chi p * (fst d * s)) (p_chi p * (snd d * s)) p
  else p.
(** exciter.py:102-140: knl and ksl padded to the same length; [duration] in samples, converted to Int64 by xobjects *)
Fixpoint zip (knl ksl : list R) : list (R * R) :=
  match knl, ksl with
  | [], [] => []
  | k :: knl, [] => (k, 0) :: zip knl []
  | [], s :: ksl => (0, s) :: (fix skew l := match l with [] => [] | s :: l => (0, s) :: skew l end) ksl
  | k :: knl, s :: ksl => (k, s) :: zip knl ksl
  end.
Definition mk_exciter (knl ksl samples : list R) (fs frev : R) (start : Z) (duration : option R) : exciter :=
  mkX (zip knl ksl) samples fs frev start (match duration with None => Z.of_nat (length samples) | Some d => to_int (d * fs) end).
(** exciter.py:150-159 get_backtrack_element *)
Definition backtrack_element (e : exciter) : exciter :=
  mk_exciter (map (fun k => - fst k) (x_knl e)) (map (fun k => - snd k) (x_knl e)) (x_samples e) (x_fs e) (x_frev e) (x_start e) None.

(** ACDipole: plane 0 none, 1 horizontal, else vertical; ramp as stored (uint32) *)
Record acdipole := mkA { a_volt : R; a_freq : R; a_lag : R; a_ramp : Z * Z * Z * Z; a_plane : nat; a_twiss : bool; a_grad : R }.
(** The parameters of track_acdipole.h:17-20 are uint16_t. *)
Definition u16 (z : Z) : Z := (z mod 65536)%Z.
(** track_acdipole.h:23-46 *)
Definition ac_voltage (vrf : R) (r1 r2 r3 r4 t : Z) : R :=
  if (t <? r1)%Z then 0
  else if (t <? r2)%Z then IZR (t - r1) * vrf / IZR (r2 - r1)
  else if (t <? r3)%Z then vrf
  else if (t <? r4)%Z then IZR (r4 - t) * vrf / IZR (r4 - r3)
  else 0.
Definition in_plane (plane : nat) (kick : R) (p : part) : part :=
  match plane with 1%nat => add_kick kick 0 p | _ => add_kick 0 kick p end.
(** acdipole.h:13-58; track_acdipole.h:46-76 *)
Definition track_acdipole (a : acdipole) (p : part) : part :=
  match a_plane a with
  | O => p
  | plane =>
    if a_twiss a then
      if Req_EM_T (a_grad a) 0 then p
      else in_plane plane (a_grad a * match plane with 1%nat => p_x p | _ => p_y p end) p
    else
      let '(r1, r2, r3, r4) := a_ramp a in
      let v := ac_voltage (a_volt a * (300 / 1000)) (u16 r1) (u16 r2) (u16 r3) (u16 r4) (p_turn p) in
      in_plane plane (v / (p_p0c p / 1000000000) * sin (a_lag a * 2 * PI + a_freq a * 2 * PI * IZR (p_turn p))) p
  end.

(** Electron lens with coefficients_polynomial ([] for polynomial_order 0) *)
Record elens := mkL { l_length : R; l_r1 : R; l_r2 : R; l_current : R; l_voltage : R; l_resx : R; l_resy : R; l_poly : list R }.
Fixpoint poly (l : list R) (r : R) : R := match l with [] => 0 | c :: l => c * r ^ length l + poly l r end.
(** elens.h:75-103 *)
Definition frr (e : elens) (r : R) : R :=
  if Rlt_dec r (l_r1 e) then 0
  else if Rlt_dec (l_r2 e) r then 1
  else match l_poly e with
       | [] => (r * r - l_r1 e * l_r1 e) / (l_r2 e * l_r2 e - l_r1 e * l_r1 e)
       | l => poly l (r * 1000)
       end.
(** elens.h:105-116 *)
Definition theta_max (c eps0 emass : R) (length : R) (e : elens) (p : part) : R :=
  let brho0 := p_p0c p / (p_q0 p * c) in
  let etot := l_voltage e + emass in
  let beta_e := sqrt (etot * etot - emass * emass) / etot in
  let beta_p := p_rvv p * p_beta0 p in
  1 / (4 * PI * eps0) * (2 * length * l_current e) * (1 + beta_e * beta_p) / (l_r2 e * brho0 * beta_e * beta_p) / (c * c).
(** elens.h:14-150 *)
Definition track_elens (c eps0 emass : R) (backtrack : bool) (e : elens) (p : part) : part :=
  let length := if backtrack then - l_length e else l_length e in
  let r := sqrt (p_x p * p_x p + p_y p * p_y p) in
  if Rlt_dec (l_r1 e) r then
    let theta := -1 * frr e r * theta_max c eps0 emass length e p * (l_r2 e / r) * (1 / (p_rpp p * p_chi p)) in
    add_kick (p_x p * theta / r) (p_y p * theta / r) p
  else add_kick (l_resx e) (l_resy e) p.
