(** The edges of magnets: linear edges, fringe fields and wedges, and magnets with active edges (sector bends,
    and rectangular bends with curved or straight body).

    Floating point numbers are real numbers. Radiation and tapering are left out. A particle which the code kills
    is [None]. *)
From Coq Require Import Reals ZArith List Bool.
From Verif.Model Require Import Maps Curved Magnet.
Import ListNotations.
Local Open Scope R_scope.

(** [fabs(a) < 10e-10] *)
Definition small (a : R) : bool := if Rlt_dec (Rabs a) (/ 1000000000) then true else false.
(** [fabs(a) > 1e-10] *)
Definition over (a : R) : bool := if Rlt_dec (/ 10000000000) (Rabs a) then true else false.

(** * Linear edges *)
(** track_dipole_edge_linear.h:compute_dipole_edge_linear_coefficients; dipole_edge.py:DipoleEdge._update_r21_r43 *)
Definition linear_coefficients (k e1 e1_fd hgap fint : R) : R * R :=
  let corr := 2 * k * hgap * fint in
  let r21 := k * tan e1 in
  let e1_v := e1 + e1_fd in
  let temp := corr / cos e1_v * (1 + sin e1_v * sin e1_v) in
  (r21, - k * tan (e1_v - temp)).

(** track_dipole_edge_linear.h:DipoleEdgeLinear_single_particle *)
Definition edge_linear (r21 r43 : R) (p : part) : part :=
  let x := p_x p in let y := p_y p in let chi := p_chi p in
  add_py (chi * r43 * y) (add_px (chi * r21 * x) p).

(** * Dipole fringe *)
(** track_dipole_fringe.h:17-85, DipoleFringe_single_particle without XTRACK_FRINGE_FROM_PTC *)
Definition dipole_fringe (fint hgap k0 : R) (p : part) : part :=
  if small k0 then p
  else
    let beta0 := p_beta0 p in
    let x := p_x p in let px := p_px p in let y := p_y p in let py := p_py p in
    let t := p_zeta p / beta0 in
    let pt := p_ptau p in
    let delta := p_delta p in
    let fh := hgap * fint in
    let fsad := if Rlt_dec (/ 1000000000) fh then 1 / (72 * fh) else 0 in
    let k0w := k0 * p_chi p in
    let beta_ := 1 / beta0 in
    let b0 := k0w in
    let dpp := (1 + delta) * (1 + delta) in
    let pz := sqrt (dpp - px * px - py * py) in
    let pz_ := 1 / pz in
    let relp := 1 / sqrt dpp in
    let tfac := - (beta_ + pt) in
    let c2 := b0 * fh * 2 in
    let c3 := b0 * b0 * fsad * relp in
    let xp := px / pz in
    let yp := py / pz in
    let xyp := xp * yp in
    let yp2 := 1 + yp * yp in
    let xp2 := xp * xp in
    let yp2_ := 1 / yp2 in
    let fi0 := atan (xp * yp2_) - c2 * (1 + xp2 * (1 + yp2)) * pz_ in
    let co2 := b0 / (cos fi0 * cos fi0) in
    let co1 := co2 / (1 + xp * yp2_ * (xp * yp2_)) * yp2_ in
    let co3 := co2 * c2 in
    let fi1 := co1 - co3 * 2 * xp * (1 + yp2) * pz_ in
    let fi2 := - (2) * co1 * xyp * yp2_ - co3 * 2 * xp * xyp * pz_ in
    let fi3 := co3 * (1 + xp2 * (1 + yp2)) * (pz_ * pz_) in
    let kx := fi1 * (1 + xp2) * pz_ + fi2 * xyp * pz_ - fi3 * xp in
    let ky := fi1 * xyp * pz_ + fi2 * yp2 * pz_ - fi3 * yp in
    let kz := fi1 * tfac * xp * (pz_ * pz_) + fi2 * tfac * yp * (pz_ * pz_) - fi3 * tfac * pz_ in
    let new_y := 2 * y / (1 + sqrt (1 - 2 * ky * y)) in
    let new_x := x + 1 / 2 * kx * (new_y * new_y) in
    let new_py := py - 4 * c3 * (new_y * new_y * new_y) - b0 * tan fi0 * new_y in
    let new_t := t + 1 / 2 * kz * (new_y * new_y) + c3 * (new_y * new_y * new_y * new_y) * (relp * relp) * tfac in
    set_zeta (new_t * beta0) (set_py new_py (set_y new_y (set_x new_x p))).

(** track_dipole_fringe.h:97-176, DipoleFringe_single_particle with XTRACK_FRINGE_FROM_PTC *)
Definition dipole_fringe_ptc (fint hgap k0 : R) (p : part) : part :=
  if small k0 then p
  else
    let b := k0 in
    let fsad := if is0 (fint * hgap) then 0 else 1 / (fint * hgap * 2) / 36 in
    let beta0 := p_beta0 p in
    let x := p_x p in let px := p_px p in let y := p_y p in let py := p_py p in
    let ptau := p_ptau p in
    let delta := p_delta p in
    let pz := sqrt ((1 + delta) * (1 + delta) - px * px - py * py) in
    let time_fac := 1 / beta0 + ptau in
    let rel_p := sqrt (1 + 2 * ptau / beta0 + ptau * ptau) in
    let c3 := b * b * fsad / rel_p in
    let xp := px / pz in
    let yp := py / pz in
    let D_1_1 := (1 + xp * xp) / pz in
    let D_2_1 := xp * yp / pz in
    let D_3_1 := - xp in
    let D_1_2 := xp * yp / pz in
    let D_2_2 := (1 + yp * yp) / pz in
    let D_3_2 := - yp in
    let D_1_3 := - time_fac * xp / (pz * pz) in
    let D_2_3 := - time_fac * yp / (pz * pz) in
    let D_3_3 := time_fac / pz in
    let fi0 := atan (xp / (1 + yp * yp)) - b * fint * hgap * 2 * (1 + xp * xp * (2 + yp * yp)) / pz in
    let co2 := b / cos fi0 / cos fi0 in
    let sq a := a * a in
    let co1 := co2 / (1 + sq (xp / sq (1 + yp * yp))) in
    let fi_1 := co1 / (1 + yp * yp) - co2 * b * fint * hgap * 2 * (2 * xp * (2 + yp * yp) / pz) in
    let fi_2 := - co1 * 2 * xp * yp / sq (1 + yp * yp) - co2 * b * fint * hgap * 2 * (2 * xp * xp * yp) / pz in
    let fi_3 := co2 * b * fint * hgap * 2 * (1 + xp * xp * (2 + yp * yp)) / sq pz in
    let fi0 := b * tan fi0 in
    let BB := fi_3 * D_3_2 + (fi_2 * D_2_2 + fi_1 * D_1_2) in
    let new_y := 2 * y / (1 + sqrt (1 - 2 * BB * y)) in
    let new_py := py - fi0 * new_y in
    let BB := fi_3 * D_3_1 + (fi_2 * D_2_1 + fi_1 * D_1_1) in
    let new_x := x + 1 / 2 * BB * new_y * new_y in
    let BB := fi_3 * D_3_3 + (fi_2 * D_2_3 + fi_1 * D_1_3) in
    let d_tau := - (1 / 2) * BB * new_y * new_y in
    let new_py := new_py - 4 * c3 * (new_y * new_y * new_y) in
    let d_tau := d_tau + c3 * (new_y * new_y * new_y * new_y) / sq rel_p * time_fac in
    add_zeta (- d_tau * beta0) (set_py new_py (set_y new_y (set_x new_x p))).

(** * Multipole fringe *)
(** The variables of the loop of track_mult_fringe.h:62-113 *)
Record fringe := mkFr {
  fr_rx : R; fr_ix : R; fr_inv : R;
  fr_fx : R; fr_fxx : R; fr_fxy : R; fr_fy : R; fr_fyx : R; fr_fyy : R }.

(** The strengths which the loop uses at [ii], without the inverse factorial (lines 76-88): [k_order] and
    [kl_order] may be -1 *)
Definition fringe_strength (k kl : list R) (k_order kl_order : Z) (length : R) (min_order ii : nat) (inv : R) : R :=
  if Nat.leb min_order ii then
    (if Z.leb (Z.of_nat ii) k_order then nth ii k 0 * inv else 0)
    + (if Z.leb (Z.of_nat ii) kl_order && negb (is0 length) then nth ii kl 0 / length * inv else 0)
  else 0.

Definition fringe_step (direction chi x y : R) (kn ks : nat -> R -> R) (ii : nat) (s : fringe) : fringe :=
  let inv := if Nat.ltb 1 ii then fr_inv s / INR ii else fr_inv s in
  let component := INR ii + 1 in
  let drx := fr_rx s in
  let dix := fr_ix s in
  let rx := drx * x - dix * y in
  let ix := drx * y + dix * x in
  let nj := - direction / (4 * (component + 1)) in
  let nf := (component + 2) / component in
  let kj := if Nat.eqb ii 0 then 0 else kn ii inv * chi in
  let ksj := ks ii inv * chi in
  let u := nj * (kj * rx - ksj * ix) in
  let v := nj * (kj * ix + ksj * rx) in
  let du := nj * (kj * drx - ksj * dix) in
  let dv := nj * (kj * dix + ksj * drx) in
  let dux := component * du in
  let dvx := component * dv in
  let duy := - component * dv in
  let dvy := component * du in
  mkFr rx ix inv
    (fr_fx s + u * x + nf * v * y)
    (fr_fxx s + dux * x + nf * dvx * y + u)
    (fr_fxy s + duy * x + nf * (dvy * y + v))
    (fr_fy s + u * y - nf * v * x)
    (fr_fyx s + dux * y - nf * (dvx * x + v))
    (fr_fyy s + duy * y - nf * dvy * x + u).

(** [n] turns of the loop, the first with [ii] *)
Fixpoint fringe_loop (direction chi x y : R) (kn ks : nat -> R -> R) (n ii : nat) (s : fringe) : fringe :=
  match n with
  | O => s
  | S m => fringe_loop direction chi x y kn ks m (S ii) (fringe_step direction chi x y kn ks ii s)
  end.

(** track_mult_fringe.h:MultFringe_track_single_particle *)
Definition mult_fringe (backtrack : bool) (kn ks : list R) (k_order : Z) (knl ksl : list R) (kl_order : Z)
    (length : R) (is_exit : bool) (min_order : nat) (p : part) : option part :=
  if Z.eqb k_order (-1) && Z.eqb kl_order (-1) then Some p
  else if backtrack then None
  else
    let beta0 := p_beta0 p in
    let direction := if is_exit then - 1 else 1 in
    let x := p_x p in let px := p_px p in let y := p_y p in let py := p_py p in
    let t := p_zeta p / beta0 in
    let pt := p_ptau p in
    let rpp := p_rpp p in
    let chi := p_chi p in
    let order := Z.max k_order kl_order in
    let s := fringe_loop direction chi x y
               (fringe_strength kn knl k_order kl_order length min_order)
               (fringe_strength ks ksl k_order kl_order length min_order)
               (Z.to_nat (order + 1)) 0 (mkFr 1 0 1 0 0 0 0 0 0) in
    let a := 1 - fr_fxx s * rpp in
    let b := - fr_fyx s * rpp in
    let c := - fr_fxy s * rpp in
    let d := 1 - fr_fyy s * rpp in
    let det := a * d - b * c in
    let new_px := (d * px - b * py) / det in
    let new_py := (a * py - c * px) / det in
    let delta_t := (1 / beta0 + pt) * (new_px * fr_fx s + new_py * fr_fy s) * (rpp * rpp * rpp) in
    Some (set_zeta ((t + delta_t) * beta0) (set_py new_py (set_px new_px
            (add_y (- fr_fy s * rpp) (add_x (- fr_fx s * rpp) p))))).

(** * Wedges *)
(** track_wedge.h:Wedge_single_particle *)
Definition wedge (synrad : bool) (theta k0 : R) (p : part) : part :=
  let b1 := k0 * p_chi p in
  if small b1 then yrotation synrad (- sin theta) (cos theta) (- tan theta) p
  else
    let rvv := p_rvv p in
    let x := p_x p in let px := p_px p in let py := p_py p in
    let one_plus_delta := p_delta p + 1 in
    let A := 1 / sqrt (one_plus_delta * one_plus_delta - py * py) in
    let pz := sqrt (one_plus_delta * one_plus_delta - px * px - py * py) in
    let new_px := px * cos theta + (pz - b1 * x) * sin theta in
    let new_pz := sqrt (one_plus_delta * one_plus_delta - new_px * new_px - py * py) in
    let new_x := x * cos theta
      + (x * px * sin (2 * theta) + sin theta * sin theta * (2 * x * pz - b1 * (x * x)))
        / (new_pz + pz * cos theta - px * sin theta) in
    let D := asin (A * px) - asin (A * new_px) in
    let delta_y := py * (theta + D) / b1 in
    let delta_ell := one_plus_delta * (theta + D) / b1 in
    let q := add_zeta (- delta_ell / rvv) (set_px new_px (add_y delta_y (set_x new_x p))) in
    let sin_angle := - sin theta in
    let cos_angle := cos theta in
    let spin_x_0 := p_spin_x p in
    let spin_z_0 := p_spin_z p in
    if synrad && (negb (is0 spin_x_0) || negb (is0 spin_z_0)) then
      set_spin (cos_angle * spin_x_0 - sin_angle * spin_z_0) (p_spin_y p)
        (sin_angle * spin_x_0 + cos_angle * spin_z_0) q
    else q.

(** track_wedge.h:Quad_wedge_single_particle *)
Definition quad_wedge (theta k1 : R) (p : part) : part :=
  let b2 := k1 * p_chi p in
  let x := p_x p in let y := p_y p in let px := p_px p in let py := p_py p in
  let new_px := px - b2 * x * x * theta + b2 * y * y / 2 * theta in
  let new_py := py + b2 * x * y * theta in
  set_py new_py (set_px new_px p).

(** * The edge of a magnet *)
(** The parameters of an edge (the settings of the magnet edge_entry_angle, ...) *)
Record edge := mkEdge {
  ed_active : bool; ed_model : Z; ed_angle : R; ed_fdown : R; ed_fint : R; ed_hgap : R }.

Section Edge.
Variable synrad : bool.
(** XTRACK_FRINGE_FROM_PTC *)
Variable ptc : bool.
Definition use_fringe : R -> R -> R -> part -> part := if ptc then dipole_fringe_ptc else dipole_fringe.

(** k0 of track_magnet_edge.h:42-49 *)
Definition edge_k0 (kn : list R) (m : mult) (rel : option mult) (ref length : R) : R :=
  nth 0 kn 0
  + (if over length then nth 0 (mu_knl m) 0 / length else 0)
  + (if over length then match rel with Some r => ref * nth 0 (mu_knl r) 0 / length | None => 0 end else 0).

(** track_magnet_edge.h:track_magnet_edge_particles, called with the four strengths of the magnet (k_order 3) and
    its integrated multipoles. [backtrack]: factor_for_backtrack is -1 (and the flag is set). *)
Definition magnet_edge (backtrack : bool) (e : edge) (is_exit : bool) (kn ks : list R) (m : mult) (rel : option mult)
    (ref ksol x0 y0 length : R) (p : part) : option part :=
  let k0 := edge_k0 kn m rel ref length in
  let p := if is_exit then set_ay 0 (set_ax 0 p)
           else set_ay (1 / 2 * ksol * (p_x p - x0)) (set_ax (- (1 / 2) * ksol * (p_y p - y0)) p) in
  if Z.eqb (ed_model e) 0 then
    let (r21, r43) := linear_coefficients k0 (ed_angle e) (ed_fdown e) (ed_hgap e) (ed_fint e) in
    let f := if backtrack then - 1 else 1 in
    Some (edge_linear (r21 * f) (r43 * f) p)
  else if Z.eqb (ed_model e) 1 || Z.eqb (ed_model e) 2 then
    if backtrack then None
    else
      let face := ed_angle e in
      let should_rotate := negb (if Rlt_dec (/ 1000000000) (Rabs face) then false else true) in
      let k0 := if is_exit then - k0 else k0 in
      let full := Z.eqb (ed_model e) 1 in
      let rotate p := if should_rotate then yrotation synrad (- sin face) (cos face) (- tan face) p else p in
      let dip p := use_fringe (ed_fint e) (ed_hgap e) k0 p in
      let mul p := if full then mult_fringe backtrack kn ks 3 (mu_knl m) (mu_ksl m) (Z.of_nat (mu_order m)) length is_exit 1 p
                   else Some p in
      let quad p := if full && should_rotate then quad_wedge (- face) (nth 1 kn 0) p else p in
      let wed p := if should_rotate then wedge synrad (- face) (nth 0 kn 0) p else p in
      if is_exit then
        match mul (quad (wed p)) with Some q => Some (rotate (dip q)) | None => None end
      else
        match mul (dip (rotate p)) with Some q => Some (wed (quad q)) | None => None end
  else Some p.

(** * Magnets with edges *)
(** [rb_model] is rbend_model (-1 for a magnet which is not an rbend) *)
Record edged := mkEdged {
  eg_mag : magnet; eg_body : bool;
  eg_entry : edge; eg_exit : edge;
  rb_model : Z; rb_sagitta : bool; rb_shift : R; rb_angle_diff : R; rb_straight : R }.

Definition kn_of (g : magnet) : list R := [mg_k0 g; mg_k1 g; mg_k2 g; mg_k3 g].
Definition ks_of (g : magnet) : list R := [mg_k0s g; mg_k1s g; mg_k2s g; mg_k3s g].
Definition with_angle (a b : R) (e : edge) : edge :=
  mkEdge (ed_active e) (ed_model e) (ed_angle e + a) (ed_fdown e + b) (ed_fint e) (ed_hgap e).
Definition straightened (l : R) (g : magnet) : magnet :=
  mkMag l (mg_mult g) (mg_rel g) (mg_ref g) (mg_kicks g) (mg_model g) (mg_default_model g) (mg_integrator g)
    (mg_default_integrator g) 0 (mg_hxl g) (mg_k0 g) (mg_k1 g) (mg_k2 g) (mg_k3 g) (mg_k0s g) (mg_k1s g) (mg_k2s g)
    (mg_k3s g) (mg_ks g) (mg_x0 g) (mg_y0 g).

(** track_magnet.h:349-408: the frame of the body of an rbend with straight body; angle, sine and cosine of the
    entry and the exit, and the shifts *)
Record rframe := mkRf0 { rf_sin_in : R; rf_cos_in : R; rf_sin_out : R; rf_cos_out : R; rf_x_in : R; rf_x_out : R }.
Definition rbend_frame (h length length_straight shift angle_diff : R) (sagitta : bool) : rframe :=
  let angle := h * length in
  let theta_in := (angle - angle_diff) / 2 in
  let theta_out := (angle + angle_diff) / 2 in
  let sin_in := if over theta_in then sin theta_in else 0 in
  let cos_in := if over theta_in then cos theta_in else 1 in
  let sin_out := if over theta_out then sin theta_out else 0 in
  let cos_out := if over theta_out then cos theta_out else 1 in
  let x0_mid := - shift + (if sagitta && over angle then 1 / 2 / h * (1 - cos (angle / 2)) else 0) in
  let px0_mid := sin theta_in - h * length_straight / 2 in
  let sqrt_mid := sqrt (1 - px0_mid * px0_mid) in
  let x0_in := if over angle then x0_mid - 1 / h * (sqrt_mid - cos_in) else x0_mid in
  let x0_out := if over angle then x0_mid + 1 / h * (cos_out - sqrt_mid) else x0_mid in
  mkRf0 sin_in cos_in sin_out cos_out x0_in x0_out.

(** track_magnet.h:track_magnet_particles *)
Definition track_edged (backtrack : bool) (weight : R) (m : edged) (p : part) : option part :=
  let g := eg_mag m in
  let rbend_model := if Z.eqb (rb_model m) 0 then 1%Z else rb_model m in
  let angle := mg_h g * mg_length g in
  let t_in := (angle - rb_angle_diff m) / 2 in
  let t_out := (angle + rb_angle_diff m) / 2 in
  let straight := Z.eqb rbend_model 2 in
  let entry := if Z.eqb rbend_model 1 then with_angle t_in 0 (eg_entry m)
               else if straight then with_angle 0 t_in (eg_entry m) else eg_entry m in
  let exit := if Z.eqb rbend_model 1 then with_angle t_out 0 (eg_exit m)
              else if straight then with_angle 0 t_out (eg_exit m) else eg_exit m in
  let f := rbend_frame (mg_h g) (mg_length g) (rb_straight m) (rb_shift m) (rb_angle_diff m) (rb_sagitta m) in
  let g' := if straight then straightened (rb_straight m) g else g in
  (* the swaps of lines 421-434 *)
  let e_first := if backtrack then exit else entry in
  let e_last := if backtrack then entry else exit in
  let sin_in := if backtrack then - rf_sin_out f else rf_sin_in f in
  let cos_in := if backtrack then rf_cos_out f else rf_cos_in f in
  let sin_out := if backtrack then - rf_sin_in f else rf_sin_out f in
  let cos_out := if backtrack then rf_cos_in f else rf_cos_out f in
  let x_in := if backtrack then rf_x_out f else rf_x_in f in
  let x_out := if backtrack then rf_x_in f else rf_x_out f in
  let edge_of e is_exit := magnet_edge backtrack e is_exit (kn_of g) (ks_of g) (mg_mult g) (mg_rel g) (mg_ref g)
                             (mg_ks g) (mg_x0 g) (mg_y0 g) (mg_length g') in
  let first p :=
    if ed_active e_first then
      let p := if straight then add_x x_in (yrotation synrad (- sin_in) cos_in (- sin_in / cos_in) p) else p in
      edge_of e_first false p
    else Some p in
  let middle p :=
    if eg_body m then
      let p := track_magnet backtrack weight g' p in
      if straight && Z.leb 0 (used_model g') then
        let ds := if backtrack then - mg_length g * weight - - mg_length g' * weight
                  else mg_length g * weight - mg_length g' * weight in
        add_zeta ds (add_s ds p)
      else p
    else p in
  let last p :=
    if ed_active e_last then
      match edge_of e_last true p with
      | Some p => Some (if straight then yrotation synrad (- sin_out) cos_out (- sin_out / cos_out) (add_x (- x_out) p) else p)
      | None => None
      end
    else Some p in
  match first p with Some q => last (middle q) | None => None end.
End Edge.

(** * The elements *)
(** dipoleedge.h:DipoleEdge_track_local_particle (without tapering), track_dipole_edge_nonlinear.h; [side]: 0 entry,
    1 exit. The coefficients r21, r43 are those of the constructor and setters. *)
Definition DipoleEdge_track (synrad ptc backtrack : bool) (model side : Z) (k e1 e1_fd hgap fint : R) (p : part)
  : option part :=
  if Z.eqb model 0 then
    let (r21, r43) := linear_coefficients k e1 e1_fd hgap fint in
    Some (edge_linear (if backtrack then - r21 else r21) (if backtrack then - r43 else r43) p)
  else if Z.eqb model 1 then
    if backtrack then None
    else
      let rotate p := if small e1 then p else yrotation synrad (- sin e1) (cos e1) (- tan e1) p in
      let wed p := if small e1 then p else wedge synrad (- e1) k p in
      if Z.eqb side 0 then Some (wed (use_fringe ptc fint hgap k (rotate p)))
      else if Z.eqb side 1 then Some (rotate (use_fringe ptc fint hgap (- k) (wed p)))
      else Some p
  else Some p.

(** multipoleedge.h *)
Definition MultipoleEdge_track (backtrack is_exit : bool) (kn ks : list R) (order : nat) (p : part) : option part :=
  mult_fringe backtrack kn ks (Z.of_nat order) [] [] (-1) 0 is_exit 0 p.

(** wedge.h *)
Definition Wedge_track (synrad : bool) (angle k k1 : R) (quad_first : Z) (p : part) : part :=
  if Z.eqb quad_first 0 then quad_wedge angle k1 (wedge synrad angle k p)
  else if Z.eqb quad_first 1 then wedge synrad angle k (quad_wedge angle k1 p)
  else p.
