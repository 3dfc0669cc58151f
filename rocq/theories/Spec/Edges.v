(** Where the maps of the edges of magnets are defined, and what they do. *)
From Coq Require Import Reals ZArith List Bool.
From Verif.Model Require Import Maps Curved Magnet Edges.
From Verif.Spec Require Import Frames Magnets Symplectic.
Import ListNotations.
Local Open Scope R_scope.

(** The momenta in the frame turned by [theta], after motion in a field [b] *)
Definition wedge_px (b theta : R) (p : part) : R :=
  p_px p * cos theta + (sqrt (pz2 p) - b * p_x p) * sin theta.
Definition wedge_pz2 (b theta : R) (p : part) : R :=
  (1 + p_delta p) * (1 + p_delta p) - wedge_px b theta p * wedge_px b theta p - p_py p * p_py p.
Definition turned_pz (theta : R) (p : part) : R := sqrt (pz2 p) * cos theta - p_px p * sin theta.
(** The particle goes forward before and behind the wedge. *)
Definition wedge_ok (theta k0 : R) (p : part) : Prop :=
  let b := k0 * p_chi p in
  kinematic p /\ 0 < pz2 p /\
  (Rabs b < / 1000000000 -> cos theta <> 0 /\ turned_pz theta p <> 0) /\
  (/ 1000000000 <= Rabs b -> 0 < wedge_pz2 b theta p /\ sqrt (wedge_pz2 b theta p) + turned_pz theta p <> 0).

(** * Fringe fields *)
(** The angle and the potential of the fringe field of a dipole with strength [b] (with the charge of the
    particle) and gap [fh] (half gap times integral), as functions of the momenta *)
Definition fringe_angle (b fh beta0 px py ptau : R) : R :=
  let pz := sqrt (1 + 2 * ptau / beta0 + ptau * ptau - px * px - py * py) in
  let xp := px / pz in let yp := py / pz in
  atan (xp / (1 + yp * yp)) - 2 * b * fh * (1 + xp * xp * (2 + yp * yp)) / pz.
Definition potential (b fh beta0 px py ptau : R) : R := b * tan (fringe_angle b fh beta0 px py ptau).
(** The part of it which depends on the energy only *)
Definition gap_term (b fh beta0 ptau : R) : R :=
  (if Rlt_dec (/ 1000000000) fh then b * b / (72 * fh) else 0) / sqrt (1 + 2 * ptau / beta0 + ptau * ptau).
(** The tangent and the square root of the map are defined. *)
Definition dipole_fringe_ok (fint hgap k0 : R) (p : part) : Prop :=
  let b := k0 * p_chi p in let fh := hgap * fint in
  physical p /\
  (/ 1000000000 <= Rabs k0 ->
   cos (fringe_angle b fh (p_beta0 p) (p_px p) (p_py p) (p_ptau p)) <> 0 /\
   exists A, derivable_pt_lim (fun py => potential b fh (p_beta0 p) (p_px p) py (p_ptau p)) (p_py p) A /\
             0 < 1 - 2 * A * p_y p).
(** [q] is where the canonical transformation with generating function
    [x px + y' py + t pt - (Phi y'^2 / 2 + g y'^4)] takes [p]: with the derivatives [B], [A], [C] of [Phi] and [G] of
    [g] *)
Definition fringe_image (b fh : R) (p q : part) : Prop :=
  let beta0 := p_beta0 p in let px := p_px p in let py := p_py p in let pt := p_ptau p in let y' := p_y q in
  exists B A C G,
    derivable_pt_lim (fun z => potential b fh beta0 z py pt) px B /\
    derivable_pt_lim (fun z => potential b fh beta0 px z pt) py A /\
    derivable_pt_lim (fun z => potential b fh beta0 px py z) pt C /\
    derivable_pt_lim (fun z => gap_term b fh beta0 z) pt G /\
    p_x q = p_x p + 1 / 2 * B * (y' * y') /\ p_px q = px /\
    p_y p = y' - 1 / 2 * A * (y' * y') /\
    p_py q = py - potential b fh beta0 px py pt * y' - 4 * gap_term b fh beta0 pt * (y' * y' * y') /\
    p_zeta q = p_zeta p + beta0 * (1 / 2 * C * (y' * y') + G * (y' * y' * y' * y')) /\
    p_ptau q = pt /\ p_s q = p_s p.

(** The sums of the multipole fringe at [p], and the determinant by which it divides *)
Definition fringe_sums (kn ks : list R) (k_order : Z) (knl ksl : list R) (kl_order : Z) (length : R) (is_exit : bool)
    (min_order : nat) (chi x y : R) : fringe :=
  fringe_loop (if is_exit then - 1 else 1) chi x y
    (fringe_strength kn knl k_order kl_order length min_order)
    (fringe_strength ks ksl k_order kl_order length min_order)
    (Z.to_nat (Z.max k_order kl_order + 1)) 0 (mkFr 1 0 1 0 0 0 0 0 0).
Definition mult_fringe_ok (kn ks : list R) (k_order : Z) (knl ksl : list R) (kl_order : Z) (length : R)
    (is_exit : bool) (min_order : nat) (p : part) : Prop :=
  let s := fringe_sums kn ks k_order knl ksl kl_order length is_exit min_order (p_chi p) (p_x p) (p_y p) in
  let r := p_rpp p in
  kinematic p /\
  (1 - fr_fxx s * r) * (1 - fr_fyy s * r) - (- fr_fyx s * r) * (- fr_fxy s * r) <> 0.

(** * Paths *)
Definition step := ((part -> part) * (part -> Prop))%type.
Definition anywhere (f : part -> part) : step := (f, fun _ => True).
(** A rotation about the vertical axis *)
Definition turn_ok (s c : R) (p : part) : Prop := physical p /\ c <> 0 /\ sqrt (pz2 p) * c - p_px p * s <> 0.
(** What a map does to the particles which it does not lose *)
Definition total (f : part -> option part) (p : part) : part := match f p with Some q => q | None => p end.

(** The maps of an edge, and where they are defined *)
Definition edge_steps (sp : bool) (e : edge) (is_exit : bool) (kn ks : list R) (m : mult) (rel : option mult)
    (ref length : R) : list step :=
  let k0 := edge_k0 kn m rel ref length in
  let face := ed_angle e in
  let turns := if Rlt_dec (/ 1000000000) (Rabs face) then true else false in
  let full := Z.eqb (ed_model e) 1 in
  let kf := if is_exit then - k0 else k0 in
  let rot := if turns then [(yrotation sp (- sin face) (cos face) (- tan face), turn_ok (sin face) (cos face))] else [] in
  let dip := [(dipole_fringe (ed_fint e) (ed_hgap e) kf, dipole_fringe_ok (ed_fint e) (ed_hgap e) kf)] in
  let mul := if full then
      [(total (mult_fringe false kn ks 3 (mu_knl m) (mu_ksl m) (Z.of_nat (mu_order m)) length is_exit 1),
        mult_fringe_ok kn ks 3 (mu_knl m) (mu_ksl m) (Z.of_nat (mu_order m)) length is_exit 1)] else [] in
  let quad := if full && turns then [anywhere (quad_wedge (- face) (nth 1 kn 0))] else [] in
  let wed := if turns then [(wedge sp (- face) (nth 0 kn 0), wedge_ok (- face) (nth 0 kn 0))] else [] in
  match ed_model e with
  | 0%Z => let (r21, r43) := linear_coefficients k0 face (ed_fdown e) (ed_hgap e) (ed_fint e) in
           [anywhere (edge_linear r21 r43)]
  | 1%Z | 2%Z => if is_exit then wed ++ quad ++ mul ++ dip ++ rot else rot ++ dip ++ mul ++ quad ++ wed
  | _ => []
  end.
(** The vector potential which an edge stores with the particle *)
Definition store (is_exit : bool) (ksol x0 y0 : R) (p : part) : part :=
  if is_exit then set_ay 0 (set_ax 0 p)
  else set_ay (1 / 2 * ksol * (p_x p - x0)) (set_ax (- (1 / 2) * ksol * (p_y p - y0)) p).

(** The edges of a magnet: an rbend with curved body adds its angle to the faces. *)
Definition first_edge (m : edged) : edge :=
  let t := (mg_h (eg_mag m) * mg_length (eg_mag m) - rb_angle_diff m) / 2 in
  match rb_model m with
  | 0%Z | 1%Z => with_angle t 0 (eg_entry m)
  | 2%Z => with_angle 0 t (eg_entry m)
  | _ => eg_entry m
  end.
Definition last_edge (m : edged) : edge :=
  let t := (mg_h (eg_mag m) * mg_length (eg_mag m) + rb_angle_diff m) / 2 in
  match rb_model m with
  | 0%Z | 1%Z => with_angle t 0 (eg_exit m)
  | 2%Z => with_angle 0 t (eg_exit m)
  | _ => eg_exit m
  end.
Definition straight (m : edged) : bool := Z.eqb (rb_model m) 2.
Definition inner (m : edged) : magnet :=
  if straight m then straightened (rb_straight m) (eg_mag m) else eg_mag m.
Definition frame (m : edged) : rframe :=
  let g := eg_mag m in
  rbend_frame (mg_h g) (mg_length g) (rb_straight m) (rb_shift m) (rb_angle_diff m) (rb_sagitta m).
Definition edge_part (sp : bool) (m : edged) (e : edge) (is_exit : bool) : list step :=
  let g := eg_mag m in
  anywhere (store is_exit (mg_ks g) (mg_x0 g) (mg_y0 g)) ::
  edge_steps sp e is_exit (kn_of g) (ks_of g) (mg_mult g) (mg_rel g) (mg_ref g) (mg_length (inner m)).
Definition first_steps (sp : bool) (m : edged) : list step :=
  let f := frame m in
  if ed_active (first_edge m) then
    (if straight m then
       [(yrotation sp (- rf_sin_in f) (rf_cos_in f) (- rf_sin_in f / rf_cos_in f), turn_ok (rf_sin_in f) (rf_cos_in f));
        anywhere (add_x (rf_x_in f))] else [])
    ++ edge_part sp m (first_edge m) false
  else [].
Definition body_steps (w : R) (m : edged) : list step :=
  if eg_body m then
    (track_magnet false w (inner m), fun p => kinematic p /\ goes_through false w (inner m) p) ::
    (if straight m && Z.leb 0 (used_model (inner m)) then
       [anywhere (fun p => add_zeta (mg_length (eg_mag m) * w - mg_length (inner m) * w)
                             (add_s (mg_length (eg_mag m) * w - mg_length (inner m) * w) p))] else [])
  else [].
Definition last_steps (sp : bool) (m : edged) : list step :=
  let f := frame m in
  if ed_active (last_edge m) then
    edge_part sp m (last_edge m) true ++
    (if straight m then
       [anywhere (add_x (- rf_x_out f));
        (yrotation sp (- rf_sin_out f) (rf_cos_out f) (- rf_sin_out f / rf_cos_out f), turn_ok (rf_sin_out f) (rf_cos_out f))]
     else [])
  else [].
Definition edged_steps (sp : bool) (w : R) (m : edged) : list step :=
  first_steps sp m ++ body_steps w m ++ last_steps sp m.

(** * Backtracking *)
(** An edge without nonlinear fringe *)
Definition plain (e : edge) : Prop := ed_active e = true -> ed_model e <> 1%Z /\ ed_model e <> 2%Z.
Definition full (e : edge) : Prop := ed_active e = true /\ (ed_model e = 1%Z \/ ed_model e = 2%Z).
Definition no_potential (p : part) : Prop := p_ax p = 0 /\ p_ay p = 0.
(** The particle goes forward through the frames of an rbend with straight body. *)
Definition turns_forward (s c : R) (p : part) : Prop := physical p /\ c <> 0 /\ forward (Rot_y (- s) c) p.
Definition returns (sp : bool) (w : R) (m : edged) (p : part) : Prop :=
  let f := frame m in
  let p1 := through (first_steps sp m) p in
  let p2 := through (body_steps w m) p1 in
  no_potential p /\ (eg_body m = true -> passes w (inner m) p1) /\ no_potential p2 /\
  (straight m = true -> ed_active (first_edge m) = true -> turns_forward (rf_sin_in f) (rf_cos_in f) p) /\
  (straight m = true -> ed_active (last_edge m) = true ->
   turns_forward (rf_sin_out f) (rf_cos_out f)
     (add_x (- rf_x_out f) (through (edge_part sp m (last_edge m) true) p2))).

(** A magnet which is switched off *)
Definition zeros (l : list R) : Prop := forall i, nth i l 0 = 0.
Definition off (kn ks : list R) (m : mult) (rel : option mult) : Prop :=
  zeros kn /\ zeros ks /\ zeros (mu_knl m) /\ zeros (mu_ksl m) /\
  match rel with Some r => nth 0 (mu_knl r) 0 = 0 | None => True end.
(** A particle which crosses the edge in the direction of the axis, above or below it *)
Definition straight_on (p : part) : Prop := kinematic p /\ p_x p = 0 /\ p_px p = 0 /\ p_py p = 0.
