(** Edges, fringe fields and wedges of magnets. Each theorem is closed by a lemma. *)
From Coq Require Import Reals ZArith List Bool.
From Verif.Model Require Import Maps Curved Magnet Edges.
From Verif.Spec Require Import Frames Magnets Symplectic Edges.
From Verif.Proofs Require SympEdge SympDipoleMap EdgePaths EdgeBack EdgeWedge EdgeOff EdgeCases SympExamples.
Import ListNotations.
Local Open Scope R_scope.

(** * C73. Edges, fringe fields and wedges are symplectic, and so is a magnet with its edges; the fringe field of a
    dipole is the canonical transformation of its potential. *)
Theorem C73_linear : forall r21 r43 p, symplectic (edge_linear r21 r43) p.
Proof. exact SympEdge.symp_edge_linear. Qed.
Print Assumptions C73_linear.

Theorem C73_quad_wedge : forall theta k1 p, symplectic (quad_wedge theta k1) p.
Proof. exact SympEdge.symp_quad_wedge. Qed.
Print Assumptions C73_quad_wedge.

Theorem C73_wedge : forall sp theta k0 p, wedge_ok theta k0 p -> symplectic (wedge sp theta k0) p.
Proof. exact SympEdge.symp_wedge. Qed.
Print Assumptions C73_wedge.

Theorem C73_dipole_fringe : forall fint hgap k0 p, dipole_fringe_ok fint hgap k0 p ->
  symplectic (dipole_fringe fint hgap k0) p.
Proof. exact SympDipoleMap.symp_dipole_fringe. Qed.
Print Assumptions C73_dipole_fringe.

Theorem C73_potential : forall fint hgap k0 p, small k0 = false -> dipole_fringe_ok fint hgap k0 p ->
  fringe_image (k0 * p_chi p) (hgap * fint) p (dipole_fringe fint hgap k0 p).
Proof. exact SympDipoleMap.image_at. Qed.
Print Assumptions C73_potential.

Theorem C73_multipole_fringe : forall kn ks k_order knl ksl kl_order length is_exit min_order p,
  mult_fringe_ok kn ks k_order knl ksl kl_order length is_exit min_order p ->
  symplectic (total (mult_fringe false kn ks k_order knl ksl kl_order length is_exit min_order)) p.
Proof. exact EdgePaths.symp_mult_fringe. Qed.
Print Assumptions C73_multipole_fringe.

Theorem C73_magnet : forall sp w m p, fits (edged_steps sp w m) p ->
  exists f, (forall q, track_edged sp false false w m q = Some (f q)) /\ symplectic f p.
Proof. exact EdgePaths.symp_edged. Qed.
Print Assumptions C73_magnet.

(** Two wedges in the same field are one, and a wedge of the opposite angle takes the particle back. *)
Theorem C73_wedges_add : forall t1 t2 k p, / 1000000000 <= Rabs (k * p_chi p) ->
  wedge_ok t1 k p -> wedge_ok t2 k (wedge false t1 k p) -> wedge_ok (t1 + t2) k p ->
  wedge false t2 k (wedge false t1 k p) = wedge false (t1 + t2) k p.
Proof. exact EdgeWedge.wedge_wedge. Qed.
Print Assumptions C73_wedges_add.

Theorem C73_wedge_inverse : forall t k p, / 1000000000 <= Rabs (k * p_chi p) ->
  wedge_ok t k p -> wedge_ok (- t) k (wedge false t k p) -> wedge false (- t) k (wedge false t k p) = p.
Proof. exact EdgeWedge.wedge_inverse. Qed.
Print Assumptions C73_wedge_inverse.

(** Backtracking through a magnet with linear edges takes the particle back; one through full edges loses it. *)
Theorem C73_backtrack : forall sp ptc w m p, mg_ks (eg_mag m) = 0 -> plain (first_edge m) -> plain (last_edge m) ->
  returns sp w m p ->
  exists q, track_edged sp false false w m p = Some q /\ track_edged sp ptc true w m q = Some p.
Proof. exact EdgeBack.edged_back. Qed.
Print Assumptions C73_backtrack.

Theorem C73_backtrack_element : forall sp ptc ptc' side k e1 fd hgap fint p,
  exists q, DipoleEdge_track sp ptc false 0 side k e1 fd hgap fint p = Some q /\
            DipoleEdge_track sp ptc' true 0 side k e1 fd hgap fint q = Some p.
Proof. exact EdgeCases.linear_element_back. Qed.
Print Assumptions C73_backtrack_element.

Theorem C73_full_lost : forall sp ptc w m p, full (first_edge m) \/ full (last_edge m) ->
  track_edged sp ptc true w m p = None.
Proof. exact EdgeCases.edged_lost. Qed.
Print Assumptions C73_full_lost.

Theorem C73_full_lost_element : forall sp ptc side k e1 fd hgap fint is_exit kn ks order p,
  DipoleEdge_track sp ptc true 1 side k e1 fd hgap fint p = None /\
  MultipoleEdge_track true is_exit kn ks order p = None.
Proof. exact EdgeCases.elements_lost. Qed.
Print Assumptions C73_full_lost_element.

(** The edges of a magnet without field do nothing, whatever their model and face angle. *)
Theorem C73_off : forall sp ptc e (is_exit : bool) kn ks m rel ref x0 y0 l p,
  off kn ks m rel -> no_potential p -> p_beta0 p <> 0 ->
  (/ 1000000000 < Rabs (ed_angle e) ->
   turns_forward (if is_exit then - sin (ed_angle e) else sin (ed_angle e)) (cos (ed_angle e)) p) ->
  magnet_edge sp ptc false e is_exit kn ks m rel ref 0 x0 y0 l p = Some p.
Proof. exact EdgeOff.edge_off. Qed.
Print Assumptions C73_off.

(** Without gap the linear and the nonlinear edge of a dipole focus particles on the axis by the same amount. *)
Theorem C73_agree : forall sp (is_exit active : bool) a fint hgap kn ks m rel ref ksol x0 y0 l p,
  straight_on p -> - PI / 2 < a < PI / 2 -> (a = 0 \/ / 1000000000 < Rabs a) -> hgap * fint = 0 ->
  / 1000000000 <= Rabs (edge_k0 kn m rel ref l) ->
  exists q1 q2,
    magnet_edge sp false false (mkEdge active 0 a 0 fint hgap) is_exit kn ks m rel ref ksol x0 y0 l p = Some q1 /\
    magnet_edge sp false false (mkEdge active 2 a 0 fint hgap) is_exit kn ks m rel ref ksol x0 y0 l p = Some q2 /\
    p_py q1 = p_py q2 /\ p_py q1 = - (edge_k0 kn m rel ref l * p_chi p * tan a) * p_y p.
Proof. exact EdgeOff.edges_agree. Qed.
Print Assumptions C73_agree.

(** A linear edge is a thin quadrupole of the face angle, corrected vertically for the gap. *)
Theorem C73_linear_kicks : forall sp ptc (b ex act : bool) a fd fint hgap kn ks m rel ref ksol x0 y0 l p,
  let k := edge_k0 kn m rel ref l in let f := if b then - 1 else 1 in
  let gap := 2 * k * hgap * fint * (1 + sin (a + fd) * sin (a + fd)) / cos (a + fd) in
  exists q, magnet_edge sp ptc b (mkEdge act 0 a fd fint hgap) ex kn ks m rel ref ksol x0 y0 l p = Some q /\
    p_px q = p_px p + f * p_chi p * k * tan a * p_x p /\
    p_py q = p_py p - f * p_chi p * k * tan (a + fd - gap) * p_y p /\
    p_x q = p_x p /\ p_y q = p_y p /\ p_zeta q = p_zeta p /\ p_delta q = p_delta p.
Proof. exact EdgeOff.linear_kicks. Qed.
Print Assumptions C73_linear_kicks.

(** The field of an edge is the whole dipole field of the magnet. *)
Theorem C73_strength : forall kn m rel ref l, / 10000000000 < Rabs l ->
  edge_k0 kn m rel ref l * l
  = nth 0 kn 0 * l + nth 0 (mu_knl m) 0 + ref * match rel with Some r => nth 0 (mu_knl r) 0 | None => 0 end.
Proof. exact EdgeOff.k0_strength. Qed.
Print Assumptions C73_strength.

(** A DipoleEdge is the edge of a dipole; two Wedges of opposite angles and orders cancel. *)
Theorem C73_dipole_edge : forall sp ptc b (model : Z) (is_exit : bool) k e1 fd hgap fint l x0 y0 p,
  (model = 0 \/ model = 1)%Z -> Rabs e1 <> / 1000000000 -> no_potential p ->
  DipoleEdge_track sp ptc b model (if is_exit then 1 else 0) k e1 fd hgap fint p
  = magnet_edge sp ptc b (mkEdge true (if Z.eqb model 1 then 2 else 0) e1 fd fint hgap) is_exit
      [k; 0; 0; 0] [0; 0; 0; 0] (mkMult 0 1 [0] [0]) None 0 0 x0 y0 l p.
Proof. exact EdgeOff.dipole_edge. Qed.
Print Assumptions C73_dipole_edge.

Theorem C73_wedge_element : forall t k k1 p, / 1000000000 <= Rabs (k * p_chi p) ->
  wedge_ok t k p -> wedge_ok (- t) k (wedge false t k p) ->
  Wedge_track false (- t) k k1 1 (Wedge_track false t k k1 0 p) = p.
Proof. exact EdgeOff.Wedge_back. Qed.
Print Assumptions C73_wedge_element.

(** A bend with full edges of half a radian: the reference particle goes through rotations, dipole and multipole
    fringes, quadrupole wedges and wedges; and a bend with linear edges through which every particle returns. *)
Example C73_case :
  (forall sp, fits (edged_steps sp 1 EdgeCases.full_bend) SympExamples.rest) /\
  full (first_edge EdgeCases.full_bend) /\
  (forall sp p, no_potential p -> returns sp 1 EdgeCases.linear_bend p) /\
  plain (first_edge EdgeCases.linear_bend).
Proof.
  exact (conj EdgeCases.full_fits (conj (conj eq_refl (or_introl eq_refl))
    (conj EdgeCases.linear_returns EdgeCases.linear_plain))).
Qed.
