(** C67: lattice functions from the normal form matrix. *)
From Coq Require Import Reals List Arith.
From Verif.Model Require Import Lattice.
From Verif.Spec Require Import Lattice.
From Verif.Proofs Require Lattice LatticeInverse LatticePhase LatticeCases.
Import ListNotations.
Local Open Scope R_scope.

(** The lattice functions do not depend on phase and norm of the eigenvectors. *)
Theorem C67_gauge : forall w w', regular w -> same_mode (w1 w) (w1 w') -> same_mode (w2 w) (w2 w') -> same_mode (w3 w) (w3 w') ->
  lattice_functions w' = lattice_functions w.
Proof. exact Verif.Proofs.Lattice.gauge. Qed.
Print Assumptions C67_gauge.

(** Without coupling beta gamma - alfa^2 is 1, and the matrix is that of Courant and Snyder. *)
Theorem C67_courant_snyder : forall row m, (row = 0 \/ row = 2 \/ row = 4)%nat -> in_plane row m -> symp (re m) (im m) <> 0 ->
  beta row (to_basis row m) * gama row (to_basis row m) - alfa row (to_basis row m) * alfa row (to_basis row m) = 1.
Proof. exact Verif.Proofs.Lattice.basis_cs. Qed.
Print Assumptions C67_courant_snyder.
Theorem C67_entries : forall row m, (row = 0 \/ row = 2 \/ row = 4)%nat -> in_plane row m -> 0 < symp (re m) (im m) ->
  let b := to_basis row m in 0 < beta row b /\
  re b row = sqrt (beta row b) /\ im b row = 0 /\ re b (S row) = - alfa row b / sqrt (beta row b) /\ im b (S row) = 1 / sqrt (beta row b).
Proof. exact Verif.Proofs.Lattice.basis_entries. Qed.
Print Assumptions C67_entries.

(** The lattice functions after a linear map are those given by its matrix. *)
Theorem C67_transport : forall row m m' a b c d, regular_mode row m -> regular_mode row m' -> symp (re m') (im m') = symp (re m) (im m) ->
  transported row a b c d m m' ->
  let t := to_basis row m in let t' := to_basis row m' in
  beta row t' = a * a * beta row t - 2 * a * b * alfa row t + b * b * gama row t /\
  alfa row t' = - a * c * beta row t + (a * d + b * c) * alfa row t - b * d * gama row t /\
  gama row t' = c * c * beta row t - 2 * c * d * alfa row t + d * d * gama row t.
Proof. exact Verif.Proofs.Lattice.transport. Qed.
Print Assumptions C67_transport.
Theorem C67_transport_phase : forall row m m' a b c d, (row = 0 \/ row = 2 \/ row = 4)%nat -> in_plane row m -> 0 < symp (re m) (im m) ->
  regular_mode row m' -> symp (re m') (im m') = symp (re m) (im m) -> transported row a b c d m m' ->
  let t := to_basis row m in let t' := to_basis row m' in
  let adv := phase row (renormalize m') - phase row (renormalize m) in
  sqrt (beta row t * beta row t') * cos adv = a * beta row t - b * alfa row t /\ sqrt (beta row t * beta row t') * sin adv = b.
Proof. exact Verif.Proofs.Lattice.transport_phase. Qed.
Print Assumptions C67_transport_phase.

(** Phase advances accumulate: steps of less than half a turn are summed up. *)
Theorem C67_phase_advance : forall row pick s ws d psi, List.length ws = List.length s -> s <> [] ->
  (forall i, (i < List.length s)%nat -> symp (re (pick (nth i ws d))) (im (pick (nth i ws d))) <> 0 /\ has_phase row (pick (nth i ws d)) (psi i)) ->
  (forall i, (S i < List.length s)%nat -> Rabs (psi (anchor s (S i)) - psi (anchor s i)) < PI) ->
  mu row pick s ws = map (fun i => (psi (anchor s i) - psi 0%nat) / (2 * PI)) (seq 0 (List.length s)).
Proof. exact Verif.Proofs.LatticePhase.mu_ok. Qed.
Print Assumptions C67_phase_advance.
(** The place whose phase is taken is at the same s. *)
Theorem C67_anchor : forall s i, (forall j, (S j < List.length s)%nat -> nth j s 0 <= nth (S j) s 0) -> (i < List.length s)%nat ->
  nth (anchor s i) s 0 = nth i s 0.
Proof. exact Verif.Proofs.LatticePhase.anchor_s. Qed.
Print Assumptions C67_anchor.
(** After a turn the phase advance is the tune, up to an integer. *)
Theorem C67_tune : forall row pick s ws d mu_turn, List.length ws = List.length s -> s <> [] ->
  let first := pick (nth 0 ws d) in let end_ := pick (nth (List.length s - 1) ws d) in
  regular_mode row first -> symp (re end_) (im end_) <> 0 ->
  re end_ row = re first row * cos mu_turn - im first row * sin mu_turn -> im end_ row = re first row * sin mu_turn + im first row * cos mu_turn ->
  exists k, last (mu row pick s ws) 0 = mu_turn / (2 * PI) + IZR k.
Proof. exact Verif.Proofs.LatticePhase.tune. Qed.
Print Assumptions C67_tune.

(** Dispersion is the motion in the longitudinal plane per unit of pzeta at zeta zero, crab dispersion that per unit of zeta at pzeta zero. *)
Theorem C67_dispersion : forall m r p q, regular_mode 4 m -> p * re m 4%nat + q * im m 4%nat = 0 -> p * re m 5%nat + q * im m 5%nat = 1 ->
  disp_pzeta r (to_basis 4 m) = p * re m r + q * im m r.
Proof. exact Verif.Proofs.Lattice.dispersion. Qed.
Print Assumptions C67_dispersion.
Theorem C67_crab_dispersion : forall m r p q, regular_mode 4 m -> p * re m 4%nat + q * im m 4%nat = 1 -> p * re m 5%nat + q * im m 5%nat = 0 ->
  re m 4%nat * im m 5%nat - im m 4%nat * re m 5%nat <> 0 ->
  disp_zeta r (to_basis 4 m) = p * re m r + q * im m r.
Proof. exact Verif.Proofs.Lattice.crab_dispersion. Qed.
Print Assumptions C67_crab_dispersion.

(** For symplectic matrices the computation with the inverse gives the same. *)
Theorem C67_inverse : forall w inv, symplectic w -> regular w -> inverse (entries (to_courant_snyder w)) inv ->
  let l := lattice_functions w in
  with_inverse (entries (to_courant_snyder w)) inv =
    mkTwiss12 (betx l) (alfx l) (gamx l) (bety l) (alfy l) (gamy l) (bety1 l) (betx2 l) (alfy1 l) (alfx2 l) (gamy1 l) (gamx2 l).
Proof. exact Verif.Proofs.LatticeInverse.inverse_agrees. Qed.
Print Assumptions C67_inverse.

(** The functions of Edwards and Teng of a coupled lattice obey beta gamma - alfa^2 = 1 in both planes. *)
Theorem C67_edwards_teng : forall w, symplectic_pair (w1 w) (w2 w) -> regular w ->
  re (w1 w) 0%nat * im (w1 w) 1%nat - re (w1 w) 1%nat * im (w1 w) 0%nat <> 0 ->
  let l := lattice_functions w in 0 < g_squared l /\
  betx_edw_teng l * (gamx l / g_squared l) - alfx_edw_teng l * alfx_edw_teng l = 1 /\
  bety_edw_teng l * (gamy l / g_squared l) - alfy_edw_teng l * alfy_edw_teng l = 1.
Proof. exact Verif.Proofs.Lattice.edwards_teng. Qed.
Print Assumptions C67_edwards_teng.

Import Verif.Proofs.LatticeCases.
Example C67_case : symplectic ex_w /\ regular ex_w /\ in_plane 0 (w1 ex_w) /\
  betx (lattice_functions ex_w) = 4 /\ alfx (lattice_functions ex_w) = 1 /\ gamx (lattice_functions ex_w) = 1 / 2.
Proof. exact case_ok. Qed.
Example C67_dispersion_case : regular_mode 4 ex_mode_disp /\ disp_pzeta 0 (to_basis 4 ex_mode_disp) = 3 /\ disp_pzeta 1 (to_basis 4 ex_mode_disp) = 0.
Proof. exact disp_case. Qed.
(** A step of three quarters of a turn is seen as one of minus a quarter. *)
Theorem C67_long_step_refuted : (forall i, (i < 2)%nat -> has_phase 0 (w1 (nth i [turn_a; turn_b] turn_a)) (true_phase i)) /\
  mu 0 w1 [0; 1] [turn_a; turn_b] = [0; - (1 / 4)] /\ (true_phase 1 - true_phase 0) / (2 * PI) = 3 / 4.
Proof. exact long_step_refuted. Qed.
Print Assumptions C67_long_step_refuted.
