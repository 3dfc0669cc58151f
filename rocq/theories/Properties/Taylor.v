(** C77: Taylor maps. *)
From Coq Require Import Reals List Arith.
From Verif.Model Require Import Taylor.
From Verif.Spec Require Import Taylor.
From Verif.Proofs Require Taylor.
Local Open Scope R_scope.

(** The map made from part of a line takes the closed orbit to the closed orbit, for every line. *)
Theorem C77_orbit : forall s f co_in co_out l i, of_six f -> steps_ok s -> apply2 (from_line s f co_in co_out l) co_in i = co_out i.
Proof. exact Verif.Proofs.Taylor.orbit. Qed.
Print Assumptions C77_orbit.
(** It is the expansion of the line around the closed orbit with the matrices of get_R_matrix and get_T_matrix. *)
Theorem C77_expansion : forall s f co_in co_out l z i, of_six f -> steps_ok s ->
  apply2 (from_line s f co_in co_out l) z i =
  quadratic co_out (R_matrix s f co_in) (T_matrix s s f co_in) (fun j => z j - co_in j) i.
Proof. exact Verif.Proofs.Taylor.expansion. Qed.
Print Assumptions C77_expansion.
(** Second differences do not depend on the order, for every line. *)
Theorem C77_symmetric : forall s f z, of_six f -> steps_ok s -> symmetric (T_matrix s s f z).
Proof. exact Verif.Proofs.Taylor.T_symmetric. Qed.
Print Assumptions C77_symmetric.
(** A line which is a map of second order is found exactly, whatever the steps and the closed orbit; for second order in pzeta the steps in pzeta must be the same on both sides. *)
Theorem C77_exact : forall s k A B co l z i, symmetric B -> steps_ok s ->
  (forall v, B i 5%nat 5%nat * (s_up s v - s_down s v) = 0) ->
  apply2 (from_line s (quadratic k A B) co (quadratic k A B co) l) z i = quadratic k A B z i.
Proof. exact Verif.Proofs.Taylor.exact_quadratic. Qed.
Print Assumptions C77_exact.
Theorem C77_exact_refuted : exists s k A B z i, symmetric B /\ steps_ok s /\
  apply2 (from_line s (quadratic k A B) (fun _ => 0) (quadratic k A B (fun _ => 0)) 0) z i <> quadratic k A B z i.
Proof. exact Verif.Proofs.Taylor.exact_refuted. Qed.
Print Assumptions C77_exact_refuted.
(** Tracking evaluates the polynomial. *)
Theorem C77_polynomial : forall m z i, apply2 m z i = quadratic (m_k m) (m_R m) (m_T m) z i.
Proof. exact Verif.Proofs.Taylor.apply_quadratic. Qed.
Print Assumptions C77_polynomial.
(** Scaled maps take scaled coordinates and give scaled results; they are the map in the new coordinates for factors 1 and -1 but not in general. *)
Theorem C77_scaled : forall c m z i, apply2 (scale c m) z i = c i * apply2 m (fun j => c j * z j) i.
Proof. exact Verif.Proofs.Taylor.scaled. Qed.
Print Assumptions C77_scaled.
Theorem C77_reflected : forall c m z i, (forall j, c j = 1 \/ c j = -1) -> apply2 (scale c m) (fun j => c j * z j) i = c i * apply2 m z i.
Proof. exact Verif.Proofs.Taylor.reflected. Qed.
Print Assumptions C77_reflected.
Theorem C77_scaled_refuted : exists c m z i, (forall j, c j <> 0) /\ apply2 (scale c m) (fun j => c j * z j) i <> c i * apply2 m z i.
Proof. exact Verif.Proofs.Taylor.scaled_refuted. Qed.
Print Assumptions C77_scaled_refuted.
(** First order maps compose as matrices and are second order maps in other coordinates. *)
Theorem C77_composed : forall m n p i, (i < 6)%nat -> p_beta0 p <> 0 ->
  p_z (track1 n (track1 m p)) i =
  p_z (track1 (mkMap1 (fun i => f_m0 n i + sum (fun j => f_m1 n i j * f_m0 m j)) (fun i j => sum (fun l => f_m1 n i l * f_m1 m l j))
                      (f_length m + f_length n)) p) i.
Proof. exact Verif.Proofs.Taylor.composed. Qed.
Print Assumptions C77_composed.
Theorem C77_first_second : forall m p i, (i < 6)%nat -> p_beta0 p <> 0 ->
  let u i := match i with 4%nat => p_beta0 p | 5%nat => / p_beta0 p | _ => 1 end in
  p_z (track1 m p) i = p_z (track2 (mkMap (fun i => u i * f_m0 m i) (fun i j => u i * f_m1 m i j / u j) (fun _ _ _ => 0) (f_length m)) p) i /\
  p_s (track1 m p) = p_s p + f_length m /\ (forall m2, p_s (track2 m2 p) = p_s p + m_length m2).
Proof. exact Verif.Proofs.Taylor.first_second. Qed.
Print Assumptions C77_first_second.

Example C77_case : steps_ok Verif.Proofs.Taylor.steps1 /\ symmetric Verif.Proofs.Taylor.bend1 /\ (forall i v, Verif.Proofs.Taylor.bend1 i 5%nat 5%nat * (s_up Verif.Proofs.Taylor.steps1 v - s_down Verif.Proofs.Taylor.steps1 v) = 0) /\
  quadratic (fun _ => 0) (fun i j => if Nat.eqb i j then 1 else 0) Verif.Proofs.Taylor.bend1 (fun _ => 1) 1 = 2.
Proof. exact Verif.Proofs.Taylor.case_taylor. Qed.
