From Coq Require Import Reals Lra.
From Verif.Model Require Import Maps Curved.
From Verif.Spec Require Import Frames Aligned Poses.
From Verif.Proofs Require Import Frames FrameMaps Misalign Curved Bends MapsCases.
Local Open Scope R_scope.

(** a bend of curvature 1, turned and shifted at its entry *)
Definition al2 : align := mkAlign (1/10) 0 (2/10) (atan (5/12)) 0 0 0 0.

Lemma al2_entry : bend_entry al2 0 1 = misplaced (1/10) 0 (2/10) (atan (5/12)) 0 0.
Proof.
  unfold bend_entry, moved_entry, al2; cbn [al_x al_y al_s al_theta al_phi al_psi al_tilt].
  rewrite Rmult_0_l, tarc_0 by lra. rewrite pmul_id_l.
  replace (pinv pid) with pid; [apply pmul_id_r|].
  apply pinv_unique; [|apply pmul_id_l]. rewrite <- (tarc_0 1 0) by lra. apply rigid_tarc.
Qed.

Lemma al2_enterable : enterable_bend al2 0 1 p1.
Proof.
  split; [exact p1_physical|]. rewrite al2_entry. destruct cs1 as [C S].
  unfold reachable, forward, momentum, misplaced, attitude; cbn [rotn]. rewrite p1_pz, C, S, cos_0, sin_0.
  cbv [Rot_x Rot_y Rot_s mmul transp app dot m_x m_y m_z v_x v_y v_z p1 p_px p_py].
  repeat split; lra.
Qed.
Lemma al2_active : rot_shift_active al2 = true.
Proof. unfold rot_shift_active, al2, is0; cbn. destruct (Req_EM_T (1/10) 0); [lra|reflexivity]. Qed.
