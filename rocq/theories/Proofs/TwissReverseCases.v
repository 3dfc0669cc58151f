(** Cases for twiss tables in the reverse frame. *)
From Coq Require Import Reals List Bool String Arith Lra Lia.
From Verif.Model Require Import Lattice TwissReverse.
From Verif.Spec Require Import Lattice TwissReverse.
From Verif.Proofs Require Import TwissReverse.
Import ListNotations.
Local Open Scope R_scope.
Local Open Scope string_scope.

Definition unit_mode (r : nat) : mode := mkMode (fun q => if Nat.eqb q r then 1 else 0) (fun q => if Nat.eqb q (S r) then 1 else 0).
Definition W0 : wmat := mkW (unit_mode 0) (unit_mode 2) (unit_mode 4).
Definition lat (l : lattice) (other : string -> R) (k : string) : R :=
  match k with
  | "betx" => betx l | "alfx" => alfx l | "gamx" => gamx l | "bety" => bety l | "alfy" => alfy l | "gamy" => gamy l
  | "bety1" => bety1 l | "alfy1" => alfy1 l | "gamy1" => gamy1 l | "betx2" => betx2 l | "alfx2" => alfx2 l | "gamx2" => gamx2 l
  | "dx" => dx l | "dpx" => dpx l | "dy" => dy l | "dpy" => dpy l
  | "dx_zeta" => dx_zeta l | "dpx_zeta" => dpx_zeta l | "dy_zeta" => dy_zeta l | "dpy_zeta" => dpy_zeta l
  | "betx_edw_teng" => betx_edw_teng l | "alfx_edw_teng" => alfx_edw_teng l
  | "bety_edw_teng" => bety_edw_teng l | "alfy_edw_teng" => alfy_edw_teng l
  | _ => other k end.
Definition row1 (n : R) : orow := mkO (lat (lattice_functions W0) (fun k => match k with
  | "s" => 2 * n | "mux" => n / 4 | "muy" => n / 3 | "muzeta" => 0 | "dzeta" => n
  | "x" => 1 + n | "y" => 2 * n | "px" => n / 5 | "py" => 1 | "kin_px" => n / 5 | "kin_py" => 1 / 2 | _ => 3 end)) (fun _ => (1, 2)) W0.
(** A corrector, hkick = 1 and vkick = 2, and a quadrupole *)
Definition corrector : erow := mkE "kick" (fun k => match k with "k0l" => -1 | "k0sl" => 2 | "hkick" => 1 | "vkick" => 2 | _ => 0 end).
Definition quad : erow := mkE "quad" (fun k => match k with "k1l" => 1 | _ => 0 end).
Definition end_point : erow := mkE "_end_point" (fun _ => 0).
Definition t1 (markers : bool) : table :=
  mkT [corrector; quad; end_point] [row1 0; row1 1; row1 2] true markers (Some 4) true false (fun _ => 0).

Definition unzip (o : option table) : table := match o with Some t => t | None => t1 false end.
Definition t1' (markers : bool) : table := unzip (reverse (t1 markers)).
Lemma t1_reverse : forall m, reverse (t1 m) = Some (t1' m).
Proof. intros m; unfold t1', reverse; cbn [rev t1 t_els t_ops app t_entry andb e_name end_point]. reflexivity. Qed.
Lemma t1_complete : complete (t1 false).
Proof. split; [reflexivity|split; [|reflexivity]]. exists [corrector; quad], end_point; split; reflexivity. Qed.
Lemma t1_start : from_start (t1 false).
Proof. intros o H. injection H as <-. cbn. repeat split; try lra; discriminate. Qed.
Lemma t1_4d : four_d (t1 false).
Proof. intros _ o H. cbn [t1 t_ops In] in H. destruct H as [<-|[<-|[<-|[]]]]; reflexivity. Qed.
Lemma W0_regular : regular W0.
Proof. unfold regular, regular_mode, W0, unit_mode, symp; cbn. repeat split; try lra; left; lra. Qed.
Lemma t1_columns : forall o, In o (t_ops (t1 false)) -> regular (o_W o) /\ columns_of_W o.
Proof.
  intros o H. cbn [t1 t_ops In] in H.
  assert (forall n, regular (o_W (row1 n)) /\ columns_of_W (row1 n)).
  { intro n. split; [exact W0_regular|]. unfold columns_of_W, row1; cbn [o_W o_col]. unfold lat. repeat split; reflexivity. }
  destruct H as [<-|[<-|[<-|[]]]]; auto.
Qed.

(** hkick and vkick are not the kicks of the strengths of the reversed table. *)
Lemma kicks_refuted : exists t t', complete t /\ t_markers t = false /\ reverse t = Some t' /\
  (forall e, In e (t_els t) -> e_att e "hkick" = e_att e "angle" - e_att e "k0l" /\ e_att e "vkick" = e_att e "k0sl") /\
  exists e, In e (t_els t') /\ e_att e "hkick" <> e_att e "angle" - e_att e "k0l" /\ e_att e "vkick" <> e_att e "k0sl".
Proof.
  exists (t1 false), (t1' false). split; [exact t1_complete|split; [reflexivity|split; [apply t1_reverse|split]]].
  - intros e H. cbn [t1 t_els In] in H. destruct H as [<-|[<-|[<-|[]]]]; cbn; lra.
  - destruct (reverse_shape _ _ (eq_refl : t_markers (t1 false) = false) (t1_reverse false)) as (_ & E & _). rewrite E.
    exists (reverse_strengths corrector). split; [|cbn; lra].
    apply in_map. cbn. tauto.
Qed.
(** The dispersion in zeta of the reversed table has not the sign of zeta. *)
Lemma dzeta_refuted : exists t t' o oe, complete t /\ t_markers t = false /\ from_start t /\ reverse t = Some t' /\
  nth_error (t_ops t) 0 = Some o /\ nth_error (t_ops t) (List.length (t_ops t) - 1) = Some oe /\
  exists o', nth_error (t_ops t') (List.length (t_ops t) - 1) = Some o' /\ o_col o' "zeta" = - o_col o "zeta" /\
    o_col o' "dzeta" <> o_col oe "dzeta" - o_col o "dzeta".
Proof.
  exists (t1 false), (t1' false), (row1 0), (row1 2).
  split; [exact t1_complete|split; [reflexivity|split; [exact t1_start|split; [apply t1_reverse|split; [reflexivity|split; [reflexivity|]]]]]].
  destruct (reverse_shape _ _ (eq_refl : t_markers (t1 false) = false) (t1_reverse false)) as (_ & _ & O & _).
  exists (image (length_of (t1 false)) (last_col (t1 false) (row1 0)) true (row1 0)). split; [rewrite (O (row1 0)); reflexivity|].
  split; [rewrite image_other by (cbn; intuition discriminate); reflexivity|].
  rewrite image_dzeta. unfold last_col. rewrite ns_dzeta. cbn. lra.
Qed.
(** Reversed initial conditions keep the vector potential ay although py changes sign. *)
Lemma potential_refuted : exists t t' e o, complete t /\ t_markers t = false /\ reverse t = Some t' /\
  nth_error (t_ops t) 0 = Some o /\
  exists o', nth_error (t_ops t') (List.length (t_ops t) - 1) = Some o' /\
    i_part (get_init t' e o') "py" = i_part (reverse_init (get_init t e o)) "py" /\
    i_part (get_init t' e o') "ay" <> i_part (reverse_init (get_init t e o)) "ay".
Proof.
  exists (t1 false), (t1' false), end_point, (row1 0).
  split; [exact t1_complete|split; [reflexivity|split; [apply t1_reverse|split; [reflexivity|]]]].
  destruct (reverse_shape _ _ (eq_refl : t_markers (t1 false) = false) (t1_reverse false)) as (_ & _ & O & _).
  exists (image (length_of (t1 false)) (last_col (t1 false) (row1 0)) true (row1 0)). split; [rewrite (O (row1 0)); reflexivity|].
  generalize (length_of (t1 false)) (last_col (t1 false) (row1 0)). intros L f.
  assert (P : o_col (image L f true (row1 0)) "py" = -1) by (rewrite image_other by (cbn; intuition discriminate); cbn; lra).
  assert (K : o_col (image L f true (row1 0)) "kin_py" = - (1 / 2)) by (rewrite image_other by (cbn; intuition discriminate); cbn; lra).
  unfold get_init at 1 3, reverse_init; cbn [i_part]. unfold negate. cbv [mem existsb taken String.eqb Ascii.eqb Bool.eqb orb].
  rewrite P, K. cbn. split; lra.
Qed.
(** A table of markers only loses its last row. *)
Lemma markers_refuted : exists t t' t'', complete t /\ t_markers t = true /\ from_start t /\ four_d t /\ reverse t = Some t' /\
  reverse t' = Some t'' /\ t'' <> t.
Proof.
  assert (C : complete (t1 true)) by exact t1_complete.
  set (m := t1 true). assert (R : reverse m = Some (unzip (reverse m))) by reflexivity.
  set (m' := unzip (reverse m)) in *. assert (R' : reverse m' = Some (unzip (reverse m'))) by reflexivity.
  exists m, m', (unzip (reverse m')). split; [exact C|split; [reflexivity|split; [|split; [|split; [exact R|split; [exact R'|]]]]]].
  - intros o H. injection H as <-. cbn. repeat split; try lra; discriminate.
  - intros _ o H. cbn [m t1 t_ops In] in H. destruct H as [<-|[<-|[<-|[]]]]; reflexivity.
  - intro E. apply (f_equal (fun t => o_col (nth 2 (t_ops t) (row1 0)) "s")) in E. cbn in E. lra.
Qed.
