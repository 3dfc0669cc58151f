(** Cases of reversal *)
From Coq Require Import Reals ZArith Lra Lia List Bool Arith String.
From Verif.Model Require Import Maps Curved Magnet FeedDown Reverse.
From Verif.Spec Require Import Magnets Reverse.
From Verif.Proofs Require Import Reverse ReverseTrack.
Import ListNotations.
Local Open Scope R_scope.
Local Open Scope string_scope.

Definition fields (l : list (string * R)) (k : string) : option R :=
  match find (fun p => String.eqb k (fst p)) l with Some p => Some (snd p) | None => None end.
(** A thin quadrupole displaced horizontally *)
Definition displaced : elem := mkElem "Multipole" (fields [("shift_x", 1)]) (Some [0; 1]) (Some [0; 0]).
(** A bend with different edges *)
Definition bend : elem :=
  mkElem "Bend" (fields [("length", 2); ("k0", 1); ("k1", 3); ("edge_entry_angle", 5); ("edge_exit_angle", 7)]) None None.
Definition at_origin : part := mkPart 0 0 0 0 0 0 0 0 1 1 1 1 0 0 0 0 0.

Lemma shift_not_mirrored pi : exists e e' p,
  reverse_element pi e = Some e' /\ well_formed e /\
  ~ (p_px (thin_track false e' p) - p_px p = p_px (thin_track false e (set_x (- p_x p) p)) - p_px p).
Proof.
  destruct (proj1 (defined pi displaced)) as (e' & He'); [unfold is_supported; cbn; tauto|].
  exists displaced, e', at_origin. split; [exact He'|]. split.
  { split; [unfold is_supported; cbn; tauto|]. intros k Hk.
    unfold edge_keys in Hk. repeat (destruct Hk as [<-|Hk]; [cbn; tauto|]). destruct Hk. }
  destruct (reverse_element_spec pi displaced e' He') as (_ & F & N & S).
  unfold thin_track. rewrite N, S, !F. unfold field_after.
  cbn [e_class e_field e_knl e_ksl displaced option_map flip_from array value List.length Nat.sub negb].
  cbn -[track_aligned track_magnet thin_multipole].
  replace (- p_x at_origin) with 0 by (cbn; ring).
  match goal with |- context [track_aligned ?s (mkAlign ?dx ?dy 0 0 0 0 0 ?psi) 0 0 false (fun bt => track_magnet bt 1 (thin_multipole 1 [0; - (1)] ?k)) ?p] =>
    destruct (aligned_thin s dx dy psi 0 1 [0; - (1)] k p) as (_ & _ & A & _) end.
  match goal with |- context [track_aligned ?s (mkAlign ?dx ?dy 0 0 0 0 0 ?psi) 0 0 false (fun bt => track_magnet bt 1 (thin_multipole 1 [0; 1] ?k)) ?p] =>
    destruct (aligned_thin s dx dy psi 0 1 [0; 1] k p) as (_ & _ & B & _) end.
  rewrite A, B. clear A B. rewrite cos_0, sin_0.
  unfold kick_coordinates. cbn. lra.
Qed.

Lemma used_twice pi : exists d names, known d names /\ ~ NoDup names /\
  forall d' names', reverse_line pi d names = Some (d', names') ->
  exists n e e', In n names /\ d n = Some e /\ reverse_element pi e = Some e' /\
    (exists e'', d' n = Some e'' /\ same_elem e'' e) /\ ~ same_elem e' e.
Proof.
  set (d := fun n : string => if String.eqb n "b" then Some bend else None).
  assert (W : well_formed bend).
  { split; [unfold is_supported; cbn; tauto|]. intros k Hk.
    unfold edge_keys in Hk. repeat (destruct Hk as [<-|Hk]; [cbn; split; congruence|]). destruct Hk. }
  exists d, ["b"; "b"]. split.
  { intros n [<-|[<-|[]]]; exists bend; split; try reflexivity; exact W. }
  split. { intros H. inversion H as [|? ? N _]. apply N. now left. }
  intros d' names' H. destruct (twice pi bend W) as (e' & e'' & E1 & E2 & E3).
  exists "b", bend, e'. split; [now left|]. split; [reflexivity|]. split; [exact E1|]. split.
  - exists e''. split; [|exact E3]. unfold reverse_line in H.
    assert (X : reverse_names pi ["b"; "b"] d = Some (set_elem (set_elem d "b" e') "b" e'')).
    { cbn [reverse_names]. change (d "b") with (Some bend). cbv iota beta. rewrite E1.
      change (set_elem d "b" e' "b") with (Some e'). cbv iota beta. now rewrite E2. }
    rewrite X in H. assert (d' = set_elem (set_elem d "b" e') "b" e'') by congruence. subst d'. reflexivity.
  - intros (_ & F & _). specialize (F "k1"). destruct (reverse_element_spec pi bend e' E1) as (_ & G & _).
    rewrite G in F. cbn in F. assert (Hv : - (3) = 3) by congruence. lra.
Qed.

Lemma bend_case pi : exists e', reverse_element pi bend = Some e' /\ well_formed bend /\
  e_field e' "k1" = Some (- (3)) /\ e_field e' "k0" = Some 1 /\ e_field e' "edge_entry_angle" = Some 7 /\
  e_field e' "edge_exit_angle" = Some 5 /\ kn e' 1 = - (6).
Proof.
  assert (W : well_formed bend).
  { split; [unfold is_supported; cbn; tauto|]. intros k Hk.
    unfold edge_keys in Hk. repeat (destruct Hk as [<-|Hk]; [cbn; split; congruence|]). destruct Hk. }
  destruct (proj1 (defined pi bend) (proj1 W)) as (e' & He'). exists e'.
  destruct (reverse_element_spec pi bend e' He') as (_ & F & N & _).
  split; [exact He'|]. split; [exact W|]. rewrite !F.
  repeat split; try reflexivity. unfold kn, per_meter. cbn [key]. rewrite N, !F. cbn. ring.
Qed.
