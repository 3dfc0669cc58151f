(** C32: merging consecutive multipoles; C30: removing multipoles which do nothing. *)
From Coq Require Import Reals List Bool String.
From Verif.Model Require Import Maps MergeMultipoles.
From Verif.Spec Require Import Frames MergeMultipoles.
From Verif.Proofs Require MergeMultipoles MergeTrack MergeLine RemoveInactive MergeCases.
Import ListNotations.
Local Open Scope R_scope.
Local Open Scope list_scope.

(** * C32 *)

(** Repeated elements are first replaced by copies under names of their own. *)
Theorem C32_repeated d order names d' names' : NoDup order -> (forall n, In n order <-> In n names) ->
  (forall n, In n names -> find d n <> None) ->
  replace_repeated d order names = Some (d', names') ->
  (forall n e, find d n = Some e -> find d' n = Some e) /\ NoDup names' /\ List.length names' = List.length names /\
  (forall i n n', nth_error names i = Some n -> nth_error names' i = Some n' -> find d' n' = find d n) /\
  (forall i n n', nth_error names i = Some n -> nth_error names' i = Some n' ->
     (count_occ string_dec names n = 1%nat -> n' = n) /\ ((1 < count_occ string_dec names n)%nat -> find d n' = None)).
Proof. exact (Verif.Proofs.MergeLine.repeated_ok d order names d' names'). Qed.
Print Assumptions C32_repeated.

(** Each longest run of mergeable neighbours becomes one element, named after all of them; whatever was in the
    environment stays as it was. *)
Theorem C32_names keep d names l : elements d names = Some l -> fresh_names keep d (runs (mergeable keep) l) ->
  exists d', merge keep d names = Some (d', map run_name (runs (mergeable keep) l)) /\
    forall n e, find d n = Some e -> find d' n = Some e.
Proof. exact (Verif.Proofs.MergeLine.merge_names keep d names l). Qed.
Print Assumptions C32_names.

(** The strengths of the new multipole are the sums, at every order. *)
Theorem C32_strengths keep d names l d' names' :
  elements d names = Some l -> fresh_names keep d (runs (mergeable keep) l) ->
  (forall n m, In (n, EMult m) l -> mergeable keep (n, EMult m) = true -> well_formed m /\ aligned m) ->
  merge keep d names = Some (d', names') -> forall h, In h (runs (mergeable keep) l) -> (1 < List.length h)%nat ->
  exists m, find d' (run_name h) = Some (EMult m) /\ List.length (mults h) = List.length h /\
  forall i, normal m i = sum (map (fun a => normal a i) (mults h)) /\ skew m i = sum (map (fun a => skew a i) (mults h)).
Proof. exact (Verif.Proofs.MergeLine.run_strengths keep d names l d' names'). Qed.
Print Assumptions C32_strengths.

(** Every particle is tracked as before, forwards and backwards. *)
Theorem C32_tracking other thick synrad keep d order names l : NoDup order -> (forall n, In n order <-> In n names) ->
  elements d names = Some l ->
  forall d1 names1 l1, replace_repeated d order names = Some (d1, names1) -> elements d1 names1 = Some l1 ->
  fresh_names keep d1 (runs (mergeable keep) l1) ->
  (forall n m, In (n, EMult m) l1 -> mergeable keep (n, EMult m) = true -> well_formed m /\ aligned m) ->
  forall d' names', merge_consecutive keep d order names = Some (d', names') -> forall bt p,
  track_line other thick synrad bt d' names' p = track_line other thick synrad bt d names p.
Proof. exact (Verif.Proofs.MergeLine.consecutive_tracks other thick synrad keep d order names l). Qed.
Print Assumptions C32_tracking.

(** Shifts are lost: with a shifted multipole the particle is tracked differently. *)
Theorem C32_shift_refuted : exists d names l p, elements d names = Some l /\ fresh_names [] d (runs (mergeable []) l) /\
  (forall n m, In (n, EMult m) l -> well_formed m) /\
  exists d' names', merge [] d names = Some (d', names') /\
  forall other thick synrad, track_line other thick synrad false d' names' p <> track_line other thick synrad false d names p.
Proof. exact Verif.Proofs.MergeCases.shifted_refuted. Qed.
Print Assumptions C32_shift_refuted.

(** An element of the line which has the name of the new multipole is replaced by it. *)
Theorem C32_name_taken_refuted : exists d names l p other, elements d names = Some l /\ NoDup names /\
  (forall n m, In (n, EMult m) l -> well_formed m /\ aligned m) /\
  exists d' names', merge [] d names = Some (d', names') /\
  forall thick synrad, track_line other thick synrad false d' names' p <> track_line other thick synrad false d names p.
Proof. exact Verif.Proofs.MergeCases.taken_refuted. Qed.
Print Assumptions C32_name_taken_refuted.

(** A line with a quadrupole three times, a sextupole and a multipole which is kept. *)
Example C32_case : NoDup MergeCases.ex_order /\ (forall n, In n MergeCases.ex_order <-> In n MergeCases.ex_names) /\
  (exists l, elements MergeCases.ex MergeCases.ex_names = Some l) /\
  exists d1, replace_repeated MergeCases.ex MergeCases.ex_order MergeCases.ex_names = Some (d1, MergeCases.ex1_names) /\
    elements d1 MergeCases.ex1_names = Some MergeCases.ex_l /\
    fresh_names ["k"%string] d1 (runs (mergeable ["k"%string]) MergeCases.ex_l) /\
    (forall n m, In (n, EMult m) MergeCases.ex_l -> mergeable ["k"%string] (n, EMult m) = true -> well_formed m /\ aligned m) /\
    exists d', merge_consecutive ["k"%string] MergeCases.ex MergeCases.ex_order MergeCases.ex_names
               = Some (d', ["q.0_s_q.1"; "k"; "m"; "q.2"]%string).
Proof. exact Verif.Proofs.MergeCases.ex_ok. Qed.

(** * C30 *)

(** The elements which stay, in their order: all but the multipoles which do nothing and are not to be kept. *)
Theorem C30_inactive_removed keep d names l names' : elements d names = Some l -> remove_inactive_multipoles keep d names = Some names' ->
  exists stays, names' = map fst (filter stays l) /\
    forall n e, stays (n, e) = false <-> ~ In n keep /\ exists m, e = EMult m /\ does_nothing m.
Proof. exact (Verif.Proofs.RemoveInactive.removed_ok keep d names l names'). Qed.
Print Assumptions C30_inactive_removed.

(** Particles are tracked as before, also when the removed multipoles were shifted or tilted. *)
Theorem C30_inactive_tracking other thick synrad keep d names l names' p : elements d names = Some l ->
  remove_inactive_multipoles keep d names = Some names' ->
  (forall n m, In (n, EMult m) l -> ~ In n keep -> does_nothing m -> mp_thick m = false /\ well_formed m) ->
  (forall k q, track_line other thick synrad false d (firstn k names) p = Some q -> physical q) ->
  track_line other thick synrad false d names' p = track_line other thick synrad false d names p.
Proof. exact (Verif.Proofs.RemoveInactive.removed_tracks other thick synrad keep d names l names' p). Qed.
Print Assumptions C30_inactive_tracking.

Example C30_inactive_case : exists d names l, elements d names = Some l /\
  remove_inactive_multipoles ["z2"%string] d names = Some ["q"; "z2"; "m"]%string /\ names = ["z"; "q"; "z2"; "m"; "z3"]%string /\
  (forall n m, In (n, EMult m) l -> ~ In n ["z2"%string] -> does_nothing m -> mp_thick m = false /\ well_formed m).
Proof. exact Verif.Proofs.MergeCases.removal_case. Qed.
