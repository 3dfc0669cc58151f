(** Cases of merging multipoles *)
From Coq Require Import Reals ZArith Lra Lia List Bool String Arith.
From Verif.Model Require Import Maps Magnet FeedDown MergeMultipoles.
From Verif.Model Require Line LineEdit.
From Verif.Spec Require Import Frames MergeMultipoles.
From Verif.Proofs Require Import FrameMaps MagnetKick Cx FeedDownTrack MergeMultipoles MergeTrack MergeLine RemoveInactive.
Import ListNotations.
Local Open Scope R_scope.
Local Open Scope list_scope.
Local Open Scope string_scope.

Definition mpole (knl ksl rel : list R) : mp := mkMp knl ksl rel rel 1 false 0 0 false 0 straight.
Lemma i0 : is0 0 = true. Proof. now apply is0_t. Qed.
Lemma i1 r : r <> 0 -> is0 r = false.
Proof. intros H. destruct (is0 r) eqn:E; [apply is0_t in E; congruence|reflexivity]. Qed.
Lemma straight_aligned knl ksl rel : aligned (mpole knl ksl rel).
Proof. unfold aligned, rot_shift_active, mpole, straight. cbn. now rewrite i0. Qed.
Lemma mpole_merges keep n knl ksl rel : mergeable keep (n, EMult (mpole knl ksl rel)) = negb (LineEdit.sin keep n).
Proof. unfold mergeable, has_transverse_rotation, mpole, straight. cbn. rewrite i0. cbn. now rewrite !andb_true_r. Qed.

(** a line with a quadrupole twice, a sextupole and one which is kept *)
Definition quad : mp := mpole [0; 1] [0; 0] [0].
Definition sext : mp := mpole [0; 1; 2] [0; 0; 1] [0; 0; 3].
Definition ex : dict := [("q", EMult quad); ("s", EMult sext); ("m", EOther 7); ("k", EMult quad)].
Definition ex_names : list string := ["q"; "s"; "q"; "k"; "m"; "q"].
Definition ex_order : list string := ["m"; "q"; "k"; "s"].
Definition ex1_names : list string := ["q.0"; "s"; "q.1"; "k"; "m"; "q.2"].
Lemma ex_replaced : exists d1, replace_repeated ex ex_order ex_names = Some (d1, ex1_names) /\
  elements d1 ex1_names = Some [("q.0", EMult quad); ("s", EMult sext); ("q.1", EMult quad); ("k", EMult quad); ("m", EOther 7); ("q.2", EMult quad)]
  /\ find d1 "q.0_s" = None /\ find d1 "q.0_s_q.1" = None.
Proof.
  unfold replace_repeated. set (x := LineEdit.replace_repeated _ _ _ _ _). vm_compute in x. subst x. cbv iota.
  eexists. split; [reflexivity|]. split; [reflexivity|split; reflexivity].
Qed.
Definition ex_l : list (string * element) :=
  [("q.0", EMult quad); ("s", EMult sext); ("q.1", EMult quad); ("k", EMult quad); ("m", EOther 7); ("q.2", EMult quad)].
Lemma ex_runs : runs (mergeable ["k"]) ex_l =
  [[("q.0", EMult quad); ("s", EMult sext); ("q.1", EMult quad)]; [("k", EMult quad)]; [("m", EOther 7)]; [("q.2", EMult quad)]].
Proof.
  unfold ex_l, quad, sext. cbn [runs].
  repeat (rewrite ?mpole_merges; change (mergeable ["k"] ("m", EOther 7)) with false;
    cbn [LineEdit.sin existsb String.eqb Ascii.eqb Bool.eqb negb andb orb]). reflexivity.
Qed.
Lemma ex_ok : NoDup ex_order /\ (forall n, In n ex_order <-> In n ex_names) /\ (exists l, elements ex ex_names = Some l) /\
  exists d1, replace_repeated ex ex_order ex_names = Some (d1, ex1_names) /\ elements d1 ex1_names = Some ex_l /\
    fresh_names ["k"] d1 (runs (mergeable ["k"]) ex_l) /\
    (forall n m, In (n, EMult m) ex_l -> mergeable ["k"] (n, EMult m) = true -> well_formed m /\ aligned m) /\
    exists d', merge_consecutive ["k"] ex ex_order ex_names = Some (d', ["q.0_s_q.1"; "k"; "m"; "q.2"]).
Proof.
  split; [|split; [|split]].
  - repeat constructor; cbn; intuition discriminate.
  - intros n. cbn. tauto.
  - eexists. reflexivity.
  - destruct ex_replaced as (d1 & R & E & F1 & F2). exists d1.
    assert (Fr : fresh_names ["k"] d1 (runs (mergeable ["k"]) ex_l)).
    { rewrite ex_runs. unfold fresh_names, new_names. cbn [flat_map names_on_the_way List.length Nat.sub seq map app].
      change (run_name (firstn 2 _)) with "q.0_s". change (run_name (firstn 3 _)) with "q.0_s_q.1". split.
      - repeat constructor; cbn; intuition discriminate.
      - intros n [<-|[<-|[]]]; (split; [assumption|]); cbn; intuition discriminate. }
    split; [exact R|]. split; [exact E|]. split; [exact Fr|]. split.
    + intros n m H _. assert (m = quad \/ m = sext) as [->| ->].
      { cbn in H. intuition congruence. }
      * split; [repeat split; discriminate|apply straight_aligned].
      * split; [repeat split; discriminate|apply straight_aligned].
    + unfold merge_consecutive. rewrite R. destruct (merge_ok ["k"] d1 ex1_names ex_l E Fr) as (d' & M & _). rewrite M, ex_runs.
      exists d'. reflexivity.
Qed.

(** * A shifted multipole *)
Definition shifted : mp := mkMp [0; 1] [0; 0] [0] [0] 0 false 0 0 false 0 (mkAlign 1 0 0 0 0 0 0 0).
Definition p0 : part := mkPart 0 0 0 0 0 0 0 0 1 1 1 1 0 0 0 0 0.
Lemma quad_kick m (b : bool) p : mp_knl m = [0; 1] -> mp_ksl m = [0; 0] -> mp_knl_rel m = [0] -> mp_ksl_rel m = [0] -> mp_hxl m = 0 ->
  p_px (thin_slice false 1 (magnet_of m) p) = p_px p - p_chi p * p_x p.
Proof.
  intros H1 H2 H3 H4 H5. rewrite (thin_kick m 2 false p); [| |exact H5|rewrite H1; cbn; lia|rewrite H3; cbn; lia].
  - cbv zeta. unfold field, fieldc, normal, skew. cbn [csum]. rewrite H1, H2, H3, H4. unfold dp. cbn [nth cpow fact INR].
    unfold kicked. cbn. field.
  - unfold well_formed. rewrite H1, H2, H3, H4. repeat split; discriminate.
Qed.
Lemma shifted_refuted : exists d names l p, elements d names = Some l /\ fresh_names [] d (runs (mergeable []) l) /\
  (forall n m, In (n, EMult m) l -> well_formed m) /\
  exists d' names', merge [] d names = Some (d', names') /\
  forall other thick synrad, track_line other thick synrad false d' names' p <> track_line other thick synrad false d names p.
Proof.
  set (d := [("a", EMult shifted); ("b", EMult quad)]). set (l := d).
  exists d, ["a"; "b"], l, p0. split; [reflexivity|].
  assert (Rn : runs (mergeable []) l = [l]).
  { unfold l, d, quad. cbn [runs]. rewrite mpole_merges. unfold mergeable at 1, has_transverse_rotation, shifted. cbn. rewrite i0. reflexivity. }
  assert (Fr : fresh_names [] d (runs (mergeable []) l)).
  { rewrite Rn. unfold fresh_names. cbn. split; [repeat constructor; intros []|]. intros n [<-|[]]. split; [reflexivity|intros []]. }
  split; [exact Fr|]. split.
  { intros n m [H|[H|[]]]; injection H as _ <-; repeat split; discriminate. }
  destruct (merge_ok [] d ["a"; "b"] l eq_refl Fr) as (d' & M & _ & F). rewrite Rn in M, F.
  exists d', (map run_name [l]). split; [exact M|]. intros other thick synrad E.
  specialize (F l _ _ (or_introl eq_refl) eq_refl). cbn [collapse fold_left snd merge2] in F.
  cbn [map] in E. unfold track_line in E. cbn [track_all] in E. rewrite F in E.
  change (find d "a") with (Some (EMult shifted)) in E. change (find d "b") with (Some (EMult quad)) in E. cbv iota in E.
  injection E as E. cbn [track_element] in E. apply (f_equal p_px) in E. revert E.
  rewrite (track_thin thick synrad false (merged shifted quad)); [|reflexivity|apply merged_aligned].
  rewrite (track_thin thick synrad false quad); [|reflexivity|apply straight_aligned].
  rewrite (quad_kick quad false) by reflexivity.
  unfold track_mult. change (mp_thick shifted) with false. cbv iota. unfold track_aligned.
  change (mp_align shifted) with (mkAlign 1 0 0 0 0 0 0 0).
  assert (A : rot_shift_active (mkAlign 1 0 0 0 0 0 0 0) = true).
  { unfold rot_shift_active. cbn. rewrite (i1 1) by lra. reflexivity. }
  rewrite A. cbv iota. cbn [al_x al_y al_s al_theta al_phi al_psi al_anchor al_tilt].
  rewrite entry_roll, exit_roll. rewrite Ropp_0, !roll_0.
  set (q := thin_slice false 1 (magnet_of shifted) (xyshift 1 0 p0)).
  assert (Qp : p_px q = 1).
  { unfold q. rewrite (quad_kick shifted false) by reflexivity. cbn. ring. }
  assert (Qx : p_x q = - (1) /\ p_chi q = 1).
  { unfold q. rewrite (thin_kick shifted 2 false); [|repeat split; discriminate|reflexivity|cbn; lia|cbn; lia].
    cbv zeta. unfold kicked. cbn. split; ring. }
  change (p_px (xyshift (- (1)) 0 q)) with (p_px q). change (p_chi (xyshift (- (1)) 0 q)) with (p_chi q).
  change (p_x (xyshift (- (1)) 0 q)) with (p_x q - - (1)). destruct Qx as [-> ->]. rewrite Qp.
  rewrite (thin_kick (merged shifted quad) (List.length (mp_knl (merged shifted quad)) + List.length (mp_knl_rel (merged shifted quad))));
    [|apply merged_wf|reflexivity|lia|lia]. cbv zeta.
  assert (Z : forall N, fst (field (merged shifted quad) N (p_x p0, p_y p0)) = 0).
  { induction N as [|N IH]; [reflexivity|]. unfold field, fieldc in *. cbn [csum]. unfold cadd at 1. cbn [fst]. rewrite IH, merged_normal, merged_skew.
    destruct N as [|N].
    - unfold normal, skew, dp. cbn. field.
    - unfold dp. change (p_x p0, p_y p0) with (0, 0). cbn [cpow]. replace (cmul (0, 0) (cpow (0, 0) N)) with C0 by cxr.
      unfold cdivr, cmul, C0. cbn [fst snd]. unfold Rdiv. ring. }
  rewrite Z. unfold kicked. cbn. intros E. lra.
Qed.

(** * A name already taken *)
Definition nothing : mp := mpole [0] [0] [0].
Lemma nothing_id thick synrad p : track_mult thick synrad false nothing p = p.
Proof.
  rewrite track_thin; [|reflexivity|apply straight_aligned].
  rewrite (thin_kick nothing 1); [|repeat split; discriminate|reflexivity|cbn; lia|cbn; lia].
  cbv zeta. unfold field, fieldc, normal, skew, nothing, mpole. cbn [csum mp_knl mp_ksl mp_knl_rel mp_ksl_rel nth].
  unfold dp, cadd, cmul, cdivr, C0. cbn [fst snd cpow]. etransitivity; [|apply kicked_0]. f_equal; ring.
Qed.
Lemma taken_refuted : exists d names l p other, elements d names = Some l /\ NoDup names /\
  (forall n m, In (n, EMult m) l -> well_formed m /\ aligned m) /\
  exists d' names', merge [] d names = Some (d', names') /\
  forall thick synrad, track_line other thick synrad false d' names' p <> track_line other thick synrad false d names p.
Proof.
  set (d := [("a", EMult nothing); ("b", EMult nothing); ("a_b", EOther 0)]).
  exists d, ["a"; "b"; "a_b"], d, p0, (fun _ _ p => add_px 1 p). split; [reflexivity|]. split.
  { repeat constructor; cbn; intuition discriminate. }
  split.
  { intros n m [H|[H|[H|[]]]]; try discriminate; injection H as _ <-; (split; [repeat split; discriminate|apply straight_aligned]). }
  exists (put d "a_b" (EMult (merged nothing nothing))), ["a_b"; "a_b"]. split.
  { unfold merge. cbn [elements]. change (find d "a") with (Some (EMult nothing)). change (find d "b") with (Some (EMult nothing)).
    change (find d "a_b") with (Some (EOther 0)). cbv iota. cbn [merge_from]. change (find d "a") with (Some (EMult nothing)). cbv iota.
    assert (C : can_merge [] "a" nothing "b" nothing = true).
    { unfold can_merge, has_transverse_rotation, nothing, mpole, straight. cbn. now rewrite i0. }
    rewrite C. reflexivity. }
  intros thick synrad E. unfold track_line in E. cbn [track_all] in E.
  change (find (put d "a_b" (EMult (merged nothing nothing))) "a_b") with (Some (EMult (merged nothing nothing))) in E.
  change (find d "a") with (Some (EMult nothing)) in E. change (find d "b") with (Some (EMult nothing)) in E.
  change (find d "a_b") with (Some (EOther 0)) in E. cbv iota in E. injection E as E. cbn [track_element] in E.
  assert (P : plain nothing).
  { split; [repeat split; discriminate|]. split; [apply straight_aligned|split; reflexivity]. }
  rewrite !(proj1 (merged_track thick synrad false nothing nothing _ P P)), !nothing_id in E.
  apply (f_equal p_px) in E. cbn in E. lra.
Qed.

(** * Removal *)
Lemma removal_case : exists d names l, elements d names = Some l /\
  remove_inactive_multipoles ["z2"] d names = Some ["q"; "z2"; "m"] /\ names = ["z"; "q"; "z2"; "m"; "z3"] /\
  (forall n m, In (n, EMult m) l -> ~ In n ["z2"] -> does_nothing m -> mp_thick m = false /\ well_formed m).
Proof.
  set (z := mkMp [0; 0] [0; 0] [2] [0] 1 false 0 1 false 0 (mkAlign 1 2 3 0 0 0 0 4)).
  set (d := [("z", EMult z); ("q", EMult quad); ("z2", EMult z); ("m", EOther 1); ("z3", EMult nothing)]).
  exists d, ["z"; "q"; "z2"; "m"; "z3"], d. split; [reflexivity|]. split; [|split; [reflexivity|]].
  - unfold remove_inactive_multipoles. change (elements d ["z"; "q"; "z2"; "m"; "z3"]) with (Some d). cbv iota.
    assert (Iz : inactive z = true).
    { apply inactive_iff. unfold does_nothing. cbn. repeat split; try discriminate; unfold normal, skew, main_strength; cbn;
        destruct i as [|[|[|i]]]; cbn; ring. }
    assert (In' : inactive nothing = true).
    { apply inactive_iff. unfold does_nothing. cbn. repeat split; try discriminate; unfold normal, skew, main_strength; cbn;
        destruct i as [|[|[|i]]]; cbn; ring. }
    assert (Iq : inactive quad = false).
    { destruct (inactive quad) eqn:E; [|reflexivity]. apply inactive_iff in E. destruct E as (_ & _ & _ & _ & E).
      destruct (E 1%nat) as [E1 _]. unfold normal in E1. cbn in E1. lra. }
    unfold d. cbn [remove_inactive]. rewrite Iz, In', Iq. reflexivity.
  - intros n m H _ _. cbn in H. assert (m = z \/ m = quad \/ m = nothing) as [->|[->| ->]] by (intuition congruence);
      (split; [reflexivity|repeat split; discriminate]).
Qed.
