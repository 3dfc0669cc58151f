(** Consequences and counterexamples used by Properties/Tracking.v *)
From Coq Require Import ZArith List Bool Lia ZifyBool Permutation.
From Verif.Model Require Import Kernel ParticleArray Collective.
From Verif.Spec Require Import Kernel ParticleArray Collective.
From Verif.Proofs Require Import Kernel ParticleArray KernelSim Collective HoldResume Counters.
Import ListNotations.
Local Open Scope Z_scope.

Lemma stop_at_end :
  exists L i n,
    0 < L /\ 0 <= i < L /\ 0 < n /\
    events_no_collective L false (-1) 0 false false (mkTargs (Some i) (Some L) None (Some n))
    <> Some (window_events L i (window_count L i (Some L) n) 0 false true).
Proof. exists 2, 0, 2. repeat split; try lia. vm_compute. discriminate. Qed.

Lemma same_as_non_collective coll skip_end fm multi start stop turns t :
  let L := Z.of_nat (length coll) in
  0 < L ->
  0 <= match start with Some e => e | None => 0 end < L ->
  0 < match turns with Some n => n | None => 1 end ->
  (forall j, stop = Some j -> 0 <= j < L) ->
  events_no_collective L skip_end (-1) fm multi false (mkTargs start stop None turns) = Some t ->
  exists t', events_collective coll skip_end (-1) fm multi (mkTargs start stop None turns) = Some t'
  /\ filter not_monitor t' = filter not_monitor t.
Proof.
  intros L HL Hi Hn Hs Ht.
  erewrite no_collective_window in Ht; eauto.
  2:{ intros j Hj. specialize (Hs j Hj). lia. }
  2:{ left. intros E. specialize (Hs L E). lia. }
  injection Ht as <-.
  destruct (collective_window coll skip_end fm multi start stop turns _ _ HL eq_refl Hi eq_refl Hn)
    as (t' & E & N).
  { intros j Hj. specialize (Hs j Hj). lia. }
  exists t'. split; [exact E|]. rewrite N. fold L. symmetry. apply nm_window.
Qed.

Lemma monitor_first_turn :
  exists coll i t t',
    events_no_collective (Z.of_nat (length coll)) false (-1) 1 false false (mkTargs (Some i) None None None) = Some t
    /\ events_collective coll false (-1) 1 false (mkTargs (Some i) None None None) = Some t'
    /\ t <> t'.
Proof.
  exists [true; false], 1. do 2 eexists. split; [vm_compute; reflexivity|].
  split; [vm_compute; reflexivity|]. discriminate.
Qed.

Lemma zero_elements :
  exists coll i t,
    events_no_collective (Z.of_nat (length coll)) false (-1) 0 false false (mkTargs (Some i) None (Some 0) None) = Some []
    /\ events_collective coll false (-1) 0 false (mkTargs (Some i) None (Some 0) None) = Some t
    /\ elements_of t <> [].
Proof.
  exists [false; true; false], 1. eexists. split; [vm_compute; reflexivity|].
  split; [vm_compute; reflexivity|]. discriminate.
Qed.

Lemma progress_same L skip_end fm multi batch n start stop :
  0 < L -> 0 < batch -> (forall j, stop = Some j -> 0 < j < L) ->
  0 <= match start with Some e => e | None => 0 end < L -> 0 < n ->
  events_progress L skip_end (-1) fm multi false batch (mkTargs start stop None (Some n))
  = events_no_collective L skip_end (-1) fm multi false (mkTargs start stop None (Some n)).
Proof. intros. eapply progress_window; eauto. Qed.

Lemma progress_stop_zero :
  exists L batch n,
    events_progress L false (-1) 0 false false batch (mkTargs (Some 0) (Some 0) None (Some n))
    <> events_no_collective L false (-1) 0 false false (mkTargs (Some 0) (Some 0) None (Some n)).
Proof. exists 2, 1, 2. vm_compute. discriminate. Qed.

Lemma progress_spte :
  exists L batch n spte j,
    events_progress L false spte 0 false false batch (mkTargs (Some 0) (Some j) None (Some n))
    <> events_no_collective L false spte 0 false false (mkTargs (Some 0) (Some j) None (Some n)).
Proof. exists 3, 1, 2, 2, 1. vm_compute. discriminate. Qed.

Lemma resume_multi :
  exists (col : Z -> list ev -> list ev * option bool) parts ep ei t t',
    drive ev_ops col (fun t => t) 3 parts ep ei false 0 5 false
      (track_collective ev_ops col (fun t => t) 3 parts ep ei false 0 (-1) false true
         (mkTargs None None None None) []) = Done t
    /\ track_collective ev_ops (col_until 5 col) (fun t => t) 3 parts ep ei false 0 (-1) false true
         (mkTargs None None None None) [] = Done t'
    /\ filter not_monitor t = filter not_monitor t' /\ t <> t'.
Proof.
  exists (fun i t => (Ele i :: t, if Nat.ltb (length t) 5 then Some true else None)).
  exists [PNon 0 1; PCol 1; PNon 2 3], [0; 1; 2]%nat, [Some 0; None; Some 0].
  do 2 eexists. split; [vm_compute; reflexivity|]. split; [vm_compute; reflexivity|].
  split; [reflexivity|discriminate].
Qed.

Lemma resume_tdv {S} (o : kops S) col tdep L parts ep ei skip_end fm h s :
  0 <= ss_tt h < ss_turns h ->
  resume o col tdep L parts ep ei skip_end fm true h s = Failed.
Proof.
  intros H. unfold resume. destruct (Z.to_nat (ss_turns h - ss_tt h)) eqn:E; [lia|]. reflexivity.
Qed.

Section Back.
Context {C : Type} (f g : Z -> C -> C) (rs rsb : C -> C) (L : Z) (good : Z -> C -> Prop).
Hypothesis Hf : forall i c, 0 <= i < L -> good i c -> good (i + 1) (f i c) /\ g i (f i c) = c.
Hypothesis Hrs : forall c, good L c -> good 0 (rs c) /\ rsb (rs c) = c.

Lemma backtrack_stop skip_end fm multi fm' multi' i j p t tback :
  0 <= i -> i < j -> j <= L ->
  alive p = true -> p_ele p = i -> good i (p_c p) ->
  let a := mkTargs (Some i) (Some j) None None in
  events_no_collective L skip_end (-1) fm multi false a = Some t ->
  events_no_collective L skip_end (-1) fm' multi' true a = Some tback ->
  track_single (on_c g) rs rsb L tback (track_single (on_c f) rs rsb L t p) = p.
Proof.
  intros. eapply (backtrack_one_turn f g rs rsb L good Hf Hrs skip_end fm multi fm' multi' a i (j - i));
    eauto; try lia. apply plan_one_turn_stop; lia.
Qed.

Lemma backtrack_num skip_end fm multi fm' multi' i k p t tback :
  0 <= i -> 0 <= k -> i + k <= L ->
  alive p = true -> p_ele p = i -> good i (p_c p) ->
  let a := mkTargs (Some i) None (Some k) None in
  events_no_collective L skip_end (-1) fm multi false a = Some t ->
  events_no_collective L skip_end (-1) fm' multi' true a = Some tback ->
  track_single (on_c g) rs rsb L tback (track_single (on_c f) rs rsb L t p) = p.
Proof.
  intros. eapply (backtrack_one_turn f g rs rsb L good Hf Hrs skip_end fm multi fm' multi' a i k);
    eauto; try lia. apply plan_one_turn; lia.
Qed.
End Back.

Lemma backtrack_several_turns :
  exists L i n t tback,
    0 < i < L /\ 1 < n /\
    events_no_collective L false (-1) 0 false false (mkTargs (Some i) None None (Some n)) = Some t /\
    events_no_collective L false (-1) 0 false true (mkTargs (Some i) None None (Some n)) = Some tback /\
    elements_of tback <> rev (elements_of t).
Proof.
  exists 3, 1, 2. do 2 eexists. split; [lia|]. split; [lia|].
  split; [vm_compute; reflexivity|]. split; [vm_compute; reflexivity|]. discriminate.
Qed.

Section Contexts.
Context {C : Type} (eff : Z -> part C -> part C) (rs rsb : C -> C) (L : Z).

Lemma gpu_all skip_end spte fm multi bt a t p :
  0 <= L ->
  events_no_collective L skip_end spte fm multi bt a = Some t ->
  track_no_collective (gpu_ops eff rs rsb L) L skip_end spte fm multi bt a p
  = Some (track_single eff rs rsb L t p).
Proof. apply gpu_sim. Qed.

Lemma serial_all skip_end spte fm multi bt a t M D U nlost :
  0 <= L ->
  Forall (fun p => alive p = false) D ->
  events_no_collective L skip_end spte fm multi bt a = Some t ->
  exists M' D' nlost',
    track_no_collective (serial_ops eff rs rsb L) L skip_end spte fm multi bt a
      (Some (mkArr (M ++ D ++ U) (length M) nlost))
    = Some (Some (mkArr (M' ++ D' ++ U) (length M') nlost'))
    /\ Forall (fun p => alive p = true) M' /\ Forall (fun p => alive p = false) D'
    /\ Permutation (M' ++ D') (map (track_single eff rs rsb L t) (M ++ D))
    /\ (length M' + nlost' = length M + nlost)%nat.
Proof.
  intros HL HD Ht.
  destruct (serial_sim eff rs rsb L (length M + nlost)%nat U L skip_end spte fm multi bt a t
              (Some (mkArr (M ++ D ++ U) (length M) nlost)) (M ++ D) HL) as (s' & E & M' & D' & nl & -> & H);
    auto.
  { exists M, D, nlost. auto. }
  exists M', D', nl. split; [exact E|exact H].
Qed.

Lemma omp_all nthreads nt bt start n flag_end (l U : list (part C)) nact :
  (forall i p, alive p = true -> allocated (eff i p) = true) ->
  0 <= n -> (0 < nthreads)%nat ->
  Forall (fun p => allocated p = true) l ->
  Forall (fun p => allocated p = false) U ->
  (length (filter alive l) <= nact <= length l)%nat ->
  exists A M t,
    track_line ev_ops nt start n flag_end 0 false bt [] = Some (rev t) /\
    track_line_omp eff rs rsb L nthreads nt start n flag_end bt (l ++ U) nact
    = Some (A ++ M ++ U, (length A, length M))
    /\ Forall (fun p => alive p = true) A /\ Forall (fun p => alive p = false) M
    /\ Permutation (A ++ M) (map (track_single eff rs rsb L t) l).
Proof.
  intros He Hn Hth Hl HU Hna.
  destruct (omp_sim eff rs rsb L nthreads nt bt start n flag_end l U nact He Hn Hth Hl HU Hna)
    as (A & M & E & HA & HM & P).
  exists A, M, (call_ev 0 false bt (mkKcall nt start n flag_end)). split; [|auto].
  unfold track_line. cbn [ev_ops k_check]. rewrite turn_loop_ev by assumption.
  rewrite app_nil_r. reflexivity.
Qed.
End Contexts.
